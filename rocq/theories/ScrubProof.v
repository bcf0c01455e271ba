(** Proofs about the normalisation of parse results. *)
From Coq Require Import String Ascii List NArith ZArith Bool Lia.
From Verif Require Import Base BaseProof ScrubModel ScrubSpec.
Import ListNotations.

Section PvInd.
Context (P : pv -> Prop).
Context (Hnull : P PNull) (Hnone : P PNone) (Htext : forall s, P (PText s)) (Hnum : forall z, P (PNum z)) (Hbool : forall b, P (PBool b)).
Context (Hcall : forall op args kw, P args -> Forall (fun kv => P (snd kv)) kw -> P (PCall op args kw)).
Context (Hdict : forall d, Forall (fun kv => P (snd kv)) d -> P (PDict d)).
Context (Hlist : forall l, Forall P l -> P (PList l)).
Context (Hres : forall n g a l, Forall P l -> P (PRes n g a l)).
Fixpoint pv_ind2 (x : pv) : P x :=
  let kvs := fix kvs (d : list (pystr * pv)) : Forall (fun kv => P (snd kv)) d :=
    match d with [] => Forall_nil _ | kv :: r => Forall_cons kv (pv_ind2 (snd kv)) (kvs r) end in
  let vs := fix vs (l : list pv) : Forall P l :=
    match l with [] => Forall_nil _ | v :: r => Forall_cons v (pv_ind2 v) (vs r) end in
  match x with
  | PNull => Hnull | PNone => Hnone | PText s => Htext s | PNum z => Hnum z | PBool b => Hbool b
  | PCall op args kw => Hcall op args kw (pv_ind2 args) (kvs kw)
  | PDict d => Hdict d (kvs d)
  | PList l => Hlist l (vs l)
  | PRes n g a l => Hres n g a l (vs l)
  end.
End PvInd.

Section OutInd.
Context (P : out -> Prop).
Context (Hnull : P ONull) (Hnone : P ONone) (Htext : forall s, P (OText s)) (Hnum : forall z, P (ONum z)) (Hbool : forall b, P (OBool b)).
Context (Hdict : forall d, Forall (fun kv => P (snd kv)) d -> P (ODict d)).
Context (Hlist : forall l, Forall P l -> P (OList l)).
Fixpoint out_ind2 (x : out) : P x :=
  let kvs := fix kvs (d : list (pystr * out)) : Forall (fun kv => P (snd kv)) d :=
    match d with [] => Forall_nil _ | kv :: r => Forall_cons kv (out_ind2 (snd kv)) (kvs r) end in
  let vs := fix vs (l : list out) : Forall P l :=
    match l with [] => Forall_nil _ | v :: r => Forall_cons v (out_ind2 v) (vs r) end in
  match x with
  | ONull => Hnull | ONone => Hnone | OText s => Htext s | ONum z => Hnum z | OBool b => Hbool b
  | ODict d => Hdict d (kvs d)
  | OList l => Hlist l (vs l)
  end.
End OutInd.

(** clean, with Forall. *)
Lemma clean_dict d : clean (ODict d) <-> Forall (fun kv => snd kv <> ONone /\ clean (snd kv)) d.
Proof.
  cbn [clean]. induction d as [|kv d IH]; cbn [fold_right]; split; intros H.
  - constructor.
  - exact I.
  - destruct H as [H1 H2]. constructor; [exact H1|apply IH; exact H2].
  - inversion H; subst. split; [assumption|apply IH; assumption].
Qed.
Lemma clean_list l : clean (OList l) <-> (2 <= length l)%nat /\ Forall clean l.
Proof.
  cbn [clean]. apply and_iff_compat_l. induction l as [|x l IH]; cbn [fold_right]; split; intros H.
  - constructor.
  - exact I.
  - destruct H as [H1 H2]. constructor; [exact H1|apply IH; exact H2].
  - inversion H; subst. split; [assumption|apply IH; assumption].
Qed.

Lemma norm_clean l : Forall clean l -> clean (norm_list l).
Proof.
  intros H. destruct l as [|x [|y l]]; [exact I|inversion H; assumption|].
  cbn [norm_list]. apply clean_list. split; [cbn [length]; lia|exact H].
Qed.
Lemma drop_clean d : Forall (fun kv => clean (snd kv)) d ->
  Forall (fun kv => snd kv <> ONone /\ clean (snd kv)) (drop_null d).
Proof.
  intros H. unfold drop_null. apply Forall_forall. intros kv Hin. apply filter_In in Hin. destruct Hin as [Hin Hn].
  rewrite Forall_forall in H. split; [|apply H; exact Hin]. intros E. rewrite E in Hn. discriminate.
Qed.
Lemma dset_forall {V} (Q : V -> Prop) (d : dict V) k v : Forall (fun kv => Q (snd kv)) d -> Q v ->
  Forall (fun kv => Q (snd kv)) (dset d k v).
Proof.
  intros H Hv. induction H as [|[k' v'] d Hx H IH]; cbn [dset].
  - constructor; [exact Hv|constructor].
  - destruct (seqb k k'); constructor; try assumption.
Qed.

(** Everything in a view is clean. *)
Definition clean_view (v : view) : Prop :=
  clean (v_out v) /\ Forall (fun kv => Forall clean (snd kv)) (v_items v) /\ Forall clean (v_iter v).

Lemma add_clean d k v : Forall (fun kv => Forall clean (snd kv)) d -> Forall clean v ->
  Forall (fun kv => Forall clean (snd kv)) (add d k v).
Proof.
  intros Hd Hv. unfold add. destruct (dget d k) as [old|] eqn:E.
  - apply (dset_forall (Forall clean)); [exact Hd|]. apply Forall_app. split; [|exact Hv].
    apply dget_In in E. rewrite Forall_forall in Hd. apply (Hd _ E).
  - apply (dset_forall (Forall clean)); assumption.
Qed.
Lemma adds_clean l : Forall (fun kv : pystr * list out => Forall clean (snd kv)) l -> forall acc,
  Forall (fun kv => Forall clean (snd kv)) acc ->
  Forall (fun kv => Forall clean (snd kv)) (fold_left (fun a kv => add a (fst kv) (snd kv)) l acc).
Proof.
  intros H. induction H as [|kv l Hk H IH]; intros acc Ha; [exact Ha|]. cbn [fold_left]. apply IH.
  apply add_clean; assumption.
Qed.

Lemma sem_clean x : clean_view (sem x).
Proof.
  assert (triv : forall o, clean o -> clean_view (o, [], [])).
  { intros o H. repeat split; cbn; try constructor. exact H. }
  induction x as [| |s|z|b0|op args kw IHa IHk|d IH|l IH|n g a l IH] using pv_ind2; cbn [sem].
  - apply triv. exact I.
  - apply triv. exact I.
  - apply triv. exact I.
  - apply triv. exact I.
  - apply triv. exact I.
  - apply triv. unfold simple_op. apply clean_dict.
    apply (dset_forall (fun o => o <> ONone /\ clean o)).
    + apply drop_clean. apply Forall_map. eapply Forall_impl; [|exact IHk]. cbv beta. intros kv H. apply H.
    + destruct IHa as [IHa _]. destruct (v_out (sem args)); split; try discriminate; exact IHa || exact I.
  - apply triv. apply clean_dict. apply drop_clean. apply Forall_map. eapply Forall_impl; [|exact IH].
    cbv beta. intros kv H. apply H.
  - apply triv. apply norm_clean. apply Forall_map. eapply Forall_impl; [|exact IH]. cbv beta. intros t H. apply H.
  - cbv zeta.
    set (subs := map (fun t => (t, sem t)) l).
    assert (Hs : Forall (fun tv => clean_view (snd tv)) subs).
    { unfold subs. apply Forall_map. exact IH. }
    assert (Hit : Forall clean (flat_map iter_step subs)).
    { clearbody subs. induction Hs as [|tv r H Hs IHs]; [constructor|]. cbn [flat_map]. apply Forall_app.
      split; [|exact IHs]. destruct H as (H1 & _ & H3). unfold iter_step.
      destruct (fst tv); try (constructor; [exact H1|constructor]).
      destruct ann; [constructor|]. destruct group; [constructor; [exact H1|constructor]|exact H3]. }
    assert (Hi : Forall (fun kv => Forall clean (snd kv)) (fold_left item_step subs [])).
    { clear Hit. clearbody subs.
      assert (G : forall acc, Forall (fun kv => Forall clean (snd kv)) acc ->
        Forall (fun kv => Forall clean (snd kv)) (fold_left item_step subs acc)); [|apply G; constructor].
      induction Hs as [|tv r H Hs IHs]; intros acc Ha; [exact Ha|]. cbn [fold_left]. apply IHs.
      destruct H as (H1 & H2 & _). unfold item_step. destruct (fst tv); try exact Ha.
      destruct (named name); [apply add_clean; [exact Ha|constructor; [exact H1|constructor]]|].
      destruct group; [exact Ha|]. apply adds_clean; assumption. }
    repeat split; [|exact Hi|exact Hit].
    cbn [v_out fst snd]. destruct (truthy _); [|exact I].
    set (d := drop_null _).
    assert (Hd : clean (ODict d)).
    { apply clean_dict. apply drop_clean. apply Forall_map. eapply Forall_impl; [|exact Hi].
      cbv beta. intros kv H. cbn [snd]. apply norm_clean. exact H. }
    destruct d; [apply norm_clean; exact Hit|exact Hd].
Qed.

Lemma scrub_clean x : clean (scrub x).
Proof. apply (sem_clean x). Qed.

(** Idempotence: a clean value is unchanged. *)
Lemma scrub_back o : clean o -> scrub (back o) = o.
Proof.
  induction o as [| |s|z|b0|d IH|l IH] using out_ind2; intros H; try reflexivity.
  - apply clean_dict in H. unfold scrub. cbn [back sem v_out fst]. f_equal.
    induction d as [|[k v] d IHd]; [reflexivity|].
    inversion IH as [|? ? I1 I2]; subst. inversion H as [|? ? [H1 H1'] H2]; subst. cbn [snd] in *.
    cbn [map fst snd]. unfold drop_null in *. cbn [filter snd]. fold (scrub (back v)). rewrite (I1 H1').
    destruct v; try congruence; cbn [not_null]; f_equal; apply IHd; assumption.
  - apply clean_list in H. destruct H as [Hl H]. unfold scrub. cbn [back sem v_out fst].
    assert (E : map (fun t => v_out (sem t)) (map back l) = l).
    { rewrite map_map. clear Hl. induction l as [|x l IHl]; [reflexivity|].
      inversion IH; inversion H; subst. cbn [map]. fold (scrub (back x)). f_equal; auto. }
    rewrite E. destruct l as [|x [|y l]]; cbn [length] in Hl; try lia. reflexivity.
Qed.

Lemma idempotent x : scrub (back (scrub x)) = scrub x.
Proof. apply scrub_back. apply scrub_clean. Qed.

(** Lists. *)
Lemma scrub_list l : scrub (PList l) = norm_list (map scrub l).
Proof. reflexivity. Qed.
Lemma list_kept l : (2 <= length l)%nat -> scrub (PList l) = OList (map scrub l).
Proof. intros H. rewrite scrub_list. destruct l as [|x [|y l]]; cbn [length] in H; try lia. reflexivity. Qed.

(** ParseResults: the form of the code. *)
Lemma add_push d k v : add (map (fun kv => (fst kv, map scrub (snd kv))) d) k (map scrub v) =
  map (fun kv => (fst kv, map scrub (snd kv))) (push d (k, v)).
Proof.
  assert (G : forall d : dict (list pv), dget (map (fun kv => (fst kv, map scrub (snd kv))) d) k = option_map (map scrub) (dget d k)).
  { clear. induction d as [|[k' v'] d IH]; [reflexivity|]. cbn [map dget fst snd]. destruct (seqb k k'); [reflexivity|exact IH]. }
  unfold add, push. cbn [fst snd]. rewrite G. destruct (dget d k) as [old|] eqn:E; cbn [option_map].
  - rewrite <- map_app.
    generalize (old ++ v). clear. intros w. induction d as [|[k' v'] d IH]; [reflexivity|].
    cbn [map dset fst snd]. destruct (seqb k k'); [reflexivity|]. cbn [map fst snd]. rewrite IH. reflexivity.
  - clear G. revert E. induction d as [|[k' v'] d IH]; [reflexivity|]. cbn [dget map dset app fst snd].
    destruct (seqb k k'); [discriminate|]. intros E. rewrite (IH E). reflexivity.
Qed.

Lemma views x : v_items (sem x) = map (fun kv => (fst kv, map scrub (snd kv))) (entries x) /\
  v_iter (sem x) = map scrub (elements x).
Proof.
  induction x as [| |s|z|b0|op args kw IHa IHk|d IH|l IH|n g a l IH] using pv_ind2; try (split; reflexivity).
  cbn [sem v_items v_iter fst snd entries elements]. split.
  - change (@nil (pystr * list out)) with (map (fun kv : pystr * list pv => (fst kv, map scrub (snd kv))) []).
    generalize (@nil (pystr * list pv)) as acc. cbv zeta.
    induction IH as [|t l [It _] IH IHl]; intros acc; [reflexivity|]. cbn [map fold_left].
    rewrite <- IHl. f_equal. unfold item_step. cbn [fst snd].
    destruct t as [| |s|z|b0|op args kw|d|l'|n' g' a' l']; try reflexivity.
    destruct (named n').
    + exact (add_push acc n' [PRes n' g' a' l']).
    + destruct g'; [reflexivity|]. rewrite It. clear It IHl.
      revert acc. generalize (entries (PRes n' false a' l')) as es.
      induction es as [|[k v] es IHe]; intros acc; [reflexivity|]. cbn [map fold_left fst snd].
      rewrite add_push. apply IHe.
  - cbv zeta. induction IH as [|t l [_ It] IH IHl]; [reflexivity|]. cbn [map flat_map]. rewrite map_app, IHl. f_equal.
    unfold iter_step. cbn [fst snd].
    destruct t as [| |s|z|b0|op args kw|d|l'|n' g' a' l']; try reflexivity.
    destruct a'; [reflexivity|]. destruct g'; [reflexivity|]. exact It.
Qed.

Lemma scrub_res n g a l : scrub (PRes n g a l) =
  if truthy (PRes n g a l)
  then match drop_null (map (fun kv => (fst kv, scrub (PList (snd kv)))) (entries (PRes n g a l))) with
       | [] => scrub (PList (elements (PRes n g a l)))
       | d => ODict d
       end
  else ONone.
Proof.
  unfold scrub at 1. destruct (views (PRes n g a l)) as [E1 E2]. cbn [sem v_items v_iter fst snd] in E1, E2.
  cbn [sem v_out fst]. cbv zeta in *. rewrite E1, E2. rewrite map_map. cbn [fst snd]. reflexivity.
Qed.

Lemma norm_none l : norm_list l = ONone <-> l = [] \/ l = [ONone].
Proof.
  destruct l as [|x [|y l]]; cbn [norm_list].
  - split; auto.
  - split; [intros ->; right; reflexivity|]. intros [H|H]; congruence.
  - split; [discriminate|]. intros [H|H]; discriminate.
Qed.

Lemma drop_nil d : drop_null d = [] <-> Forall (fun kv => snd kv = ONone) d.
Proof.
  unfold drop_null. induction d as [|[k v] d IH]; cbn [filter snd].
  - split; [constructor|reflexivity].
  - destruct v; cbn [not_null]; (split; [intros H; first [discriminate H|constructor; [reflexivity|apply IH; exact H]]
      |intros H; inversion H; first [discriminate|apply IH; assumption]]).
Qed.

Lemma list_none l : scrub (PList l) = ONone <-> l = [] \/ exists x, l = [x] /\ scrub x = ONone.
Proof.
  rewrite scrub_list, norm_none. split.
  - intros [H|H].
    + left. apply map_eq_nil in H. exact H.
    + right. destruct l as [|x [|y l]]; try discriminate H. exists x. injection H as H. split; [reflexivity|exact H].
  - intros [->|(x & -> & E)]; [left; reflexivity|right]. cbn [map]. rewrite E. reflexivity.
Qed.

Fixpoint psize (x : pv) : nat :=
  match x with
  | PCall _ a kw => S (psize a + list_sum (map (fun kv => psize (snd kv)) kw))
  | PDict d => S (list_sum (map (fun kv => psize (snd kv)) d))
  | PList l => S (list_sum (map psize l))
  | PRes _ _ _ l => S (S (list_sum (map psize l)))
  | _ => 1
  end.

Lemma void_scrub x : void x -> scrub x = ONone.
Proof.
  intros H. induction H as [| |x H IH|n g a l E|n g a l E H1 IH1 H2 IH2]; try reflexivity.
  - rewrite scrub_list. cbn [map norm_list]. exact IH.
  - rewrite scrub_res, E. reflexivity.
  - rewrite scrub_res, E.
    assert (D : drop_null (map (fun kv => (fst kv, scrub (PList (snd kv)))) (entries (PRes n g a l))) = []).
    { apply drop_nil. apply Forall_map. apply Forall_forall. intros [k v] Hin. cbn [snd]. exact (IH1 k v Hin). }
    rewrite D. exact IH2.
Qed.

(** The parts of a ParseResults are smaller. *)
Lemma sum_cons x l : list_sum (x :: l) = (x + list_sum l)%nat.
Proof. reflexivity. Qed.
Lemma elements_size x : (list_sum (map psize (elements x)) <= pred (psize x))%nat.
Proof.
  induction x as [| |s|z|b0|op args kw IHa IHk|d IH|l IH|n g a l IH] using pv_ind2; try apply Nat.le_0_l.
  cbn [psize pred elements]. apply Nat.le_le_succ_r. induction IH as [|t l It IH IHl]; [apply Nat.le_refl|].
  cbn [flat_map map]. rewrite map_app, list_sum_app, sum_cons.
  apply Nat.add_le_mono; [|exact IHl].
  assert (S1 : forall y, (list_sum (map psize [y]) <= psize y)%nat).
  { intros y. cbn [map]. rewrite sum_cons. cbn [list_sum fold_right]. lia. }
  destruct t as [| |s|z|b0|op args kw|d|l'|n' g' a' l']; try apply S1.
  destruct a'; [apply Nat.le_0_l|]. destruct g'; [apply S1|]. lia.
Qed.

Definition esize (d : list (pystr * list pv)) : nat := list_sum (map (fun kv => list_sum (map psize (snd kv))) d).
Lemma esize_cons k v d : esize ((k, v) :: d) = (list_sum (map psize v) + esize d)%nat.
Proof. reflexivity. Qed.
Lemma esize_push d kv : esize (push d kv) = (esize d + list_sum (map psize (snd kv)))%nat.
Proof.
  destruct kv as [k v]. unfold push. cbn [fst snd]. destruct (dget d k) as [old|] eqn:E.
  - revert E. induction d as [|[k' v'] d IH]; [discriminate|]. cbn [dget dset].
    destruct (seqb k k').
    + intros E. injection E as ->. rewrite !esize_cons, map_app, list_sum_app. lia.
    + intros E. specialize (IH E). rewrite !esize_cons, IH. lia.
  - unfold esize. rewrite map_app, list_sum_app. cbn [map snd]. rewrite sum_cons. cbn [list_sum fold_right]. lia.
Qed.
Lemma esize_pushes l : forall d, esize (fold_left push l d) = (esize d + esize l)%nat.
Proof.
  induction l as [|[k v] l IH]; intros d; cbn [fold_left]; [cbn; lia|].
  rewrite IH, esize_push, esize_cons. cbn [snd]. lia.
Qed.
Lemma entries_size x : (esize (entries x) <= pred (psize x))%nat.
Proof.
  induction x as [| |s|z|b0|op args kw IHa IHk|d IH|l IH|n g a l IH] using pv_ind2; try apply Nat.le_0_l.
  cbn [psize pred entries]. apply Nat.le_le_succ_r.
  assert (G : forall acc, (esize (fold_left (fun acc t => match t with
                            | PRes n g _ _ => if named n then push acc (n, [t])
                                              else if g then acc else fold_left push (entries t) acc
                            | _ => acc end) l acc) <= esize acc + list_sum (map psize l))%nat);
    [|apply (G [])].
  induction IH as [|t l It IH IHl]; intros acc; cbn [fold_left map]; [cbn; lia|].
  rewrite sum_cons.
  destruct t as [| |s|z|b0|op args kw|d|l'|n' g' a' l']; try (rewrite IHl; lia).
  destruct (named n').
  - rewrite IHl, esize_push. cbn [snd map]. rewrite sum_cons. change (list_sum []) with 0%nat. lia.
  - destruct g'; [rewrite IHl; lia|]. rewrite IHl, esize_pushes. lia.
Qed.
Lemma esize_in d k l : In (k, l) d -> (list_sum (map psize l) <= esize d)%nat.
Proof.
  induction d as [|[k' v'] d IH]; [intros []|]. rewrite esize_cons. intros [E|H].
  - injection E as -> ->. lia.
  - specialize (IH H). lia.
Qed.

Lemma scrub_void_n : forall n x, (psize x <= n)%nat -> scrub x = ONone -> void x.
Proof.
  induction n as [|n IH]; intros x Hs E.
  - destruct x; cbn [psize] in Hs; lia.
  - assert (L : forall l, (list_sum (map psize l) <= n)%nat -> scrub (PList l) = ONone -> void (PList l)).
    { intros l Hl El. apply list_none in El. destruct El as [->|(x0 & -> & E0)]; [constructor|].
      apply void_single. apply IH; [|exact E0]. cbn [map] in Hl. rewrite sum_cons in Hl. lia. }
    destruct x as [| |s|z|b0|op args kw|d|l|nm g a l]; try discriminate E.
    + constructor.
    + apply L; [|exact E]. cbn [psize] in Hs. lia.
    + rewrite scrub_res in E. destruct (truthy (PRes nm g a l)) eqn:T; [|apply void_false; exact T].
      destruct (drop_null _) as [|kv0 d0] eqn:D; [|discriminate E].
      apply void_res; [exact T| |].
      * intros k v Hin. apply L.
        -- pose proof (esize_in _ _ _ Hin) as H1. pose proof (entries_size (PRes nm g a l)) as H2. lia.
        -- apply drop_nil in D. rewrite Forall_map, Forall_forall in D. apply (D _ Hin).
      * apply L; [|exact E]. pose proof (elements_size (PRes nm g a l)) as H2. lia.
Qed.
Lemma scrub_void x : scrub x = ONone <-> void x.
Proof. split; [apply (scrub_void_n (psize x)); apply Nat.le_refl|apply void_scrub]. Qed.

(** The kernel of scrub on plain values. *)
Lemma conf_scrub x y : conf x y -> scrub x = scrub y.
Proof.
  intros H. induction H as [x|x y H IH|x y z H1 IH1 H2 IH2|x| |a k b|a x y b H IH|a k x y b H IH].
  - reflexivity.
  - symmetry. exact IH.
  - congruence.
  - reflexivity.
  - reflexivity.
  - unfold scrub. cbn [sem v_out fst]. f_equal. unfold drop_null. rewrite !map_app, !filter_app. cbn [map filter snd]. reflexivity.
  - rewrite !scrub_list, !map_app. cbn [map]. rewrite IH. reflexivity.
  - unfold scrub. cbn [sem v_out fst]. f_equal. f_equal. rewrite !map_app. cbn [map fst snd]. unfold scrub in IH. rewrite IH. reflexivity.
Qed.

Lemma conf_list l l' : Forall2 conf l l' -> conf (PList l) (PList l').
Proof.
  intros H.
  assert (G : forall a, conf (PList (a ++ l)) (PList (a ++ l'))); [|apply (G [])].
  induction H as [|x y l l' E H IH]; intros a; [apply conf_refl|].
  eapply conf_trans; [apply (conf_in_list a x y l E)|].
  replace (a ++ y :: l) with ((a ++ [y]) ++ l) by (rewrite <- app_assoc; reflexivity).
  replace (a ++ y :: l') with ((a ++ [y]) ++ l') by (rewrite <- app_assoc; reflexivity). apply IH.
Qed.
Lemma conf_dict d : Forall (fun kv => conf (snd kv) (back (scrub (snd kv)))) d ->
  conf (PDict d) (back (ODict (drop_null (map (fun kv => (fst kv, scrub (snd kv))) d)))).
Proof.
  intros H.
  assert (G : forall a, conf (PDict (a ++ d))
    (PDict (a ++ map (fun kv => (fst kv, back (snd kv))) (drop_null (map (fun kv => (fst kv, scrub (snd kv))) d)))));
    [|apply (G [])].
  induction H as [|[k v] d E H IH]; intros a; [apply conf_refl|]. cbn [snd] in E.
  eapply conf_trans; [apply (conf_in_dict a k _ _ d E)|].
  cbn [map fst snd]. unfold drop_null. cbn [filter snd].
  destruct (scrub v) eqn:S0; cbn [not_null].
  2:{ cbn [back]. eapply conf_trans; [apply conf_key|]. apply IH. }
  all: cbn [map fst snd]; match goal with |- conf (PDict (_ ++ (_, ?w) :: _)) (PDict (_ ++ (_, ?w) :: ?r)) =>
      replace (a ++ (k, w) :: d) with ((a ++ [(k, w)]) ++ d) by (rewrite <- app_assoc; reflexivity);
      replace (a ++ (k, w) :: r) with ((a ++ [(k, w)]) ++ r) by (rewrite <- app_assoc; reflexivity) end; apply IH.
Qed.

Lemma plain_conf x : plain x -> conf x (back (scrub x)).
Proof.
  induction x as [| |s|z|b0|op args kw IHa IHk|d IH|l IH|n g a l IH] using pv_ind2; intros H; try apply conf_refl; try (inversion H; fail).
  - inversion H as [| | | |d' Hd|]; subst. apply conf_dict. apply Forall_forall. intros [k v] Hin.
    rewrite Forall_forall in IH. apply (IH _ Hin). exact (Hd k v Hin).
  - inversion H as [| | | | |l' Hl]; subst.
    assert (F : Forall2 conf l (map (fun t => back (scrub t)) l)).
    { clear H. induction IH as [|t l It IH IHl]; [constructor|]. cbn [map]. constructor.
      - apply It. apply Hl. left. reflexivity.
      - apply IHl. intros v Hv. apply Hl. right. exact Hv. }
    eapply conf_trans; [apply conf_list; exact F|]. rewrite scrub_list.
    destruct l as [|x [|y l]]; cbn [map norm_list].
    + apply conf_empty.
    + apply conf_single.
    + cbn [back map]. rewrite map_map. apply conf_refl.
Qed.

Lemma same_iff_conf x y : plain x -> plain y -> (scrub x = scrub y <-> conf x y).
Proof.
  intros Hx Hy. split; [|apply conf_scrub]. intros E.
  eapply conf_trans; [apply plain_conf; exact Hx|]. rewrite E. apply conf_sym. apply plain_conf. exact Hy.
Qed.

(** Calls. *)
Lemma call_shape op args kw : exists d, scrub (PCall op args kw) = ODict d /\
  (scrub args <> ONone -> dget d op = Some (scrub args)) /\ (scrub args = ONone -> dget d op = Some (ODict [])) /\
  forall k, k <> op -> dget d k = dget (drop_null (map (fun kv => (fst kv, scrub (snd kv))) kw)) k.
Proof.
  unfold scrub at 1. cbn [sem v_out fst]. unfold simple_op. fold (scrub args).
  eexists. split; [reflexivity|]. split; [|split].
  - intros H. rewrite dget_dset_same. destruct (scrub args); try reflexivity. congruence.
  - intros H. rewrite dget_dset_same, H. reflexivity.
  - intros k Hk. rewrite dget_dset_other by congruence. reflexivity.
Qed.
