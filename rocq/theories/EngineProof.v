(** The engine: an element begins with one of its keys; the tables and the simplified grammar parse the same. *)
From Coq Require Import String Ascii List Arith NArith Bool Lia Sorted.
From Verif Require Import Base EngineModel EngineSpec EngineTblProof.
Import ListNotations.

Section Engine.
Context {T : Type}.
Variable tok : pystr -> T.
Variable full : list T -> bool.
Variable skip : pystr -> nat -> nat.
Variable ref : nat -> parser T.
Notation run := (run tok full skip ref).

Definition pe_rect' (P : pe T -> Prop)
  (hl : forall s, P (Lit s)) (hk : forall s, P (Kw s)) (hc : forall l, P (Chr l)) (hp : forall f ks m l, Forall P l -> P (Prim f ks m l)) (hr : forall n, P (Ref n))
  (ha : forall l, Forall P l -> P (And l)) (h1 : forall l, Forall P l -> P (First l))
  (hm : forall mn mx e, P e -> P (Many mn mx e)) (ho : forall e, P e -> P (Opt e)) (hlo : forall e, P e -> P (Look e))
  (hn : forall e, P e -> P (Not e)) (hact : forall own f e, P e -> P (Act own f e)) : forall e, P e :=
  fix go e :=
    let all := fix all l : Forall P l := match l with [] => Forall_nil _ | x :: r => Forall_cons x (go x) (all r) end in
    match e with
    | Lit s => hl s | Kw s => hk s | Chr l => hc l | Prim f ks m l => hp f ks m l (all l) | Ref n => hr n
    | And l => ha l (all l) | First l => h1 l (all l)
    | Many mn mx e => hm mn mx e (go e) | Opt e => ho e (go e) | Look e => hlo e (go e) | Not e => hn e (go e)
    | Act own f e => hact own f e (go e)
    end.

(** ** Choices *)
Lemma first_done ps s i r j : run_first ps s i = Done r j -> exists p, In p ps /\ p s i = @Done T r j.
Proof.
  induction ps as [|p ps IH]; cbn; [discriminate|]. destruct (p s i) eqn:E; try discriminate.
  - intros H. destruct (IH H) as (q & H1 & H2). exists q. auto.
  - intros [= -> ->]. exists p. auto.
Qed.
Lemma first_app (a b : list (parser T)) s i : run_first (a ++ b) s i = match run_first a s i with Fail => run_first b s i | x => x end.
Proof. induction a as [|p a IH]; cbn; [reflexivity|]. destruct (p s i); try reflexivity. exact IH. Qed.
Lemma first_fail {A} (f : A -> parser T) l s i : (forall x, In x l -> f x s i = Fail) -> run_first (map f l) s i = Fail.
Proof. induction l as [|a l IH]; intros H; cbn; [reflexivity|]. rewrite (H a (or_introl eq_refl)). apply IH. intros x Hx. apply H. right. exact Hx. Qed.
Lemma first_cases {A} (f : A -> parser T) l s i : settled (run_first (map f l) s i) ->
  (forall x, In x l -> f x s i = Fail) \/
  exists l1 x l2 r j, l = l1 ++ x :: l2 /\ (forall y, In y l1 -> f y s i = Fail) /\ f x s i = Done r j.
Proof.
  induction l as [|a l IH]; cbn; intros S; [left; intros x []|].
  destruct (f a s i) eqn:E.
  - destruct (IH S) as [F|(l1 & x & l2 & r & j & -> & F & D)].
    + left. intros x [<-|H]; [exact E | apply F; exact H].
    + right. exists (a :: l1), x, l2, r, j. split; [reflexivity|]. split; [intros y [<-|H]; [exact E | apply F; exact H] | exact D].
  - destruct S as [S|(r & j & S)]; discriminate.
  - destruct S as [S|(r0 & j & S)]; discriminate.
  - right. exists [], a, l, r, e. split; [reflexivity|]. split; [intros y [] | exact E].
Qed.
Lemma settled_bind (o : out T) (b : out T) : settled (match o with Fail => b | Hang => Hang | Crash => Crash | Done r e => Done r e end) -> settled o.
Proof. destruct o; intros [H|(r' & j & H)]; try discriminate; [left; reflexivity | left; reflexivity | right; eexists _, _; reflexivity]. Qed.

(** ** Keys *)
Lemma small_lower s : small s = lower s.
Proof. reflexivity. Qed.
Lemma lowc_lowc c : lowc (lowc c) = lowc c.
Proof.
  unfold lowc. destruct ((65 <=? c)%N && (c <=? 90)%N) eqn:E; [|rewrite E; reflexivity].
  apply Bool.andb_true_iff in E. destruct E as [E1 E2]. apply N.leb_le in E1, E2.
  replace (c + 32 <=? 90)%N with false; [rewrite Bool.andb_false_r; reflexivity|].
  symmetry. apply N.leb_gt. lia.
Qed.
Lemma lower_lower s : lower (lower s) = lower s.
Proof. unfold lower. rewrite map_map. apply map_ext. apply lowc_lowc. Qed.
Lemma begins_lower k t : begins k t -> begins (lower k) (lower t).
Proof. intros [r ->]. exists (lower r). apply map_app. Qed.
Lemma add_key_In k ks x : In x (add_key ks k) <-> In x ks \/ x = k.
Proof.
  unfold add_key. destruct (existsb (seqb k) ks) eqn:E.
  - apply existsb_In in E. split; [auto | intros [H| ->]; assumption].
  - rewrite in_app_iff. cbn. intuition.
Qed.
Lemma nub_In ks x : In x (nub ks) <-> In x ks.
Proof.
  unfold nub. assert (G : forall acc, In x (fold_left add_key ks acc) <-> In x acc \/ In x ks).
  { induction ks as [|k ks IH]; intros acc; cbn; [tauto|]. rewrite IH, add_key_In. intuition. }
  rewrite G. cbn. tauto.
Qed.
Lemma min_pos l a : 0 < fold_left Nat.min l a -> 0 < a /\ forall x, In x l -> 0 < x.
Proof.
  revert a. induction l as [|b l IH]; intros a H; cbn in *; [split; [exact H | intros x []]|].
  destruct (IH _ H) as [H1 H2]. split; [lia|]. intros x [<-|F]; [lia | apply H2; exact F].
Qed.
Lemma first_min l x : 0 < min_length (First l) -> In x l -> 0 < @min_length T x.
Proof.
  destruct l as [|a l]; [intros _ []|]. cbn. intros H. apply min_pos in H. destruct H as [H1 H2].
  intros [<-|F]; [exact H1 | apply H2; apply in_map; exact F].
Qed.

Lemma modest_and l x : modest (And l) -> In x l -> @modest T x.
Proof.
  intros [M1 M2] H. split.
  - intros own f y r i j s r' j' I. apply (M1 own f y). apply inside_and with x; assumption.
  - intros f ks m g ps I. apply (M2 f ks m g). apply inside_and with x; assumption.
Qed.
Lemma modest_first l x : modest (First l) -> In x l -> @modest T x.
Proof.
  intros [M1 M2] H. split.
  - intros own f y r i j s r' j' I. apply (M1 own f y). apply inside_first with x; assumption.
  - intros f ks m g ps I. apply (M2 f ks m g). apply inside_first with x; assumption.
Qed.
Lemma modest_in (w e : pe T) : (forall x, inside x e -> inside x w) -> modest w -> modest e.
Proof.
  intros F [M1 M2]. split.
  - intros own f y r i j s r' j' I. apply (M1 own f y). apply F. exact I.
  - intros f ks m g ps I. apply (M2 f ks m g). apply F. exact I.
Qed.

Lemma alts_done ps al s i r j : run_alts ps al s i = Done r j -> exists p, In p ps /\ p s i = @Done T r j.
Proof.
  assert (P : forall n, pick ps n s i = Done r j -> exists p, In p ps /\ p s i = Done r j).
  { intros n H. unfold pick in H. destruct (lt_dec n (length ps)) as [L|L].
    - exists (nth n ps no_parser). split; [apply nth_In; exact L | exact H].
    - rewrite nth_overflow in H by lia. discriminate. }
  intros H. apply first_done in H. destruct H as (p & H1 & H2). apply in_map_iff in H1. destruct H1 as (a & <- & _).
  destruct a as [n|t]; [apply P with n; exact H2|]. unfold run_table in H2.
  destruct (find _ t) as [[k l]|]; [|discriminate]. destruct (find _ t) as [[k1 l1]|]; [|discriminate].
  apply first_done in H2. destruct H2 as (p & H2 & H3). apply in_map_iff in H2. destruct H2 as (n & <- & _). apply P with n. exact H3.
Qed.

(** An element begins with one of its keys. *)
Lemma keys_hit q e : forall s i r j, modest e -> keys e <> [] -> run q e s i = Done r j -> (0 < min_length e \/ i < j) ->
  exists k, In k (keys e) /\ hits k s i.
Proof.
  unfold hits. induction e as [w|w|l|f ks m l IH|n|l IH|l IH|mn mx e IH|e IH|e IH|e IH|own f e IH] using pe_rect'; intros s i r j M K R B; cbn [keys EngineModel.run] in K, R.
  - exists (lower w). split; [left; reflexivity|]. unfold run_lit in R. destruct (startswith (skipn i s) w) eqn:E; [|discriminate].
    rewrite !small_lower, lower_lower. apply begins_lower. apply starts_iff. exact E.
  - exists (lower w). split; [left; reflexivity|]. unfold run_kw in R.
    destruct (startswith (lower (skipn i s)) (lower w)) eqn:E; [|discriminate].
    rewrite !small_lower, lower_lower. apply starts_iff. exact E.
  - unfold run_chr in R. destruct (skipn i s) as [|c t]; [discriminate|]. destruct (existsb (N.eqb c) l) eqn:E; [|discriminate].
    apply existsb_exists in E. destruct E as (x & H & E). apply N.eqb_eq in E. subst x.
    exists [c]. split; [cbn; apply nub_In; apply in_map_iff; exists c; auto|]. rewrite !small_lower. apply begins_lower. exists t. reflexivity.
  - apply (proj2 M f ks m l (map (run q) l) (inside_self _)) with r j; [|exact K | exact R | exact B].
    assert (ML : forall x, In x l -> modest x).
    { intros x Hx. apply modest_in with (Prim f ks m l); [|exact M]. intros y Hy. apply inside_prim with x; assumption. }
    clear M K R B. induction IH as [|x l H IH IHl]; cbn [map]; constructor.
    + intros Kx s' i' r' j' R' B'. apply (H s' i' r' j'); [apply ML; left; reflexivity | exact Kx | exact R' | exact B'].
    + apply IHl. intros y Hy. apply ML. right. exact Hy.
  - congruence.
  - cbn [keys]. destruct (and_keys keys min_length l) as [ks|] eqn:E; [|congruence].
    cut (exists k, In k ks /\ begins (small k) (small (skipn i s))).
    { intros (k & H1 & H2). exists k. rewrite nub_In. auto. }
    cbn in B. clear K.
    assert (G : forall l, Forall (fun e => forall s i r j, modest e -> keys e <> [] -> run q e s i = Done r j -> (0 < min_length e \/ i < j) ->
        exists k, In k (keys e) /\ begins (small k) (small (skipn i s))) l -> (forall x, In x l -> modest x) ->
      forall ks en acc, en <= i -> and_keys keys min_length l = Some ks ->
      run_and skip (map (run q) l) s i en acc = Done r j -> (0 < list_sum (map min_length l) \/ i < j) ->
      exists k, In k ks /\ begins (small k) (small (skipn i s))).
    { clear. induction l as [|x l IHl]; intros F M ks en acc Len E R B; cbn [and_keys] in E; cbn [map run_and] in R; cbn in B.
      - injection R as -> ->. destruct B; lia.
      - replace (i <? en) with false in R by (symmetry; apply Nat.ltb_ge; exact Len).
        inversion F as [|? ? F1 F2]. subst.
        destruct (null (keys x)) eqn:Nx; [discriminate|]. assert (Kx : keys x <> []) by (intros Z; rewrite Z in Nx; discriminate).
        destruct (run q x s i) as [| | |t e] eqn:Rx; try discriminate.
        destruct (Nat.eqb_spec (min_length x) 0) as [Z|Z].
        + destruct (and_keys keys min_length l) as [k'|] eqn:E'; [|discriminate]. injection E as <-.
          destruct (le_lt_dec e i) as [L|L].
          * destruct (IHl F2 (fun y Hy => M y (or_intror Hy)) k' e _ L eq_refl R) as (k & H1 & H2);
              [destruct B as [B|B]; [left; change (0 < min_length x + list_sum (map min_length l)) in B; lia | right; exact B]|].
            exists k. split; [apply in_or_app; right; exact H1 | exact H2].
          * destruct (F1 s i t e (M x (or_introl eq_refl)) Kx Rx (or_intror L)) as (k & H1 & H2).
            exists k. split; [apply in_or_app; left; exact H1 | exact H2].
        + injection E as <-. apply (F1 s i t e (M x (or_introl eq_refl)) Kx Rx). left. lia. }
    apply (G l IH (fun x Hx => modest_and l x M Hx) ks i [] (le_n _) E R B).
  - cbn [keys]. destruct (existsb null (map keys l)) eqn:E; [congruence|].
    assert (D : exists p, In p (map (run q) l) /\ p s i = Done r j).
    { destruct q; [apply alts_done in R | apply first_done in R]; exact R. }
    destruct D as (p & D1 & D2). apply in_map_iff in D1. destruct D1 as (x & <- & Hx).
    rewrite Forall_forall in IH. destruct (IH x Hx s i r j) as (k & H1 & H2).
    + apply modest_first with l; assumption.
    + intros Z. rewrite <- Bool.not_true_iff_false in E. apply E. apply existsb_exists. exists (keys x). split; [apply in_map; exact Hx | rewrite Z; reflexivity].
    + exact D2.
    + destruct B as [B|B]; [left; apply first_min with l; assumption | right; exact B].
    + exists k. split; [|exact H2]. apply nub_In. apply in_concat. exists (keys x). split; [apply in_map; exact Hx | exact H1].
  - cbn [keys]. unfold run_many in R. cbn [many_loop] in R. assert (Me : modest e) by (apply modest_in with (Many mn mx e); [intros; constructor; assumption | exact M]).
    rewrite Nat.ltb_irrefl in R. cbn in B.
    destruct ((i <? length s) && under mx 0) eqn:C.
    + apply Bool.andb_true_iff in C. destruct C as [C _]. apply Nat.ltb_lt in C.
      destruct (run q e s i) as [| | |t e0] eqn:Re; try discriminate.
      * exfalso. destruct (mn <=? 0) eqn:Z; [|discriminate]. apply Nat.leb_le in Z. assert (mn = 0) by lia. subst mn. cbn in R.
        injection R as <- <-. cbn in B. lia.
      * destruct (Nat.eqb_spec mn 0) as [Z|Z]; [|destruct B as [B|B]; [apply (IH s i t e0 Me K Re); left; exact B|]].
        -- destruct B as [B|B]; [lia|]. apply (IH s i t e0 Me K Re). right.
           destruct (le_lt_dec e0 i) as [L|L]; [|exact L]. exfalso.
           replace ((e0 <=? i) && (e0 <? length s)) with true in R
             by (symmetry; apply Bool.andb_true_iff; split; [apply Nat.leb_le; exact L | apply Nat.ltb_lt; lia]).
           destruct (full t); [|discriminate]. destruct mx as [m|]; [|discriminate]. unfold many_end in R.
           destruct (m =? 0); [destruct (mn =? 0); [injection R as <- <-; lia | discriminate]|].
           destruct (m <? mn); [discriminate|]. injection R as <- <-. lia.
        -- apply (IH s i t e0 Me K Re). right.
           destruct (le_lt_dec e0 i) as [L|L]; [|exact L]. exfalso.
           replace ((e0 <=? i) && (e0 <? length s)) with true in R
             by (symmetry; apply Bool.andb_true_iff; split; [apply Nat.leb_le; exact L | apply Nat.ltb_lt; lia]).
           destruct (full t); [|discriminate]. destruct mx as [m|]; [|discriminate]. unfold many_end in R.
           destruct (m =? 0); [destruct (mn =? 0); [injection R as <- <-; lia | discriminate]|].
           destruct (m <? mn); [discriminate|]. injection R as <- <-. lia.
    + exfalso. unfold many_end in R. cbn in R. destruct (Nat.eqb_spec mn 0); [injection R as <- <-; lia | discriminate].
  - unfold run_opt in R. destruct (run q e s i) as [| | |t e0] eqn:Re; try discriminate.
    + injection R as <- <-. cbn in B. lia.
    + injection R as <- <-. apply (IH s i t e0); [|exact K | exact Re | cbn in B; right; lia].
      apply modest_in with (Opt e); [intros; constructor; assumption | exact M].
  - unfold run_look in R. destruct (run q e s i) as [| | |t e0] eqn:Re; try discriminate. injection R as <- <-.
    apply (IH s i t e0); [|exact K | exact Re | cbn in B; left; lia].
    apply modest_in with (Look e); [intros; constructor; assumption | exact M].
  - congruence.
  - unfold run_act in R. destruct (run q e s i) as [| | |t e0] eqn:Re; try discriminate.
    destruct (f t i e0 s) as [| | |t' e'] eqn:F; try discriminate. destruct (e' <? e0); [discriminate|]. injection R as <- <-.
    apply (IH s i t e0); [|exact K | exact Re |].
    + apply modest_in with (Act own f e); [intros; constructor; assumption | exact M].
    + destruct B as [B|B]; [left; exact B|]. right. apply (proj1 M own f e t i e0 s t' e'); [constructor | exact F | exact B].
Qed.

(** ** Tables *)
Lemma clears_nil items : clears [] items = items.
Proof. unfold clears. cbn. apply map_id. Qed.
Lemma sorted_split l1 n l2 a : StronglySorted lt (l1 ++ n :: l2) -> In a (l1 ++ n :: l2) -> a < n -> In a l1.
Proof.
  induction l1 as [|b l1 IH]; cbn; intros S H L.
  - inversion S as [|? ? S1 S2]. subst. rewrite Forall_forall in S2. destruct H as [->|H]; [lia | apply S2 in H; lia].
  - inversion S as [|? ? S1 S2]. subst. destruct H as [->|H]; [left; reflexivity | right; apply IH; assumption].
Qed.
Lemma lower_firstn n k : lower k = k -> lower (firstn n k) = firstn n k.
Proof. intros H. unfold lower in *. rewrite <- firstn_map. rewrite H. reflexivity. Qed.
Lemma begins_firstn k t : begins k t -> firstn (length k) t = k.
Proof. intros [r ->]. rewrite firstn_app, Nat.sub_diag, firstn_all. cbn. apply app_nil_r. Qed.

Definition served (ps : list (parser T)) (s : pystr) (i : nat) (maps : list (nat * list pystr)) : Prop :=
  forall n p r j, In (n, p) maps -> p <> [] -> pick ps n s i = Done r j -> exists k, In k p /\ hits k s i.
Definition lowered (maps : list (nat * list pystr)) : Prop := forall n p k, In (n, p) maps -> In k p -> small k = k \/ (length k = 1 /\ In (small k) p).

Lemma table_ok ps maps t s i : growing maps -> tidy_maps maps -> lowered maps -> served ps s i maps -> (forall n p, In (n, p) maps -> p <> []) ->
  fast maps = Some t -> settled (run_first (map (pick ps) (map fst maps)) s i) ->
  run_table ps t s i = run_first (map (pick ps) (map fst maps)) s i.
Proof.
  intros G TD LO SV KD FA ST. unfold fast in FA.
  destruct (useful (length maps) (lookup_of maps)); [|discriminate].
  set (items := lookup_of maps) in *. pose proof (lookup_inv maps G) as I. fold items in I.
  pose proof (compact_spec items (i_some _ _ I) (map fst items) []) as CS. rewrite clears_nil in CS.
  set (c := compact (map fst items) items) in *. destruct (useful (length maps) c); [|discriminate].
  destruct (existsb (fun it => null (others c (fst it))) c); [discriminate|]. injection FA as <-.
  destruct CS as (C1 & C2 & C3); [intros e [] | auto |].
  assert (KL : forall k, In k (map fst items) -> lower k = k \/ (length k = 1 /\ In (lower k) (map fst items))).
  { intros k H. apply in_map_iff in H. destruct H as ([k0 l0] & H1 & H2). cbn in H1. subst k0.
    pose proof (i_some _ _ I _ H2) as N. destruct l0 as [|n l0]; [cbn in N; congruence|].
    destruct (proj1 (i_in _ _ I k (n :: l0) n H2) (or_introl eq_refl)) as (p & P1 & P2). destruct (LO n p k P1 P2) as [E|[E1 E2]]; [left; exact E|].
    right. split; [exact E1|]. apply (i_all _ _ I n p _ P1 E2). }
  assert (CK : forall it, In it c -> In (fst it) (map fst items)).
  { intros [m acc] H. cbn. apply (C1 m acc H). }
  assert (PF : forall x y, In x (map fst c) -> In y (map fst c) -> begins x y -> x = y).
  { intros x y Hx Hy B. apply in_map_iff in Hx, Hy. destruct Hx as (a & <- & Ha), Hy as ([m acc] & <- & Hb).
    apply (proj2 (proj1 (C1 m acc Hb))); [apply CK; exact Ha | exact B]. }
  assert (SL : forall it, In it c -> lower (fst it) = fst it -> lower (short c it) = short c it).
  { intros it H E. apply lower_firstn. exact E. }
  assert (SC : forall it, In it c -> exists it', In it' c /\ lower (fst it') = fst it' /\ short c it' = lower (short c it)).
  { intros [m acc] H. destruct (KL m (CK _ H)) as [E|[E1 E2]]; [exists (m, acc); split; [exact H|]; split; [exact E | symmetry; apply SL; [exact H | exact E]]|].
    destruct (list_eq_dec N.eq_dec (lower m) m) as [E|NE]; [exists (m, acc); split; [exact H|]; split; [exact E | symmetry; apply SL; [exact H | exact E]]|].
    destruct (C3 (lower m) E2) as (m2 & [[]|M1] & M2). apply in_map_iff in M1. destruct M1 as ([m0 acc2] & M3 & M4). cbn in M3. subst m0.
    assert (E : m2 = lower m).
    { destruct m2 as [|x m2].
      - exfalso. assert (Z : [] = m) by (apply PF; [apply in_map_iff; exists ([], acc2); auto | apply in_map_iff; exists (m, acc); auto | exists m; reflexivity]).
        subst m. discriminate.
      - destruct M2 as [r M2]. destruct m as [|y [|y' m]]; try discriminate. cbn in M2 |- *. injection M2 as -> M2.
        destruct m2; [reflexivity | discriminate]. }
    subst m2. exists (lower m, acc2). split; [exact M4|]. split; [apply lower_lower|].
    assert (L1 : forall a b (x y : list nat), In (a, x) c -> In (b, y) c -> length a = 1 -> b <> a -> short c (a, x) = a).
    { intros a b x y Ha Hb La Nab. unfold short. cbn [fst]. apply firstn_all2. rewrite La.
      assert (Hb' : In b (map fst c)) by (apply in_map_iff; exists (b, y); auto).
      pose proof (others_max c a b Hb' Nab) as OM.
      assert (D1 : 1 <= distinct a b) by (destruct a, b; cbn; try lia; destruct (N.eqb _ _); lia). lia. }
    rewrite (L1 (lower m) m acc2 acc M4 H); [|unfold lower; rewrite map_length; exact E1 | congruence].
    rewrite (L1 m (lower m) acc acc2 H M4 E1 NE). reflexivity. }
  set (t0 := lower (skipn i s)).
  (* an alternative that matches stands under the key *)
  assert (HIT : forall n p r j, In (n, p) maps -> pick ps n s i = Done r j ->
    exists it, In it c /\ lower (fst it) = fst it /\ begins (short c it) t0 /\ In n (snd it)).
  { intros n p r j H D. destruct (SV n p r j H (KD n p H) D) as (k & K1 & K2).
    unfold hits in K2. rewrite !small_lower in K2. fold t0 in K2.
    assert (KS : exists k', In k' p /\ k' = lower k).
    { destruct (LO n p k H K1) as [E|[_ E]]; [exists k; split; [exact K1 | symmetry; exact E] | exists (lower k); split; [exact E | reflexivity]]. }
    destruct KS as (k' & K1' & E'). rewrite <- E' in K2. assert (E2 : lower k' = k') by (rewrite E'; apply lower_lower). clear k K1 E'. rename k' into k, K1' into K1.
    pose proof (i_all _ _ I n p k H K1) as KI. destruct (C3 k KI) as (m & [[]|M1] & M2).
    apply in_map_iff in M1. destruct M1 as ([m0 acc] & M3 & M4). cbn in M3. subst m0.
    exists (m, acc). split; [exact M4|]. split; [|split].
    - cbn. destruct M2 as [r' M2]. rewrite M2 in E2. unfold lower in E2 |- *. rewrite map_app in E2. apply app_eq_app in E2.
      destruct E2 as (z & [[E2 _]|[E2 _]]); [|]; assert (LZ : length z = 0) by (apply (f_equal (@length N)) in E2; rewrite app_length, map_length in E2; lia);
        destruct z; try discriminate; rewrite app_nil_r in E2; congruence.
    - apply begins_trans with m; [apply firstn_begins|]. apply begins_trans with k; assumption.
    - cbn. rewrite (proj2 (proj2 (C1 m acc M4))). unfold collect. apply in_flat_map.
      apply in_map_iff in KI. destruct KI as ([k0 lk] & KI1 & KI2). cbn in KI1. subst k0.
      exists (k, lk). split; [exact KI2|]. cbn. rewrite (proj2 (starts_iff k m) M2). apply (i_in _ _ I k lk n KI2). exists p. auto. }
  unfold run_table. fold t0.
  destruct (find (fun it => startswith t0 (lower (fst it))) _) as [[k0 l0]|] eqn:F1.
  - apply find_some in F1. destruct F1 as [F1 F2]. cbn [fst] in F2. apply in_map_iff in F1. destruct F1 as (it & F3 & F4).
    injection F3 as F3 F5. change (short c it = k0) in F3. subst k0 l0.
    destruct (SC it F4) as (it2 & S1 & S2 & S3). rewrite <- S3 in F2. apply starts_iff in F2.
    assert (IX : lower (firstn (length (short c it)) (skipn i s)) = short c it2).
    { replace (length (short c it)) with (length (short c it2)) by (rewrite S3; unfold lower; apply map_length). unfold lower. rewrite <- firstn_map. fold (lower (skipn i s)). fold t0. apply begins_firstn. exact F2. }
    rewrite IX. clear IX S3 F4 it. rename it2 into it, S1 into F4.
    destruct (find (fun it0 => seqb (fst it0) (short c it)) _) as [[k1 l1]|] eqn:F6.
    2:{ exfalso. assert (Hin : In (short c it, snd it) (map (fun it => (firstn (list_max (map (distinct (fst it)) (others c (fst it)))) (fst it), snd it)) c))
          by (apply in_map_iff; exists it; split; [reflexivity | exact F4]).
        pose proof (find_none _ _ F6 _ Hin) as F7. cbn in F7. rewrite (proj2 (seqb_iff _ _) eq_refl) in F7. discriminate. }
    apply find_some in F6. destruct F6 as [F6 F7]. cbn in F7. apply seqb_iff in F7. apply in_map_iff in F6. destruct F6 as (it1 & F8 & F9).
    injection F8 as F8 F10. change (short c it1 = k1) in F8.
    assert (E1 : fst it1 = fst it) by (apply (short_excl c it1 it t0 PF F9 F4); [rewrite F8, F7; exact F2 | exact F2]).
    destruct it as [m acc], it1 as [m1 acc1]. cbn in E1, F10. subst m1.
    assert (EA : l1 = collect m items) by (rewrite <- F10; apply (C1 m acc1 F9)).
    assert (EB : acc = collect m items) by apply (C1 m acc F4).
    assert (ACC : forall n, In n l1 -> exists p, In (n, p) maps).
    { intros n H. rewrite EA in H. unfold collect in H. apply in_flat_map in H. destruct H as ([k lk] & H1 & H2). cbn in H2.
      destruct (startswith k m); [|destruct H2]. apply (i_in _ _ I k lk n H1) in H2. destruct H2 as (p & H2 & _). exists p. exact H2. }
    destruct (first_cases (pick ps) (map fst maps) s i ST) as [AF|(u & n & v & r & j & EU & UF & DN)].
    + rewrite (first_fail (pick ps) _ s i AF). apply first_fail. intros x Hx. destruct (ACC x Hx) as (p & H). apply AF.
      apply in_map_iff. exists (x, p). auto.
    + assert (Hn : exists p, In (n, p) maps).
      { assert (H : In n (map fst maps)) by (rewrite EU; apply in_or_app; right; left; reflexivity).
        apply in_map_iff in H. destruct H as ([n0 p] & <- & H). exists p. exact H. }
      destruct Hn as (p & Hn). destruct (HIT n p r j Hn DN) as (it' & H1 & _ & H2 & H3).
      assert (E2 : fst it' = m) by apply (short_excl c it' (m, acc) t0 PF H1 F4 H2 F2).
      destruct it' as [m' acc']. cbn in E2, H3. subst m'. rewrite (proj2 (proj2 (C1 m acc' H1))) in H3.
      destruct (collect_order maps m n G TD (CK (m, acc) F4) H3) as (w1 & w2 & W1 & W2). fold items in W1.
      rewrite EA, W1, EU, !map_app, !first_app. cbn.
      rewrite (first_fail (pick ps) u s i UF), DN. rewrite (first_fail (pick ps) w1 s i); [reflexivity|].
      intros x Hx. apply UF. apply (sorted_split u n v x).
      * rewrite <- EU. exact G.
      * rewrite <- EU. destruct (ACC x) as (px & Hpx); [rewrite EA, W1; apply in_or_app; left; exact Hx|].
        apply in_map_iff. exists (x, px). auto.
      * apply W2. exact Hx.
  - destruct (first_cases (pick ps) (map fst maps) s i ST) as [AF|(u & n & v & r & j & EU & UF & DN)].
    + symmetry. apply first_fail. exact AF.
    + exfalso. assert (H : In n (map fst maps)) by (rewrite EU; apply in_or_app; right; left; reflexivity).
      apply in_map_iff in H. destruct H as ([n0 p] & E0 & H). cbn in E0. subst n0.
      destruct (HIT n p r j H DN) as (it & H1 & H4 & H2 & _).
      assert (Hin : In (short c it, snd it) (map (fun it => (firstn (list_max (map (distinct (fst it)) (others c (fst it)))) (fst it), snd it)) c))
        by (apply in_map_iff; exists it; split; [reflexivity | exact H1]).
      pose proof (find_none _ _ F1 _ Hin) as F7. cbn [fst] in F7. rewrite (SL it H1 H4) in F7. rewrite (proj2 (starts_iff _ _) H2) in F7. discriminate.
Qed.

Definition tidy_segs (maps : list (nat * list pystr)) : Prop :=
  forall a seg b, maps = a ++ seg ++ b -> (forall n p, In (n, p) seg -> p <> []) -> tidy_maps seg.
Definition fit ps s i maps : Prop := growing maps /\ tidy_segs maps /\ lowered maps /\ served ps s i maps.
Lemma growing_app a b : growing (a ++ b) -> growing a /\ growing b.
Proof.
  unfold growing. rewrite map_app. induction (map fst a) as [|x l IH]; cbn; intros S; [split; [constructor | exact S]|].
  inversion S as [|? ? S1 S2]. subst. destruct (IH S1) as [I1 I2]. apply Forall_app in S2. split; [constructor; [exact I1 | apply S2] | exact I2].
Qed.
Lemma fit_app ps s i a b : fit ps s i (a ++ b) -> fit ps s i a /\ fit ps s i b.
Proof.
  intros (G & TS & L & V). apply growing_app in G. destruct G as [G1 G2]. split; (split; [assumption|split; [|split]]).
  - intros x seg y E. apply (TS x seg (y ++ b)). rewrite E, <- !app_assoc. reflexivity.
  - intros n p k H. apply (L n p k). apply in_or_app. left. exact H.
  - intros n p r j H. apply (V n p r j). apply in_or_app. left. exact H.
  - intros x seg y E. apply (TS (a ++ x) seg y). rewrite E, <- !app_assoc. reflexivity.
  - intros n p k H. apply (L n p k). apply in_or_app. right. exact H.
  - intros n p r j H. apply (V n p r j). apply in_or_app. right. exact H.
Qed.
Definition altp ps (a : alt) : parser T := match a with One i => pick ps i | Tbl t => run_table ps t end.
Definition all_first (ps : list (parser T)) (maps : list (nat * list pystr)) s i := run_first (map (pick ps) (map fst maps)) s i.
Lemma all_app ps a b s i : all_first ps (a ++ b) s i = match all_first ps a s i with Fail => all_first ps b s i | x => x end.
Proof. unfold all_first. rewrite !map_app, first_app. reflexivity. Qed.
Lemma flush_ok ps acc s i : fit ps s i acc -> (forall n p, In (n, p) acc -> p <> []) -> settled (all_first ps acc s i) ->
  run_first (map (altp ps) (flush acc)) s i = all_first ps acc s i.
Proof.
  intros (G & TS & L & V) K S. unfold flush. destruct (fast acc) as [t|] eqn:F.
  - cbn. rewrite (table_ok ps acc t s i G); [|apply (TS [] acc []); [rewrite app_nil_r; reflexivity | exact K] | exact L | exact V | exact K | exact F | exact S].
    fold (all_first ps acc s i). destruct (all_first ps acc s i); reflexivity.
  - rewrite map_map. unfold all_first. rewrite map_map. reflexivity.
Qed.
Lemma alternating_ok ps s i l : forall has acc, fit ps s i (acc ++ l) -> (forall n p, In (n, p) acc -> p <> []) -> (has = false -> acc = []) ->
  settled (all_first ps (acc ++ l) s i) ->
  run_first (map (altp ps) (alternating has acc l)) s i = all_first ps (acc ++ l) s i.
Proof.
  induction l as [|[n p] l IH]; intros has acc FI K HA S; cbn.
  - rewrite app_nil_r in *. destruct has; [apply flush_ok; assumption|]. rewrite (HA eq_refl). reflexivity.
  - assert (ONE : fit ps s i l -> settled (match pick ps n s i with Fail => all_first ps l s i | x => x end) ->
      run_first (map (altp ps) (One n :: alternating false [] l)) s i = match pick ps n s i with Fail => all_first ps l s i | x => x end).
    { intros FL SL. cbn. destruct (pick ps n s i) eqn:E; try reflexivity. apply (IH false []); [exact FL | intros ? ? [] | reflexivity | exact SL]. }
    destruct has; destruct p as [|k p].
    + rewrite map_app, first_app. pose proof (fit_app _ _ _ _ _ FI) as [F1 F2]. rewrite all_app in S |- *.
      rewrite (flush_ok ps acc s i F1 K (settled_bind _ _ S)).
      destruct (all_first ps acc s i) eqn:E; try reflexivity. apply ONE; [|exact S].
      apply (fit_app _ _ _ [(n, [])] l). exact F2.
    + replace (acc ++ (n, k :: p) :: l) with ((acc ++ [(n, k :: p)]) ++ l) in * by (rewrite <- app_assoc; reflexivity).
      apply IH; [exact FI | | discriminate | exact S].
      intros n0 p0 H. apply in_app_or in H. destruct H as [H|[[= <- <-]|[]]]; [apply K with n0; exact H | discriminate].
    + rewrite (HA eq_refl) in *. cbn [app] in *. apply ONE; [|exact S]. apply (fit_app _ _ _ [(n, [])] l). exact FI.
    + rewrite (HA eq_refl) in *. cbn [app] in *. apply (IH true [(n, k :: p)]); [exact FI | | discriminate | exact S].
      intros n0 p0 [[= <- <-]|[]]. discriminate.
Qed.

Lemma pick_all (ps : list (parser T)) : map (pick ps) (seq 0 (length ps)) = ps.
Proof.
  unfold pick. induction ps as [|p ps IH]; [reflexivity|]. cbn. f_equal. rewrite <- seq_shift, map_map. exact IH.
Qed.
Lemma fst_combine {A} n (l : list A) : length l = n -> forall a, map fst (combine (seq a n) l) = seq a n.
Proof. intros <-. induction l as [|x l IH]; intros a; cbn; [reflexivity|]. rewrite IH. reflexivity. Qed.
Lemma seq_sorted n : forall a, StronglySorted lt (seq a n).
Proof. induction n as [|n IH]; intros a; cbn; constructor; [apply IH|]. apply Forall_forall. intros x H. apply in_seq in H. lia. Qed.
Lemma growing_lt l1 x l2 y : growing (l1 ++ x :: l2) -> In y (l1 ++ x :: l2) -> fst x < fst y -> In y l2.
Proof.
  unfold growing. induction l1 as [|z l1 IH]; cbn; intros S H L.
  - destruct H as [->|H]; [lia | exact H].
  - inversion S as [|? ? S1 S2]. subst. destruct H as [->|H]; [|apply IH; assumption].
    rewrite Forall_forall in S2. specialize (S2 (fst x)). rewrite map_app in S2. cbn in S2.
    assert (fst y < fst x) by (apply S2; apply in_or_app; right; left; reflexivity). lia.
Qed.
Lemma tidy_to_maps seg : growing seg -> tidy_run (map snd seg) -> tidy_maps seg.
Proof.
  intros G TR c n a pc pn pa x y m Hc Hn Ha L1 L2 Y1 Y2 X (q & pq & Q1 & Q2) B1 B2.
  apply in_split in Hc. destruct Hc as (A & R1 & E1). subst seg.
  apply (growing_lt A (c, pc) R1 (n, pn) G) in Hn; [|exact L1].
  assert (Ha' : In (a, pa) R1) by (apply (growing_lt A (c, pc) R1 (a, pa) G Ha); cbn; lia).
  apply in_split in Hn. destruct Hn as (B & R2 & E2). subst R1.
  apply growing_app in G as [G1 G2]. apply (growing_app [(c, pc)]) in G2 as [G2 G3].
  apply (growing_lt B (n, pn) R2 (a, pa) G3 Ha') in L2 as Ha2.
  apply in_split in Ha2. destruct Ha2 as (C & D & E3). subst R2.
  apply (TR (map snd A) pc (map snd B) pn (map snd C) pa (map snd D) x y m); try assumption.
  - rewrite !map_app. cbn. rewrite map_app. cbn. rewrite map_app. reflexivity.
  - exists pq. split; [|exact Q2]. apply in_map_iff. exists (q, pq). auto.
Qed.
Lemma alts_ok (l : list (pe T)) ps s i : ps = map (run true) l ->
  (forall x, In x l -> modest x) -> (forall x, In x l -> keys x <> [] -> 0 < min_length x) ->
  (forall x k, In x l -> In k (keys x) -> small k = k \/ (length k = 1 /\ In (small k) (keys x))) -> tidy (map keys l) ->
  settled (run_first ps s i) -> run_alts ps (faster (map keys l)) s i = run_first ps s i.
Proof.
  intros -> M ML LW TD S. unfold faster. rewrite map_length. destruct (length l <? LOOKUP_COST).
  - unfold run_alts. rewrite map_map. change (run_first (map (pick (map (run true) l)) (seq 0 (length l))) s i = run_first (map (run true) l) s i).
    rewrite <- (map_length (run true) l) at 1. rewrite pick_all. reflexivity.
  - set (ps := map (run true) l) in *. set (maps := combine (seq 0 (length l)) (map keys l)).
    assert (FM : map fst maps = seq 0 (length l)) by (apply fst_combine; apply map_length).
    assert (SM : map snd maps = map keys l).
    { unfold maps. clear. generalize (seq 0 (length l)) as q, (seq_length (length l) 0). intros q. revert l.
      induction q as [|a q IH]; intros [|x l] H; cbn in *; try reflexivity; try discriminate. f_equal. apply IH. lia. }
    assert (NM : forall n p, In (n, p) maps -> exists x, In x l /\ p = keys x /\ pick ps n = run true x).
    { intros n p H. apply In_nth with (d := (0, [])) in H. destruct H as (z & Z1 & Z2).
      assert (LZ : z < length l). { unfold maps in Z1. rewrite combine_length, seq_length, map_length in Z1. lia. }
      unfold maps in Z2. rewrite combine_nth in Z2 by (rewrite seq_length, map_length; reflexivity).
      rewrite seq_nth in Z2 by exact LZ. injection Z2 as <- Z2.
      exists (nth z l (And [])). split; [apply nth_In; exact LZ|]. split.
      - rewrite <- Z2. exact (map_nth keys l (And []) z).
      - unfold pick, ps. rewrite (nth_indep _ no_parser (run true (And []))) by (rewrite map_length; exact LZ). apply map_nth. }
    assert (FI : fit ps s i maps).
    { assert (GM : growing maps) by (unfold growing; rewrite FM; apply seq_sorted).
      split; [exact GM|]. split; [|split].
      - intros a seg b E KS. rewrite E in GM. apply growing_app in GM as [_ GM]. apply growing_app in GM as [GM _].
        apply tidy_to_maps; [exact GM|]. apply (TD (map snd a) (map snd seg) (map snd b)).
        + rewrite <- SM, E, !map_app. reflexivity.
        + intros ks H. apply in_map_iff in H. destruct H as ([n p] & <- & H). apply (KS n p H).
      - intros n p k H Hk. destruct (NM n p H) as (x & X1 & -> & _). apply (LW x k X1 Hk).
      - intros n p r j H Hk D. destruct (NM n p H) as (x & X1 & -> & X2). rewrite X2 in D.
        apply (keys_hit true x s i r j (M x X1) Hk D). left. apply ML; assumption. }
    assert (AF : all_first ps maps s i = run_first ps s i).
    { unfold all_first. rewrite FM. replace (length l) with (length ps) by apply map_length. rewrite pick_all. reflexivity. }
    unfold run_alts. rewrite <- AF. apply (alternating_ok ps s i maps true []); [exact FI | intros ? ? [] | discriminate|].
    change ([] ++ maps) with maps. rewrite AF. exact S.
Qed.

(** ** The grammar with tables *)
Lemma first_ext {A} (f g : A -> parser T) l s i : (forall x, In x l -> settled (f x s i) -> g x s i = f x s i) ->
  settled (run_first (map f l) s i) -> run_first (map g l) s i = run_first (map f l) s i.
Proof.
  induction l as [|a l IH]; intros H S; cbn in *; [reflexivity|].
  rewrite (H a (or_introl eq_refl) (settled_bind _ _ S)).
  destruct (f a s i) eqn:E; try reflexivity. apply IH; [intros x Hx; apply H; right; exact Hx | exact S].
Qed.
Lemma and_ext {A} (f g : A -> parser T) l s : (forall x i, In x l -> settled (f x s i) -> g x s i = f x s i) ->
  forall idx en acc, settled (run_and skip (map f l) s idx en acc) -> run_and skip (map g l) s idx en acc = run_and skip (map f l) s idx en acc.
Proof.
  induction l as [|a l IH]; intros H idx en acc S; cbn [map run_and] in *; [reflexivity|].
  set (k := if idx <? en then skip s en else idx) in *.
  rewrite (H a k (or_introl eq_refl)).
  - destruct (f a s k) eqn:E; try reflexivity. apply IH; [intros x i Hx; apply H; right; exact Hx | exact S].
  - destruct (f a s k) as [| | |r e]; destruct S as [S|(r' & j & S)]; try discriminate; try (left; reflexivity); right; eexists _, _; reflexivity.
Qed.
Lemma many_ext mn mx (f g : parser T) s start : (forall i, settled (f s i) -> g s i = f s i) ->
  forall n idx en cnt last acc, settled (many_loop full skip mn mx f s start n idx en cnt last acc) ->
  many_loop full skip mn mx g s start n idx en cnt last acc = many_loop full skip mn mx f s start n idx en cnt last acc.
Proof.
  intros H. induction n as [|n IH]; intros idx en cnt last acc S; cbn [many_loop] in *; [reflexivity|].
  destruct ((en <? length s) && under mx cnt); [|reflexivity].
  set (k := if idx <? en then skip s en else idx) in *.
  assert (SK : settled (f s k)) by (destruct (f s k) as [| | |r e]; destruct S as [S|(r' & j & S)]; try discriminate; try (left; reflexivity); right; eexists _, _; reflexivity).
  rewrite (H k SK). destruct (f s k) as [| | |r e]; try reflexivity.
  destruct ((e <=? k) && (e <? length s)); [reflexivity|]. destruct (full r); apply IH; exact S.
Qed.
Lemma good_in (w e : pe T) : (forall x, inside x e -> inside x w) -> good w -> good e.
Proof.
  intros F (M & A & C). split; [apply modest_in with w; assumption|]. split.
  - intros f ks m l ps qs H. apply (A f ks m l). apply F. exact H.
  - intros l H. apply C. apply F. exact H.
Qed.

Lemma quick_ok slow e : (forall n, follows (slow n) (ref n)) -> good e -> forall s i,
  settled (EngineModel.run tok full skip slow false e s i) -> run true e s i = EngineModel.run tok full skip slow false e s i.
Proof.
  intros RF.
  induction e as [w|w|l|f ks m l IH|n|l IH|l IH|mn mx e IH|e IH|e IH|e IH|own f e IH] using pe_rect'; intros G s i S; cbn [EngineModel.run] in *; try reflexivity.
  - destruct G as (M & A & C). apply (A f ks m l (map (EngineModel.run tok full skip slow false) l) _ (inside_self _)); [|exact S].
    assert (GL : forall x, In x l -> good x).
    { intros x Hx. apply good_in with (Prim f ks m l); [|split; [exact M|]; split; assumption]. intros y Hy. apply inside_prim with x; assumption. }
    clear M A C S. induction IH as [|x l H IH IHl]; cbn [map]; constructor.
    + intros s' i' S'. apply H; [apply GL; left; reflexivity | exact S'].
    + apply IHl. intros y Hy. apply GL. right. exact Hy.
  - apply RF. exact S.
  - rewrite Forall_forall in IH. apply and_ext; [|exact S]. intros x j Hx. apply (IH x Hx). apply good_in with (And l); [|exact G].
    intros y Hy. apply inside_and with x; assumption.
  - rewrite Forall_forall in IH.
    assert (FE : run_first (map (run true) l) s i = run_first (map (EngineModel.run tok full skip slow false) l) s i).
    { apply first_ext; [|exact S]. intros x Hx. apply (IH x Hx). apply good_in with (First l); [|exact G].
      intros y Hy. apply inside_first with x; assumption. }
    destruct G as (M & _ & C). destruct (C l (inside_self _)) as (C1 & C2 & C3).
    rewrite (alts_ok l (map (run true) l) s i eq_refl); [exact FE | | exact C1 | exact C2 | exact C3 | rewrite FE; exact S].
    intros x Hx. apply modest_first with l; assumption.
  - unfold run_many in *. apply many_ext; [|exact S]. intros j. apply IH. apply good_in with (Many mn mx e); [intros; constructor; assumption | exact G].
  - unfold run_opt in *. rewrite IH; [reflexivity | apply good_in with (Opt e); [intros; constructor; assumption | exact G]|].
    destruct (EngineModel.run tok full skip slow false e s i) as [| | |r j]; destruct S as [S|(r' & j' & S)]; try discriminate; try (left; reflexivity); right; eexists _, _; reflexivity.
  - unfold run_look in *. rewrite IH; [reflexivity | apply good_in with (Look e); [intros; constructor; assumption | exact G]|].
    destruct (EngineModel.run tok full skip slow false e s i) as [| | |r j]; destruct S as [S|(r' & j' & S)]; try discriminate; try (left; reflexivity); right; eexists _, _; reflexivity.
  - unfold run_not in *. rewrite IH; [reflexivity | apply good_in with (Not e); [intros; constructor; assumption | exact G]|].
    destruct (EngineModel.run tok full skip slow false e s i) as [| | |r j]; destruct S as [S|(r' & j' & S)]; try discriminate; try (left; reflexivity); right; eexists _, _; reflexivity.
  - unfold run_act in *. rewrite IH; [reflexivity | apply good_in with (Act own f e); [intros; constructor; assumption | exact G]|].
    destruct (EngineModel.run tok full skip slow false e s i) as [| | |r j]; destruct S as [S|(r' & j' & S)]; try discriminate; try (left; reflexivity); right; eexists _, _; reflexivity.
Qed.
End Engine.
