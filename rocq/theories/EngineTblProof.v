(** The tables of alternatives: which alternatives stand under which key, and in which order. *)
From Coq Require Import String Ascii List Arith NArith Bool Lia Sorted.
From Verif Require Import Base EngineModel EngineSpec.
Import ListNotations.

Lemma seqb_iff a b : seqb a b = true <-> a = b.
Proof.
  revert b. induction a as [|x a IH]; intros [|y b]; cbn; try (split; congruence).
  rewrite Bool.andb_true_iff, N.eqb_eq, IH. split; [intros [-> ->]; reflexivity | intros [= -> ->]; auto].
Qed.
Lemma starts_iff t k : startswith t k = true <-> begins k t.
Proof.
  revert t. induction k as [|x k IH]; intros t.
  - cbn. split; [exists t; reflexivity | destruct t; reflexivity].
  - destruct t as [|y t]; cbn.
    + split; [discriminate | intros [r [=]]].
    + rewrite Bool.andb_true_iff, N.eqb_eq, IH. split.
      * intros [-> [r ->]]. exists r. reflexivity.
      * intros [r [= -> ->]]. split; [reflexivity | exists r; reflexivity].
Qed.
Lemma begins_refl k : begins k k.
Proof. exists []. symmetry. apply app_nil_r. Qed.
Lemma begins_trans a b c : begins a b -> begins b c -> begins a c.
Proof. intros [r ->] [q ->]. exists (r ++ q). symmetry. apply app_assoc. Qed.
Lemma begins_anti a b : begins a b -> begins b a -> a = b.
Proof.
  intros [r ->] [q E]. assert (H := f_equal (@length N) E). rewrite !app_length in H.
  destruct r; [symmetry; apply app_nil_r | cbn in H; lia].
Qed.
Lemma begins_total a b t : begins a t -> begins b t -> begins a b \/ begins b a.
Proof.
  revert b t. induction a as [|x a IH]; intros b t [r ->] [q E].
  - left. exists b. reflexivity.
  - destruct b as [|y b]; [right; exists (x :: a); reflexivity|].
    cbn in E. injection E as -> E. destruct (IH b (a ++ r)) as [[z ->]|[z ->]].
    + exists r. reflexivity.
    + exists q. exact E.
    + left. exists z. reflexivity.
    + right. exists z. reflexivity.
Qed.

(** ** lookup_of *)
Definition before (a b : pystr * list nat) : Prop := forall n, In n (snd b) -> exists c, In c (snd a) /\ c <= n.
Record inv (maps : list (nat * list pystr)) (d : table) : Prop := {
  i_keys : NoDup (map fst d);
  i_ord : ForallOrdPairs before d;
  i_some : forall it, In it d -> snd it <> [];
  i_sort : forall it, In it d -> Sorted le (snd it);
  i_in : forall k l n, In (k, l) d -> (In n l <-> exists p, In (n, p) maps /\ In k p);
  i_all : forall n p k, In (n, p) maps -> In k p -> In k (map fst d) }.

Lemma put_keys d k i : map fst (put d k i) = if existsb (seqb k) (map fst d) then map fst d else map fst d ++ [k].
Proof.
  induction d as [|[k' l] d IH]; cbn; [reflexivity|].
  destruct (seqb k k'); cbn; [reflexivity|]. rewrite IH. destruct (existsb (seqb k) (map fst d)); reflexivity.
Qed.
Lemma existsb_In k l : existsb (seqb k) l = true <-> In k l.
Proof. rewrite existsb_exists. split; [intros (x & H & E); apply seqb_iff in E; subst; exact H | intros H; exists k; split; [exact H | apply seqb_iff; reflexivity]]. Qed.
Lemma put_In d k i it : NoDup (map fst d) -> In it (put d k i) ->
  (In it d /\ fst it <> k) \/ (exists l, In (k, l) d /\ it = (k, l ++ [i])) \/ (~ In k (map fst d) /\ it = (k, [i])).
Proof.
  induction d as [|[k' l] d IH]; cbn; intros N H.
  - destruct H as [<-|[]]. right. right. split; [tauto | reflexivity].
  - inversion N as [|? ? N1 N2]. subst. destruct (seqb k k') eqn:E.
    + apply seqb_iff in E. subst k'. destruct H as [<-|H].
      * right. left. exists l. auto.
      * left. split; [right; exact H|]. intros E. subst k. apply N1. apply in_map. exact H.
    + assert (D : k' <> k) by (intros ->; rewrite (proj2 (seqb_iff k k) eq_refl) in E; discriminate).
      destruct H as [<-|H].
      * left. split; [left; reflexivity | exact D].
      * destruct (IH N2 H) as [[H1 H2]|[(q & H1 & ->)|[H1 ->]]].
        -- left. split; [right; exact H1 | exact H2].
        -- right. left. exists q. auto.
        -- right. right. split; [intros [E'|F]; congruence | reflexivity].
Qed.
Lemma put_ord d k i : (forall it n, In it d -> In n (snd it) -> n <= i) -> (forall it, In it d -> snd it <> []) ->
  ForallOrdPairs before d -> ForallOrdPairs before (put d k i).
Proof.
  induction d as [|[k' l] d IH]; cbn; intros B S O.
  - repeat constructor.
  - inversion O as [|? ? O1 O2]. subst. rewrite Forall_forall in O1. destruct (seqb k k') eqn:E.
    + constructor; [|exact O2]. apply Forall_forall. intros it H n Hn. destruct (O1 it H n Hn) as (c & H1 & H2).
      exists c. cbn in *. split; [apply in_or_app; left; exact H1 | exact H2].
    + constructor; [|apply IH; [intros it n H; apply (B it n (or_intror H)) | intros it H; apply (S it (or_intror H)) | exact O2]]. apply Forall_forall.
      assert (L : exists c, In c l /\ c <= i).
      { specialize (S (k', l) (or_introl eq_refl)). cbn in S. destruct l as [|c l]; [congruence|]. exists c. split; [left; reflexivity|].
        apply (B (k', c :: l) c (or_introl eq_refl) (or_introl eq_refl)). }
      clear IH O O2 E B S. induction d as [|[k2 l2] d IH]; cbn; intros it H n Hn.
      * destruct H as [<-|[]]. cbn in Hn. destruct Hn as [<-|[]]. exact L.
      * destruct (seqb k k2).
        -- destruct H as [<-|H].
           ++ cbn in Hn. apply in_app_or in Hn. destruct Hn as [Hn|[<-|[]]]; [|exact L].
              apply (O1 (k2, l2) (or_introl eq_refl) n Hn).
           ++ apply (O1 it (or_intror H) n Hn).
        -- destruct H as [<-|H].
           ++ apply (O1 (k2, l2) (or_introl eq_refl) n Hn).
           ++ apply (IH (fun x Hx => O1 x (or_intror Hx)) it H n Hn).
Qed.
Lemma Sorted_snoc l n : Sorted le l -> (forall x, In x l -> x <= n) -> Sorted le (l ++ [n]).
Proof.
  induction l as [|a l IH]; intros S B; cbn; [repeat constructor|].
  inversion S as [|? ? S1 S2]. subst. constructor; [apply IH; [exact S1 | intros; apply B; right; assumption]|].
  destruct l as [|b l]; cbn; constructor; [apply B; left; reflexivity | inversion S2; assumption].
Qed.
(** Adding one key of the last alternative. *)
Lemma put_inv maps n p k d : (forall m q, In (m, q) maps -> m < n) ->
  inv (maps ++ [(n, p)]) d -> inv (maps ++ [(n, p ++ [k])]) (put d k n).
Proof.
  intros B I. assert (Bd : forall it x, In it d -> In x (snd it) -> x <= n).
  { intros [k0 l0] x H Hx. apply (i_in _ _ I k0 l0 x H) in Hx. destruct Hx as (q & H1 & _). apply in_app_or in H1.
    destruct H1 as [H1|[[= <- <-]|[]]]; [apply B in H1; lia | lia]. }
  constructor.
  - rewrite put_keys. destruct (existsb (seqb k) (map fst d)) eqn:E; [apply I|].
    assert (F : ~ In k (map fst d)) by (rewrite <- existsb_In; congruence).
    generalize (i_keys _ _ I) F. generalize (map fst d) as ks. clear. induction ks as [|a ks IH]; cbn; intros N F; [repeat constructor; tauto|].
    inversion N. subst. constructor; [rewrite in_app_iff; cbn; intuition congruence | apply IH; tauto].
  - apply put_ord; [exact Bd | apply I | apply I].
  - intros it H. apply put_In in H; [|apply I]. destruct H as [[H _]|[(l & _ & ->)|[_ ->]]]; [apply (i_some _ _ I); exact H | |].
    + cbn. destruct l; discriminate.
    + discriminate.
  - intros it H. apply put_In in H; [|apply I]. destruct H as [[H _]|[(l & H & ->)|[_ ->]]]; [apply (i_sort _ _ I); exact H | |].
    + cbn. apply Sorted_snoc; [apply (i_sort _ _ I (k, l) H) | intros x Hx; apply (Bd (k, l) x H Hx)].
    + repeat constructor.
  - intros k0 l0 x H. apply put_In in H; [|apply I]. destruct H as [[H D]|[(l & H & [= -> ->])|[F [= -> ->]]]].
    + rewrite (i_in _ _ I k0 l0 x H). cbn in D. split; intros (q & H1 & H2); apply in_app_or in H1.
      * destruct H1 as [H1|[[= <- <-]|[]]]; [exists q; split; [apply in_or_app; left; exact H1 | exact H2]|].
        exists (p ++ [k]). split; [apply in_or_app; right; left; reflexivity | apply in_or_app; left; exact H2].
      * destruct H1 as [H1|[[= <- <-]|[]]]; [exists q; split; [apply in_or_app; left; exact H1 | exact H2]|].
        exists p. split; [apply in_or_app; right; left; reflexivity|]. apply in_app_or in H2. destruct H2 as [H2|[<-|[]]]; [exact H2 | congruence].
    + rewrite in_app_iff, (i_in _ _ I k l x H). split.
      * intros [(q & H1 & H2)|[<-|[]]].
        -- apply in_app_or in H1. destruct H1 as [H1|[[= <- <-]|[]]]; [exists q; split; [apply in_or_app; left; exact H1 | exact H2]|].
           exists (p ++ [k]). split; [apply in_or_app; right; left; reflexivity | apply in_or_app; left; exact H2].
        -- exists (p ++ [k]). split; apply in_or_app; right; left; reflexivity.
      * intros (q & H1 & H2). apply in_app_or in H1. destruct H1 as [H1|[[= <- <-]|[]]]; [left; exists q; split; [apply in_or_app; left; exact H1 | exact H2]|].
        right. left. reflexivity.
    + split.
      * intros [<-|[]]. exists (p ++ [k]). split; apply in_or_app; right; left; reflexivity.
      * intros (q & H1 & H2). apply in_app_or in H1. destruct H1 as [H1|[[= <- <-]|[]]]; [|left; reflexivity].
        exfalso. apply F. apply (i_all _ _ I x q k); [apply in_or_app; left; exact H1 | exact H2].
  - intros m q k0 H1 H2. rewrite put_keys.
    assert (G : k0 = k \/ In k0 (map fst d)).
    { apply in_app_or in H1. destruct H1 as [H1|[[= <- <-]|[]]].
      - right. apply (i_all _ _ I m q k0); [apply in_or_app; left; exact H1 | exact H2].
      - apply in_app_or in H2. destruct H2 as [H2|[<-|[]]]; [|left; reflexivity].
        right. apply (i_all _ _ I n p k0); [apply in_or_app; right; left; reflexivity | exact H2]. }
    destruct (existsb (seqb k) (map fst d)) eqn:E.
    + destruct G as [->|G]; [apply existsb_In; exact E | exact G].
    + apply in_or_app. destruct G as [->|G]; [right; left; reflexivity | left; exact G].
Qed.
Lemma inv_nil_key maps n d : inv maps d -> inv (maps ++ [(n, [])]) d.
Proof.
  intros I. constructor; try apply I.
  - intros k l x H. rewrite (i_in _ _ I k l x H). split; intros (q & H1 & H2).
    + exists q. split; [apply in_or_app; left; exact H1 | exact H2].
    + apply in_app_or in H1. destruct H1 as [H1|[[= <- <-]|[]]]; [exists q; auto | destruct H2].
  - intros m q k H1 H2. apply in_app_or in H1. destruct H1 as [H1|[[= <- <-]|[]]]; [apply (i_all _ _ I m q); assumption | destruct H2].
Qed.
Lemma puts_inv maps n ks p d : (forall m q, In (m, q) maps -> m < n) -> inv (maps ++ [(n, p)]) d ->
  inv (maps ++ [(n, p ++ ks)]) (fold_left (fun d k => put d k n) ks d).
Proof.
  intros B. revert p d. induction ks as [|k ks IH]; intros p d I; cbn; [rewrite app_nil_r; exact I|].
  replace (p ++ k :: ks) with ((p ++ [k]) ++ ks) by (rewrite <- app_assoc; reflexivity).
  apply IH. apply put_inv; assumption.
Qed.
(** Numbers that grow. *)
Definition growing (maps : list (nat * list pystr)) : Prop := StronglySorted lt (map fst maps).
Lemma growing_snoc maps n p : growing (maps ++ [(n, p)]) -> growing maps /\ (forall m q, In (m, q) maps -> m < n).
Proof.
  unfold growing. rewrite map_app. cbn. induction maps as [|[a pa] maps IH]; cbn; intros S.
  - split; [constructor | intros m q []].
  - inversion S as [|? ? S1 S2]. subst. destruct (IH S1) as [I1 I2]. split.
    + constructor; [exact I1|]. apply Forall_app in S2. apply S2.
    + intros m q [[= <- <-]|H]; [|apply I2 with q; exact H].
      apply Forall_app in S2. destruct S2 as [_ S2]. inversion S2. assumption.
Qed.
Lemma lookup_inv maps : growing maps -> inv maps (lookup_of maps).
Proof.
  induction maps as [|[n p] maps IH] using rev_ind; intros G.
  - constructor; cbn; try (intros; tauto); constructor.
  - apply growing_snoc in G. destruct G as [G B]. unfold lookup_of. rewrite fold_left_app. cbn.
    apply (puts_inv maps n p [] _ B). apply inv_nil_key. apply IH. exact G.
Qed.

(** ** compact *)
Definition cleared (E : list pystr) (k : pystr) : bool := existsb (fun e => startswith k e) E.
Definition clears (E : list pystr) (items : table) : table :=
  map (fun it => if cleared E (fst it) then (fst it, []) else it) items.
Lemma cleared_iff E k : cleared E k = true <-> exists e, In e E /\ begins e k.
Proof. unfold cleared. rewrite existsb_exists. split; intros (e & H1 & H2); exists e; (split; [exact H1 | apply starts_iff; exact H2]). Qed.
Lemma clear_clears m E items : clear m (clears E items) = clears (m :: E) items.
Proof.
  unfold clear, clears. rewrite map_map. apply map_ext. intros [k l]. cbn.
  unfold cleared at 2. cbn. fold (cleared E k). destruct (cleared E k) eqn:C; cbn; destruct (startswith k m); cbn; try rewrite C; reflexivity.
Qed.
Lemma shortest_spec items k :
  let m := shortest items k in
  begins m k /\ (m = k \/ exists l, In (m, l) items /\ l <> []) /\
  (forall kk l, In (kk, l) items -> l <> [] -> begins kk m -> kk = m).
Proof.
  cbn. unfold shortest. revert k. induction items as [|[kk l] items IH]; intros k; cbn.
  - split; [apply begins_refl|]. split; [left; reflexivity | intros ? ? []].
  - set (k1 := if negb (null l) && startswith k kk then kk else k).
    destruct (IH k1) as (H1 & H2 & H3). set (m := fold_left _ items k1) in *.
    assert (K : begins k1 k).
    { unfold k1. destruct (negb (null l) && startswith k kk) eqn:E; [|apply begins_refl].
      apply Bool.andb_true_iff in E. apply starts_iff. apply E. }
    split; [apply begins_trans with k1; assumption|]. split.
    + destruct H2 as [->|(q & H2 & H4)]; [|right; exists q; auto].
      unfold k1. destruct (negb (null l) && startswith k kk) eqn:E; [|left; reflexivity].
      apply Bool.andb_true_iff in E. right. exists l. split; [left; reflexivity|]. intros ->. destruct E; discriminate.
    + intros k2 l2 [[= <- <-]|H] N B; [|apply H3 with l2; assumption].
      apply begins_anti; [exact B|]. unfold k1 in H1.
      replace (negb (null l) && startswith k kk) with true in H1; [exact H1|].
      symmetry. apply Bool.andb_true_iff. split; [destruct l; [congruence | reflexivity]|].
      apply starts_iff. apply begins_trans with m; [exact B|]. apply begins_trans with k1; assumption.
Qed.
Lemma clears_In E items k l : In (k, l) (clears E items) -> l <> [] -> In (k, l) items /\ cleared E k = false.
Proof.
  unfold clears. rewrite in_map_iff. intros ([k0 l0] & H & I) N. cbn in H. destruct (cleared E k0) eqn:C; [congruence|].
  injection H as -> ->. auto.
Qed.
Section Compact.
Variable items : table.
Hypothesis some : forall it, In it items -> snd it <> [].
Definition minimal (m : pystr) : Prop := In m (map fst items) /\ forall k, In k (map fst items) -> begins k m -> k = m.
Lemma collect_clears m E : (forall e k, In e E -> begins e k -> ~ begins m k) -> collect m (clears E items) = collect m items.
Proof.
  intros D. unfold collect, clears. rewrite flat_map_concat_map, map_map, <- flat_map_concat_map.
  apply flat_map_ext. intros [k l]. cbn. destruct (cleared E k) eqn:C; [|reflexivity]. cbn.
  destruct (startswith k m) eqn:B; [|reflexivity]. apply cleared_iff in C. destruct C as (e & H1 & H2).
  exfalso. apply (D e k H1 H2). apply starts_iff. exact B.
Qed.
Lemma compact_spec ks E : (forall e, In e E -> minimal e) -> (forall k, In k ks -> In k (map fst items)) ->
  let c := compact ks (clears E items) in
  (forall m acc, In (m, acc) c -> minimal m /\ ~ In m E /\ acc = collect m items) /\
  NoDup (map fst c) /\
  (forall k, In k ks -> exists m, (In m E \/ In m (map fst c)) /\ begins m k).
Proof.
  revert E. induction ks as [|k ks IH]; intros E HE HK; cbn.
  - split; [intros m acc []|]. split; [constructor | intros k []].
  - pose proof (shortest_spec (clears E items) k) as (S1 & S2 & S3). set (m := shortest (clears E items) k) in *. clearbody m.
    rewrite clear_clears.
    destruct (cleared E k) eqn:C.
    + (* nothing left *)
      apply cleared_iff in C. destruct C as (e & C1 & C2).
      assert (M : m = k).
      { destruct S2 as [S2|(l & S2 & S4)]; [exact S2|]. exfalso. apply clears_In in S2; [|exact S4]. destruct S2 as [S2 S5].
        destruct (begins_total m e k S1 C2) as [B|B].
        - assert (Z : m = e) by (apply (proj2 (HE e C1)); [apply in_map_iff; exists (m, l); auto | exact B]). rewrite Z in S5.
          rewrite (proj2 (cleared_iff E e)) in S5; [discriminate|]. exists e. split; [exact C1 | apply begins_refl].
        - rewrite (proj2 (cleared_iff E m)) in S5; [discriminate|]. exists e. auto. }
      assert (N : collect m (clears E items) = []).
      { unfold collect, clears. rewrite flat_map_concat_map, map_map, <- flat_map_concat_map.
        clear - M C1 C2. induction items as [|[k0 l0] d IH]; [reflexivity|]. cbn. rewrite IH, app_nil_r.
        destruct (cleared E k0) eqn:C; cbn; destruct (startswith k0 m) eqn:B; try reflexivity.
        exfalso. apply starts_iff in B. rewrite (proj2 (cleared_iff E k0)) in C; [discriminate|].
        exists e. split; [exact C1|]. apply begins_trans with k; [exact C2 | rewrite <- M; exact B]. }
      rewrite N. cbn.
      assert (Q : clears (m :: E) items = clears E items).
      { unfold clears. apply map_ext. intros [k0 l0]. cbn. unfold cleared at 1. cbn. fold (cleared E k0).
        destruct (startswith k0 m) eqn:B; [|reflexivity]. cbn. apply starts_iff in B.
        rewrite (proj2 (cleared_iff E k0)); [reflexivity|]. exists e. split; [exact C1|].
        apply begins_trans with k; [exact C2 | rewrite <- M; exact B]. }
      rewrite Q. destruct (IH E HE (fun x H => HK x (or_intror H))) as (I1 & I2 & I3).
      split; [exact I1|]. split; [exact I2|]. intros x [<-|H]; [exists e; auto | apply I3; exact H].
    + (* a new key *)
      assert (K : exists l, In (k, l) (clears E items) /\ l <> []).
      { pose proof (HK k (or_introl eq_refl)) as H. apply in_map_iff in H. destruct H as ([k0 l0] & H1 & H2). cbn in H1. subst k0.
        exists l0. split; [|apply (some (k, l0) H2)]. unfold clears. apply in_map_iff. exists (k, l0). cbn. rewrite C. auto. }
      assert (M : exists l, In (m, l) items /\ cleared E m = false).
      { destruct S2 as [S2|(l & S2 & S4)].
        - rewrite S2. destruct K as (l & K1 & K2). exists l. apply clears_In; assumption.
        - exists l. apply clears_In; assumption. }
      destruct M as (lm & M1 & M2).
      assert (MM : minimal m).
      { split; [apply in_map_iff; exists (m, lm); auto|]. intros x Hx B. apply in_map_iff in Hx. destruct Hx as ([x0 lx] & H1 & H2). cbn in H1. subst x0.
        apply S3 with lx; [|apply (some (x, lx) H2) | exact B]. unfold clears. apply in_map_iff. exists (x, lx). cbn.
        destruct (cleared E x) eqn:CX; [|auto]. apply cleared_iff in CX. destruct CX as (e & X1 & X2).
        rewrite (proj2 (cleared_iff E m)) in M2; [discriminate|]. exists e. split; [exact X1 | apply begins_trans with x; assumption]. }
      assert (NE : ~ In m E).
      { intros H. rewrite (proj2 (cleared_iff E m)) in M2; [discriminate|]. exists m. split; [exact H | apply begins_refl]. }
      assert (A : collect m (clears E items) = collect m items).
      { apply collect_clears. intros e x H1 H2 H3. apply NE. destruct (begins_total m e x H3 H2) as [B|B].
        - rewrite ((proj2 (HE e H1)) m (proj1 MM) B). exact H1.
        - rewrite <- ((proj2 MM) e (proj1 (HE e H1)) B). exact H1. }
      rewrite A.
      assert (NN : null (collect m items) = false).
      { destruct (collect m items) eqn:Z; [|reflexivity]. exfalso.
        assert (L : lm <> []) by apply (some (m, lm) M1). destruct lm as [|x lm]; [congruence|].
        assert (X : In x (collect m items)); [|rewrite Z in X; destruct X].
        unfold collect. apply in_flat_map. exists (m, x :: lm). split; [exact M1|]. cbn.
        rewrite (proj2 (starts_iff m m) (begins_refl m)). left. reflexivity. }
      rewrite NN. cbn.
      destruct (IH (m :: E)) as (I1 & I2 & I3).
      * intros e [<-|H]; [exact MM | apply HE; exact H].
      * intros x H. apply HK. right. exact H.
      * split; [|split].
        -- intros m0 acc [[= <- <-]|H]; [auto|]. destruct (I1 m0 acc H) as (J1 & J2 & J3). split; [exact J1|]. split; [|exact J3].
           intros F. apply J2. right. exact F.
        -- constructor; [|exact I2]. intros F. apply in_map_iff in F. destruct F as ([m0 acc] & F1 & F2). cbn in F1. subst m0.
           destruct (I1 m acc F2) as (_ & J & _). apply J. left. reflexivity.
        -- intros x [<-|H]; [exists m; auto|]. destruct (I3 x H) as (m0 & [[J|J]|J] & B); exists m0; split; auto.
Qed.
End Compact.

(** ** Shorter keys *)
Lemma distinct_sym a b : distinct a b = distinct b a.
Proof. revert b. induction a as [|x a IH]; intros [|y b]; cbn; try reflexivity. rewrite N.eqb_sym. destruct (N.eqb y x); [rewrite IH|]; reflexivity. Qed.
Lemma distinct_excl a b : ~ begins a b -> ~ begins b a -> forall n m t, distinct a b <= n -> distinct a b <= m ->
  begins (firstn n a) t -> begins (firstn m b) t -> False.
Proof.
  revert b. induction a as [|x a IH]; intros b A B n m t N M H1 H2.
  - apply A. exists b. reflexivity.
  - destruct b as [|y b]; [apply B; exists (x :: a); reflexivity|].
    cbn in N, M. destruct (N.eqb x y) eqn:E.
    + apply N.eqb_eq in E. subst y. destruct n as [|n]; [lia|]. destruct m as [|m]; [lia|]. cbn in H1, H2.
      destruct H1 as [r ->]. destruct H2 as [q E]. cbn in E. injection E as E.
      apply (IH b) with n m (firstn n a ++ r); try lia.
      * intros [z ->]. apply A. exists z. reflexivity.
      * intros [z ->]. apply B. exists z. reflexivity.
      * exists r. reflexivity.
      * exists q. exact E.
    + destruct n as [|n]; [lia|]. destruct m as [|m]; [lia|]. cbn in H1, H2.
      destruct H1 as [r ->]. destruct H2 as [q F]. cbn in F. injection F as -> _. rewrite N.eqb_refl in E. discriminate.
Qed.
Definition short (c : table) (it : pystr * list nat) : pystr :=
  firstn (list_max (map (distinct (fst it)) (others c (fst it)))) (fst it).
Lemma others_max c a b : In b (map fst c) -> b <> a -> distinct a b <= list_max (map (distinct a) (others c a)).
Proof.
  intros H D. assert (F : In (distinct a b) (map (distinct a) (others c a))).
  { apply in_map. unfold others. apply filter_In. split; [exact H|]. destruct (seqb b a) eqn:E; [apply seqb_iff in E; congruence | reflexivity]. }
  pose proof (proj1 (list_max_le (map (distinct a) (others c a)) _) (le_n _)) as G. rewrite Forall_forall in G. apply G. exact F.
Qed.
Lemma firstn_begins n (k : pystr) : begins (firstn n k) k.
Proof. exists (skipn n k). symmetry. apply firstn_skipn. Qed.
Lemma short_excl c a b t : (forall x y, In x (map fst c) -> In y (map fst c) -> begins x y -> x = y) ->
  In a c -> In b c -> begins (short c a) t -> begins (short c b) t -> fst a = fst b.
Proof.
  intros P Ha Hb B1 B2. destruct (list_eq_dec N.eq_dec (fst a) (fst b)) as [E|D]; [exact E|]. exfalso.
  apply in_map with (f := fst) in Ha. apply in_map with (f := fst) in Hb.
  apply (distinct_excl (fst a) (fst b)) with (list_max (map (distinct (fst a)) (others c (fst a)))) (list_max (map (distinct (fst b)) (others c (fst b)))) t.
  - intros H. apply D. apply P; assumption.
  - intros H. apply D. symmetry. apply P; assumption.
  - apply others_max; [exact Hb | congruence].
  - rewrite distinct_sym. apply others_max; [exact Ha | congruence].
  - exact B1.
  - exact B2.
Qed.

(** ** The order of the alternatives under a key *)
Lemma split_first {A} (P : A -> Prop) (dec : forall x, P x \/ ~ P x) l : (exists x, In x l /\ P x) ->
  exists l1 x l2, l = l1 ++ x :: l2 /\ P x /\ forall y, In y l1 -> ~ P y.
Proof.
  induction l as [|a l IH]; intros (x & H & HP); [destruct H|].
  destruct (dec a) as [D|D]; [exists [], a, l; split; [reflexivity | split; [exact D | intros y []]]|].
  destruct IH as (l1 & z & l2 & E1 & E2 & E3).
  - destruct H as [->|H]; [contradiction | exists x; auto].
  - exists (a :: l1), z, l2. rewrite E1. split; [reflexivity|]. split; [exact E2|]. intros y [<-|F]; [exact D | apply E3; exact F].
Qed.
Lemma ord_app {A} (R : A -> A -> Prop) l1 l2 x y : ForallOrdPairs R (l1 ++ l2) -> In x l1 -> In y l2 -> R x y.
Proof.
  induction l1 as [|a l1 IH]; intros O H1 H2; [destruct H1|]. cbn in O. inversion O as [|? ? O1 O2]. subst. rewrite Forall_forall in O1.
  destruct H1 as [->|H1]; [apply O1; apply in_or_app; right; exact H2 | apply IH; assumption].
Qed.
Lemma sorted_app l1 n l2 a : Sorted le (l1 ++ n :: l2) -> In a l1 -> a <= n.
Proof.
  intros S H. apply Sorted_StronglySorted in S; [|intros x y z; lia]. induction l1 as [|b l1 IH]; [destruct H|].
  cbn in S. inversion S as [|? ? S1 S2]. subst. rewrite Forall_forall in S2. destruct H as [->|H].
  - apply S2. apply in_or_app. right. left. reflexivity.
  - apply IH; assumption.
Qed.
(** An order of runs, on numbered alternatives. *)
Definition tidy_maps (maps : list (nat * list pystr)) : Prop :=
  forall c n a pc pn pa x y m, In (c, pc) maps -> In (n, pn) maps -> In (a, pa) maps -> c < n -> n < a ->
  In y pc -> In y pa -> In x pn -> (exists q p, In (q, p) maps /\ In m p) -> begins m x -> begins m y -> In y pn.
Lemma unique maps n p q : growing maps -> In (n, p) maps -> In (n, q) maps -> p = q.
Proof.
  unfold growing. induction maps as [|[a r] maps IH]; cbn; intros G H1 H2; [destruct H1|].
  inversion G as [|? ? G1 G2]. subst. rewrite Forall_forall in G2.
  destruct H1 as [H1|H1], H2 as [H2|H2]; try (injection H1 as -> ->); try (injection H2 as E1 E2).
  - congruence.
  - apply (in_map fst) in H2. apply G2 in H2. cbn in H2. lia.
  - subst. apply (in_map fst) in H1. apply G2 in H1. cbn in H1. lia.
  - apply IH; assumption.
Qed.
Lemma collect_order maps m n : growing maps -> tidy_maps maps -> In m (map fst (lookup_of maps)) -> In n (collect m (lookup_of maps)) ->
  exists l1 l2, collect m (lookup_of maps) = l1 ++ n :: l2 /\ forall a, In a l1 -> a < n.
Proof.
  intros G TD HM H. pose proof (lookup_inv maps G) as I. set (items := lookup_of maps) in *. unfold collect in *.
  set (g := fun it : pystr * list nat => if startswith (fst it) m then snd it else []) in *.
  destruct (split_first (fun it => In n (g it))) with (l := items) as (A & it & B & E & P & Q).
  - intros it. destruct (in_dec Nat.eq_dec n (g it)); [left | right]; assumption.
  - apply in_flat_map in H. destruct H as (it & H1 & H2). exists it. auto.
  - destruct (split_first (fun x => x = n)) with (l := g it) as (u & x & v & EU & -> & QU).
    + intros x. destruct (Nat.eq_dec x n); [left | right]; assumption.
    + exists n. auto.
    + exists (flat_map g A ++ u), (v ++ flat_map g B). split.
      { rewrite E, flat_map_app. cbn. rewrite EU. rewrite <- !app_assoc. reflexivity. }
      assert (Hit : In it items) by (rewrite E; apply in_or_app; right; left; reflexivity).
      assert (GI : g it = snd it /\ begins m (fst it)).
      { unfold g in *. destruct (startswith (fst it) m) eqn:Z; [split; [reflexivity | apply starts_iff; exact Z] | destruct P]. }
      destruct GI as [GI BI].
      intros a Ha. apply in_app_or in Ha. destruct Ha as [Ha|Ha].
      * apply in_flat_map in Ha. destruct Ha as (jt & J1 & J2).
        assert (Hjt : In jt items) by (rewrite E; apply in_or_app; left; exact J1).
        assert (GJ : g jt = snd jt /\ begins m (fst jt)).
        { unfold g in J2 |- *. destruct (startswith (fst jt) m) eqn:Z; [split; [reflexivity | apply starts_iff; exact Z] | destruct J2]. }
        destruct GJ as [GJ BJ]. rewrite GJ in J2.
        pose proof (Q jt J1) as NJ. rewrite GJ in NJ. rewrite GI in P.
        pose proof (i_ord _ _ I) as O. rewrite E in O.
        pose proof (ord_app before A (it :: B) jt it O J1 (or_introl eq_refl)) as R.
        destruct (R n P) as (c & C1 & C2).
        destruct (Nat.lt_trichotomy a n) as [L|[->|L]]; [exact L | contradiction|]. exfalso. apply NJ.
        assert (c <> n) by (intros ->; contradiction).
        destruct jt as [y ly], it as [x lx]. cbn in *.
        apply (i_in _ _ I y ly c Hjt) in C1. destruct C1 as (pc & C1 & C3).
        apply (i_in _ _ I y ly a Hjt) in J2. destruct J2 as (pa & J2 & J3).
        pose proof P as P'. apply (i_in _ _ I x lx n Hit) in P'. destruct P' as (pn & P1 & P2).
        apply (i_in _ _ I y ly n Hjt). exists pn. split; [exact P1|].
        apply in_map_iff in HM. destruct HM as ([m0 lm] & HM1 & HM2). cbn in HM1. subst m0.
        pose proof (i_some _ _ I _ HM2) as NM. destruct lm as [|q lm]; [cbn in NM; congruence|].
        destruct (proj1 (i_in _ _ I m (q :: lm) q HM2) (or_introl eq_refl)) as (pq & Q1 & Q2).
        apply TD with c n a pc pa x m; try assumption; [lia | exists q, pq; auto].
      * assert (a <= n). { apply (sorted_app u n v a); [|exact Ha]. rewrite <- EU, GI. apply (i_sort _ _ I). exact Hit. }
        assert (a <> n) by (apply QU; exact Ha). lia.
Qed.
