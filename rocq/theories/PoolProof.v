From Coq Require Import List Arith NArith ZArith Bool Lia Permutation.
From Coq Require Import ZifyBool ZifyNat.
From Verif Require Import SteadyModel PoolModel PoolSpec.
Import ListNotations.

(** ** Lists *)

Definition cnt (x : nat) (l : list nat) : nat := count_occ Nat.eq_dec l x.

Lemma cnt_app : forall x a b, cnt x (a ++ b) = cnt x a + cnt x b.
Proof. intros. apply count_occ_app. Qed.
Lemma cnt_one : forall x i, cnt x [i] = if Nat.eqb i x then 1 else 0.
Proof. intros. unfold cnt. cbn. destruct (Nat.eq_dec i x), (Nat.eqb_spec i x); congruence. Qed.
Lemma cnt_cons : forall x i l, cnt x (i :: l) = (if Nat.eqb i x then 1 else 0) + cnt x l.
Proof. intros. rewrite <- cnt_one, <- cnt_app. reflexivity. Qed.
Lemma cnt_nil : forall x, cnt x [] = 0.
Proof. reflexivity. Qed.
Arguments cnt : simpl never.
Lemma cnt_In : forall x l, 0 < cnt x l <-> In x l.
Proof. intros. unfold cnt. symmetry. apply (count_occ_In Nat.eq_dec). Qed.

Lemma upd_length : forall A i (x : A) l, length (upd i x l) = length l.
Proof. induction i; destruct l; cbn; auto. Qed.
Lemma nth_upd_same : forall A i (x d : A) l, i < length l -> nth i (upd i x l) d = x.
Proof. induction i; destruct l; cbn; intros; try lia; auto. apply IHi. lia. Qed.
Lemma nth_upd_other : forall A i j (x d : A) l, i <> j -> nth j (upd i x l) d = nth j l d.
Proof. induction i; destruct l, j; cbn; intros; try congruence; auto. Qed.
Lemma upd_out : forall A i (x : A) l, length l <= i -> upd i x l = l.
Proof. induction i; destruct l; cbn; intros; try lia; auto. f_equal. apply IHi. lia. Qed.

Lemma cnt_flat_upd : forall A (f : A -> list nat) x i y d l, i < length l ->
  cnt x (flat_map f (upd i y l)) + cnt x (f (nth i l d)) = cnt x (flat_map f l) + cnt x (f y).
Proof.
  induction i; destruct l; cbn; intros; try lia; rewrite !cnt_app; [lia |].
  specialize (IHi y d l). lia.
Qed.
Lemma len_flat_upd : forall A (f : A -> list nat) i y d l, i < length l ->
  length (flat_map f (upd i y l)) + length (f (nth i l d)) = length (flat_map f l) + length (f y).
Proof.
  induction i; destruct l; cbn; intros; try lia; rewrite !app_length; [lia |].
  specialize (IHi y d l). lia.
Qed.
Lemma filter_upd : forall A (f : A -> bool) i y d l, i < length l ->
  length (filter f (upd i y l)) + (if f (nth i l d) then 1 else 0) =
  length (filter f l) + (if f y then 1 else 0).
Proof.
  induction i; destruct l; cbn; intros; try lia.
  - destruct (f y), (f a); cbn; lia.
  - specialize (IHi y d l). destruct (f a); cbn; lia.
Qed.
Lemma nth_in_len : forall A (l : list A) i d, nth i l d <> d -> i < length l.
Proof. intros A l i d H. destruct (Nat.ltb_spec i (length l)); [easy |]. rewrite nth_overflow in H; easy. Qed.

(** ** The structural part of a pool *)

Definition core (p : pool) :=
  (length (p_cons p), p_objs p, p_idle p, p_cache p, p_count p, p_hand p, p_rel p).

Record SInv (q : pcfg) (p : pool) : Prop := {
  si_one : forall x, cnt x (p_idle p) + cnt x (held p) + cnt x (p_rel p) + cnt x (shared_out p) <= 1;
  si_lt : forall x, 0 < cnt x (p_idle p) + cnt x (held p) + cnt x (p_rel p) + cnt x (shared_out p) -> x < length (p_cons p);
  si_shares : forall o, snd (obj_at p o) = holders p o;
  si_cache : NoDup (p_cache p);
  si_live : forall o, In o (p_cache p) -> 0 < snd (obj_at p o);
  si_idle : q_maxcached q <> 0 -> length (p_idle p) <= q_maxcached q;
  si_maxsh : length (p_cache p) <= q_maxshared q }.

(** Holds as long as the pool has not been closed. *)
Record NInv (q : pcfg) (p : pool) : Prop := {
  ni_live : forall o, 0 < snd (obj_at p o) -> In o (p_cache p);
  ni_len : length (shared_out p) = length (p_cache p);
  ni_lim : q_maxconn q <> 0 -> length (held p) + Nat.min 1 (length (p_cache p)) <= q_maxconn q }.

(** The counter, with [D] connections dropped by closing the pool. *)
Definition CInv (D : nat) (p : pool) : Prop :=
  (p_count p + Z.of_nat D = Z.of_nat (length (held p)) + Z.of_nat (length (p_rel p)) + Z.of_nat (length (shared_out p)))%Z.

(** Accounting kept, and no connection in more places than before. *)
Definition places (p : pool) (x : nat) : nat :=
  cnt x (p_idle p) + cnt x (held p) + cnt x (p_rel p) + cnt x (shared_out p).
Definition Keeps (p p' : pool) : Prop :=
  (forall D, CInv D p -> CInv D p') /\ (forall x, x < length (p_cons p) -> places p' x <= places p x).

Lemma core_fields : forall p p', core p = core p' ->
  length (p_cons p) = length (p_cons p') /\ p_objs p = p_objs p' /\ p_idle p = p_idle p' /\
  p_cache p = p_cache p' /\ p_count p = p_count p' /\ p_hand p = p_hand p' /\ p_rel p = p_rel p'.
Proof. intros p p' H. unfold core in H. injection H as -> -> -> -> -> -> ->. auto 10. Qed.

Ltac core_rw H :=
  let A := fresh in pose proof (core_fields _ _ H) as A;
  destruct A as (? & ? & ? & ? & ? & ? & ?).

Lemma SInv_core : forall q p p', core p = core p' -> SInv q p -> SInv q p'.
Proof.
  intros q p p' H S. core_rw H. destruct S as [A B C D E F G].
  unfold held, shared_out, holders, obj_at in *.
  constructor; unfold held, shared_out, holders, obj_at;
    rewrite <- ?H0, <- ?H1, <- ?H2, <- ?H3, <- ?H5, <- ?H6; assumption.
Qed.
Lemma NInv_core : forall q p p', core p = core p' -> NInv q p -> NInv q p'.
Proof.
  intros q p p' H S. core_rw H. destruct S as [A B C].
  unfold held, shared_out, holders, obj_at in *.
  constructor; unfold held, shared_out, holders, obj_at;
    rewrite <- ?H0, <- ?H1, <- ?H2, <- ?H3, <- ?H5, <- ?H6; assumption.
Qed.
Lemma CInv_core : forall D p p', core p = core p' -> CInv D p -> CInv D p'.
Proof.
  intros q p p' H S. core_rw H. unfold CInv, held, shared_out in *.
  rewrite <- H4, <- H1, <- H5, <- H6. exact S.
Qed.

Lemma core_on_con : forall A i (m : M A) p, core (snd (on_con i m p)) = core p.
Proof.
  intros A i m p. unfold on_con. destruct (m _) as [o s]. unfold core. cbn. rewrite upd_length. reflexivity.
Qed.
Lemma core_notify : forall p, core (notify p) = core p.
Proof. intros p. unfold notify. destruct (p_wait p); reflexivity. Qed.
Lemma core_threads : forall w k p, core (set_threads w k p) = core p.
Proof. reflexivity. Qed.

Section Struct.
Variable q : pcfg.
Variable drv : nat -> answer.

(** [take_con] *)
Lemma take_con_struct : forall p r p1, take_con q drv p = (r, p1) ->
  p_objs p1 = p_objs p /\ p_cache p1 = p_cache p /\ p_count p1 = p_count p /\
  p_hand p1 = p_hand p /\ p_rel p1 = p_rel p /\
  match r with
  | Ret i => (p_idle p = i :: p_idle p1 /\ length (p_cons p1) = length (p_cons p)) \/
             (p_idle p = [] /\ p_idle p1 = [] /\ i = length (p_cons p) /\ length (p_cons p1) = S (length (p_cons p)))
  | Raise _ => p_idle p1 = p_idle p /\ length (p_cons p1) = length (p_cons p)
  end.
Proof.
  intros p r p1 H. unfold take_con in H. destruct (p_idle p) as [| i l] eqn:I.
  - destruct (connect _ _ _) as [[u | e] s]; injection H as <- <-; cbn; rewrite ?app_length; cbn.
    + do 5 (split; [reflexivity |]). right. rewrite Nat.add_1_r. auto.
    + do 5 (split; [reflexivity |]). auto.
  - injection H as <- <-.
    pose proof (core_on_con _ i (ping_check (q_cfg q) drv 1) (set_idle l p)) as C.
    core_rw C. cbn in *. do 5 (split; [assumption |]). left. split; congruence.
Qed.

Lemma held_app : forall p h, held (set_hand (p_hand p ++ [h]) p) =
  held p ++ match h with HDed i => [i] | _ => [] end.
Proof. intros. unfold held. cbn. rewrite flat_map_app. cbn. rewrite app_nil_r. reflexivity. Qed.

Lemma holders_hand : forall p1 p2 o, p_hand p1 = p_hand p2 -> holders p1 o = holders p2 o.
Proof. intros. unfold holders. rewrite H. reflexivity. Qed.

Lemma holders_app : forall p h o, holders (set_hand (p_hand p ++ [h]) p) o =
  holders p o + match h with HShared x => if Nat.eqb x o then 1 else 0 | _ => 0 end.
Proof.
  intros. unfold holders. cbn. rewrite filter_app, app_length. cbn.
  destruct h as [i | x |]; cbn; try lia. destruct (Nat.eqb x o); cbn; lia.
Qed.

(** A dedicated connection is given out. *)
Lemma give_ded_inv : forall p i p1, take_con q drv p = (Ret i, p1) ->
  SInv q p -> SInv q (snd (give (HDed i) (add_count 1 p1))) /\
  (NInv q p -> full q p = false -> CInv 0 p -> NInv q (snd (give (HDed i) (add_count 1 p1)))) /\
  Keeps p (snd (give (HDed i) (add_count 1 p1))) /\
  cnt i (held p) = 0.
Proof.
  intros p i p1 H S. destruct (take_con_struct _ _ _ H) as (Eo & Ec & En & Eh & Er & X).
  unfold give. cbn [snd]. set (p2 := add_count 1 p1). set (p3 := set_hand (p_hand p2 ++ [HDed i]) p2).
  assert (Hh : held p3 = held p ++ [i]).
  { unfold p3. rewrite held_app. unfold held, p2. cbn. rewrite Eh. reflexivity. }
  assert (Hs : shared_out p3 = shared_out p) by (unfold shared_out; cbn; rewrite Eo; reflexivity).
  assert (Ho : forall o, obj_at p3 o = obj_at p o) by (intros; unfold obj_at; cbn; rewrite Eo; reflexivity).
  assert (Hr : p_rel p3 = p_rel p) by (cbn; exact Er).
  assert (Hc : p_cache p3 = p_cache p) by (cbn; exact Ec).
  assert (Hk : p_count p3 = (p_count p + 1)%Z) by (cbn; rewrite En; reflexivity).
  assert (Hi : p_idle p3 = p_idle p1) by reflexivity.
  assert (Hn : length (p_cons p3) = length (p_cons p1)) by reflexivity.
  assert (Hd : forall o, holders p3 o = holders p o).
  { intros o. unfold p3. rewrite holders_app. rewrite Nat.add_0_r. apply holders_hand. cbn. exact Eh. }
  clearbody p3. clear p2.
  assert (Z0 : cnt i (held p) + cnt i (p_rel p) + cnt i (shared_out p) = 0 /\
     forall x, cnt x (p_idle p1) + (if Nat.eqb i x then 1 else 0) <= cnt x (p_idle p) + (if Nat.eqb i x then if Nat.eqb i (length (p_cons p)) then 1 else 0 else 0)).
  { destruct S as [A B _ _ _ _ _]. destruct X as [(I1 & I2) | (I1 & I2 & I3 & I4)].
    - specialize (A i). rewrite I1, cnt_cons, Nat.eqb_refl in A. split; [lia |].
      intros x. rewrite I1, cnt_cons. destruct (Nat.eqb i x); try destruct (Nat.eqb i _); lia.
    - specialize (B i). rewrite I1, cnt_nil in B. split.
      + destruct (cnt i (held p) + cnt i (p_rel p) + cnt i (shared_out p)) eqn:Q; [easy |]. lia.
      + intros x. rewrite I1, I2, <- I3, Nat.eqb_refl. lia. }
  destruct Z0 as [Z0 Z1].
  split; [| split; [| split]].
  - destruct S as [A B C D E F G]. constructor.
    + intros x. rewrite Hi, Hh, Hr, Hs, cnt_app, cnt_one. specialize (Z1 x). specialize (A x).
      destruct (Nat.eqb_spec i x) as [<- | N]; [| lia].
      destruct X as [(I1 & I2) | (I1 & I2 & I3 & I4)].
      * rewrite I1, cnt_cons, Nat.eqb_refl in A. lia.
      * rewrite I2, cnt_nil. lia.
    + intros x. rewrite Hi, Hh, Hr, Hs, Hn, cnt_app, cnt_one. specialize (B x). intros L.
      destruct X as [(I1 & I2) | (I1 & I2 & I3 & I4)].
      * rewrite I2. apply B. rewrite I1, cnt_cons. destruct (Nat.eqb i x); lia.
      * rewrite I4. rewrite I2, cnt_nil in L. rewrite I1, cnt_nil in B.
        destruct (Nat.eqb_spec i x); [lia |]. specialize (B ltac:(lia)). lia.
    + intros o. rewrite Ho, Hd. apply C.
    + rewrite Hc. exact D.
    + intros o. rewrite Hc, Ho. apply E.
    + rewrite Hi. intros M. specialize (F M). destruct X as [(I1 & I2) | (I1 & I2 & I3 & I4)].
      * rewrite I1 in F. cbn in F. lia.
      * rewrite I2. cbn. lia.
    + rewrite Hc. exact G.
  - intros [A B C] Fu K. constructor.
    + intros o. rewrite Hc, Ho. apply A.
    + rewrite Hc, Hs. exact B.
    + intros M. rewrite Hh, Hc, app_length. cbn [length]. specialize (C M). unfold full in Fu.
      unfold CInv in K. rewrite B in K. lia.
  - split; [intros D K; unfold CInv in *; rewrite Hk, Hh, Hr, Hs, app_length; cbn [length]; lia |].
    intros x L. unfold places. rewrite Hi, Hh, Hr, Hs, cnt_app, cnt_one. specialize (Z1 x).
    destruct (Nat.eqb_spec i x); destruct (Nat.eqb_spec i (length (p_cons p))); lia.
  - lia.
Qed.

(** A new shared object is given out. *)
Lemma give_new_inv : forall p i p1, take_con q drv p = (Ret i, p1) ->
  length (p_cache p) < q_maxshared q ->
  let o := length (p_objs p1) in
  let p2 := add_count 1 (set_objs (p_objs p1 ++ [(i, 1)]) p1) in
  let p3 := snd (give (HShared o) (notify (set_cache (p_cache p2 ++ [o]) p2))) in
  SInv q p -> SInv q p3 /\
  (NInv q p -> (Nat.eqb (length (p_cache p)) 0 && full q p = false) -> CInv 0 p -> NInv q p3) /\
  Keeps p p3.
Proof.
  intros p i p1 H LT o p2 p3 S. destruct (take_con_struct _ _ _ H) as (Eo & Ec & En & Eh & Er & X).
  set (p4 := set_cache (p_cache p2 ++ [o]) p2) in *.
  pose proof (core_notify p4) as CN. core_rw CN.
  assert (Eo' : p_objs p3 = p_objs p ++ [(i, 1)]) by (unfold p3; cbn; rewrite H1; cbn; rewrite Eo; reflexivity).
  assert (Hc : p_cache p3 = p_cache p ++ [o]) by (unfold p3; cbn; rewrite H3; cbn; rewrite Ec; reflexivity).
  assert (Hk : p_count p3 = (p_count p + 1)%Z) by (unfold p3; cbn; rewrite H4; cbn; rewrite En; reflexivity).
  assert (Hr : p_rel p3 = p_rel p) by (unfold p3; cbn; rewrite H6; cbn; exact Er).
  assert (Hi : p_idle p3 = p_idle p1) by (unfold p3; cbn; rewrite H2; reflexivity).
  assert (Hn : length (p_cons p3) = length (p_cons p1)) by (unfold p3; cbn; rewrite H0; reflexivity).
  assert (Hhd : p_hand p3 = p_hand p ++ [HShared o]) by (unfold p3; cbn; rewrite H5; cbn; rewrite Eh; reflexivity).
  assert (Oo : o = length (p_objs p)) by (unfold o; rewrite Eo; reflexivity).
  clearbody p3 o. clear CN H0 H1 H2 H3 H4 H5 H6 p4 p2.
  assert (Hh : held p3 = held p) by (unfold held; rewrite Hhd, flat_map_app; cbn; apply app_nil_r).
  assert (Hs : shared_out p3 = shared_out p ++ [i]) by (unfold shared_out; rewrite Eo', flat_map_app; reflexivity).
  assert (Ho : forall x, obj_at p3 x = if Nat.eqb x o then (i, 1) else obj_at p x).
  { intros x. unfold obj_at. rewrite Eo', Oo. destruct (Nat.eqb_spec x (length (p_objs p))) as [-> | N].
    - rewrite app_nth2, Nat.sub_diag by lia. reflexivity.
    - destruct (Nat.ltb_spec x (length (p_objs p))).
      + rewrite app_nth1 by lia. reflexivity.
      + rewrite !nth_overflow; [easy | lia | rewrite app_length; cbn; lia]. }
  assert (Hd : forall x, holders p3 x = holders p x + if Nat.eqb x o then 1 else 0).
  { intros x. unfold holders. rewrite Hhd, filter_app, app_length. cbn. rewrite (Nat.eqb_sym o x).
    destruct (Nat.eqb x o); cbn; lia. }
  assert (O0 : snd (obj_at p o) = 0) by (unfold obj_at; rewrite nth_overflow by lia; reflexivity).
  assert (NC : ~ In o (p_cache p)) by (intros I; apply (si_live _ _ S) in I; lia).
  split; [| split].
  - destruct S as [A B C D E F G]. constructor.
    + intros x. rewrite Hi, Hh, Hr, Hs, cnt_app, cnt_one. pose proof (A x) as Ax.
      destruct X as [(I1 & I2) | (I1 & I2 & I3 & I4)].
      * rewrite I1, cnt_cons in Ax. destruct (Nat.eqb i x); lia.
      * rewrite I2, cnt_nil. rewrite I1, cnt_nil in Ax. destruct (Nat.eqb_spec i x); [| lia].
        specialize (B x). rewrite I1, cnt_nil in B.
        destruct (cnt x (held p) + cnt x (p_rel p) + cnt x (shared_out p)) eqn:Q; lia.
    + intros x. rewrite Hi, Hh, Hr, Hs, Hn, cnt_app, cnt_one. specialize (B x). intros L.
      destruct X as [(I1 & I2) | (I1 & I2 & I3 & I4)].
      * rewrite I2. apply B. rewrite I1, cnt_cons. destruct (Nat.eqb i x); lia.
      * rewrite I4. rewrite I2, cnt_nil in L. rewrite I1, cnt_nil in B.
        destruct (Nat.eqb_spec i x); [lia |]. specialize (B ltac:(lia)). lia.
    + intros x. rewrite Ho, Hd. destruct (Nat.eqb_spec x o) as [-> | N]; cbn.
      * rewrite <- C, O0. lia.
      * rewrite C. lia.
    + rewrite Hc. eapply Permutation_NoDup; [apply Permutation_cons_append |]. constructor; assumption.
    + intros x. rewrite Hc, Ho, in_app_iff. intros [I | [<- | []]].
      * destruct (Nat.eqb_spec x o); [cbn; lia |]. apply E, I.
      * rewrite Nat.eqb_refl. cbn. lia.
    + rewrite Hi. intros M. specialize (F M). destruct X as [(I1 & I2) | (I1 & I2 & I3 & I4)].
      * rewrite I1 in F. cbn in F. lia.
      * rewrite I2. cbn. lia.
    + rewrite Hc, app_length. cbn. lia.
  - intros [A B C] Fu K. constructor.
    + intros x. rewrite Hc, Ho, in_app_iff. destruct (Nat.eqb_spec x o) as [-> | N]; cbn; auto.
    + rewrite Hc, Hs, !app_length. cbn. lia.
    + intros M. rewrite Hh, Hc, app_length. cbn [length]. specialize (C M).
      unfold CInv in K. rewrite B in K.
      unfold full in Fu. destruct (length (p_cache p)) eqn:L; cbn [Nat.eqb andb] in Fu; lia.
  - split; [intros D K; unfold CInv in *; rewrite Hk, Hh, Hr, Hs, app_length; cbn [length]; lia |].
    intros x L. unfold places. rewrite Hi, Hh, Hr, Hs, cnt_app, cnt_one.
    destruct X as [(I1 & I2) | (I1 & I2 & I3 & I4)].
    + rewrite I1, cnt_cons. lia.
    + rewrite I1, I2. destruct (Nat.eqb_spec i x); lia.
Qed.

(** The sort is a permutation. *)
Lemma insert_perm : forall p x l, Permutation (insert_obj p x l) (x :: l).
Proof.
  induction l as [| y l IH]; cbn; [easy |]. destruct (obj_lt p y x); [| easy].
  rewrite IH. apply perm_swap.
Qed.
Lemma sort_perm : forall p l, Permutation (sort_objs p l) l.
Proof. induction l as [| x l IH]; cbn; [easy |]. rewrite insert_perm, IH. easy. Qed.

(** A permuted shared cache. *)
Lemma perm_cache_inv : forall p l, Permutation l (p_cache p) ->
  (SInv q p -> SInv q (set_cache l p)) /\ (NInv q p -> NInv q (set_cache l p)) /\
  Keeps p (set_cache l p).
Proof.
  intros p l P. split; [| split].
  - intros [A B C D E F G]. constructor; auto; cbn.
    + eapply Permutation_NoDup; [symmetry; exact P | exact D].
    + intros o I. apply E. eapply Permutation_in; eauto.
    + rewrite (Permutation_length P). exact G.
  - intros [A B C]. constructor; cbn.
    + intros o I. eapply Permutation_in; [symmetry; exact P |]. apply A, I.
    + rewrite (Permutation_length P). exact B.
    + intros M. rewrite (Permutation_length P). apply C, M.
  - split; [auto |]. intros x _. reflexivity.
Qed.

(** One more client on an existing shared object. *)
Lemma give_old_inv : forall p o r, Permutation (o :: r) (p_cache p) -> SInv q p ->
  let p1 := snd (on_con (fst (obj_at p o)) (ping_check (q_cfg q) drv 1) (set_cache r p)) in
  let p2 := set_objs (upd o (fst (obj_at p1 o), S (snd (obj_at p1 o))) (p_objs p1)) p1 in
  let p3 := snd (give (HShared o) (notify (set_cache (p_cache p2 ++ [o]) p2))) in
  SInv q p3 /\ (NInv q p -> NInv q p3) /\ Keeps p p3.
Proof.
  intros p o r P SI p1 p2 p3.
  pose proof (core_on_con _ (fst (obj_at p o)) (ping_check (q_cfg q) drv 1) (set_cache r p)) as CO.
  fold p1 in CO. core_rw CO. cbn in H0, H1, H2, H3, H4, H5, H.
  set (p4 := set_cache (p_cache p2 ++ [o]) p2) in *.
  pose proof (core_notify p4) as CN. core_rw CN.
  assert (OA : obj_at p1 o = obj_at p o) by (unfold obj_at; rewrite H0; reflexivity).
  assert (Eo : p_objs p3 = upd o (fst (obj_at p o), S (snd (obj_at p o))) (p_objs p))
    by (unfold p3; cbn; rewrite H7; cbn; rewrite OA, H0; reflexivity).
  assert (Hc : p_cache p3 = r ++ [o]) by (unfold p3; cbn; rewrite H9; cbn; rewrite H2; reflexivity).
  assert (Hk : p_count p3 = p_count p) by (unfold p3; cbn; rewrite H10; cbn; rewrite H3; reflexivity).
  assert (Hr : p_rel p3 = p_rel p) by (unfold p3; cbn; rewrite H12; cbn; exact H5).
  assert (Hi : p_idle p3 = p_idle p) by (unfold p3; cbn; rewrite H8; cbn; exact H1).
  assert (Hn : length (p_cons p3) = length (p_cons p)) by (unfold p3; cbn; rewrite H6; cbn; exact H).
  assert (Hhd : p_hand p3 = p_hand p ++ [HShared o]) by (unfold p3; cbn; rewrite H11; cbn; rewrite H4; reflexivity).
  clearbody p3. clear - P SI Eo Hc Hk Hr Hi Hn Hhd.
  assert (In_o : In o (p_cache p)) by (eapply Permutation_in; [exact P | left; easy]).
  assert (Po : 0 < snd (obj_at p o)) by (apply (si_live _ _ SI), In_o).
  assert (Lo : o < length (p_objs p)).
  { destruct (Nat.ltb_spec o (length (p_objs p))); [easy |]. unfold obj_at in Po. rewrite nth_overflow in Po by easy. cbn in Po. lia. }
  assert (Pc : Permutation (r ++ [o]) (p_cache p)).
  { rewrite <- P. symmetry. apply Permutation_cons_append. }
  assert (Hh : held p3 = held p) by (unfold held; rewrite Hhd, flat_map_app; cbn; apply app_nil_r).
  assert (Hs : forall x, cnt x (shared_out p3) = cnt x (shared_out p)).
  { intros x. unfold shared_out. rewrite Eo.
    pose proof (cnt_flat_upd _ (fun x => if Nat.eqb (snd x) 0 then [] else [fst x]) x o
      (fst (obj_at p o), S (snd (obj_at p o))) (0, 0) (p_objs p) Lo) as X.
    change (nth o (p_objs p) (0, 0)) with (obj_at p o) in X.
    cbn [fst snd Nat.eqb] in X. destruct (Nat.eqb_spec (snd (obj_at p o)) 0); [lia |]. lia. }
  assert (Hsl : length (shared_out p3) = length (shared_out p)).
  { unfold shared_out. rewrite Eo.
    pose proof (len_flat_upd _ (fun x => if Nat.eqb (snd x) 0 then [] else [fst x]) o
      (fst (obj_at p o), S (snd (obj_at p o))) (0, 0) (p_objs p) Lo) as X.
    change (nth o (p_objs p) (0, 0)) with (obj_at p o) in X.
    cbn [fst snd Nat.eqb length] in X. destruct (Nat.eqb_spec (snd (obj_at p o)) 0); [lia |]. cbn in X. lia. }
  assert (Ho : forall x, obj_at p3 x = if Nat.eqb x o then (fst (obj_at p o), S (snd (obj_at p o))) else obj_at p x).
  { intros x. unfold obj_at at 1. rewrite Eo. destruct (Nat.eqb_spec x o) as [-> | N].
    - apply nth_upd_same, Lo.
    - apply nth_upd_other. auto. }
  assert (Hd : forall x, holders p3 x = holders p x + if Nat.eqb x o then 1 else 0).
  { intros x. unfold holders. rewrite Hhd, filter_app, app_length. cbn. rewrite (Nat.eqb_sym o x).
    destruct (Nat.eqb x o); cbn; lia. }
  split; [| split].
  - destruct SI as [A B C D E F G]. constructor.
    + intros x. rewrite Hi, Hh, Hr, Hs. apply A.
    + intros x. rewrite Hi, Hh, Hr, Hs, Hn. apply B.
    + intros x. rewrite Ho, Hd, <- C. destruct (Nat.eqb_spec x o) as [-> | N]; cbn; lia.
    + rewrite Hc. eapply Permutation_NoDup; [symmetry; exact Pc | exact D].
    + intros x. rewrite Hc, Ho. intros I. destruct (Nat.eqb x o); [cbn; lia |]. apply E.
      eapply Permutation_in; eauto.
    + rewrite Hi. exact F.
    + rewrite Hc, (Permutation_length Pc). exact G.
  - intros [A B C]. constructor.
    + intros x. rewrite Hc, Ho. intros I. eapply Permutation_in; [symmetry; exact Pc |].
      revert I. destruct (Nat.eqb_spec x o) as [-> | N]; intros I; [exact In_o | apply A, I].
    + rewrite Hsl, Hc, (Permutation_length Pc). exact B.
    + rewrite Hh, Hc, (Permutation_length Pc). exact C.
  - split; [intros D K; unfold CInv in *; rewrite Hk, Hh, Hr, Hsl; exact K |].
    intros x _. unfold places. rewrite Hi, Hh, Hr, Hs. lia.
Qed.

(** A connection that nobody refers to any more goes back to the idle cache. *)
Lemma cache_con_struct : forall i p, let p1 := cache_con q drv i p in
  length (p_cons p1) = length (p_cons p) /\ p_objs p1 = p_objs p /\ p_cache p1 = p_cache p /\
  p_hand p1 = p_hand p /\ p_rel p1 = p_rel p /\ p_count p1 = (p_count p - 1)%Z /\
  ((p_idle p1 = p_idle p ++ [i] /\ (q_maxcached q <> 0 -> length (p_idle p) < q_maxcached q)) \/
   (p_idle p1 = p_idle p /\ q_maxcached q <> 0 /\ q_maxcached q <= length (p_idle p))).
Proof.
  intros i p p1. unfold p1, cache_con.
  match goal with |- context [notify ?x] => pose proof (core_notify x) as CN end. core_rw CN.
  rewrite H, H0, H1, H2, H3, H4, H5. clear.
  destruct (Nat.eqb_spec (q_maxcached q) 0) as [M | M]; cbn [orb].
  - pose proof (core_on_con _ i (reset (q_cfg q) drv (q_reset q)) p) as CO. core_rw CO. cbn.
    rewrite H, H0, H1, H2, H3, H4, H5. repeat split; try lia. left. split; [reflexivity | lia].
  - destruct (Nat.ltb_spec (length (p_idle p)) (q_maxcached q)).
    + pose proof (core_on_con _ i (reset (q_cfg q) drv (q_reset q)) p) as CO. core_rw CO. cbn.
      rewrite H0, H1, H2, H3, H4, H5, H6. repeat split; try lia. left. split; [reflexivity | lia].
    + pose proof (core_on_con _ i (close (q_cfg q) drv) p) as CO. core_rw CO. cbn.
      rewrite H0, H1, H2, H3, H4, H5, H6. repeat split; try lia. right. split; [reflexivity | lia].
Qed.

(** Closing a dedicated handle. *)
Lemma close_ded_inv : forall h i p, nth h (p_hand p) HNone = HDed i -> SInv q p ->
  let p1 := set_hand (upd h HNone (p_hand (cache_con q drv i p))) (cache_con q drv i p) in
  SInv q p1 /\ (NInv q p -> NInv q p1) /\ Keeps p p1.
Proof.
  intros h i p Hh SI p1.
  destruct (cache_con_struct i p) as (E1 & E2 & E3 & E4 & E5 & E6 & E7).
  set (pc := cache_con q drv i p) in *. clearbody pc.
  assert (L : h < length (p_hand p)) by (apply nth_in_len with (d := HNone); congruence).
  assert (Hd : forall x, cnt x (held p1) + cnt x [i] = cnt x (held p)).
  { intros x. pose proof (cnt_flat_upd _ (fun h => match h with HDed i => [i] | _ => [] end) x h HNone HNone (p_hand p) L) as X.
    rewrite Hh, cnt_nil in X. unfold held at 1, p1. cbn [p_hand set_hand]. rewrite E4. rewrite X. unfold held. lia. }
  assert (Hl : length (held p1) + 1 = length (held p)).
  { pose proof (len_flat_upd _ (fun h => match h with HDed i => [i] | _ => [] end) h HNone HNone (p_hand p) L) as X.
    rewrite Hh in X. unfold held at 1, p1. cbn [p_hand set_hand]. rewrite E4. unfold held. cbn [length] in X. lia. }
  assert (Ho : forall o, holders p1 o = holders p o).
  { intros o. unfold holders, p1. cbn [p_hand set_hand]. rewrite E4.
    pose proof (filter_upd _ (fun h => match h with HShared x => Nat.eqb x o | _ => false end) h HNone HNone (p_hand p) L) as X.
    rewrite Hh in X. lia. }
  assert (Hs : shared_out p1 = shared_out p) by (unfold shared_out; cbn; rewrite E2; reflexivity).
  assert (Ob : forall o, obj_at p1 o = obj_at p o) by (intros; unfold obj_at; cbn; rewrite E2; reflexivity).
  assert (R : p_rel p1 = p_rel p) by (cbn; assumption).
  assert (C : p_cache p1 = p_cache p) by (cbn; assumption).
  assert (K : p_count p1 = (p_count p - 1)%Z) by (cbn; assumption).
  assert (N : length (p_cons p1) = length (p_cons p)) by (cbn; assumption).
  assert (I : p_idle p1 = p_idle pc) by reflexivity. rewrite <- I in E7.
  clearbody p1. clear E1 E2 E3 E4 E5 E6 I pc.
  split; [| split].
  - destruct SI as [A B C0 D E F G]. constructor.
    + intros x. rewrite R, Hs. specialize (A x). specialize (Hd x).
      destruct E7 as [(-> & _) | (-> & _)]; rewrite ?cnt_app; lia.
    + intros x. rewrite R, Hs, N. specialize (B x). specialize (Hd x).
      destruct E7 as [(-> & _) | (-> & _)]; rewrite ?cnt_app; lia.
    + intros o. rewrite Ob, Ho. apply C0.
    + rewrite C. exact D.
    + intros o. rewrite C, Ob. apply E.
    + intros M. destruct E7 as [(-> & X) | (-> & _)]; [| auto]. rewrite app_length. cbn. specialize (X M). lia.
    + rewrite C. exact G.
  - intros [A B C0]. constructor.
    + intros o. rewrite C, Ob. apply A.
    + rewrite C, Hs. exact B.
    + intros M. specialize (C0 M). rewrite C. lia.
  - split; [intros D Q; unfold CInv in *; rewrite K, R, Hs; lia |].
    intros x _. unfold places. rewrite R, Hs. specialize (Hd x).
    destruct E7 as [(-> & _) | (-> & _)]; rewrite ?cnt_app; lia.
Qed.

(** [cache] of a connection on its way from [unshare]. *)
Lemma remove1_cnt : forall i l x, In i l -> cnt x (remove1 i l) + cnt x [i] = cnt x l.
Proof.
  induction l as [| y l IH]; intros x H; [easy |]. cbn [remove1].
  destruct (Nat.eqb_spec y i) as [-> | N].
  - rewrite !cnt_cons, cnt_nil. lia.
  - destruct H as [-> | H]; [easy |]. specialize (IH x H). rewrite cnt_one in IH. rewrite !cnt_cons, cnt_nil. lia.
Qed.
Lemma remove1_len : forall i l, In i l -> length (remove1 i l) + 1 = length l.
Proof.
  induction l as [| y l IH]; intros H; [easy |]. cbn [remove1].
  destruct (Nat.eqb_spec y i) as [-> | N]; cbn; [lia |].
  destruct H as [-> | H]; [easy |]. specialize (IH H). lia.
Qed.

Lemma release_inv : forall i p, In i (p_rel p) -> SInv q p ->
  let p1 := cache_con q drv i (set_rel (remove1 i (p_rel p)) p) in
  SInv q p1 /\ (NInv q p -> NInv q p1) /\ Keeps p p1.
Proof.
  intros i p Hi SI p1.
  destruct (cache_con_struct i (set_rel (remove1 i (p_rel p)) p)) as (E1 & E2 & E3 & E4 & E5 & E6 & E7).
  fold p1 in E1, E2, E3, E4, E5, E6, E7. clearbody p1. cbn in E1, E2, E3, E4, E5, E6, E7.
  assert (Hh : held p1 = held p) by (unfold held; rewrite E4; reflexivity).
  assert (Hs : shared_out p1 = shared_out p) by (unfold shared_out; rewrite E2; reflexivity).
  assert (Ob : forall o, obj_at p1 o = obj_at p o) by (intros; unfold obj_at; rewrite E2; reflexivity).
  assert (Ho : forall o, holders p1 o = holders p o) by (intros; apply holders_hand; exact E4).
  split; [| split].
  - destruct SI as [A B C0 D E F G]. constructor.
    + intros x. rewrite Hh, Hs, E5. specialize (A x). pose proof (remove1_cnt i (p_rel p) x Hi).
      destruct E7 as [(-> & _) | (-> & _)]; rewrite ?cnt_app; lia.
    + intros x. rewrite Hh, Hs, E1, E5. specialize (B x). pose proof (remove1_cnt i (p_rel p) x Hi).
      destruct E7 as [(-> & _) | (-> & _)]; rewrite ?cnt_app; lia.
    + intros o. rewrite Ob, Ho. apply C0.
    + rewrite E3. exact D.
    + intros o. rewrite E3, Ob. apply E.
    + intros M. destruct E7 as [(-> & X) | (-> & _)]; [| auto]. rewrite app_length. cbn. specialize (X M). lia.
    + rewrite E3. exact G.
  - intros [A B C0]. constructor.
    + intros o. rewrite E3, Ob. apply A.
    + rewrite E3, Hs. exact B.
    + intros M. specialize (C0 M). rewrite E3, Hh. exact C0.
  - split; [intros D Q; unfold CInv in *; rewrite E6, E5, Hh, Hs; pose proof (remove1_len i _ Hi); lia |].
    intros x _. unfold places. rewrite Hh, Hs, E5. pose proof (remove1_cnt i (p_rel p) x Hi).
    destruct E7 as [(-> & _) | (-> & _)]; rewrite ?cnt_app; lia.
Qed.

(** [unshare]: the object leaves the shared cache when its last share goes. *)
Lemma remove_obj_out : forall p o l, ~ In o l ->
  (forall x, In x l -> snd (obj_at p x) <> snd (obj_at p o)) -> remove_obj p o l = l.
Proof.
  induction l as [| y l IH]; intros N H; [easy |]. cbn.
  destruct (Nat.eqb_spec y o) as [-> | NE]; [exfalso; apply N; left; easy |].
  unfold obj_eq. destruct (Nat.eqb_spec (snd (obj_at p y)) (snd (obj_at p o))) as [E | E].
  - exfalso. apply (H y); [left; easy | exact E].
  - rewrite andb_false_r. cbn. rewrite IH; auto; [intros X; apply N; right; easy | intros x X; apply H; right; easy].
Qed.
Lemma remove_obj_in : forall p o l, In o l -> NoDup l ->
  (forall x, In x l -> x <> o -> snd (obj_at p x) <> snd (obj_at p o)) ->
  Permutation (o :: remove_obj p o l) l.
Proof.
  induction l as [| y l IH]; intros I ND H; [easy |]. cbn.
  destruct (Nat.eqb_spec y o) as [-> | NE]; [cbn; easy |].
  destruct I as [-> | I]; [easy |]. inversion ND; subst.
  unfold obj_eq. destruct (Nat.eqb_spec (snd (obj_at p y)) (snd (obj_at p o))) as [E | E].
  - exfalso. apply (H y); [left; easy | exact NE | exact E].
  - rewrite andb_false_r. cbn. rewrite perm_swap. constructor. apply IH; auto. intros x X. apply H. right; easy.
Qed.

Lemma close_shared_inv : forall h o p, nth h (p_hand p) HNone = HShared o -> SInv q p ->
  let p1 := set_hand (upd h HNone (p_hand (unshare o p))) (unshare o p) in
  SInv q p1 /\ (NInv q p -> NInv q p1) /\ Keeps p p1 /\
  (holders p o = 1 -> p_rel p1 = p_rel p ++ [fst (obj_at p o)] /\ ~ In o (p_cache p1)) /\
  (holders p o <> 1 -> p_rel p1 = p_rel p /\ p_cache p1 = p_cache p).
Proof.
  intros h o p Hh SI p1.
  assert (L : h < length (p_hand p)) by (apply nth_in_len with (d := HNone); congruence).
  assert (HP : 0 < holders p o).
  { unfold holders. pose proof (filter_upd _ (fun h => match h with HShared x => Nat.eqb x o | _ => false end) h HNone HNone (p_hand p) L) as X.
    rewrite Hh, Nat.eqb_refl in X. lia. }
  pose proof (si_shares _ _ SI o) as Sh.
  assert (Lo : o < length (p_objs p)).
  { destruct (Nat.ltb_spec o (length (p_objs p))); [easy |]. unfold obj_at in Sh. rewrite nth_overflow in Sh by easy. cbn in Sh. lia. }
  assert (HH : p_hand (unshare o p) = p_hand p) by (unfold unshare; destruct (Nat.eqb _ 0); reflexivity).
  assert (HO : p_objs (unshare o p) = upd o (fst (obj_at p o), Nat.pred (snd (obj_at p o))) (p_objs p))
    by (unfold unshare; destruct (Nat.eqb _ 0); reflexivity).
  assert (HI : p_idle (unshare o p) = p_idle p) by (unfold unshare; destruct (Nat.eqb _ 0); reflexivity).
  assert (HK : p_count (unshare o p) = p_count p) by (unfold unshare; destruct (Nat.eqb _ 0); reflexivity).
  assert (HN : p_cons (unshare o p) = p_cons p) by (unfold unshare; destruct (Nat.eqb _ 0); reflexivity).
  assert (Hd : held p1 = held p \/ True) by auto. clear Hd.
  assert (Hd : forall x, cnt x (held p1) = cnt x (held p)).
  { intros x. pose proof (cnt_flat_upd _ (fun h => match h with HDed i => [i] | _ => [] end) x h HNone HNone (p_hand p) L) as X.
    rewrite Hh, !cnt_nil in X. unfold held at 1, p1. cbn [p_hand set_hand]. rewrite HH. unfold held. lia. }
  assert (Hl : length (held p1) = length (held p)).
  { pose proof (len_flat_upd _ (fun h => match h with HDed i => [i] | _ => [] end) h HNone HNone (p_hand p) L) as X.
    rewrite Hh in X. unfold held at 1, p1. cbn [p_hand set_hand]. rewrite HH. unfold held. cbn in X. lia. }
  assert (Ho : forall x, holders p1 x + (if Nat.eqb x o then 1 else 0) = holders p x).
  { intros x. unfold holders, p1. cbn [p_hand set_hand]. rewrite HH.
    pose proof (filter_upd _ (fun h => match h with HShared y => Nat.eqb y x | _ => false end) h HNone HNone (p_hand p) L) as X.
    rewrite Hh in X. rewrite (Nat.eqb_sym x o). lia. }
  assert (Ob : forall x, obj_at p1 x = if Nat.eqb x o then (fst (obj_at p o), Nat.pred (snd (obj_at p o))) else obj_at p x).
  { intros x. unfold obj_at at 1, p1. cbn [p_objs set_hand]. rewrite HO. destruct (Nat.eqb_spec x o) as [-> | N].
    - apply nth_upd_same, Lo.
    - apply nth_upd_other. auto. }
  assert (Hs : forall x, cnt x (shared_out p1) + (if Nat.eqb (holders p o) 1 then cnt x [fst (obj_at p o)] else 0) = cnt x (shared_out p)).
  { intros x. unfold shared_out at 1, p1. cbn [p_objs set_hand]. rewrite HO.
    pose proof (cnt_flat_upd _ (fun x => if Nat.eqb (snd x) 0 then [] else [fst x]) x o
      (fst (obj_at p o), Nat.pred (snd (obj_at p o))) (0, 0) (p_objs p) Lo) as X.
    change (nth o (p_objs p) (0, 0)) with (obj_at p o) in X. cbn [fst snd] in X. rewrite Sh in *. fold (shared_out p) in X.
    destruct (Nat.eqb_spec (holders p o) 0); [lia |].
    destruct (Nat.eqb_spec (holders p o) 1) as [E | E]; destruct (Nat.eqb_spec (Nat.pred (holders p o)) 0); try lia;
      rewrite ?cnt_nil in X; lia. }
  assert (Hsl : length (shared_out p1) + (if Nat.eqb (holders p o) 1 then 1 else 0) = length (shared_out p)).
  { unfold shared_out at 1, p1. cbn [p_objs set_hand]. rewrite HO.
    pose proof (len_flat_upd _ (fun x => if Nat.eqb (snd x) 0 then [] else [fst x]) o
      (fst (obj_at p o), Nat.pred (snd (obj_at p o))) (0, 0) (p_objs p) Lo) as X.
    change (nth o (p_objs p) (0, 0)) with (obj_at p o) in X. cbn [fst snd] in X. rewrite Sh in *. fold (shared_out p) in X.
    destruct (Nat.eqb_spec (holders p o) 0); [lia |].
    destruct (Nat.eqb_spec (holders p o) 1) as [E | E]; destruct (Nat.eqb_spec (Nat.pred (holders p o)) 0); try lia;
      cbn [length] in X; lia. }
  set (pu := set_objs (upd o (fst (obj_at p o), Nat.pred (snd (obj_at p o))) (p_objs p)) p) in *.
  assert (Opu : forall x, obj_at pu x = if Nat.eqb x o then (fst (obj_at p o), Nat.pred (snd (obj_at p o))) else obj_at p x).
  { intros x. unfold obj_at at 1, pu. cbn [p_objs set_objs]. destruct (Nat.eqb_spec x o) as [-> | N].
    - apply nth_upd_same, Lo.
    - apply nth_upd_other. auto. }
  assert (Rel : p_rel p1 = p_rel p ++ if Nat.eqb (holders p o) 1 then [fst (obj_at p o)] else []).
  { unfold p1. cbn [p_rel set_hand]. unfold unshare. fold pu. rewrite Sh.
    destruct (Nat.eqb_spec (holders p o) 1) as [E | E]; destruct (Nat.eqb_spec (Nat.pred (holders p o)) 0); try lia.
    - cbn [p_rel set_rel]. rewrite Opu, Nat.eqb_refl. reflexivity.
    - cbn. rewrite app_nil_r. reflexivity. }
  assert (Ca : (holders p o = 1 -> (In o (p_cache p) -> Permutation (o :: p_cache p1) (p_cache p)) /\ (~ In o (p_cache p) -> p_cache p1 = p_cache p)) /\
               (holders p o <> 1 -> p_cache p1 = p_cache p)).
  { unfold p1. cbn [p_cache set_hand]. unfold unshare. fold pu. rewrite Sh. split.
    - intros E. rewrite E. cbn [Nat.pred Nat.eqb p_cache set_rel set_cache]. split; intros I.
      + apply remove_obj_in; [exact I | apply (si_cache _ _ SI) |]. intros x X N.
        rewrite !Opu, Nat.eqb_refl. apply Nat.eqb_neq in N. rewrite N. cbn. apply (si_live _ _ SI) in X. lia.
      + apply remove_obj_out; [exact I |]. intros x X. cbn in X. assert (N : x <> o) by (intros ->; easy).
        rewrite !Opu, Nat.eqb_refl. apply Nat.eqb_neq in N. rewrite N. cbn. apply (si_live _ _ SI) in X. lia.
    - intros E. destruct (Nat.eqb_spec (Nat.pred (holders p o)) 0); [lia |]. reflexivity. }
  assert (I : p_idle p1 = p_idle p) by (cbn; assumption).
  assert (K : p_count p1 = p_count p) by (cbn; assumption).
  assert (N : length (p_cons p1) = length (p_cons p)) by (cbn; rewrite HN; reflexivity).
  clearbody p1 pu. clear HH HO HI HK HN Opu pu.
  assert (Inc : forall x, In x (p_cache p1) -> In x (p_cache p) /\ (x = o -> holders p o <> 1)).
  { intros x X. destruct Ca as [C1 C2]. destruct (Nat.eq_dec (holders p o) 1) as [E | E].
    - destruct (C1 E) as [C3 C4]. destruct (in_dec Nat.eq_dec o (p_cache p)) as [Io | Io].
      + specialize (C3 Io). split; [eapply Permutation_in; [exact C3 | right; exact X] |]. intros -> _.
        assert (ND : NoDup (o :: p_cache p1)) by (eapply Permutation_NoDup; [symmetry; exact C3 | apply (si_cache _ _ SI)]).
        inversion ND; easy.
      + rewrite (C4 Io) in X. split; [exact X |]. intros -> _. easy.
    - rewrite (C2 E) in X. auto. }
  assert (NDc : NoDup (p_cache p1) /\ length (p_cache p1) <= length (p_cache p)).
  { destruct Ca as [C1 C2]. destruct (Nat.eq_dec (holders p o) 1) as [E | E].
    - destruct (C1 E) as [C3 C4]. destruct (in_dec Nat.eq_dec o (p_cache p)) as [Io | Io].
      + specialize (C3 Io). split.
        * assert (ND : NoDup (o :: p_cache p1)) by (eapply Permutation_NoDup; [symmetry; exact C3 | apply (si_cache _ _ SI)]).
          inversion ND; easy.
        * apply Permutation_length in C3. cbn in C3. lia.
      + rewrite (C4 Io). split; [apply (si_cache _ _ SI) | lia].
    - rewrite (C2 E). split; [apply (si_cache _ _ SI) | lia]. }
  split; [| split; [| split; [| split]]].
  - destruct SI as [A B C0 D E F G]. constructor.
    + intros x. rewrite I, Hd, Rel, cnt_app. specialize (A x). specialize (Hs x).
      destruct (Nat.eqb (holders p o) 1); rewrite ?cnt_nil; lia.
    + intros x. rewrite I, Hd, Rel, cnt_app, N. specialize (B x). specialize (Hs x).
      destruct (Nat.eqb (holders p o) 1); rewrite ?cnt_nil; lia.
    + intros x. rewrite Ob. specialize (Ho x). specialize (C0 x).
      destruct (Nat.eqb_spec x o) as [-> | NE]; cbn; lia.
    + apply NDc.
    + intros x X. destruct (Inc x X) as [X1 X2]. rewrite Ob.
      destruct (Nat.eqb_spec x o) as [-> | NE]; cbn; [| apply E, X1]. specialize (X2 eq_refl). lia.
    + rewrite I. exact F.
    + lia.
  - intros [A B C0].
    assert (Io : In o (p_cache p)) by (apply A; lia).
    assert (Lc : length (p_cache p1) + (if Nat.eqb (holders p o) 1 then 1 else 0) = length (p_cache p)).
    { destruct Ca as [C1 C2]. destruct (Nat.eqb_spec (holders p o) 1) as [E | E].
      - destruct (C1 E) as [C3 _]. specialize (C3 Io). apply Permutation_length in C3. cbn in C3. lia.
      - rewrite (C2 E). lia. }
    constructor.
    + intros x. rewrite Ob. destruct (Nat.eqb_spec x o) as [-> | NE]; cbn; intros X.
      * destruct Ca as [C1 C2]. rewrite C2 by lia. exact Io.
      * apply A in X. destruct Ca as [C1 C2]. destruct (Nat.eq_dec (holders p o) 1) as [E | E].
        -- destruct (C1 E) as [C3 _]. specialize (C3 Io).
           assert (Y : In x (o :: p_cache p1)) by (eapply Permutation_in; [symmetry; exact C3 | exact X]).
           destruct Y; [congruence | easy].
        -- rewrite (C2 E). exact X.
    + lia.
    + intros M. specialize (C0 M). rewrite Hl. lia.
  - split.
    + intros D Q. unfold CInv in *. rewrite K, Rel, Hl, app_length.
      destruct (Nat.eqb (holders p o) 1); cbn [length]; lia.
    + intros x _. unfold places. rewrite I, Hd, Rel, cnt_app. specialize (Hs x).
      destruct (Nat.eqb (holders p o) 1); rewrite ?cnt_nil; lia.
  - intros E. rewrite Rel, E. cbn. split; [reflexivity |]. intros X. destruct (Inc o X) as [_ X2]. apply X2; auto.
  - intros E. rewrite Rel. apply Nat.eqb_neq in E as E'. rewrite E', app_nil_r. split; [easy |]. apply Ca, E.
Qed.

(** Closing the pool. *)
Lemma close_all_core : forall l p, core (close_all q drv l p) = core p.
Proof.
  induction l; intros p; cbn; [easy |]. rewrite IHl. apply core_on_con.
Qed.

Lemma close_pool_struct : forall p, let p1 := close_pool q drv p in
  length (p_cons p1) = length (p_cons p) /\ p_objs p1 = p_objs p /\ p_idle p1 = [] /\
  p_hand p1 = p_hand p /\ p_rel p1 = p_rel p /\
  p_cache p1 = (if Nat.eqb (q_maxshared q) 0 then p_cache p else []) /\
  p_count p1 = (p_count p - Z.of_nat (if Nat.eqb (q_maxshared q) 0 then 0 else length (p_cache p)))%Z.
Proof.
  intros p p1. unfold p1, close_pool.
  pose proof (close_all_core (p_idle p) p) as C1. core_rw C1.
  set (pa := set_idle [] (close_all q drv (p_idle p) p)) in *.
  destruct (Nat.eqb (q_maxshared q) 0).
  - cbn. rewrite H, H0, H2, H3, H4, H5. repeat split; auto. lia.
  - pose proof (close_all_core (map (fun o => fst (obj_at pa o)) (p_cache pa)) pa) as C2. core_rw C2.
    set (pb := close_all q drv _ pa) in *. clearbody pb. cbn.
    rewrite H6, H7, H10, H11, H12. cbn. rewrite H, H0, H2, H3, H4, H5. repeat split; auto.
Qed.

Lemma close_pool_inv : forall p, SInv q p ->
  SInv q (close_pool q drv p) /\
  (forall D, CInv D p -> CInv (D + if Nat.eqb (q_maxshared q) 0 then 0 else length (p_cache p)) (close_pool q drv p)).
Proof.
  intros p SI. destruct (close_pool_struct p) as (E1 & E2 & E3 & E4 & E5 & E6 & E7).
  set (p1 := close_pool q drv p) in *. clearbody p1.
  assert (Hh : held p1 = held p) by (unfold held; rewrite E4; reflexivity).
  assert (Hs : shared_out p1 = shared_out p) by (unfold shared_out; rewrite E2; reflexivity).
  assert (Ob : forall o, obj_at p1 o = obj_at p o) by (intros; unfold obj_at; rewrite E2; reflexivity).
  assert (Ho : forall o, holders p1 o = holders p o) by (intros; apply holders_hand; exact E4).
  split.
  - destruct SI as [A B C0 D E F G]. constructor.
    + intros x. rewrite Hh, Hs, E5, E3, cnt_nil. specialize (A x). lia.
    + intros x. rewrite Hh, Hs, E5, E3, E1, cnt_nil. specialize (B x). lia.
    + intros o. rewrite Ob, Ho. apply C0.
    + rewrite E6. destruct (Nat.eqb _ 0); [exact D | constructor].
    + intros o. rewrite E6, Ob. destruct (Nat.eqb _ 0); [apply E | intros []].
    + rewrite E3. cbn. lia.
    + rewrite E6. destruct (Nat.eqb _ 0); [exact G | cbn; lia].
  - intros D Q. unfold CInv in *. rewrite E7, E5, Hh, Hs. lia.
Qed.

(** ** Every step *)

Lemma Keeps_core : forall p p', core p = core p' -> Keeps p p'.
Proof.
  intros p p' Co. split; [intros D; apply CInv_core, Co |]. intros x _. core_rw Co.
  unfold places, held, shared_out. rewrite H0, H1, H4, H5. lia.
Qed.
Lemma Keeps_refl : forall p, Keeps p p.
Proof. intros p. apply Keeps_core. reflexivity. Qed.
Lemma Keeps_l : forall p p0 p1, core p = core p0 -> Keeps p0 p1 -> Keeps p p1.
Proof.
  intros p p0 p1 Co [A B]. destruct (Keeps_core _ _ Co) as [A0 B0]. core_rw Co. split; [auto |].
  intros x L. specialize (B0 x L). rewrite H in L. specialize (B x L). lia.
Qed.

Lemma share_loop_inv : forall t p, SInv q p ->
  SInv q (snd (share_loop q drv t p)) /\ (NInv q p -> NInv q (snd (share_loop q drv t p))) /\
  Keeps p (snd (share_loop q drv t p)).
Proof.
  intros t p SI. unfold share_loop. pose proof (sort_perm p (p_cache p)) as P.
  destruct (sort_objs p (p_cache p)) as [| o r]; [cbn [snd]; auto using Keeps_refl |].
  destruct (obj_trans p o).
  - destruct (perm_cache_inv p (o :: r) P) as (A & B & C).
    unfold wait_lock. destruct (q_blocking q); cbn [snd]; [| auto].
    split; [apply (SInv_core q (set_cache (o :: r) p)); auto |].
    split; [intros NI; apply (NInv_core q (set_cache (o :: r) p)); auto |]. exact C.
  - exact (give_old_inv p o r P SI).
Qed.

Lemma request_ded_inv : forall t p, SInv q p ->
  SInv q (snd (request_ded q drv t p)) /\
  (NInv q p -> CInv 0 p -> NInv q (snd (request_ded q drv t p))) /\
  Keeps p (snd (request_ded q drv t p)).
Proof.
  intros t p SI. unfold request_ded. destruct (full q p) eqn:F.
  - unfold wait_lock. destruct (q_blocking q); cbn [snd]; split; auto using Keeps_refl.
    + apply (SInv_core q p); auto.
    + split; [intros NI _; apply (NInv_core q p); auto | apply Keeps_core; reflexivity].
  - destruct (take_con q drv p) as [[i | e] p1] eqn:T.
    + destruct (give_ded_inv p i p1 T SI) as (A & B & C & _). auto.
    + destruct (take_con_struct _ _ _ T) as (E1 & E2 & E3 & E4 & E5 & E6 & E7).
      assert (Co : core p = core p1) by (unfold core; congruence).
      cbn [snd]. split; [apply (SInv_core q p); auto |]. split; [intros NI _; apply (NInv_core q p); auto |].
      apply Keeps_core, Co.
Qed.

Lemma request_shared_inv : forall t p, SInv q p ->
  SInv q (snd (request_shared q drv t p)) /\
  (NInv q p -> CInv 0 p -> NInv q (snd (request_shared q drv t p))) /\
  Keeps p (snd (request_shared q drv t p)).
Proof.
  intros t p SI. unfold request_shared. destruct (Nat.eqb (length (p_cache p)) 0 && full q p) eqn:F.
  - unfold wait_lock. destruct (q_blocking q); cbn [snd]; split; auto using Keeps_refl.
    + apply (SInv_core q p); auto.
    + split; [intros NI _; apply (NInv_core q p); auto | apply Keeps_core; reflexivity].
  - destruct (Nat.ltb_spec (length (p_cache p)) (q_maxshared q)) as [LT | GE].
    + destruct (take_con q drv p) as [[i | e] p1] eqn:T.
      * destruct (give_new_inv p i p1 T LT SI) as (A & B & C). split; [exact A |]. split; [| exact C].
        intros NI K. exact (B NI F K).
      * destruct (take_con_struct _ _ _ T) as (E1 & E2 & E3 & E4 & E5 & E6 & E7).
        assert (Co : core p = core p1) by (unfold core; congruence).
        cbn [snd]. split; [apply (SInv_core q p); auto |]. split; [intros NI _; apply (NInv_core q p); auto |].
        apply Keeps_core, Co.
    + destruct (share_loop_inv t p SI) as (A & B & C). auto.
Qed.

Lemma close_handle_inv : forall h p, SInv q p ->
  SInv q (close_handle q drv h p) /\ (NInv q p -> NInv q (close_handle q drv h p)) /\
  Keeps p (close_handle q drv h p).
Proof.
  intros h p SI. unfold close_handle. destruct (nth h (p_hand p) HNone) as [i | o |] eqn:E; [| | auto using Keeps_refl].
  - apply close_ded_inv; auto.
  - destruct (close_shared_inv h o p E SI) as (A & B & C & _). auto.
Qed.

Definition drops (p : pool) (o : pop) : nat :=
  if closes o then if Nat.eqb (q_maxshared q) 0 then 0 else length (p_cache p) else 0.

Lemma step_inv : forall p o, SInv q p ->
  SInv q (snd (step q drv p o)) /\
  (closes o = false -> NInv q p -> CInv 0 p -> NInv q (snd (step q drv p o))) /\
  (forall D, CInv D p -> CInv (D + drops p o) (snd (step q drv p o))) /\
  (forall x, x < length (p_cons p) -> places (snd (step q drv p o)) x <= places p x).
Proof.
  intros p o SI.
  assert (X : forall p1, SInv q p1 /\ (NInv q p -> CInv 0 p -> NInv q p1) /\ Keeps p p1 ->
    SInv q p1 /\ (false = false -> NInv q p -> CInv 0 p -> NInv q p1) /\ (forall D, CInv D p -> CInv (D + 0) p1) /\
    (forall x, x < length (p_cons p) -> places p1 x <= places p x)).
  { intros p1 (A & B & C & D). split; [exact A |]. split; [auto |]. split; [| exact D]. intros E. rewrite Nat.add_0_r. apply C. }
  destruct o as [t sh | t | h | i | h l |]; cbn [closes]; unfold drops; cbn [closes].
  - apply X. cbn [step]. unfold request. destruct (sh && _); [apply request_shared_inv | apply request_ded_inv]; exact SI.
  - apply X. cbn [step]. destruct (unwake t (p_woken p)) as [[k r] |]; [| cbn [snd]; auto using Keeps_refl].
    set (p1 := set_threads (p_wait p) r p).
    assert (Co : core p = core p1) by reflexivity.
    assert (SI1 : SInv q p1) by (apply (SInv_core q p); auto).
    assert (Y : forall p2, SInv q p2 /\ (NInv q p1 -> CInv 0 p1 -> NInv q p2) /\ Keeps p1 p2 ->
       SInv q p2 /\ (NInv q p -> CInv 0 p -> NInv q p2) /\ Keeps p p2).
    { intros p2 (A & B & C). split; [exact A |]. split.
      - intros NI K. apply B; [apply (NInv_core q p); auto | apply (CInv_core 0 p); auto].
      - eapply Keeps_l; eauto. }
    apply Y. destruct k; [apply request_shared_inv | | apply request_ded_inv]; auto.
    destruct (share_loop_inv t p1 SI1) as (A & B & C). auto.
  - apply X. cbn [step snd]. destruct (close_handle_inv h p SI) as (A & B & C). auto.
  - apply X. cbn [step]. destruct (existsb (Nat.eqb i) (p_rel p)) eqn:E; [| cbn [snd]; auto using Keeps_refl]. cbn [snd].
    apply existsb_exists in E as (x & I & E). apply Nat.eqb_eq in E as <-.
    destruct (release_inv i p I SI) as (A & B & C). auto.
  - apply X. cbn [step]. destruct (con_of p _) as [i |]; [| cbn [snd]; auto using Keeps_refl]. cbn [snd].
    pose proof (core_on_con _ i (do_ops (q_cfg q) drv l) p) as Co. symmetry in Co.
    split; [apply (SInv_core q p); auto |]. split; [intros NI _; apply (NInv_core q p); auto |].
    apply Keeps_core, Co.
  - cbn [step snd]. destruct (close_pool_inv p SI) as (A & C). split; [exact A |]. split; [discriminate |]. split; [exact C |].
    intros x _. destruct (close_pool_struct p) as (E1 & E2 & E3 & E4 & E5 & E6 & E7).
    unfold places, held, shared_out. rewrite E2, E3, E4, E5, cnt_nil. lia.
Qed.

Lemma empty_inv : SInv q empty_pool /\ NInv q empty_pool /\ CInv 0 empty_pool.
Proof.
  split; [| split].
  - constructor; cbn; intros; rewrite ?cnt_nil in *; try lia; try easy; [destruct o; reflexivity | constructor].
  - constructor; cbn; intros; try lia. destruct o; cbn in H; lia.
  - reflexivity.
Qed.

Lemma open_first_inv : forall n p, SInv q p -> NInv q p -> CInv 0 p ->
  forall r p1, open_first q drv n p = (r, p1) -> SInv q p1 /\ NInv q p1 /\ CInv 0 p1.
Proof.
  induction n as [| n IH]; intros p SI NI CI r p1 H; cbn in H; [injection H as _ <-; auto |].
  destruct (request_ded_inv 0 p SI) as (A & B & C & _). specialize (B NI CI). specialize (C 0 CI).
  destruct (request_ded q drv 0 p) as [r2 p2]. cbn in A, B, C.
  destruct r2; try (injection H as _ <-; auto). eapply IH; eauto.
Qed.
Lemma close_first_inv : forall n p, SInv q p -> NInv q p -> CInv 0 p ->
  SInv q (close_first q drv n p) /\ NInv q (close_first q drv n p) /\ CInv 0 (close_first q drv n p).
Proof.
  induction n as [| n IH]; intros p SI NI CI; cbn; [auto |].
  destruct (close_handle_inv n p SI) as (A & B & C & _). apply IH; auto.
Qed.
Lemma init_inv : forall n p, init q drv n = (RNone, p) -> SInv q p /\ NInv q p /\ CInv 0 p.
Proof.
  intros n p H. unfold init in H. destruct empty_inv as (A & B & C).
  destruct (open_first q drv n empty_pool) as [r p1] eqn:E.
  destruct (open_first_inv n _ A B C _ _ E) as (A1 & B1 & C1).
  destruct r; try discriminate. injection H as <-. apply close_first_inv; auto.
Qed.

Lemma run_inv : forall l p, SInv q p ->
  SInv q (run q drv p l) /\
  (forall D, CInv D p -> CInv (D + dropped q drv p l) (run q drv p l)) /\
  (existsb closes l = false -> NInv q p -> CInv 0 p -> NInv q (run q drv p l) /\ CInv 0 (run q drv p l)).
Proof.
  induction l as [| o l IH]; intros p SI.
  - cbn. split; [exact SI |]. split; [intros D; rewrite Nat.add_0_r; auto | auto].
  - destruct (step_inv p o SI) as (A & B & C & _). change (run q drv p (o :: l)) with (run q drv (snd (step q drv p o)) l).
    destruct (IH _ A) as (A1 & B1 & C1). split; [exact A1 |]. split.
    + intros D K. cbn [dropped]. rewrite Nat.add_assoc. apply B1. apply C, K.
    + cbn [existsb]. intros E NI K. apply orb_false_iff in E as [E1 E2]. apply C1; auto.
      specialize (C 0 K). unfold drops in C. rewrite E1 in C. exact C.
Qed.
End Struct.
