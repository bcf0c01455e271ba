(** * Which step of a pool works on which database connection *)
From Coq Require Import List Arith NArith ZArith Bool Lia Permutation.
From Verif Require Import SteadyModel SteadySpec SteadyProof SteadyFrame PoolModel PoolSpec PoolProof PoolFrame.
Import ListNotations.
Open Scope steady_scope.

Definition framed {A} (m : M A) : Prop := forall (own : nat -> nat -> Prop) n0,
  (forall n m r, n <= m -> own n r -> own m r) -> (forall n r, n0 <= r -> r < n -> own n r) ->
  forall n, hoare own n0 n (fun _ _ => True) m.

(** Names of raw connections: of the pool's connections and in the log. *)
Record RInv (p : pool) : Prop := {
  ri_lt : forall i, i < length (p_cons p) -> c_raw (con_at p i) < length (p_log p);
  ri_one : forall i j, i < length (p_cons p) -> j < length (p_cons p) ->
           c_raw (con_at p i) = c_raw (con_at p j) -> i = j;
  ri_log : Forall (fun e => forall r, raw_of (fst e) = Some r -> r < length (p_log p)) (p_log p) }.

(** The step from [p] to [p1] worked on no connection outside [S]. *)
Record moves (S : list nat) (p p1 : pool) : Prop := {
  mv_len : length (p_cons p) <= length (p_cons p1);
  mv_con : forall j, j < length (p_cons p) -> ~ In j S -> con_at p1 j = con_at p j;
  mv_log : exists d, p_log p1 = p_log p ++ d /\
    forall j, j < length (p_cons p) -> ~ In j S -> Forall (fun e => raw_of (fst e) <> Some (c_raw (con_at p j))) d }.

Lemma moves_refl : forall S p p1, p_log p1 = p_log p -> p_cons p1 = p_cons p -> moves S p p1.
Proof.
  intros S p p1 L C. constructor.
  - rewrite C. auto.
  - intros j _ _. unfold con_at. rewrite C. reflexivity.
  - exists []. rewrite app_nil_r. auto.
Qed.
Lemma moves_trans : forall S p p1 p2, moves S p p1 -> moves S p1 p2 -> moves S p p2.
Proof.
  intros S p p1 p2 [A1 B1 (d1 & L1 & F1)] [A2 B2 (d2 & L2 & F2)]. constructor.
  - lia.
  - intros j Hj Nj. rewrite B2, B1; auto. lia.
  - exists (d1 ++ d2). rewrite L2, L1, app_assoc. split; [reflexivity |]. intros j Hj Nj.
    apply Forall_app. split; [apply F1; auto |]. specialize (F2 j). rewrite B1 in F2 by auto. apply F2; [lia | exact Nj].
Qed.
Lemma moves_weak : forall S S2 p p1, (forall j, In j S -> In j S2) -> moves S p p1 -> moves S2 p p1.
Proof.
  intros S S2 p p1 H [A B (d & L & F)]. constructor; [exact A | intros; apply B; auto |].
  exists d. split; [exact L |]. intros. apply F; auto.
Qed.
Lemma RInv_same : forall p p1, p_log p1 = p_log p -> p_cons p1 = p_cons p -> RInv p -> RInv p1.
Proof. intros p p1 L C [A B D]. constructor; unfold con_at in *; rewrite ?L, ?C; auto. Qed.
Lemma moves_same_r : forall S p p1 p2, moves S p p1 -> p_log p2 = p_log p1 -> p_cons p2 = p_cons p1 -> moves S p p2.
Proof. intros S p p1 p2 H L C. eapply moves_trans; [exact H | apply moves_refl; auto]. Qed.
Lemma moves_same_l : forall S p p0 p1, moves S p0 p1 -> p_log p0 = p_log p -> p_cons p0 = p_cons p -> moves S p p1.
Proof. intros S p p0 p1 H L C. eapply moves_trans; [apply moves_refl; [exact L | exact C] | exact H]. Qed.

Lemma on_con_moves : forall A (m : M A) i p, framed m -> RInv p -> i < length (p_cons p) ->
  let p1 := snd (on_con i m p) in
  moves [i] p p1 /\ RInv p1 /\
  (c_raw (con_at p1 i) = c_raw (con_at p i) \/ length (p_log p) <= c_raw (con_at p1 i)).
Proof.
  intros A m i p Fm RI Hi p1.
  set (n0 := length (p_log p)). set (r0 := c_raw (con_at p i)).
  set (own := fun n r => r = r0 \/ (n0 <= r /\ r < n)).
  specialize (Fm own n0). destruct RI as [A1 A2 A3].
  pose proof (A1 i Hi) as R0. fold r0 n0 in R0.
  destruct (Fm ltac:(unfold own; intros; lia) ltac:(unfold own; intros; lia) 0
    (St (p_log p) (con_at p i) (Cur (c_raw (con_at p i)) 0 true))) as ((O1 & _ & _) & (d & Ld & Fd) & _).
  { unfold okst, own. cbn. auto. }
  { lia. }
  assert (E : p_log p1 = s_log (snd (m (St (p_log p) (con_at p i) (Cur (c_raw (con_at p i)) 0 true)))) /\
              p_cons p1 = upd i (s_con (snd (m (St (p_log p) (con_at p i) (Cur (c_raw (con_at p i)) 0 true))))) (p_cons p)).
  { unfold p1, on_con. destruct (m _). auto. }
  destruct E as [EL EC]. destruct (m _) as [o s1]. cbn [snd s_log] in *.
  assert (Len : length (p_cons p1) = length (p_cons p)) by (rewrite EC; apply upd_length).
  assert (Ci : con_at p1 i = s_con s1) by (unfold con_at; rewrite EC; apply nth_upd_same, Hi).
  assert (Cj : forall j, j <> i -> con_at p1 j = con_at p j)
    by (intros j Hj; unfold con_at; rewrite EC; apply nth_upd_other; auto).
  rewrite <- EL in *.
  assert (LL : n0 <= length (p_log p1)) by (rewrite Ld, app_length; unfold n0; lia).
  split; [| split].
  - constructor.
    + lia.
    + intros j Hj Nj. apply Cj. intros ->. apply Nj. left; reflexivity.
    + exists d. split; [exact Ld |]. intros j Hj Nj. assert (NE : j <> i) by (intros ->; apply Nj; left; reflexivity).
      eapply Forall_impl; [| exact Fd]. intros e Oe Ee. unfold ev_own in Oe. rewrite Ee in Oe.
      destruct Oe as [Oe | Oe]; [apply NE, A2; auto |]. specialize (A1 j Hj). unfold n0 in Oe. lia.
  - constructor.
    + intros j Hj. rewrite Len in Hj. destruct (Nat.eq_dec j i) as [-> | NE].
      * rewrite Ci. destruct O1 as [-> | O1]; [unfold n0 in *; lia | lia].
      * rewrite Cj by exact NE. specialize (A1 j Hj). unfold n0 in *; lia.
    + intros j k Hj Hk. rewrite Len in *. destruct (Nat.eq_dec j i) as [-> | NE], (Nat.eq_dec k i) as [-> | NE2]; auto.
      * rewrite Ci, Cj by exact NE2. intros X. specialize (A1 k Hk). apply A2; auto.
        destruct O1 as [O1 | O1]; [unfold r0 in O1; congruence | unfold n0 in *; lia].
      * rewrite Ci, Cj by exact NE. intros X. specialize (A1 j Hj). apply A2; auto.
        destruct O1 as [O1 | O1]; [unfold r0 in O1; congruence | unfold n0 in *; lia].
      * rewrite !Cj by auto. apply A2; auto.
    + rewrite Ld. apply Forall_app. rewrite <- Ld. split.
      * eapply Forall_impl; [| exact A3]. intros e H r Hr. specialize (H r Hr). unfold n0 in *; lia.
      * eapply Forall_impl; [| exact Fd]. intros e Oe r Hr. unfold ev_own in Oe. rewrite Hr in Oe.
        destruct Oe as [-> | Oe]; [unfold n0 in *; lia | lia].
  - rewrite Ci. destruct O1 as [O1 | O1]; [left; exact O1 | right; apply O1].
Qed.

Lemma fr_ping : forall g drv b, framed (ping_check g drv b).
Proof. intros g drv b own n0 A B n. apply h_ping; auto. Qed.
Lemma fr_reset : forall g drv b, framed (reset g drv b).
Proof. intros g drv b own n0 A B n. apply h_reset; auto. Qed.
Lemma fr_close : forall g drv, framed (close g drv).
Proof. intros g drv own n0 A B n. apply h_close; auto. Qed.
Lemma fr_do_ops : forall g drv l, framed (do_ops g drv l).
Proof. intros g drv l own n0 A B n. apply h_do_ops; auto. Qed.

(** ** Rolled back before reuse *)

Lemma settled_app : forall r l d, settled r l -> Forall (fun e => ~ touches r e) d -> settled r (l ++ d).
Proof.
  intros r l d H F l1 e l2 E T. apply app_eq_app in E as (k & [(E1 & E2) | (E1 & E2)]).
  - destruct k as [| e' k].
    + cbn in E2. subst d. apply Forall_inv in F. easy.
    + cbn in E2. injection E2 as <- ->. apply (H l1 e k E1) in T. apply Exists_app. left. exact T.
  - subst d. apply Forall_app in F as [_ F]. apply Forall_inv in F. easy.
Qed.
Lemma settled_none : forall r l, Forall (fun e => ~ touches r e) l -> settled r l.
Proof.
  intros r l F l1 e l2 -> T. apply Forall_app in F as [_ F]. apply Forall_inv in F. easy.
Qed.
Lemma settled_rollback : forall r l a d, Forall (fun e => ~ touches r e) d -> settled r (l ++ (KRollback r, a) :: d).
Proof.
  intros r l a d F l1 e l2 E T. apply app_eq_app in E as (k & [(E1 & E2) | (E1 & E2)]).
  - destruct k as [| e' k].
    + cbn in E2. injection E2 as -> ->. cbn in T. easy.
    + cbn in E2. injection E2 as <- ->. apply Exists_app. right. apply Exists_cons_hd. reflexivity.
  - exfalso. destruct k as [| e' k]; cbn in E2; injection E2 as E3 E2; subst; [easy |].
    apply Forall_app in F as [_ F]. apply Forall_inv in F. easy.
Qed.
Lemma no_touch_not : forall r d, Forall (fun e : event => no_touch (fst e) = true) d -> Forall (fun e => ~ touches r e) d.
Proof. intros r d. apply Forall_impl. intros e H T. unfold touches in T. destruct (fst e); discriminate || easy. Qed.
Lemma other_not : forall r d, Forall (fun e : event => raw_of (fst e) <> Some r) d -> Forall (fun e => ~ touches r e) d.
Proof.
  intros r d. apply Forall_impl. intros e H T. unfold touches in T. destruct (fst e); cbn in *; try easy; subst; auto.
Qed.
Lemma old_not : forall n r (l : list event), Forall (fun e => forall r, raw_of (fst e) = Some r -> r < n) l -> n <= r ->
  Forall (fun e => ~ touches r e) l.
Proof.
  intros n r l F L. apply other_not. eapply Forall_impl; [| exact F]. intros e H E. specialize (H r E). lia.
Qed.

Definition idle_ok (p : pool) (j : nat) : Prop :=
  c_closed (con_at p j) = false ->
  settled (c_raw (con_at p j)) (p_log p) /\ c_trans (con_at p j) = false.

Lemma idle_ok_moves : forall S p p1 j, moves S p p1 -> j < length (p_cons p) -> ~ In j S -> idle_ok p j -> idle_ok p1 j.
Proof.
  intros S p p1 j [A B (d & L & F)] Hj Nj O. unfold idle_ok in *. rewrite (B j Hj Nj). intros C.
  destruct (O C) as [X T]. split; [| exact T]. rewrite L. apply settled_app; [exact X |]. apply other_not, F; auto.
Qed.

(** The connection after a ping or a reset. *)
Lemma on_con_log : forall A (m : M A) i p, i < length (p_cons p) -> exists s1,
  snd (m (St (p_log p) (con_at p i) (Cur (c_raw (con_at p i)) 0 true))) = s1 /\
  p_log (snd (on_con i m p)) = s_log s1 /\ con_at (snd (on_con i m p)) i = s_con s1.
Proof.
  intros A m i p Hi. eexists. split; [reflexivity |]. unfold on_con. destruct (m _) as [o s1]. cbn.
  split; [reflexivity |]. unfold con_at. cbn. apply nth_upd_same, Hi.
Qed.

Lemma ping_idle_ok : forall g drv b i p, RInv p -> i < length (p_cons p) -> idle_ok p i ->
  idle_ok (snd (on_con i (ping_check g drv b) p)) i.
Proof.
  intros g drv b i p RI Hi O. destruct (on_con_log _ (ping_check g drv b) i p Hi) as (s1 & E & EL & EC).
  unfold idle_ok in *. rewrite EL, EC. intros C.
  set (s0 := St (p_log p) (con_at p i) _) in *.
  pose proof (ping_con g drv b s0) as Q. rewrite E in Q. cbn [s_con s_log s0] in Q.
  pose proof (ping_no_touch g drv b s0) as NT.
  destruct (ping_check g drv b s0) as [o s1']. cbn [snd] in E. subst s1'.
  destruct (NT _ _ eq_refl) as (d & Ld & Fd). cbn [s_log s0] in Ld. rewrite Ld.
  destruct Q as [(Q1 & Q2 & Q3) | (Q1 & Q2 & Q3)].
  - rewrite Q3 in C. destruct (O C) as [X T]. rewrite Q1, Q2. split; [| exact T].
    apply settled_app; [exact X | apply no_touch_not, Fd].
  - split; [| exact Q2]. apply settled_none, Forall_app. split; [| apply no_touch_not, Fd].
    eapply old_not; [apply (ri_log _ RI) | exact Q1].
Qed.

Lemma reset_idle_ok : forall g drv i p, RInv p -> i < length (p_cons p) ->
  idle_ok (snd (on_con i (reset g drv true) p)) i.
Proof.
  intros g drv i p RI Hi. destruct (on_con_log _ (reset g drv true) i p Hi) as (s1 & E & EL & EC).
  unfold idle_ok. rewrite EL, EC. intros C.
  destruct (c_closed (con_at p i)) eqn:C0.
  - exfalso. unfold reset, bindM, get_con in E. cbn [s_con] in E. rewrite C0 in E. cbn in E. subst s1. cbn in C. congruence.
  - destruct (reset_true g drv (St (p_log p) (con_at p i) (Cur (c_raw (con_at p i)) 0 true)) s1 C0 E) as (T & _ & R & a & d & Ld & Fd).
    cbn [s_log s_con] in *. split; [| exact T]. rewrite Ld.
    destruct R as [R | R].
    + rewrite R. apply settled_rollback, no_touch_not, Fd.
    + apply settled_none, Forall_app. split; [eapply old_not; [apply (ri_log _ RI) | exact R] |].
      constructor; [intros [] | apply no_touch_not, Fd].
Qed.

(** ** A new connection *)

Definition about (n : nat) (k : call) : bool :=
  match raw_of k with None => true | Some r => Nat.eqb r n end && no_touch k.
Lemma create_about : forall g drv s o s1, create g drv s = (o, s1) ->
  exists d, s_log s1 = s_log s ++ d /\ Forall (fun e => about (length (s_log s)) (fst e) = true) d /\ d <> [].
Proof.
  intros g drv s o s1 H. unfold create in H. unfold bindM at 1, driver_new in H. rewrite driver_spec in H.
  set (n := length (s_log s)) in *.
  assert (K : Forall (fun e => about n (fst e) = true) [(KConnect, drv n)]) by (constructor; auto).
  destruct (drv n) as [v | e].
  2: { injection H as <- <-. exists [(KConnect, Raises e)]. repeat split; auto. discriminate. }
  set (s0 := St _ _ _) in H.
  assert (X : forall l, only (about n) (session_loop drv n l)).
  { induction l; cbn; [apply only_ret |]. apply only_bind; [| intros; apply IHl].
    apply only_driver. unfold about. cbn. rewrite Nat.eqb_refl. reflexivity. }
  assert (Y : only (about n) (let* r := attempt (setsession g drv n) in
    match r with Ret _ => ret n | Raise e => quiet drv (KClose n) ;; raise e end)).
  { apply only_bind.
    - apply only_attempt. unfold setsession. destruct (g_session g) as [| q l]; [apply only_ret |].
      apply only_bind; [apply only_new; unfold about; cbn; rewrite Nat.eqb_refl; reflexivity |]. intros k.
      apply only_bind; [apply (X (q :: l)) |]. intros. apply only_bind; [| intros; apply only_ret].
      apply only_driver. unfold about; cbn; rewrite Nat.eqb_refl; reflexivity.
    - intros [u | e]; [apply only_ret |]. apply only_bind; [| intros; apply only_raise].
      unfold quiet. apply only_bind; [| intros; apply only_ret]. apply only_attempt, only_driver.
      unfold about; cbn; rewrite Nat.eqb_refl; reflexivity. }
  destruct (Y s0 _ _ H) as (d & Ld & Fd). exists ((KConnect, Returns v) :: d). rewrite Ld. cbn [s_log s0].
  rewrite <- app_assoc. split; [reflexivity |]. split; [| discriminate]. constructor; [reflexivity | exact Fd].
Qed.

Section Raw.
Variable q : pcfg.
Variable drv : nat -> answer.

Definition TInv (p : pool) : Prop := forall j, In j (p_idle p) -> idle_ok p j.
Definition used (p : pool) (j : nat) : Prop :=
  In j (p_idle p) \/ In j (held p) \/ In j (p_rel p) \/ In j (shared_out p).
Definition OInv (p : pool) : Prop := forall j, used p j -> c_closed (con_at p j) = false.

Lemma used_lt : forall p j, SInv q p -> used p j -> j < length (p_cons p).
Proof. intros p j SI U. apply (si_lt _ _ SI). unfold used in U. rewrite <- !cnt_In in U. lia. Qed.
Lemma used_cnt : forall p j, used p j <-> 0 < cnt j (p_idle p) + cnt j (held p) + cnt j (p_rel p) + cnt j (shared_out p).
Proof. intros p j. unfold used. rewrite <- !cnt_In. lia. Qed.

Lemma take_con_moves : forall p r p1, take_con q drv p = (r, p1) -> SInv q p -> RInv p ->
  moves (p_idle p) p p1 /\ RInv p1 /\ (TInv p -> TInv p1) /\
  (forall j, j < length (p_cons p) -> c_closed (con_at p j) = false -> c_closed (con_at p1 j) = false) /\
  match r with
  | Ret i => (TInv p -> idle_ok p1 i) /\ i < length (p_cons p1) /\
             (length (p_cons p) <= i -> c_closed (con_at p1 i) = false)
  | Raise _ => True end.
Proof.
  intros p r p1 H SI RI. unfold take_con in H. destruct (p_idle p) as [| i l] eqn:I.
  - destruct (connect (q_cfg q) drv (St (p_log p) no_con (Cur 0 0 true))) as [oc s] eqn:Ec.
    assert (X : exists d, s_log s = p_log p ++ d /\ Forall (fun e => about (length (p_log p)) (fst e) = true) d /\ d <> [] /\
      (oc = Ret tt -> c_raw (s_con s) = length (p_log p) /\ c_closed (s_con s) = false /\ c_trans (s_con s) = false)).
    { unfold connect, bindM in Ec. destruct (create _ _ _) as [[raw | e] s0] eqn:E.
      - destruct (create_about _ _ _ _ _ E) as (d & Ld & Fd & Nd). injection Ec as <- <-. exists d. cbn in *.
        repeat split; auto. symmetry. exact (create_raw _ _ _ _ _ E).
      - destruct (create_about _ _ _ _ _ E) as (d & Ld & Fd & Nd). injection Ec as <- <-. exists d. cbn in *.
        repeat split; auto; discriminate. }
    destruct X as (d & Ld & Fd & Nd & Xr). destruct RI as [A1 A2 A3].
    assert (LL : length (p_log p) < length (s_log s)).
    { rewrite Ld, app_length. destruct d; [easy | cbn; lia]. }
    assert (Fo : Forall (fun e => forall r0, raw_of (fst e) = Some r0 -> r0 = length (p_log p)) d).
    { eapply Forall_impl; [| exact Fd]. intros e He r0 Hr. unfold about in He. rewrite Hr in He.
      apply andb_true_iff in He as [He _]. apply Nat.eqb_eq, He. }
    assert (FL : Forall (fun e => forall r0, raw_of (fst e) = Some r0 -> r0 < length (s_log s)) (s_log s)).
    { assert (Y : Forall (fun e => forall r0, raw_of (fst e) = Some r0 -> r0 < length (s_log s)) (p_log p ++ d)); [| rewrite <- Ld in Y; exact Y]. apply Forall_app. split.
      - eapply Forall_impl; [| exact A3]. intros e He r0 Hr. specialize (He r0 Hr). lia.
      - eapply Forall_impl; [| exact Fo]. intros e He r0 Hr. specialize (He r0 Hr). lia. }
    assert (FD : forall j, j < length (p_cons p) -> Forall (fun e => raw_of (fst e) <> Some (c_raw (con_at p j))) d).
    { intros j Hj. eapply Forall_impl; [| exact Fo]. intros e He Hr. specialize (He _ Hr). specialize (A1 j Hj). lia. }
    destruct oc as [u | e]; injection H as <- <-.
    + destruct u. destruct (Xr eq_refl) as (Xa & Xb & Xc). set (p1 := Pool _ _ _ _ _ _ _ _ _ _).
      assert (Cj : forall j, j < length (p_cons p) -> con_at p1 j = con_at p j).
      { intros j Hj. unfold con_at, p1. cbn. apply app_nth1, Hj. }
      assert (Cn : con_at p1 (length (p_cons p)) = s_con s).
      { unfold con_at, p1. cbn. rewrite app_nth2, Nat.sub_diag by lia. reflexivity. }
      assert (Len : length (p_cons p1) = S (length (p_cons p))) by (unfold p1; cbn; rewrite app_length; cbn; lia).
      assert (Lg : p_log p1 = s_log s) by reflexivity.
      split; [| split; [| split; [| split; [| split; [| split]]]]].
      * constructor; [lia | intros; auto |]. exists d. rewrite Lg. auto.
      * constructor; rewrite ?Lg.
        -- intros j Hj. destruct (Nat.eq_dec j (length (p_cons p))) as [-> | NE]; [rewrite Cn; lia |].
           rewrite Cj by lia. specialize (A1 j ltac:(lia)). lia.
        -- intros j k Hj Hk. rewrite Len in *.
           destruct (Nat.eq_dec j (length (p_cons p))) as [-> | NE], (Nat.eq_dec k (length (p_cons p))) as [-> | NE2]; auto.
           ++ rewrite Cn, Cj by lia. specialize (A1 k ltac:(lia)). lia.
           ++ rewrite Cn, Cj by lia. specialize (A1 j ltac:(lia)). lia.
           ++ rewrite !Cj by lia. apply A2; lia.
        -- exact FL.
      * intros T j Hj. cbn in Hj. easy.
      * intros j Hj. rewrite Cj by exact Hj. auto.
      * intros _. unfold idle_ok. rewrite Cn, Lg, Ld, Xa. intros _. split; [| exact Xc].
        apply settled_none, Forall_app. split; [eapply old_not; [exact A3 | lia] |].
        apply no_touch_not. eapply Forall_impl; [| exact Fd]. intros e He. apply andb_true_iff in He as [_ He]. exact He.
      * lia.
      * intros _. rewrite Cn. exact Xb.
    + set (p1 := Pool _ _ _ _ _ _ _ _ _ _).
      split; [| split; [| split; [| split]]].
      * constructor; [cbn; lia | intros; reflexivity |]. exists d. split; [exact Ld |]. auto.
      * constructor; [intros j Hj; specialize (A1 j Hj); cbn; unfold con_at in *; cbn; lia | exact A2 | exact FL].
      * intros T j Hj. cbn in Hj. easy.
      * intros j Hj C. exact C.
      * exact Logic.I.
  - injection H as <- <-.
    assert (U : used p i) by (left; rewrite I; left; reflexivity). pose proof (used_lt _ _ SI U) as Hi.
    set (p0 := set_idle l p). assert (Hi0 : i < length (p_cons p0)) by exact Hi.
    assert (RI0 : RInv p0) by (apply (RInv_same p); auto).
    destruct (on_con_moves _ (ping_check (q_cfg q) drv 1) i p0 (fr_ping _ _ _) RI0 Hi0) as (Mv & RI1 & _).
    set (p1 := snd (on_con i (ping_check (q_cfg q) drv 1) p0)) in *.
    assert (Il : p_idle p1 = l). { unfold p1. pose proof (core_on_con _ i (ping_check (q_cfg q) drv 1) p0) as C. core_rw C. cbn in *. assumption. }
    assert (NI : ~ In i l).
    { intros X. pose proof (si_one _ _ SI i) as O. rewrite I, cnt_cons, Nat.eqb_refl in O. apply cnt_In in X. lia. }
    assert (Mp : moves (i :: l) p p1).
    { eapply moves_same_l; [eapply moves_weak; [| exact Mv] | reflexivity | reflexivity]. intros j [<- | []]. left; reflexivity. }
    split; [exact Mp |]. split; [exact RI1 |]. split; [| split; [| split; [| split]]].
    + intros T j Hj. rewrite Il in Hj.
      apply (idle_ok_moves [i] p0 p1 j Mv).
      * apply (used_lt p j SI). left. rewrite I. right. exact Hj.
      * intros [<- | []]. easy.
      * apply (T j). rewrite I. right; exact Hj.
    + intros j Hj C. destruct (Nat.eq_dec j i) as [-> | NE].
      * destruct (on_con_log _ (ping_check (q_cfg q) drv 1) i p0 Hi0) as (s1 & E & _ & EC). fold p1 in EC. rewrite EC, <- E.
        apply (o_ping (q_cfg q) drv 1). exact C.
      * destruct Mv as [_ B _]. rewrite (B j); [exact C | exact Hj | intros [-> | []]; easy].
    + intros T. apply ping_idle_ok; auto. apply (T i). rewrite I. left; reflexivity.
    + destruct Mv as [L _ _]. cbn in L. lia.
    + intros L. lia.
Qed.

Record good (S : list nat) (p p1 : pool) : Prop := {
  gd_mv : moves S p p1;
  gd_r : RInv p1;
  gd_t : q_reset q = true -> TInv p -> TInv p1;
  gd_o : forall j, j < length (p_cons p) -> c_closed (con_at p j) = false -> c_closed (con_at p1 j) = false;
  gd_n : forall j, length (p_cons p) <= j -> j < length (p_cons p1) -> c_closed (con_at p1 j) = false }.

Lemma TInv_same : forall p p1, p_log p1 = p_log p -> p_cons p1 = p_cons p -> p_idle p1 = p_idle p -> TInv p -> TInv p1.
Proof. intros p p1 L C I T j. unfold idle_ok, con_at. rewrite L, C, I. apply T. Qed.
Lemma good_same : forall S p p1, RInv p -> p_log p1 = p_log p -> p_cons p1 = p_cons p -> p_idle p1 = p_idle p -> good S p p1.
Proof.
  intros S p p1 R L C I. constructor.
  - apply moves_refl; auto.
  - eapply RInv_same; eauto.
  - intros _. apply TInv_same; auto.
  - intros j _. unfold con_at. rewrite C. auto.
  - rewrite C. lia.
Qed.
Lemma good_r : forall S p p1 p2, good S p p1 -> p_log p2 = p_log p1 -> p_cons p2 = p_cons p1 -> p_idle p2 = p_idle p1 -> good S p p2.
Proof.
  intros S p p1 p2 [A B C D E] L N I. constructor.
  - eapply moves_same_r; eauto.
  - eapply RInv_same; eauto.
  - intros Q T. eapply TInv_same; eauto.
  - intros j Hj X. unfold con_at. rewrite N. apply D; auto.
  - rewrite N. intros j. unfold con_at at 1. rewrite N. apply E.
Qed.
Lemma good_l : forall S p p0 p1, good S p0 p1 -> p_log p0 = p_log p -> p_cons p0 = p_cons p -> p_idle p0 = p_idle p -> good S p p1.
Proof.
  intros S p p0 p1 [A B C D E] L N I. constructor.
  - eapply moves_same_l; eauto.
  - exact B.
  - intros Q T. apply C; [exact Q |]. eapply TInv_same; eauto.
  - intros j Hj X. apply D; [rewrite N; exact Hj |]. unfold con_at. rewrite N. exact X.
  - rewrite N in E. exact E.
Qed.
Lemma good_weak : forall S S2 p p1, (forall j, In j S -> In j S2) -> good S p p1 -> good S2 p p1.
Proof. intros S S2 p p1 H [A B C D E]. constructor; auto. eapply moves_weak; eauto. Qed.

Lemma take_con_good : forall p r p1, take_con q drv p = (r, p1) -> SInv q p -> RInv p -> good (p_idle p) p p1.
Proof.
  intros p r p1 H SI RI. destruct (take_con_moves p r p1 H SI RI) as (A & B & C & D & E).
  destruct (take_con_struct _ _ _ _ _ H) as (_ & _ & _ & _ & _ & X).
  constructor; auto. intros j L1 L2. destruct r as [i | e].
  - destruct X as [(_ & X) | (_ & _ & X & Y)]; [lia |]. replace j with i by lia. apply E. lia.
  - destruct X. lia.
Qed.

Lemma on_con_good : forall A (m : M A) i p, framed m -> ho any m -> RInv p -> i < length (p_cons p) -> ~ In i (p_idle p) ->
  (forall j, In j (p_idle p) -> j < length (p_cons p)) -> good [i] p (snd (on_con i m p)).
Proof.
  intros A m i p F O R Hi NI IL. destruct (on_con_moves _ m i p F R Hi) as (Mv & R1 & _).
  pose proof (core_on_con _ i m p) as Co. core_rw Co. set (p1 := snd (on_con i m p)) in *.
  constructor; auto.
  - intros _ T j Hj. rewrite H1 in Hj. eapply idle_ok_moves; [exact Mv | auto | | auto]. intros [-> | []]. easy.
  - intros j Hj C. destruct (Nat.eq_dec j i) as [-> | NE].
    + destruct (on_con_log _ m i p Hi) as (s1 & E & _ & EC). fold p1 in EC. rewrite EC, <- E. apply O. exact C.
    + destruct Mv as [_ B _]. rewrite (B j); [exact C | exact Hj | intros [-> | []]; easy].
  - lia.
Qed.

Lemma notify_same : forall p, p_log (notify p) = p_log p /\ p_cons (notify p) = p_cons p /\ p_idle (notify p) = p_idle p.
Proof. intros p. unfold notify. destruct (p_wait p); auto. Qed.

Lemma cache_con_good : forall i p, RInv p -> i < length (p_cons p) -> ~ In i (p_idle p) ->
  (forall j, In j (p_idle p) -> j < length (p_cons p)) ->
  moves [i] p (cache_con q drv i p) /\ RInv (cache_con q drv i p) /\
  (q_reset q = true -> TInv p -> TInv (cache_con q drv i p)) /\
  (forall j, j <> i -> j < length (p_cons p) -> c_closed (con_at p j) = false -> c_closed (con_at (cache_con q drv i p) j) = false) /\
  (c_closed (con_at p i) = false -> c_closed (con_at (cache_con q drv i p) i) = false \/ p_idle (cache_con q drv i p) = p_idle p) /\
  length (p_cons (cache_con q drv i p)) = length (p_cons p).
Proof.
  intros i p R Hi NI IL. unfold cache_con.
  destruct (Nat.eqb (q_maxcached q) 0 || Nat.ltb (length (p_idle p)) (q_maxcached q));
  match goal with |- context [notify ?x] => destruct (notify_same x) as (Nl & Nc & Ni); set (p3 := x) in * end;
  set (p2 := notify p3) in *; clearbody p2.
  - destruct (on_con_moves _ (reset (q_cfg q) drv (q_reset q)) i p (fr_reset _ _ _) R Hi) as (Mv & R1 & _).
    pose proof (core_on_con _ i (reset (q_cfg q) drv (q_reset q)) p) as Co. core_rw Co.
    pose proof (on_con_log _ (reset (q_cfg q) drv (q_reset q)) i p Hi) as OL.
    pose proof (reset_idle_ok (q_cfg q) drv i p R Hi) as RO.
    set (p0 := snd (on_con i (reset (q_cfg q) drv (q_reset q)) p)) in *.
    assert (Xl : p_log p2 = p_log p0) by (rewrite Nl; reflexivity).
    assert (Xc : p_cons p2 = p_cons p0) by (rewrite Nc; reflexivity).
    assert (Xi : p_idle p2 = p_idle p ++ [i]) by (rewrite Ni; cbn; rewrite H1; reflexivity).
    split; [| split; [| split; [| split; [| split]]]].
    + eapply moves_same_r; eauto.
    + eapply RInv_same; eauto.
    + intros Q T j Hj. rewrite Xi in Hj. apply in_app_iff in Hj as [Hj | [<- | []]].
      * assert (X : idle_ok p0 j).
        { eapply idle_ok_moves; [exact Mv | auto | intros [-> | []]; easy | auto]. }
        unfold idle_ok, con_at in *. rewrite Xl, Xc. exact X.
      * assert (X : idle_ok p0 i). { unfold p0. rewrite Q. exact RO. }
        unfold idle_ok, con_at in *. rewrite Xl, Xc. exact X.
    + intros j Hj Lj C. unfold con_at at 1. rewrite Xc. fold (con_at p0 j). destruct Mv as [_ B _].
      rewrite B; [exact C | exact Lj | intros [-> | []]; easy].
    + intros C. left. unfold con_at at 1. rewrite Xc. fold (con_at p0 i). destruct OL as (s1 & E & _ & EC).
      rewrite EC, <- E. apply (o_reset (q_cfg q) drv (q_reset q)). exact C.
    + rewrite Xc. exact H.
  - destruct (on_con_moves _ (close (q_cfg q) drv) i p (fr_close _ _) R Hi) as (Mv & R1 & _).
    pose proof (core_on_con _ i (close (q_cfg q) drv) p) as Co. core_rw Co.
    set (p0 := snd (on_con i (close (q_cfg q) drv) p)) in *.
    assert (Xl : p_log p2 = p_log p0) by (rewrite Nl; reflexivity).
    assert (Xc : p_cons p2 = p_cons p0) by (rewrite Nc; reflexivity).
    assert (Xi : p_idle p2 = p_idle p) by (rewrite Ni; cbn; rewrite H1; reflexivity).
    split; [| split; [| split; [| split; [| split]]]].
    + eapply moves_same_r; eauto.
    + eapply RInv_same; eauto.
    + intros Q T j Hj. rewrite Xi in Hj. assert (X : idle_ok p0 j).
      { eapply idle_ok_moves; [exact Mv | auto | intros [-> | []]; easy | auto]. }
      unfold idle_ok, con_at in *. rewrite Xl, Xc. exact X.
    + intros j Hj Lj C. unfold con_at at 1. rewrite Xc. fold (con_at p0 j). destruct Mv as [_ B _].
      rewrite B; [exact C | exact Lj | intros [-> | []]; easy].
    + intros _. right. exact Xi.
    + rewrite Xc. exact H.
Qed.

Lemma close_all_moves : forall l p, RInv p -> (forall i, In i l -> i < length (p_cons p)) ->
  moves l p (close_all q drv l p) /\ RInv (close_all q drv l p).
Proof.
  induction l as [| i l IH]; intros p R L; cbn [close_all]; [split; [apply moves_refl; auto | exact R] |].
  destruct (on_con_moves _ (close (q_cfg q) drv) i p (fr_close _ _) R (L i (or_introl eq_refl))) as (Mv & R1 & _).
  pose proof (core_on_con _ i (close (q_cfg q) drv) p) as Co. core_rw Co.
  destruct (IH (snd (on_con i (close (q_cfg q) drv) p)) R1) as (M2 & R2).
  { intros j Hj. rewrite H. apply L. right; exact Hj. }
  split; [| exact R2]. eapply moves_trans.
  - eapply moves_weak; [| exact Mv]. intros j [<- | []]. left; reflexivity.
  - eapply moves_weak; [| exact M2]. intros j Hj. right; exact Hj.
Qed.

Definition cache_cons (p : pool) : list nat := map (fun o => fst (obj_at p o)) (p_cache p).

Lemma cache_shared : forall p o, SInv q p -> 0 < snd (obj_at p o) -> In (fst (obj_at p o)) (shared_out p).
Proof.
  intros p o SI P. unfold shared_out. apply in_flat_map. exists (obj_at p o). split.
  - unfold obj_at in *. destruct (Nat.ltb_spec o (length (p_objs p))); [apply nth_In; easy |].
    rewrite nth_overflow in P by easy. cbn in P. lia.
  - destruct (Nat.eqb_spec (snd (obj_at p o)) 0); [lia | left; reflexivity].
Qed.
Lemma shared_not_idle : forall p j, SInv q p -> In j (shared_out p) -> ~ In j (p_idle p).
Proof.
  intros p j SI A B. pose proof (si_one _ _ SI j) as O. apply cnt_In in A. apply cnt_In in B. lia.
Qed.

Lemma share_loop_good : forall t p, SInv q p -> RInv p -> good (cache_cons p) p (snd (share_loop q drv t p)).
Proof.
  intros t p SI R. unfold share_loop. pose proof (sort_perm p (p_cache p)) as P.
  destruct (sort_objs p (p_cache p)) as [| o r]; [apply good_same; auto |].
  assert (Io : In o (p_cache p)) by (eapply Permutation_in; [exact P | left; reflexivity]).
  destruct (obj_trans p o).
  - unfold wait_lock. destruct (q_blocking q); apply good_same; auto.
  - pose proof (cache_shared p o SI (si_live _ _ SI o Io)) as Sh.
    set (i := fst (obj_at p o)) in *.
    assert (G : good [i] (set_cache r p) (snd (on_con i (ping_check (q_cfg q) drv 1) (set_cache r p)))).
    { apply on_con_good.
      - apply fr_ping.
      - apply o_ping.
      - apply (RInv_same p); auto.
      - apply (used_lt p i SI). right; right; right; exact Sh.
      - apply (shared_not_idle p); auto.
      - intros j Hj. apply (used_lt p j SI). left; exact Hj. }
    set (p1 := snd (on_con i (ping_check (q_cfg q) drv 1) (set_cache r p))) in *.
    apply good_l with (p0 := set_cache r p); auto.
    match goal with |- context [notify ?x] => destruct (notify_same x) as (Nl & Nc & Ni) end.
    eapply good_r; [eapply good_weak; [| exact G] | | |]; unfold give; cbn [snd set_hand p_log p_cons p_idle].
    + intros j [<- | []]. unfold cache_cons. apply in_map_iff. exists o. auto.
    + rewrite Nl. reflexivity.
    + rewrite Nc. reflexivity.
    + rewrite Ni. reflexivity.
Qed.

Definition granted (r : reply) (p1 : pool) : Prop :=
  forall h i, r = RGot h -> nth h (p_hand p1) HNone = HDed i -> idle_ok p1 i.

Lemma request_ded_good : forall t p, SInv q p -> RInv p ->
  good (p_idle p) p (snd (request_ded q drv t p)) /\
  (TInv p -> granted (fst (request_ded q drv t p)) (snd (request_ded q drv t p))).
Proof.
  intros t p SI R. unfold request_ded. destruct (full q p) eqn:F.
  - unfold wait_lock. destruct (q_blocking q); (split; [apply good_same; auto |]); intros _ h i X; discriminate.
  - destruct (take_con q drv p) as [[i | e] p1] eqn:T.
    + pose proof (take_con_good _ _ _ T SI R) as G. split; [eapply good_r; eauto |].
      intros TI h j X Y. unfold give in X, Y. cbn in X, Y. injection X as <-.
      rewrite app_nth2, Nat.sub_diag in Y by lia. cbn in Y. injection Y as <-.
      destruct (take_con_moves _ _ _ T SI R) as (_ & _ & _ & _ & E & _). exact (E TI).
    + pose proof (take_con_good _ _ _ T SI R) as G. split; [exact G |]. intros _ h i X; discriminate.
Qed.
Lemma request_shared_good : forall t p, SInv q p -> RInv p ->
  good (p_idle p ++ cache_cons p) p (snd (request_shared q drv t p)).
Proof.
  intros t p SI R. unfold request_shared. destruct (Nat.eqb (length (p_cache p)) 0 && full q p) eqn:F.
  - unfold wait_lock. destruct (q_blocking q); apply good_same; auto.
  - destruct (Nat.ltb_spec (length (p_cache p)) (q_maxshared q)) as [LT | GE].
    + destruct (take_con q drv p) as [[i | e] p1] eqn:T; pose proof (take_con_good _ _ _ T SI R) as G.
      * match goal with |- context [notify ?x] => destruct (notify_same x) as (Nl & Nc & Ni) end.
        eapply good_r; [eapply good_weak; [| exact G] | | |]; unfold give; cbn [snd set_hand p_log p_cons p_idle].
        -- intros j Hj. apply in_app_iff. left; exact Hj.
        -- rewrite Nl. reflexivity.
        -- rewrite Nc. reflexivity.
        -- rewrite Ni. reflexivity.
      * eapply good_weak; [| exact G]. intros j Hj. apply in_app_iff. left; exact Hj.
    + eapply good_weak; [| apply share_loop_good; auto]. intros j Hj. apply in_app_iff. right; exact Hj.
Qed.

(** The connections a step may work on. *)
Definition aff (p : pool) (o : pop) : list nat :=
  match o with
  | OpRequest _ _ | OpResume _ | OpClosePool => p_idle p ++ cache_cons p
  | OpClose h | OpUse h _ => match con_of p (nth h (p_hand p) HNone) with Some i => [i] | None => [] end
  | OpRelease i => if existsb (Nat.eqb i) (p_rel p) then [i] else []
  end.

Lemma share_loop_granted : forall t p r p1, SInv q p -> share_loop q drv t p = (r, p1) -> granted r p1.
Proof.
  intros t p r p1 SI H h i -> Y. unfold share_loop in H. destruct (sort_objs p (p_cache p)) as [| o l]; [discriminate |].
  destruct (obj_trans p o).
  - unfold wait_lock in H. destruct (q_blocking q); discriminate.
  - unfold give in H. injection H as <- <-. cbn in Y. rewrite app_nth2, Nat.sub_diag in Y by lia. discriminate.
Qed.
Lemma request_shared_granted : forall t p r p1, SInv q p -> request_shared q drv t p = (r, p1) -> granted r p1.
Proof.
  intros t p r p1 SI H. unfold request_shared in H. destruct (Nat.eqb (length (p_cache p)) 0 && full q p).
  - unfold wait_lock in H. intros h i ->. destruct (q_blocking q); discriminate.
  - destruct (Nat.ltb (length (p_cache p)) (q_maxshared q)); [| eapply share_loop_granted; eauto].
    intros h i -> Y. destruct (take_con q drv p) as [[j | e] p2]; [| discriminate].
    unfold give in H. injection H as <- <-. cbn in Y. rewrite app_nth2, Nat.sub_diag in Y by lia. discriminate.
Qed.

Lemma held_In : forall p h i, nth h (p_hand p) HNone = HDed i -> In i (held p).
Proof.
  intros p h i H. unfold held. apply in_flat_map. exists (HDed i). split; [| left; reflexivity].
  rewrite <- H. apply nth_In. apply nth_in_len with (d := HNone). congruence.
Qed.
Lemma con_of_used : forall p h i, SInv q p -> con_of p (nth h (p_hand p) HNone) = Some i ->
  i < length (p_cons p) /\ ~ In i (p_idle p).
Proof.
  intros p h i SI H. destruct (nth h (p_hand p) HNone) as [j | o |] eqn:E; [| | discriminate]; cbn in H; injection H as <-.
  - pose proof (held_In _ _ _ E) as I. split; [apply (used_lt p _ SI); right; left; exact I |].
    intros X. pose proof (si_one _ _ SI j) as O. apply cnt_In in I. apply cnt_In in X. lia.
  - assert (P : 0 < snd (obj_at p o)).
    { rewrite (si_shares _ _ SI). unfold holders.
      assert (L : h < length (p_hand p)) by (apply nth_in_len with (d := HNone); congruence).
      pose proof (filter_upd _ (fun h => match h with HShared x => Nat.eqb x o | _ => false end) h HNone HNone (p_hand p) L) as X.
      rewrite E, Nat.eqb_refl in X. lia. }
    pose proof (cache_shared p o SI P) as I. split; [apply (used_lt p _ SI); right; right; right; exact I |].
    apply shared_not_idle; auto.
Qed.

Lemma idle_lt : forall p j, SInv q p -> In j (p_idle p) -> j < length (p_cons p).
Proof. intros p j SI Hj. apply (used_lt p j SI). left; exact Hj. Qed.

Lemma unshare_same : forall o p, p_log (unshare o p) = p_log p /\ p_cons (unshare o p) = p_cons p /\ p_idle (unshare o p) = p_idle p.
Proof. intros o p. unfold unshare. destruct (Nat.eqb _ 0); auto. Qed.

(** Every step: which connections it works on; idle connections stay rolled back. *)
Lemma step_raw : forall p o, SInv q p -> RInv p ->
  moves (aff p o) p (snd (step q drv p o)) /\ RInv (snd (step q drv p o)) /\
  (q_reset q = true -> TInv p -> TInv (snd (step q drv p o)) /\ granted (fst (step q drv p o)) (snd (step q drv p o))) /\
  (closes o = false -> OInv p -> OInv (snd (step q drv p o))).
Proof.
  intros p o SI R.
  destruct (step_inv q drv p o SI) as (SI1 & _ & _ & PL).
  assert (X : forall r p1, step q drv p o = (r, p1) -> good (aff p o) p p1 -> (q_reset q = true -> TInv p -> granted r p1) ->
    moves (aff p o) p (snd (step q drv p o)) /\ RInv (snd (step q drv p o)) /\
  (q_reset q = true -> TInv p -> TInv (snd (step q drv p o)) /\ granted (fst (step q drv p o)) (snd (step q drv p o))) /\
  (closes o = false -> OInv p -> OInv (snd (step q drv p o)))).
  { intros r p1 E [A B C D F] G. rewrite E in *. cbn [fst snd] in *. split; [exact A |]. split; [exact B |]. split; [auto |].
    intros _ O j U. destruct (Nat.ltb_spec j (length (p_cons p))) as [L | L].
    - apply D; [exact L |]. apply O. apply used_cnt. specialize (PL j L). apply used_cnt in U. unfold places in PL. lia.
    - apply F; [exact L |]. apply (used_lt p1 j SI1 U). }
  assert (NoG : forall r p1, (forall h, r <> RGot h) -> granted r p1) by (intros r p1 N h i -> ; exfalso; apply (N h); reflexivity).
  destruct o as [t sh | t | h | i | h l |]; cbn [aff step] in *.
  - unfold request in *. destruct (sh && negb (Nat.eqb (q_maxshared q) 0)).
    + destruct (request_shared q drv t p) as [r p1] eqn:E. eapply X; [reflexivity | |].
      * pose proof (request_shared_good t p SI R) as G. rewrite E in G. exact G.
      * intros _ _. eapply request_shared_granted; [| exact E]; assumption.
    + destruct (request_ded q drv t p) as [r p1] eqn:E. eapply X; [reflexivity | |];
        destruct (request_ded_good t p SI R) as (G & H); rewrite E in G, H.
      * eapply good_weak; [| exact G]. intros j Hj. apply in_app_iff. left; exact Hj.
      * intros _. exact H.
  - destruct (unwake t (p_woken p)) as [[k w] |].
    2: { eapply X; [reflexivity | apply good_same; auto | intros; apply NoG; discriminate]. }
    set (p0 := set_threads (p_wait p) w p) in *.
    assert (SI0 : SInv q p0) by (apply (SInv_core q p); auto).
    assert (R0 : RInv p0) by (apply (RInv_same p); auto).
    assert (T0 : TInv p -> TInv p0) by (apply TInv_same; auto).
    destruct k.
    + destruct (request_shared q drv t p0) as [r p1] eqn:E. eapply X; [reflexivity | |].
      * pose proof (request_shared_good t p0 SI0 R0) as G. rewrite E in G. apply good_l with (p0 := p0); [exact G | reflexivity | reflexivity | reflexivity].
      * intros _ _. eapply request_shared_granted; [| exact E]; assumption.
    + destruct (share_loop q drv t p0) as [r p1] eqn:E. eapply X; [reflexivity | |].
      * pose proof (share_loop_good t p0 SI0 R0) as G. rewrite E in G. apply good_l with (p0 := p0); [| reflexivity | reflexivity | reflexivity].
        eapply good_weak; [| exact G]. intros j Hj. apply in_app_iff. right; exact Hj.
      * intros _ _. eapply share_loop_granted; [| exact E]; assumption.
    + destruct (request_ded q drv t p0) as [r p1] eqn:E. eapply X; [reflexivity | |];
        destruct (request_ded_good t p0 SI0 R0) as (G & H); rewrite E in G, H.
      * apply good_l with (p0 := p0); [| reflexivity | reflexivity | reflexivity]. eapply good_weak; [| exact G]. intros j Hj. apply in_app_iff. left; exact Hj.
      * intros _ T. apply H, T0, T.
  - cbn [fst snd] in *. unfold close_handle in *. destruct (nth h (p_hand p) HNone) as [i | o |] eqn:E; cbn [con_of] in *.
    + assert (U : i < length (p_cons p) /\ ~ In i (p_idle p)) by (apply (con_of_used p h); [exact SI | rewrite E; reflexivity]).
      destruct U as [Hi NI].
      destruct (cache_con_good i p R Hi NI (fun j => idle_lt p j SI)) as (A & B & C & D & F & G).
      split; [eapply moves_same_r; [exact A | reflexivity | reflexivity] |].
      split; [eapply RInv_same; [| | exact B]; reflexivity |].
      split; [intros Q T; split; [| apply NoG; discriminate]; eapply TInv_same; [| | | apply (C Q T)]; reflexivity |].
      intros _ O j U. set (p1 := set_hand _ _) in *.
      assert (Lj : j < length (p_cons p)).
      { pose proof (used_lt p1 j SI1 U) as L. unfold p1 in L. cbn in L. rewrite G in L. exact L. }
      assert (Oj : c_closed (con_at p j) = false).
      { apply O, used_cnt. specialize (PL j Lj). apply used_cnt in U. unfold places in PL. lia. }
      change (c_closed (con_at (cache_con q drv i p) j) = false).
      destruct (Nat.eq_dec j i) as [-> | NE]; [| apply D; auto].
      destruct (F Oj) as [Y | Y]; [exact Y |]. exfalso.
      pose proof (si_one _ _ SI i) as S1.
      assert (Ih : In i (held p)) by (eapply held_In; eauto). apply cnt_In in Ih.
      apply used_cnt in U. unfold p1 in U. cbn [p_idle set_hand p_rel] in U. rewrite Y in U.
      destruct (cache_con_struct q drv i p) as (_ & Eo & _ & Eh & Er & _ & _).
      unfold shared_out in U, S1. cbn [p_objs set_hand] in U. rewrite Eo, Er in U.
      unfold held in U, Ih, S1. cbn [p_hand set_hand] in U. rewrite Eh in U.
      assert (L : h < length (p_hand p)) by (apply nth_in_len with (d := HNone); congruence).
      pose proof (cnt_flat_upd _ (fun h => match h with HDed i => [i] | _ => [] end) i h HNone HNone (p_hand p) L) as Z.
      rewrite E, cnt_nil, cnt_one, Nat.eqb_refl in Z. lia.
    + destruct (unshare_same o p) as (U1 & U2 & U3). eapply X; [reflexivity | | intros; apply NoG; discriminate].
      apply good_same; auto.
    + eapply X; [reflexivity | apply good_same; auto | intros; apply NoG; discriminate].
  - destruct (existsb (Nat.eqb i) (p_rel p)) eqn:E; cbn [fst snd] in *.
    2: { eapply X; [reflexivity | apply good_same; auto | intros; apply NoG; discriminate]. }
    apply existsb_exists in E as (x & I & E). apply Nat.eqb_eq in E as <-.
    set (p0 := set_rel (remove1 i (p_rel p)) p) in *.
    assert (Hi : i < length (p_cons p)) by (apply (used_lt p i SI); right; right; left; exact I).
    assert (NI : ~ In i (p_idle p)).
    { intros Y. pose proof (si_one _ _ SI i) as O. apply cnt_In in I. apply cnt_In in Y. lia. }
    destruct (cache_con_good i p0 (RInv_same p p0 eq_refl eq_refl R) Hi NI (fun j => idle_lt p j SI)) as (A & B & C & D & F & G).
    split; [eapply moves_same_l; [exact A | reflexivity | reflexivity] |]. split; [exact B |].
    split; [intros Q T; split; [| apply NoG; discriminate]; apply (C Q); apply (TInv_same p); auto |].
    intros _ O j U. set (p1 := cache_con q drv i p0) in *.
    assert (Lj : j < length (p_cons p)).
    { pose proof (used_lt p1 j SI1 U) as L. rewrite G in L. exact L. }
    assert (Oj : c_closed (con_at p j) = false).
    { apply O, used_cnt. specialize (PL j Lj). apply used_cnt in U. unfold places in PL. lia. }
    destruct (Nat.eq_dec j i) as [-> | NE]; [| apply D; auto].
    destruct (F Oj) as [Y | Y]; [exact Y |]. exfalso.
    pose proof (si_one _ _ SI i) as S1. pose proof (remove1_cnt drv i (p_rel p) i I) as Rm. rewrite cnt_one, Nat.eqb_refl in Rm.
    destruct (cache_con_struct q drv i p0) as (_ & Eo & _ & Eh & Er & _ & _). fold p1 in Eo, Eh, Er. cbn in Eo, Eh, Er, Y.
    apply used_cnt in U. rewrite Y in U. unfold held, shared_out in U, S1. rewrite Eo, Eh, Er in U. lia.
  - destruct (con_of p (nth h (p_hand p) HNone)) as [i |] eqn:E; cbn [fst snd] in *.
    2: { eapply X; [reflexivity | apply good_same; auto | intros; apply NoG; discriminate]. }
    destruct (con_of_used p h i SI E) as [Hi NI].
    eapply X; [reflexivity | | intros; apply NoG; discriminate].
    apply on_con_good; auto; [apply fr_do_ops | apply o_do_ops | intros j; apply idle_lt, SI].
  - cbn [fst snd] in *. split; [| split; [| split; [| discriminate]]].
    3: { intros _ _. split; [| apply NoG; discriminate]. intros j Hj.
         destruct (close_pool_struct q drv p) as (_ & _ & E & _). rewrite E in Hj. easy. }
    all: clear X PL; unfold close_pool in *.
    all: destruct (close_all_moves (p_idle p) p R (fun j => idle_lt p j SI)) as (M1 & R1).
    all: pose proof (close_all_core q drv (p_idle p) p) as Co; core_rw Co.
    all: set (pa := set_idle [] (close_all q drv (p_idle p) p)) in *.
    all: assert (Ma : moves (p_idle p ++ cache_cons p) p pa)
      by (eapply moves_same_r; [eapply moves_weak; [| exact M1] | reflexivity | reflexivity]; intros j Hj; apply in_app_iff; left; exact Hj).
    all: assert (Ra : RInv pa) by (eapply RInv_same; [| | exact R1]; reflexivity).
    all: destruct (Nat.eqb (q_maxshared q) 0).
    + eapply moves_same_r; [exact Ma | reflexivity | reflexivity].
    + assert (Ca : map (fun o => fst (obj_at pa o)) (p_cache pa) = cache_cons p).
      { unfold cache_cons, pa, obj_at. cbn. rewrite H0, H2. reflexivity. }
      rewrite Ca. destruct (close_all_moves (cache_cons p) pa Ra) as (M2 & R2).
      { intros j Hj. unfold pa. cbn. rewrite H. unfold cache_cons in Hj. apply in_map_iff in Hj as (o & <- & Io).
        apply (used_lt p _ SI). right; right; right. apply cache_shared; [exact SI |]. apply (si_live _ _ SI), Io. }
      eapply moves_trans; [exact Ma |]. eapply moves_same_r; [eapply moves_weak; [| exact M2] | reflexivity | reflexivity].
      intros j Hj. apply in_app_iff. right; exact Hj.
    + eapply RInv_same; [| | exact Ra]; reflexivity.
    + assert (Ca : map (fun o => fst (obj_at pa o)) (p_cache pa) = cache_cons p).
      { unfold cache_cons, pa, obj_at. cbn. rewrite H0, H2. reflexivity. }
      rewrite Ca. destruct (close_all_moves (cache_cons p) pa Ra) as (M2 & R2).
      { intros j Hj. unfold pa. cbn. rewrite H. unfold cache_cons in Hj. apply in_map_iff in Hj as (o & <- & Io).
        apply (used_lt p _ SI). right; right; right. apply cache_shared; [exact SI |]. apply (si_live _ _ SI), Io. }
      eapply RInv_same; [| | exact R2]; reflexivity.
Qed.
End Raw.
