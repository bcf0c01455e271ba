(** * The pool along whole executions *)
From Coq Require Import List Arith NArith ZArith Bool Lia Permutation.
From Verif Require Import SteadyModel SteadySpec SteadyProof SteadyFrame PoolModel PoolSpec PoolProof PoolFrame PoolRaw.
Import ListNotations.

(** ** The constructor is a run of requests and closings *)

Lemma run_app : forall q drv l1 l2 p, run q drv p (l1 ++ l2) = run q drv (run q drv p l1) l2.
Proof. intros. unfold run. apply fold_left_app. Qed.

Lemma request_ded_reply : forall q drv t p, fst (request_ded q drv t p) <> RNone.
Proof.
  intros q drv t p. unfold request_ded, wait_lock, give. destruct (full q p), (q_blocking q); cbn; try discriminate;
    destruct (take_con q drv p) as [[i | e] p1]; discriminate.
Qed.
Lemma open_first_run : forall q drv n p p1, open_first q drv n p = (RNone, p1) ->
  p1 = run q drv p (repeat (OpRequest 0 false) n).
Proof.
  induction n as [| n IH]; intros p p1 H; cbn in H; [injection H as <-; reflexivity |].
  cbn [repeat]. change (run q drv p (OpRequest 0 false :: repeat (OpRequest 0 false) n))
    with (run q drv (snd (step q drv p (OpRequest 0 false))) (repeat (OpRequest 0 false) n)).
  cbn [step]. unfold request. cbn [andb].
  pose proof (request_ded_reply q drv 0 p) as RN.
  destruct (request_ded q drv 0 p) as [r p2]. destruct r; try discriminate; [apply IH, H | contradiction].
Qed.
Lemma close_first_run : forall q drv n p, close_first q drv n p = run q drv p (map OpClose (rev (seq 0 n))).
Proof.
  induction n as [| n IH]; intros p; [reflexivity |].
  rewrite seq_S, rev_app_distr. cbn [rev app map close_first]. cbn [plus].
  rewrite IH. reflexivity.
Qed.
Definition startup (n : nat) : list pop := repeat (OpRequest 0 false) n ++ map OpClose (rev (seq 0 n)).
Lemma init_run : forall q drv n p, init q drv n = (RNone, p) -> p = run q drv empty_pool (startup n).
Proof.
  intros q drv n p H. unfold init in H. destruct (open_first q drv n empty_pool) as [r p1] eqn:E.
  destruct r; try discriminate. injection H as <-. apply open_first_run in E. subst p1.
  unfold startup. rewrite run_app. apply close_first_run.
Qed.
Lemma startup_ded : forall n, forallb dedicated_op (startup n) = true.
Proof.
  intros n. unfold startup. rewrite forallb_app, andb_true_iff. split; apply forallb_forall; intros x H.
  - apply repeat_spec in H. subst x. reflexivity.
  - apply in_map_iff in H as (y & <- & _). reflexivity.
Qed.
Lemma startup_open : forall n, existsb closes (startup n) = false.
Proof.
  intros n. unfold startup. rewrite existsb_app, orb_false_iff. split.
  - induction n; auto.
  - induction (rev (seq 0 n)); auto.
Qed.
Lemma reachable_run : forall a drv l p, reachable a drv l p ->
  p = run (make_cfg a) drv empty_pool (startup (a_mincached a) ++ l).
Proof.
  intros a drv l p (p0 & H & ->). rewrite run_app. f_equal. apply init_run, H.
Qed.

Section Top.
Variable q : pcfg.
Variable drv : nat -> answer.

(** ** Names and rollbacks *)

Lemma empty_raw : RInv empty_pool /\ TInv empty_pool /\ OInv empty_pool.
Proof.
  split; [| split].
  - constructor; cbn; intros; try lia. constructor.
  - intros j [].
  - intros j [[] | [[] | [[] | []]]].
Qed.

Lemma run_raw : forall l p, SInv q p -> RInv p ->
  RInv (run q drv p l) /\ (q_reset q = true -> TInv p -> TInv (run q drv p l)) /\
  (existsb closes l = false -> OInv p -> OInv (run q drv p l)).
Proof.
  induction l as [| o l IH]; intros p SI R; [cbn; auto |].
  destruct (step_inv q drv p o SI) as (SI1 & _). destruct (step_raw q drv p o SI R) as (_ & R1 & T & O).
  change (run q drv p (o :: l)) with (run q drv (snd (step q drv p o)) l).
  destruct (IH _ SI1 R1) as (A & B & C). split; [exact A |]. split.
  - intros Q TI. apply B; [exact Q |]. apply T; auto.
  - cbn [existsb]. intros E OI. apply orb_false_iff in E as [E1 E2]. apply C; auto.
Qed.

(** ** Dedicated connections only *)

Definition shared_handle (h : handle) : bool := match h with HShared _ => true | _ => false end.
Record DInv (p : pool) : Prop := {
  di_objs : p_objs p = [];
  di_cache : p_cache p = [];
  di_rel : p_rel p = [];
  di_hand : existsb shared_handle (p_hand p) = false;
  di_wait : Forall (fun t => snd t = WDed) (p_wait p ++ p_woken p) }.

Definition WInv (p : pool) : Prop :=
  q_maxconn q <> 0 -> p_wait p <> [] -> q_maxconn q <= length (held p) + length (p_woken p).

Lemma NInv_ded : forall p, DInv p -> (NInv q p <-> (q_maxconn q <> 0 -> length (held p) <= q_maxconn q)).
Proof.
  intros p [A B C D E]. split.
  - intros [_ _ L] M. specialize (L M). lia.
  - intros L. constructor.
    + intros o H. unfold obj_at in H. rewrite A in H. destruct o; cbn in H; lia.
    + unfold shared_out. rewrite A, B. reflexivity.
    + rewrite B. cbn. intros M. specialize (L M). lia.
Qed.
Lemma count_ded : forall p, DInv p -> CInv 0 p -> p_count p = Z.of_nat (length (held p)).
Proof. intros p [A B C _ _] K. unfold CInv in K. unfold shared_out in K. rewrite A, C in K. cbn in K. lia. Qed.

Lemma on_con_threads : forall A i (m : M A) p, p_wait (snd (on_con i m p)) = p_wait p /\ p_woken (snd (on_con i m p)) = p_woken p.
Proof. intros. unfold on_con. destruct (m _). auto. Qed.
Lemma take_con_threads : forall p r p1, take_con q drv p = (r, p1) -> p_wait p1 = p_wait p /\ p_woken p1 = p_woken p.
Proof.
  intros p r p1 H. unfold take_con in H. destruct (p_idle p) as [| i l].
  - destruct (connect _ _ _) as [[u | e] s]; injection H as <- <-; auto.
  - injection H as <- <-. destruct (on_con_threads _ i (ping_check (q_cfg q) drv 1) (set_idle l p)) as (A & B).
    rewrite A, B. auto.
Qed.
Lemma cache_con_threads : forall i p, let p1 := cache_con q drv i p in
  (p_wait p = [] /\ p_wait p1 = [] /\ p_woken p1 = p_woken p) \/
  (exists t r, p_wait p = t :: r /\ p_wait p1 = r /\ p_woken p1 = p_woken p ++ [t]).
Proof.
  intros i p p1. unfold p1, cache_con.
  match goal with |- context [notify (add_count _ ?x)] => assert (X : p_wait x = p_wait p /\ p_woken x = p_woken p) end.
  { destruct (_ || _); [unfold set_idle; cbn |]; apply on_con_threads. }
  match goal with |- context [notify (add_count _ ?x)] => set (p2 := x) in * end. clearbody p2. destruct X as [X1 X2].
  unfold notify. cbn [p_wait add_count]. rewrite X1. destruct (p_wait p) as [| t r] eqn:E.
  - left. cbn. rewrite X1, X2. auto.
  - right. exists t, r. cbn. rewrite X2. auto.
Qed.
Lemma close_all_threads : forall l p, p_wait (close_all q drv l p) = p_wait p /\ p_woken (close_all q drv l p) = p_woken p.
Proof.
  induction l; intros p; cbn; [auto |]. destruct (IHl (snd (on_con a (close (q_cfg q) drv) p))) as (A & B).
  rewrite A, B. apply on_con_threads.
Qed.

Lemma request_ded_cases : forall t p, 
  (full q p = true /\ q_blocking q = true /\ request_ded q drv t p = (RBlocked, set_threads (p_wait p ++ [(t, WDed)]) (p_woken p) p)) \/
  (full q p = true /\ q_blocking q = false /\ request_ded q drv t p = (RTooMany, p)) \/
  (full q p = false /\ exists i p1, take_con q drv p = (Ret i, p1) /\
     request_ded q drv t p = (RGot (length (p_hand p)), set_hand (p_hand p ++ [HDed i]) (add_count 1 p1))) \/
  (full q p = false /\ p_idle p = [] /\ exists e p1, take_con q drv p = (Raise e, p1) /\ request_ded q drv t p = (RError e, p1)).
Proof.
  intros t p. unfold request_ded. destruct (full q p) eqn:F.
  - unfold wait_lock. destruct (q_blocking q); auto.
  - right. right. destruct (take_con q drv p) as [[i | e] p1] eqn:T.
    + left. split; [reflexivity |]. exists i, p1. split; [reflexivity |].
      destruct (take_con_struct _ _ _ _ _ T) as (_ & _ & _ & Eh & _). unfold give. cbn. rewrite Eh. reflexivity.
    + right. split; [reflexivity |]. split; [| eauto]. unfold take_con in T. destruct (p_idle p); [reflexivity | discriminate].
Qed.

Lemma request_ded_ded : forall t p, DInv p -> CInv 0 p -> SInv q p ->
  DInv (snd (request_ded q drv t p)) /\
  (is_error (fst (request_ded q drv t p)) = false -> q_maxconn q <> 0 -> 
     (p_wait (snd (request_ded q drv t p)) <> [] -> p_wait p <> [] -> q_maxconn q <= length (held p) + S (length (p_woken p))) ->
     p_wait (snd (request_ded q drv t p)) <> [] ->
     q_maxconn q <= length (held (snd (request_ded q drv t p))) + length (p_woken (snd (request_ded q drv t p)))) /\
  (WInv p -> WInv (snd (request_ded q drv t p))).
Proof.
  intros t p D K SI. pose proof (count_ded p D K) as Cn. destruct D as [A B C H E].
  destruct (request_ded_cases t p) as [(F & Bl & ->) | [(F & Bl & ->) | [(F & i & p1 & T & ->) | (F & I & e & p1 & T & ->)]]];
    cbn [fst snd is_error].
  - unfold full in F. apply andb_true_iff in F as [F1 F2]. split; [| split].
    + constructor; auto. cbn. rewrite <- app_assoc. apply Forall_app in E as [E1 E2]. apply Forall_app. split; [exact E1 |].
      constructor; [reflexivity | exact E2].
    + intros _ M _ _. cbn. unfold held in *. cbn. lia.
    + intros _ M _. cbn. unfold held in *. cbn. lia.
  - unfold full in F. apply andb_true_iff in F as [F1 F2]. split; [constructor; auto |]. split; [| auto].
    intros _ M _ _. lia.
  - destruct (take_con_struct _ _ _ _ _ T) as (Eo & Ec & _ & Eh & Er & _). destruct (take_con_threads _ _ _ T) as (T1 & T2).
    assert (Hh : held (set_hand (p_hand p ++ [HDed i]) (add_count 1 p1)) = held p ++ [i]).
    { unfold held. cbn. rewrite flat_map_app. reflexivity. }
    split; [| split].
    + constructor; cbn; rewrite ?Eo, ?Ec, ?Er, ?T1, ?T2; auto. rewrite existsb_app, H. reflexivity.
    + intros _ M X Y. rewrite Hh, app_length. cbn in *. rewrite T1 in *. rewrite T2. specialize (X Y Y). lia.
    + intros W M Y. rewrite Hh, app_length. cbn in *. rewrite T1 in *. rewrite T2. specialize (W M Y). lia.
  - destruct (take_con_struct _ _ _ _ _ T) as (Eo & Ec & _ & Eh & Er & _). destruct (take_con_threads _ _ _ T) as (T1 & T2).
    split; [| split; [discriminate |]].
    + constructor; rewrite ?Eo, ?Ec, ?Er, ?T1, ?T2, ?Eh; auto.
    + intros W M Y. unfold held. rewrite T1 in Y. rewrite T2, Eh. apply W; auto.
Qed.

Lemma unwake_len : forall t l k r, unwake t l = Some (k, r) ->
  length l = S (length r) /\ (Forall (fun t => snd t = WDed) l -> k = WDed /\ Forall (fun t => snd t = WDed) r).
Proof.
  induction l as [| [x k0] l IH]; intros k r H; cbn in H; [discriminate |].
  destruct (Nat.eqb x t).
  - injection H as <- <-. split; [reflexivity |]. intros F. inversion F; subst. auto.
  - destruct (unwake t l) as [[k' r'] |] eqn:E; [| discriminate]. injection H as <- <-. destruct (IH _ _ eq_refl) as [A B].
    split; [cbn; lia |]. intros F. inversion F; subst. destruct (B H2). split; [auto | constructor; auto].
Qed.

Lemma nth_shared : forall l h o, existsb shared_handle l = false -> nth h l HNone = HShared o -> False.
Proof.
  induction l as [| x l IH]; intros h o H E; cbn in *; [destruct h; discriminate |].
  apply orb_false_iff in H as [H1 H2]. destruct h; [subst x; discriminate | eapply IH; eauto].
Qed.
Lemma upd_shared : forall l h, existsb shared_handle l = false -> existsb shared_handle (upd h HNone l) = false.
Proof.
  induction l as [| x l IH]; intros h H; cbn in *; [destruct h; auto |].
  apply orb_false_iff in H as [H1 H2]. destruct h; cbn; [exact H2 | rewrite H1; apply IH, H2].
Qed.

Lemma step_ded : forall p o, dedicated_op o = true -> DInv p -> CInv 0 p -> SInv q p -> NInv q p ->
  DInv (snd (step q drv p o)) /\ CInv 0 (snd (step q drv p o)) /\ NInv q (snd (step q drv p o)) /\
  (is_error (fst (step q drv p o)) = false -> WInv p -> WInv (snd (step q drv p o))).
Proof.
  intros p o Do D K SI NI. destruct (step_inv q drv p o SI) as (SI1 & N1 & C1 & _).
  assert (K1 : CInv 0 (snd (step q drv p o))).
  { specialize (C1 0 K). unfold drops in C1. rewrite (di_cache _ D) in C1.
    destruct (closes o); [destruct (Nat.eqb _ 0) |]; exact C1. }
  assert (X : DInv (snd (step q drv p o)) /\ (is_error (fst (step q drv p o)) = false -> WInv p -> WInv (snd (step q drv p o)))).
  { clear N1 C1. destruct o as [t sh | t | h | i | h l |]; cbn [step] in *.
    - cbn in Do. apply negb_true_iff in Do. subst sh. unfold request in *. cbn [andb] in *.
      destruct (request_ded_ded t p D K SI) as (A & _ & B). auto.
    - destruct (unwake t (p_woken p)) as [[k r] |] eqn:E; [| cbn; auto]. destruct (unwake_len _ _ _ _ E) as [L F].
      assert (D0 : k = WDed /\ DInv (set_threads (p_wait p) r p)).
      { destruct D as [A B C H W]. apply Forall_app in W as [W1 W2]. destruct (F W2). split; [easy |].
        constructor; auto. cbn. apply Forall_app; auto. }
      destruct D0 as [-> D0].
      assert (SI0 : SInv q (set_threads (p_wait p) r p)) by (apply (SInv_core q p); auto).
      destruct (request_ded_ded t _ D0 K SI0) as (A & B & _). split; [exact A |].
      intros Er W M Y. apply B; auto. intros _ Z. specialize (W M Z). cbn. unfold held in *. cbn. lia.
    - cbn [fst snd]. unfold close_handle in *. destruct (nth h (p_hand p) HNone) as [i | o |] eqn:E.
      + destruct (cache_con_struct q drv i p) as (_ & Eo & Ec & Eh & Er & _).
        pose proof (cache_con_threads i p) as Th. set (pc := cache_con q drv i p) in *. clearbody pc.
        destruct D as [A B C H W].
        assert (L : h < length (p_hand p)) by (apply nth_in_len with (d := HNone); congruence).
        pose proof (len_flat_upd _ (fun h => match h with HDed i => [i] | _ => [] end) h HNone HNone (p_hand p) L) as Z.
        rewrite E in Z. cbn [length] in Z. split.
        * constructor; cbn; rewrite ?Eo, ?Ec, ?Er, ?Eh; auto; [apply upd_shared, H |].
          destruct Th as [(T1 & T2 & T3) | (t & r & T1 & T2 & T3)]; rewrite T2, T3, T1 in *; [exact W |].
          cbn in W. inversion W; subst. rewrite app_assoc. apply Forall_app. split; [| constructor; auto]. exact H3.
        * intros _ WI M Y. unfold held. cbn [p_hand set_hand p_wait p_woken] in *. rewrite Eh.
          destruct Th as [(T1 & T2 & T3) | (t & r & T1 & T2 & T3)]; [congruence |]. rewrite T3, app_length. cbn [length].
          assert (P : p_wait p <> []) by (rewrite T1; discriminate). specialize (WI M P). unfold held in WI. lia.
      + exfalso. destruct D as [_ _ _ H _]. eapply nth_shared; eauto.
      + auto.
    - assert (E : existsb (Nat.eqb i) (p_rel p) = false) by (rewrite (di_rel _ D); reflexivity). rewrite E. cbn. auto.
    - destruct (con_of p (nth h (p_hand p) HNone)) as [i |]; [| cbn; auto]. cbn [fst snd].
      pose proof (core_on_con _ i (do_ops (q_cfg q) drv l) p) as Co. core_rw Co.
      destruct (on_con_threads _ i (do_ops (q_cfg q) drv l) p) as (T1 & T2). destruct D as [A B C H6 W]. split.
      + constructor; congruence.
      + intros _ WI M. unfold held. rewrite T1, T2, H4. apply WI, M.
    - cbn [fst snd]. destruct (close_pool_struct q drv p) as (_ & Eo & _ & Eh & Er & Ec & _).
      assert (Th : p_wait (close_pool q drv p) = [] /\ p_woken (close_pool q drv p) = p_woken p ++ p_wait p).
      { unfold close_pool. destruct (Nat.eqb (q_maxshared q) 0); cbn; rewrite ?(proj1 (close_all_threads _ _)), ?(proj2 (close_all_threads _ _)).
        - auto.
        - match goal with |- context [close_all q drv ?l ?x] => destruct (close_all_threads l x) as (A1 & A2) end.
          cbn in *. rewrite ?A1, ?A2. destruct (close_all_threads (p_idle p) p) as (B1 & B2). rewrite ?B1, ?B2. auto. }
      destruct Th as [T1 T2]. destruct D as [A B C H W]. split.
      + constructor.
        * congruence.
        * rewrite Ec, B. destruct (Nat.eqb _ 0); reflexivity.
        * congruence.
        * congruence.
        * rewrite T1, T2. cbn. apply Forall_app in W as [W1 W2]. apply Forall_app; auto.
      + intros _ _ M Y. congruence. }
  destruct X as [D1 W1]. split; [exact D1 |]. split; [exact K1 |]. split; [| exact W1].
  destruct (closes o) eqn:Cl.
  - destruct o; try discriminate. cbn [step snd] in *. apply NInv_ded; [exact D1 |].
    destruct (close_pool_struct q drv p) as (_ & _ & _ & Eh & _). intros M. unfold held. rewrite Eh.
    apply (proj1 (NInv_ded p D) NI M).
  - apply N1; auto.
Qed.

Lemma empty_ded : DInv empty_pool /\ WInv empty_pool.
Proof. split; [constructor; auto; constructor |]. intros _ H. easy. Qed.

Lemma run_ded : forall l p, forallb dedicated_op l = true -> DInv p -> CInv 0 p -> SInv q p -> NInv q p ->
  DInv (run q drv p l) /\ CInv 0 (run q drv p l) /\ NInv q (run q drv p l) /\
  (existsb is_error (replies q drv p l) = false -> WInv p -> WInv (run q drv p l)).
Proof.
  induction l as [| o l IH]; intros p Dl D K SI NI; [cbn; auto |].
  cbn [forallb] in Dl. apply andb_true_iff in Dl as [Do Dl].
  destruct (step_ded p o Do D K SI NI) as (A & B & C & E). destruct (step_inv q drv p o SI) as (SI1 & _).
  change (run q drv p (o :: l)) with (run q drv (snd (step q drv p o)) l).
  destruct (IH _ Dl A B SI1 C) as (A1 & B1 & C1 & E1). split; [exact A1 |]. split; [exact B1 |]. split; [exact C1 |].
  cbn [replies existsb]. intros X W. apply orb_false_iff in X as [X1 X2]. auto.
Qed.

(** ** Closing *)

Lemma close_closes : forall g s, g_closeable g = true -> c_closed (s_con (snd (close g drv s))) = true.
Proof.
  intros g s G. unfold close. rewrite G. unfold close_con, bindM, get_con.
  destruct (c_closed (s_con s)) eqn:C; [exact C |].
  destruct (quiet_ret drv (KClose (c_raw (s_con s))) s) as (s1 & E). rewrite E. reflexivity.
Qed.
Lemma close_event : forall g s, g_closeable g = true -> c_closed (s_con s) = false ->
  exists a, In (KClose (c_raw (s_con s)), a) (s_log (snd (close g drv s))).
Proof.
  intros g s G C. unfold close. rewrite G. unfold close_con, bindM at 1, get_con. rewrite C.
  unfold bindM at 1. unfold quiet, bindM, attempt. rewrite driver_spec. cbn.
  exists (drv (length (s_log s))). apply in_app_iff. right. left. reflexivity.
Qed.

Lemma close_all_closes : forall l p i, g_closeable (q_cfg q) = true -> i < length (p_cons p) ->
  (In i l \/ c_closed (con_at p i) = true) -> c_closed (con_at (close_all q drv l p) i) = true.
Proof.
  induction l as [| j l IH]; intros p i G L H; cbn [close_all]; [destruct H as [[] | H]; exact H |].
  pose proof (core_on_con _ j (close (q_cfg q) drv) p) as Co. core_rw Co.
  apply IH; [exact G | lia |]. destruct (Nat.eq_dec i j) as [-> | NE].
  - right. destruct (on_con_log _ (close (q_cfg q) drv) j p L) as (s1 & E & _ & EC). rewrite EC, <- E.
    apply close_closes, G.
  - destruct H as [[-> | H] | H]; [easy | left; exact H |]. right.
    unfold on_con. destruct (close _ _ _) as [o s1]. unfold con_at. cbn. rewrite nth_upd_other by auto. exact H.
Qed.
Lemma close_all_log : forall l p, exists d, p_log (close_all q drv l p) = p_log p ++ d.
Proof.
  induction l as [| j l IH]; intros p; cbn [close_all]; [exists []; rewrite app_nil_r; reflexivity |].
  destruct (IH (snd (on_con j (close (q_cfg q) drv) p))) as (d & ->).
  assert (X : exists d2, p_log (snd (on_con j (close (q_cfg q) drv) p)) = p_log p ++ d2).
  { unfold on_con. set (s := St _ _ _).
    destruct (h_close (fun _ _ => True) 0 (fun _ _ _ _ _ => I) (fun _ _ _ _ => I) (q_cfg q) drv 0 s) as (_ & (d2 & L & _) & _).
    - repeat split. cbn. lia.
    - lia.
    - destruct (close (q_cfg q) drv s) as [o s1]. exists d2. exact L. }
  destruct X as (d2 & ->). exists (d2 ++ d). rewrite app_assoc. reflexivity.
Qed.
Lemma close_all_event : forall l p i, g_closeable (q_cfg q) = true -> i < length (p_cons p) -> In i l ->
  c_closed (con_at p i) = false -> exists a, In (KClose (c_raw (con_at p i)), a) (p_log (close_all q drv l p)).
Proof.
  induction l as [| j l IH]; intros p i G L H C; [easy |]. cbn [close_all].
  pose proof (core_on_con _ j (close (q_cfg q) drv) p) as Co. core_rw Co.
  destruct (Nat.eq_dec j i) as [-> | NE].
  - destruct (close_all_log l (snd (on_con i (close (q_cfg q) drv) p))) as (d & ->).
    destruct (on_con_log _ (close (q_cfg q) drv) i p L) as (s1 & E & EL & _). rewrite EL, <- E.
    destruct (close_event (q_cfg q) (St (p_log p) (con_at p i) (Cur (c_raw (con_at p i)) 0 true)) G C) as (a & Ia).
    exists a. apply in_app_iff. left. exact Ia.
  - destruct H as [-> | H]; [easy |].
    assert (E : con_at (snd (on_con j (close (q_cfg q) drv) p)) i = con_at p i).
    { unfold on_con. destruct (close _ _ _) as [o s1]. unfold con_at. cbn. apply nth_upd_other. auto. }
    rewrite <- E. apply IH; auto; [lia | rewrite E; exact C].
Qed.

Lemma close_pool_closed : forall p i, g_closeable (q_cfg q) = true -> SInv q p ->
  (In i (p_idle p) \/ (q_maxshared q <> 0 /\ In i (cache_cons p))) ->
  c_closed (con_at (close_pool q drv p) i) = true /\
  (In i (p_idle p) -> c_closed (con_at p i) = false ->
     exists a, In (KClose (c_raw (con_at p i)), a) (p_log (close_pool q drv p))).
Proof.
  intros p i G SI H.
  assert (L : i < length (p_cons p)).
  { destruct H as [H | (_ & H)]; [apply (idle_lt q drv p i SI H) |].
    unfold cache_cons in H. apply in_map_iff in H as (o & <- & Io).
    apply (used_lt q drv p _ SI). right; right; right. apply (cache_shared q drv); [exact SI |]. apply (si_live _ _ SI), Io. }
  unfold close_pool. pose proof (close_all_core q drv (p_idle p) p) as Co. core_rw Co.
  pose proof (close_all_closes (p_idle p) p i G L) as C1. pose proof (close_all_event (p_idle p) p i G L) as E1.
  set (pa := set_idle [] (close_all q drv (p_idle p) p)) in *.
  destruct (Nat.eqb_spec (q_maxshared q) 0) as [M | M].
  - destruct H as [H | (X & _)]; [| easy]. split; [exact (C1 (or_introl H)) |]. intros Hi C. exact (E1 Hi C).
  - assert (Ca : map (fun o => fst (obj_at pa o)) (p_cache pa) = cache_cons p).
    { unfold cache_cons, pa, obj_at. cbn. rewrite H1, H3. reflexivity. }
    rewrite Ca. assert (La : i < length (p_cons pa)) by (unfold pa; cbn; lia).
    split.
    + change (c_closed (con_at (close_all q drv (cache_cons p) pa) i) = true).
      apply close_all_closes; auto. destruct H as [H | (_ & H)]; [right; exact (C1 (or_introl H)) | left; exact H].
    + intros Hi C. destruct (E1 Hi C) as (a & Ia). exists a.
      change (In (KClose (c_raw (con_at p i)), a) (p_log (close_all q drv (cache_cons p) pa))).
      destruct (close_all_log (cache_cons p) pa) as (d & ->). apply in_app_iff. left. exact Ia.
Qed.
End Top.
