(** * What holds in every reachable pool *)
From Coq Require Import List Arith NArith ZArith Bool Lia Permutation ZifyBool ZifyNat.
From Verif Require Import SteadyModel SteadySpec SteadyProof SteadyFrame PoolModel PoolSpec PoolProof PoolFrame PoolRaw PoolTop.
Import ListNotations.

Lemma reach_inv : forall a drv l p, reachable a drv l p ->
  let q := make_cfg a in
  SInv q p /\ RInv p /\ (a_reset a = true -> TInv p) /\
  (existsb closes l = false -> NInv q p /\ CInv 0 p /\ OInv p) /\
  (forallb dedicated_op l = true -> DInv p /\ NInv q p /\ CInv 0 p).
Proof.
  intros a drv l p R q. pose proof (reachable_run _ _ _ _ R) as E. fold q in E.
  destruct R as (p0 & I & E2). fold q in I, E2.
  destruct (init_inv q drv _ _ I) as (SI0 & NI0 & CI0).
  destruct (empty_inv q drv) as (SE & NE & CE). destruct (empty_raw drv) as (RE & TE & OE). destruct (empty_ded q) as (DE & WE).
  destruct (run_inv q drv l p0 SI0) as (A & _ & B).
  destruct (run_raw q drv (startup (a_mincached a) ++ l) _ SE RE) as (C & T & O). rewrite <- E in C, T, O. rewrite <- E2 in A, B.
  split; [exact A |]. split; [exact C |]. split; [intros H; apply T; [exact H | exact TE] |]. split.
  - intros H. destruct (B H NI0 CI0). split; [easy |]. split; [easy |]. apply O; [| exact OE].
    rewrite existsb_app, startup_open. exact H.
  - intros H. destruct (run_ded q drv (startup (a_mincached a) ++ l) empty_pool) as (D & K & N & _); auto.
    + rewrite forallb_app, startup_ded. exact H.
    + rewrite <- E in D, K, N. auto.
Qed.

Lemma reach_step : forall a drv l p o, reachable a drv l p ->
  reachable a drv (l ++ [o]) (snd (step (make_cfg a) drv p o)).
Proof.
  intros a drv l p o (p0 & I & ->). exists p0. split; [exact I |]. rewrite run_app. reflexivity.
Qed.

(** ** Limits *)

Lemma eff_max : forall a, a_maxconnections a <> 0 ->
  q_maxconn (make_cfg a) <> 0 /\
  q_maxconn (make_cfg a) = Nat.max (a_maxconnections a)
    (Nat.max (if Nat.eqb (a_maxcached a) 0 then 0 else Nat.max (a_maxcached a) (a_mincached a)) (a_maxshared a)).
Proof.
  intros a H. unfold make_cfg. cbn. destruct (Nat.eqb_spec (a_maxconnections a) 0) as [X | X]; [easy |].
  destruct (Nat.eqb (a_maxcached a) 0); lia.
Qed.

Lemma limits : forall a drv l p, reachable a drv l p -> forallb dedicated_op l = true ->
  (a_maxconnections a <> 0 ->
     length (held p) <= Nat.max (a_maxconnections a)
       (Nat.max (if Nat.eqb (a_maxcached a) 0 then 0 else Nat.max (a_maxcached a) (a_mincached a)) (a_maxshared a))) /\
  (a_maxcached a <> 0 -> length (p_idle p) <= Nat.max (a_maxcached a) (a_mincached a)) /\
  p_count p = Z.of_nat (length (held p)).
Proof.
  intros a drv l p R D. destruct (reach_inv _ _ _ _ R) as (SI & _ & _ & _ & X). destruct (X D) as (DI & NI & CI).
  split; [| split].
  - intros M. destruct (eff_max a M) as (M1 & M2). rewrite <- M2. apply (NInv_ded _ drv p DI); auto.
  - intros M. pose proof (si_idle _ _ SI) as S. unfold make_cfg in S. cbn in S.
    destruct (Nat.eqb_spec (a_maxcached a) 0); [easy |]. apply S. lia.
  - apply count_ded; auto.
Qed.

Lemma reply_cases : forall a drv l p t, reachable a drv l p -> forallb dedicated_op l = true ->
  let q := make_cfg a in
  let r := fst (step q drv p (OpRequest t false)) in
  let p1 := snd (step q drv p (OpRequest t false)) in
  if negb (Nat.eqb (q_maxconn q) 0) && Nat.leb (q_maxconn q) (length (held p))
  then if a_blocking a then r = RBlocked /\ p_wait p1 = p_wait p ++ [(t, WDed)] /\ held p1 = held p
       else r = RTooMany /\ p1 = p
  else (exists i, r = RGot (length (p_hand p)) /\ p_hand p1 = p_hand p ++ [HDed i] /\
                  held p1 = held p ++ [i] /\ ~ In i (held p) /\
                  (p_idle p = i :: p_idle p1 \/ (p_idle p = [] /\ i = length (p_cons p)))) \/
       (exists e, r = RError e /\ p_idle p = [] /\ held p1 = held p).
Proof.
  intros a drv l p t R D q. destruct (reach_inv _ _ _ _ R) as (SI & _ & _ & _ & X). destruct (X D) as (DI & NI & CI).
  pose proof (count_ded p DI CI) as Cn. cbn [step]. unfold request. cbn [andb]. fold q in SI, NI.
  assert (F0 : full q p = negb (Nat.eqb (q_maxconn q) 0) && Nat.leb (q_maxconn q) (length (held p))).
  { unfold full. rewrite Cn. destruct (Nat.eqb (q_maxconn q) 0); cbn; [reflexivity |]. lia. }
  rewrite <- F0. change (a_blocking a) with (q_blocking q).
  destruct (request_ded_cases q drv t p) as [(F & B & ->) | [(F & B & ->) | [(F & i & p1 & T & ->) | (F & I & e & p1 & T & ->)]]];
    rewrite F; rewrite ?B; cbn [fst snd].
  - auto.
  - auto.
  - left. exists i. destruct (take_con_struct _ _ _ _ _ T) as (_ & _ & _ & Eh & _ & Ei).
    destruct (give_ded_inv _ _ _ _ _ T SI) as (_ & _ & _ & C0).
    split; [reflexivity |]. split; [reflexivity |]. split; [unfold held; cbn; rewrite flat_map_app; reflexivity |].
    split; [intros H; apply cnt_In in H; lia |]. cbn. destruct Ei as [(E1 & _) | (E1 & _ & E2 & _)]; auto.
  - right. exists e. split; [reflexivity |]. split; [exact I |].
    destruct (take_con_struct _ _ _ _ _ T) as (_ & _ & _ & Eh & _). unfold held. rewrite Eh. reflexivity.
Qed.

Lemma wakeups : forall a drv l p0, init (make_cfg a) drv (a_mincached a) = (RNone, p0) ->
  forallb dedicated_op l = true -> existsb is_error (replies (make_cfg a) drv p0 l) = false ->
  let p := run (make_cfg a) drv p0 l in
  q_maxconn (make_cfg a) <> 0 -> p_wait p <> [] ->
  q_maxconn (make_cfg a) <= length (held p) + length (p_woken p).
Proof.
  intros a drv l p0 I D E p. set (q := make_cfg a) in *.
  assert (R0 : reachable a drv [] p0) by (exists p0; auto).
  destruct (reach_inv _ _ _ _ R0) as (SI & _ & _ & _ & X). destruct (X eq_refl) as (DI & NI & CI). fold q in SI, NI.
  assert (W0 : WInv q p0).
  { destruct (empty_ded q) as (DE & WE). destruct (empty_inv q drv) as (SE & NE & CE).
    pose proof I as I2. apply init_run in I2. rewrite I2.
    destruct (run_ded q drv (startup (a_mincached a)) empty_pool (startup_ded _) DE CE SE NE) as (_ & _ & _ & W).
    apply W; [| exact WE]. clear - I. unfold init in I. destruct (open_first q drv (a_mincached a) empty_pool) as [r p1] eqn:O.
    destruct r; try discriminate. unfold startup. clear I.
    assert (G : forall n p p1, open_first q drv n p = (RNone, p1) -> forall m,
      existsb is_error (replies q drv p (repeat (OpRequest 0 false) n ++ map OpClose m)) = false).
    { clear. induction n; intros p p1 H m.
      - cbn. clear H. revert p. induction m; intros p; cbn; auto.
      - cbn in H |- *. unfold request. cbn [andb]. pose proof (request_ded_reply q drv 0 p) as RN.
        destruct (request_ded q drv 0 p) as [r p2]. destruct r; try discriminate; [| easy]. cbn. eapply IHn; eauto. }
    eapply G; eauto. }
  destruct (run_ded q drv l p0 D DI CI SI NI) as (_ & _ & _ & W). apply W; auto.
Qed.

Lemma open_first_held : forall q drv n p p1, SInv q p -> NInv q p -> CInv 0 p -> open_first q drv n p = (RNone, p1) ->
  length (held p1) = length (held p) + n /\ NInv q p1.
Proof.
  induction n as [| n IH]; intros p p1 SI NI CI H; cbn in H; [injection H as <-; split; [lia | exact NI] |].
  destruct (request_ded_inv q drv 0 p SI) as (A & B & C & _). specialize (B NI CI). specialize (C 0 CI).
  pose proof (request_ded_reply q drv 0 p) as RN.
  destruct (request_ded_cases q drv 0 p) as [(F & Bl & E) | [(F & Bl & E) | [(F & i & p2 & T & E) | (F & I & e & p2 & T & E)]]];
    rewrite E in *; try discriminate.
  cbn [snd] in *. destruct (IH _ _ A B C H) as (L & N). split; [| exact N]. rewrite L.
  unfold held at 1. cbn. rewrite flat_map_app, app_length. cbn. unfold held. lia.
Qed.
Lemma constructor_limit : forall a drv p0, init (make_cfg a) drv (a_mincached a) = (RNone, p0) ->
  a_maxconnections a <> 0 -> a_mincached a <= q_maxconn (make_cfg a).
Proof.
  intros a drv p0 I M. unfold init in I. set (q := make_cfg a) in *.
  destruct (open_first q drv (a_mincached a) empty_pool) as [r p1] eqn:E. destruct r; try discriminate.
  destruct (empty_inv q drv) as (SE & NE & CE). destruct (open_first_held _ _ _ _ _ SE NE CE E) as (L & N).
  destruct (eff_max a M) as (M1 & _). pose proof (ni_lim _ _ N M1). cbn in L. lia.
Qed.

(** ** Ownership *)

Lemma held_twice : forall p h1 h2 i, h1 <> h2 -> nth h1 (p_hand p) HNone = HDed i -> nth h2 (p_hand p) HNone = HDed i ->
  2 <= cnt i (held p).
Proof.
  intros p h1 h2 i N E1 E2. set (f := fun h => match h with HDed i => [i] | _ => [] end).
  assert (L1 : h1 < length (p_hand p)) by (apply nth_in_len with (d := HNone); congruence).
  assert (L2 : h2 < length (p_hand p)) by (apply nth_in_len with (d := HNone); congruence).
  pose proof (cnt_flat_upd _ f i h1 HNone HNone (p_hand p) L1) as X1.
  assert (L3 : h2 < length (upd h1 HNone (p_hand p))) by (rewrite upd_length; exact L2).
  pose proof (cnt_flat_upd _ f i h2 HNone HNone (upd h1 HNone (p_hand p)) L3) as X2.
  rewrite nth_upd_other in X2 by exact N. rewrite E1 in X1. rewrite E2 in X2. cbn [f] in X1, X2.
  rewrite cnt_one, Nat.eqb_refl, cnt_nil in X1, X2. unfold held. fold f. lia.
Qed.

Lemma exclusive : forall a drv l p h1 h2 i j, reachable a drv l p -> h1 <> h2 ->
  nth h1 (p_hand p) HNone = HDed i -> nth h2 (p_hand p) HNone = HDed j ->
  i <> j /\ c_raw (con_at p i) <> c_raw (con_at p j) /\ ~ In i (p_idle p).
Proof.
  intros a drv l p h1 h2 i j R N E1 E2. destruct (reach_inv _ _ _ _ R) as (SI & RI & _).
  assert (NE : i <> j).
  { intros ->. pose proof (held_twice p h1 h2 j N E1 E2). pose proof (si_one _ _ SI j). lia. }
  pose proof (held_In _ _ _ E1) as I1. pose proof (held_In _ _ _ E2) as I2.
  apply cnt_In in I1. apply cnt_In in I2. split; [exact NE |]. split.
  - intros X. apply NE, (ri_one _ RI); [apply (si_lt _ _ SI); lia | apply (si_lt _ _ SI); lia | exact X].
  - intros I. apply cnt_In in I. pose proof (si_one _ _ SI i). lia.
Qed.

Lemma give_hand : forall h p, p_hand (snd (give h p)) = p_hand p ++ [h].
Proof. reflexivity. Qed.
Lemma notify_hand : forall p, p_hand (notify p) = p_hand p.
Proof. intros p. unfold notify. destruct (p_wait p); reflexivity. Qed.
Lemma wait_hand : forall q t k p, p_hand (snd (wait_lock q t k p)) = p_hand p.
Proof. intros. unfold wait_lock. destruct (q_blocking q); reflexivity. Qed.
Lemma on_con_hand : forall A i (m : M A) p, p_hand (snd (on_con i m p)) = p_hand p.
Proof. intros. unfold on_con. destruct (m _). reflexivity. Qed.

Definition grows (p p1 : pool) : Prop := exists x, p_hand p1 = p_hand p ++ x.
Lemma grows_same : forall p p1, p_hand p1 = p_hand p -> grows p p1.
Proof. intros p p1 E. exists []. rewrite app_nil_r. exact E. Qed.
Lemma request_ded_grows : forall q drv t p, grows p (snd (request_ded q drv t p)).
Proof.
  intros. unfold request_ded. destruct (full q p); [apply grows_same, wait_hand |].
  destruct (take_con q drv p) as [[i | e] p1] eqn:T; destruct (take_con_struct _ _ _ _ _ T) as (_ & _ & _ & Eh & _).
  - exists [HDed i]. rewrite give_hand. cbn. rewrite Eh. reflexivity.
  - apply grows_same, Eh.
Qed.
Lemma share_loop_grows : forall q drv t p, grows p (snd (share_loop q drv t p)).
Proof.
  intros. unfold share_loop. destruct (sort_objs p (p_cache p)) as [| o r]; [apply grows_same; reflexivity |].
  destruct (obj_trans p o).
  - apply grows_same. rewrite wait_hand. reflexivity.
  - exists [HShared o]. rewrite give_hand, notify_hand. cbn. rewrite on_con_hand. reflexivity.
Qed.
Lemma request_shared_grows : forall q drv t p, grows p (snd (request_shared q drv t p)).
Proof.
  intros. unfold request_shared. destruct (_ && _); [apply grows_same, wait_hand |].
  destruct (Nat.ltb _ _); [| apply share_loop_grows].
  destruct (take_con q drv p) as [[i | e] p1] eqn:T; destruct (take_con_struct _ _ _ _ _ T) as (_ & _ & _ & Eh & _).
  - eexists. rewrite give_hand, notify_hand. cbn. rewrite Eh. reflexivity.
  - apply grows_same, Eh.
Qed.
Lemma step_hand : forall q drv p o h, o <> OpClose h -> h < length (p_hand p) ->
  nth h (p_hand (snd (step q drv p o))) HNone = nth h (p_hand p) HNone.
Proof.
  intros q drv p o h N L.
  assert (G : grows p (snd (step q drv p o)) -> nth h (p_hand (snd (step q drv p o))) HNone = nth h (p_hand p) HNone).
  { intros (x & ->). apply app_nth1, L. }
  destruct o as [t sh | t | h' | i | h' l |]; cbn [step] in *.
  - apply G. unfold request. destruct (_ && _); [apply request_shared_grows | apply request_ded_grows].
  - apply G. destruct (unwake t (p_woken p)) as [[k r] |]; [| apply grows_same; reflexivity].
    assert (X : forall p1, grows (set_threads (p_wait p) r p) p1 -> grows p p1) by (intros p1 (x & E); exists x; exact E).
    destruct k; apply X; [apply request_shared_grows | apply share_loop_grows | apply request_ded_grows].
  - clear G. cbn [snd]. unfold close_handle. destruct (nth h' (p_hand p) HNone) as [i | ob |] eqn:E; [| | reflexivity]; cbn.
    + destruct (cache_con_struct q drv i p) as (_ & _ & _ & Eh & _). rewrite Eh. apply nth_upd_other. congruence.
    + assert (X : p_hand (unshare ob p) = p_hand p) by (unfold unshare; destruct (Nat.eqb _ 0); reflexivity).
      rewrite X. apply nth_upd_other. congruence.
  - apply G, grows_same. destruct (existsb _ _); [| reflexivity]. cbn [snd].
    destruct (cache_con_struct q drv i (set_rel (remove1 i (p_rel p)) p)) as (_ & _ & _ & Eh & _). rewrite Eh. reflexivity.
  - apply G, grows_same. destruct (con_of p (nth h' (p_hand p) HNone)); [apply on_con_hand | reflexivity].
  - apply G, grows_same. cbn [snd]. destruct (close_pool_struct q drv p) as (_ & _ & _ & Eh & _). exact Eh.
Qed.

Lemma isolated : forall a drv l p h i o, reachable a drv l p -> nth h (p_hand p) HNone = HDed i ->
  o <> OpClose h -> (forall ops, o <> OpUse h ops) ->
  let p1 := snd (step (make_cfg a) drv p o) in
  nth h (p_hand p1) HNone = HDed i /\ con_at p1 i = con_at p i /\
  exists d, p_log p1 = p_log p ++ d /\ filter (fun e => match raw_of (fst e) with Some x => Nat.eqb x (c_raw (con_at p i)) | None => false end) d = [].
Proof.
  intros a drv l p h i o R E N1 N2 p1. destruct (reach_inv _ _ _ _ R) as (SI & RI & _). set (q := make_cfg a) in *.
  destruct (step_raw q drv p o SI RI) as (MV & _). fold p1 in MV.
  pose proof (held_In _ _ _ E) as Hi. pose proof Hi as Ci. apply cnt_In in Ci. pose proof (si_one _ _ SI i) as One.
  assert (Li : i < length (p_cons p)) by (apply (si_lt _ _ SI); lia).
  assert (Na : ~ In i (aff p o)).
  { assert (N3 : ~ In i (p_idle p ++ cache_cons p)).
    { intros H. apply in_app_iff in H as [H | H].
      - apply cnt_In in H. lia.
      - unfold cache_cons in H. apply in_map_iff in H as (ob & Eo & Io). apply (si_live _ _ SI) in Io.
        apply (cache_shared q drv p ob SI) in Io. rewrite Eo in Io. apply cnt_In in Io. lia. }
    assert (N4 : forall h', h' <> h -> ~ In i (match con_of p (nth h' (p_hand p) HNone) with Some i => [i] | None => [] end)).
    { intros h' Nh. destruct (nth h' (p_hand p) HNone) as [j | ob |] eqn:E'; cbn; [| | easy]; intros [X | []].
      - subst j. pose proof (held_twice p h' h i Nh E' E). lia.
      - assert (P : 0 < snd (obj_at p ob)).
        { rewrite (si_shares _ _ SI). unfold holders. assert (I : In (HShared ob) (p_hand p)).
          { rewrite <- E'. apply nth_In, nth_in_len with (d := HNone). congruence. }
          assert (I2 : In (HShared ob) (filter (fun h => match h with HShared x => Nat.eqb x ob | _ => false end) (p_hand p))).
          { apply filter_In. split; [exact I | apply Nat.eqb_refl]. }
          destruct (filter _ _); [easy | cbn; lia]. }
        apply (cache_shared q drv p ob SI) in P. rewrite X in P. apply cnt_In in P. lia. }
    destruct o as [t sh | t | h' | j | h' ops |]; cbn [aff]; try exact N3.
    - apply N4. congruence.
    - destruct (existsb (Nat.eqb j) (p_rel p)) eqn:X; [| easy]. intros [<- | []].
      apply existsb_exists in X as (y & Iy & Ey). apply Nat.eqb_eq in Ey. subst y. apply cnt_In in Iy. lia.
    - apply N4. intros ->. exact (N2 ops eq_refl). }
  split; [| split].
  - unfold p1. rewrite step_hand; auto. apply nth_in_len with (d := HNone). congruence.
  - apply (mv_con _ _ _ MV); auto.
  - destruct (mv_log _ _ _ MV) as (d & L & F). exists d. split; [exact L |]. specialize (F i Li Na).
    clear L. induction F as [| e d Fe F IH]; [reflexivity |]. cbn. rewrite IH.
    destruct (raw_of (fst e)) as [x |]; [| reflexivity]. destruct (Nat.eqb_spec x (c_raw (con_at p i))); congruence.
Qed.

Lemma rolled_back : forall a drv l p o h i, reachable a drv l p -> a_reset a = true ->
  let p1 := snd (step (make_cfg a) drv p o) in
  fst (step (make_cfg a) drv p o) = RGot h -> nth h (p_hand p1) HNone = HDed i ->
  (existsb closes l = false -> c_closed (con_at p1 i) = false) /\
  (c_closed (con_at p1 i) = false -> settled (c_raw (con_at p1 i)) (p_log p1) /\ c_trans (con_at p1 i) = false).
Proof.
  intros a drv l p o h i R Q p1 G E. destruct (reach_inv _ _ _ _ R) as (SI & RI & TI & NC & _). set (q := make_cfg a) in *.
  destruct (step_raw q drv p o SI RI) as (_ & _ & T & O). destruct (T Q (TI Q)) as (_ & Gr).
  split.
  - intros C. destruct (NC C) as (_ & _ & OI).
    assert (Co : closes o = false) by (destruct o; try reflexivity; discriminate).
    apply (O Co OI). right; left. eapply held_In, E.
  - apply (Gr h i G E).
Qed.

(** ** Shared connections *)

Lemma shares : forall a drv l p o, reachable a drv l p -> snd (obj_at p o) = holders p o.
Proof. intros a drv l p o R. destruct (reach_inv _ _ _ _ R) as (SI & _). apply (si_shares _ _ SI). Qed.

Lemma shared_live : forall a drv l p h o, reachable a drv l p -> nth h (p_hand p) HNone = HShared o ->
  0 < holders p o /\ ~ In (fst (obj_at p o)) (p_idle p) /\ ~ In (fst (obj_at p o)) (held p) /\
  (existsb closes l = false -> In o (p_cache p)).
Proof.
  intros a drv l p h o R E. destruct (reach_inv _ _ _ _ R) as (SI & _ & _ & X & _). set (q := make_cfg a) in *.
  assert (P : 0 < holders p o).
  { unfold holders. assert (I : In (HShared o) (filter (fun h => match h with HShared x => Nat.eqb x o | _ => false end) (p_hand p))).
    { apply filter_In. split; [| apply Nat.eqb_refl]. rewrite <- E. apply nth_In, nth_in_len with (d := HNone). congruence. }
    destruct (filter _ _); [easy | cbn; lia]. }
  split; [exact P |]. rewrite <- (si_shares _ _ SI) in P. pose proof (cache_shared q drv p o SI P) as I. apply cnt_In in I.
  pose proof (si_one _ _ SI (fst (obj_at p o))). repeat split.
  - intros H0. apply cnt_In in H0. lia.
  - intros H0. apply cnt_In in H0. lia.
  - intros C. destruct (X C) as (NI & _). apply (ni_live _ _ NI), P.
Qed.

Lemma last_release : forall a drv l p h o, reachable a drv l p -> nth h (p_hand p) HNone = HShared o ->
  let q := make_cfg a in
  let c := fst (obj_at p o) in
  let p1 := snd (step q drv p (OpClose h)) in
  p_idle p1 = p_idle p /\
  if Nat.eqb (holders p o) 1
  then p_rel p1 = p_rel p ++ [c] /\ ~ In o (p_cache p1) /\
       let p2 := snd (step q drv p1 (OpRelease c)) in
       p_rel p2 = p_rel p /\
       (p_idle p2 = p_idle p ++ [c] \/
        (p_idle p2 = p_idle p /\ q_maxcached q <> 0 /\ q_maxcached q <= length (p_idle p)))
  else p_rel p1 = p_rel p /\ p_cache p1 = p_cache p.
Proof.
  intros a drv l p h o R E q c p1. destruct (reach_inv _ _ _ _ R) as (SI & _). fold q in SI.
  destruct (close_shared_inv q drv h o p E SI) as (SI1 & _ & _ & L1 & L2).
  assert (E1 : p1 = set_hand (upd h HNone (p_hand (unshare o p))) (unshare o p)).
  { unfold p1. cbn [step snd]. unfold close_handle. rewrite E. reflexivity. }
  rewrite <- E1 in *.
  assert (Hi : p_idle p1 = p_idle p) by (rewrite E1; unfold unshare; destruct (Nat.eqb _ 0); reflexivity).
  clearbody p1. split; [exact Hi |]. destruct (Nat.eqb_spec (holders p o) 1) as [H | H]; [| apply L2, H].
  destruct (L1 H) as (Er & Nc). split; [exact Er |]. split; [exact Nc |]. intros p2.
  assert (Ex : existsb (Nat.eqb c) (p_rel p1) = true).
  { apply existsb_exists. exists c. split; [rewrite Er; apply in_app_iff; right; left; reflexivity | apply Nat.eqb_refl]. }
  assert (E2 : p2 = cache_con q drv c (set_rel (remove1 c (p_rel p1)) p1)).
  { unfold p2. cbn [step]. rewrite Ex. reflexivity. }
  assert (Nr : ~ In c (p_rel p)).
  { intros I. pose proof (si_one _ _ SI1 c) as O. rewrite Er, cnt_app, cnt_one, Nat.eqb_refl in O.
    apply cnt_In in I. lia. }
  assert (Rm : remove1 c (p_rel p1) = p_rel p).
  { rewrite Er. clear - Nr. induction (p_rel p) as [| x r IH]; cbn; [rewrite Nat.eqb_refl; reflexivity |].
    destruct (Nat.eqb_spec x c) as [-> | N]; [exfalso; apply Nr; left; reflexivity |]. rewrite IH; [reflexivity |].
    intros I. apply Nr. right. exact I. }
  destruct (cache_con_struct q drv c (set_rel (remove1 c (p_rel p1)) p1)) as (_ & _ & _ & _ & Er2 & _ & Ei).
  rewrite <- E2 in Er2, Ei. cbn in Er2, Ei. rewrite Hi in Ei. split; [congruence |].
  destruct Ei as [(A & _) | A]; auto.
Qed.

Lemma shared_bound : forall a drv l p, reachable a drv l p -> existsb closes l = false -> a_maxconnections a <> 0 ->
  length (held p) + length (shared_out p) <= q_maxconn (make_cfg a) + Nat.pred (a_maxshared a).
Proof.
  intros a drv l p R C M. destruct (reach_inv _ _ _ _ R) as (SI & _ & _ & X & _). destruct (X C) as (NI & _).
  destruct (eff_max a M) as (M1 & _). pose proof (ni_lim _ _ NI M1). rewrite (ni_len _ _ NI).
  pose proof (si_maxsh _ _ SI) as S. change (q_maxshared (make_cfg a)) with (a_maxshared a) in S. lia.
Qed.

Lemma count_grows : forall q drv p o, (p_count p < p_count (snd (step q drv p o)))%Z ->
  full q p = false \/ (0 < length (p_cache p) < q_maxshared q).
Proof.
  intros q drv p o H.
  assert (A : forall t p, (p_count p < p_count (snd (request_ded q drv t p)))%Z -> full q p = false).
  { clear. intros t p H. unfold request_ded in H. destruct (full q p); [| reflexivity].
    unfold wait_lock in H. destruct (q_blocking q); cbn in H; lia. }
  assert (B : forall t p, (p_count p < p_count (snd (share_loop q drv t p)))%Z -> False).
  { clear. intros t p H. unfold share_loop in H. destruct (sort_objs p (p_cache p)) as [| o r]; [cbn in H; lia |].
    destruct (obj_trans p o).
    - unfold wait_lock in H. destruct (q_blocking q); cbn in H; lia.
    - unfold give, notify, on_con in H. cbn [snd] in H. destruct (ping_check _ _ _ _) as [u s]. cbn in H.
      destruct (p_wait p); cbn in H; lia. }
  assert (C : forall t p, (p_count p < p_count (snd (request_shared q drv t p)))%Z ->
                full q p = false \/ (0 < length (p_cache p) < q_maxshared q)).
  { clear - B. intros t p H. unfold request_shared in H. destruct (full q p) eqn:F; [| left; reflexivity]. right.
    destruct (Nat.eqb_spec (length (p_cache p)) 0) as [Z | Z]; cbn [andb] in H.
    - unfold wait_lock in H. destruct (q_blocking q); cbn in H; lia.
    - destruct (Nat.ltb_spec (length (p_cache p)) (q_maxshared q)); [lia |]. exfalso. eapply B; eauto. }
  destruct o as [t sh | t | h | i | h l |]; cbn [step] in H.
  - unfold request in H. destruct (_ && _); [eapply C; eauto | left; eapply A; eauto].
  - destruct (unwake t (p_woken p)) as [[k r] |]; [| cbn in H; lia].
    assert (Fe : full q (set_threads (p_wait p) r p) = full q p) by reflexivity.
    set (p0 := set_threads (p_wait p) r p) in *. change (p_count p) with (p_count p0) in H.
    destruct k; [exact (C t p0 H) | destruct (B t p0 H) | left; exact (A t p0 H)].
  - cbn [snd] in H. unfold close_handle in H. destruct (nth h (p_hand p) HNone) as [i | o |]; cbn in H; [| | lia].
    + destruct (cache_con_struct q drv i p) as (_ & _ & _ & _ & _ & E & _). rewrite E in H. lia.
    + unfold unshare in H. destruct (Nat.eqb _ 0); cbn in H; lia.
  - destruct (existsb _ _); [| cbn in H; lia]. cbn [snd] in H.
    destruct (cache_con_struct q drv i (set_rel (remove1 i (p_rel p)) p)) as (_ & _ & _ & _ & _ & E & _). rewrite E in H. cbn in H. lia.
  - destruct (con_of p (nth h (p_hand p) HNone)) as [i |]; [| cbn in H; lia]. cbn [snd] in H.
    unfold on_con in H. destruct (do_ops _ _ _ _). cbn in H. lia.
  - cbn [snd] in H. destruct (close_pool_struct q drv p) as (_ & _ & _ & _ & _ & _ & E). rewrite E in H. lia.
Qed.

Lemma count_grows_at : forall q drv p o, (p_count p < p_count (snd (step q drv p o)))%Z ->
  q_maxconn q = 0 \/ (p_count p < Z.of_nat (q_maxconn q))%Z \/ (0 < length (p_cache p) < q_maxshared q).
Proof.
  intros q drv p o H. apply count_grows in H as [F | H]; [| auto]. unfold full in F.
  apply andb_false_iff in F. destruct F; lia.
Qed.

(** ** Closing the pool *)

Lemma closed_idle : forall a drv l p, reachable a drv l p -> g_closeable (a_cfg a) = true ->
  let p1 := snd (step (make_cfg a) drv p OpClosePool) in
  p_idle p1 = [] /\
  (forall i, In i (p_idle p) -> c_closed (con_at p1 i) = true /\
     (c_closed (con_at p i) = false -> exists x, In (KClose (c_raw (con_at p i)), x) (p_log p1))) /\
  (a_maxshared a <> 0 -> p_cache p1 = [] /\
     forall o, In o (p_cache p) -> c_closed (con_at p1 (fst (obj_at p o))) = true).
Proof.
  intros a drv l p R G p1. destruct (reach_inv _ _ _ _ R) as (SI & _). set (q := make_cfg a) in *.
  destruct (close_pool_struct q drv p) as (_ & _ & Ei & _ & _ & Ec & _).
  change (close_pool q drv p) with p1 in Ei, Ec.
  split; [exact Ei |]. split.
  - intros i Hi. destruct (close_pool_closed q drv p i G SI (or_introl Hi)) as (A & B). split; [exact A | exact (B Hi)].
  - intros M. split; [rewrite Ec; change (q_maxshared q) with (a_maxshared a); destruct (Nat.eqb_spec (a_maxshared a) 0); easy |].
    intros o Ho. apply (close_pool_closed q drv p _ G SI). right. split; [exact M |]. apply in_map_iff. eauto.
Qed.

Lemma returned : forall a drv l p h i, reachable a drv l p -> g_closeable (a_cfg a) = true ->
  nth h (p_hand p) HNone = HDed i ->
  let q := make_cfg a in
  let p1 := snd (step q drv p (OpClose h)) in
  nth h (p_hand p1) HNone = HNone /\
  if negb (Nat.eqb (q_maxcached q) 0) && Nat.leb (q_maxcached q) (length (p_idle p))
  then p_idle p1 = p_idle p /\ c_closed (con_at p1 i) = true
  else p_idle p1 = p_idle p ++ [i].
Proof.
  intros a drv l p h i R G E q p1. destruct (reach_inv _ _ _ _ R) as (SI & _). fold q in SI.
  assert (E1 : p1 = set_hand (upd h HNone (p_hand (cache_con q drv i p))) (cache_con q drv i p)).
  { unfold p1. cbn [step snd]. unfold close_handle. rewrite E. reflexivity. }
  destruct (cache_con_struct q drv i p) as (_ & _ & _ & Eh & _).
  assert (Li : i < length (p_cons p)).
  { apply held_In, cnt_In in E. apply (si_lt _ _ SI). lia. }
  split.
  - rewrite E1. cbn. rewrite Eh. apply nth_upd_same, nth_in_len with (d := HNone). congruence.
  - assert (X : p_idle p1 = p_idle (cache_con q drv i p) /\ con_at p1 i = con_at (cache_con q drv i p) i) by (rewrite E1; auto).
    destruct X as (-> & ->). clear E1 p1 Eh. unfold cache_con.
    assert (Nf : forall x, p_idle (notify (add_count (-1) x)) = p_idle x /\ con_at (notify (add_count (-1) x)) i = con_at x i).
    { intros x. unfold notify. cbn. destruct (p_wait x); auto. }
    match goal with |- context [notify (add_count (-1) ?x)] => destruct (Nf x) as (-> & ->) end.
    destruct (Nat.eqb_spec (q_maxcached q) 0) as [Z | Z]; cbn [negb andb orb].
    + unfold on_con. destruct (reset _ _ _ _) as [u s]. reflexivity.
    + destruct (Nat.ltb_spec (length (p_idle p)) (q_maxcached q)), (Nat.leb_spec (q_maxcached q) (length (p_idle p))); try lia.
      * unfold on_con. destruct (reset _ _ _ _) as [u s]. reflexivity.
      * split; [unfold on_con; destruct (close _ _ _) as [u s]; reflexivity |].
        destruct (on_con_log _ (close (q_cfg q) drv) i p Li) as (s1 & E1 & _ & EC). rewrite EC, <- E1.
        apply close_closes, G.
Qed.

Lemma counter : forall a drv l p0, init (make_cfg a) drv (a_mincached a) = (RNone, p0) ->
  let p := run (make_cfg a) drv p0 l in
  (p_count p = Z.of_nat (length (held p)) + Z.of_nat (length (p_rel p)) + Z.of_nat (length (shared_out p))
               - Z.of_nat (dropped (make_cfg a) drv p0 l))%Z.
Proof.
  intros a drv l p0 I p. set (q := make_cfg a) in *. destruct (init_inv q drv _ _ I) as (SI & _ & CI).
  destruct (run_inv q drv l p0 SI) as (_ & C & _). specialize (C 0 CI). unfold CInv in C. fold p in C. cbn [plus] in C. lia.
Qed.
