(** * Connection pool: C46, C47, C48, C49

    [reachable a drv l p]: the constructor with arguments [a] succeeded and the
    steps [l], an arbitrary interleaving of the steps of all threads, led to [p].
    The driver's answers [drv] are arbitrary. *)
From Coq Require Import List Arith NArith ZArith Bool Lia.
From Verif Require Import SteadyModel SteadySpec SteadyFrame PoolModel PoolSpec PoolProof PoolRaw PoolTop PoolEnd.
Import ListNotations.

(** A configuration and a driver for the examples: the calls of the list fail
    with a lost connection. *)
Definition px_cfg : cfg :=
  Cfg (Nat.eqb 1) Nat.eqb (Exc 1 99) (fun _ => false) (fun _ => false) 0 [] 1%N true true true.
Definition px_drv (fails : list nat) (n : nat) : answer :=
  if existsb (Nat.eqb n) fails then Raises (Exc 1 n) else Returns (Some 1%Z).
Definition px_start (a : pargs) (fails : list nat) : pool :=
  snd (init (make_cfg a) (px_drv fails) (a_mincached a)).
Definition px_run (a : pargs) (fails : list nat) (l : list pop) : pool :=
  run (make_cfg a) (px_drv fails) (px_start a fails) l.
Definition px_replies (a : pargs) (fails : list nat) (l : list pop) : list reply :=
  replies (make_cfg a) (px_drv fails) (px_start a fails) l.

(** ** C46 *)

(** With dedicated connections: checked-out connections never exceed the
    connection limit (which the constructor raises to at least [maxcached],
    [mincached] if [maxcached] is set, and [maxshared], L245-266), idle ones never
    exceed [maxcached] (at least [mincached]), and the pool's counter is the number
    of checked-out connections. *)
Theorem C46_limits : forall a drv l p, reachable a drv l p -> forallb dedicated_op l = true ->
  (a_maxconnections a <> 0 ->
     length (held p) <= Nat.max (a_maxconnections a)
       (Nat.max (if Nat.eqb (a_maxcached a) 0 then 0 else Nat.max (a_maxcached a) (a_mincached a)) (a_maxshared a))) /\
  (a_maxcached a <> 0 -> length (p_idle p) <= Nat.max (a_maxcached a) (a_mincached a)) /\
  p_count p = Z.of_nat (length (held p)).
Proof. exact limits. Qed.
Print Assumptions C46_limits.

(** A request: refused or blocked exactly when the limit is reached; otherwise it
    is served with a connection nobody else holds, unless the driver could not
    open a new one. *)
Theorem C46_reply : forall a drv l p t, reachable a drv l p -> forallb dedicated_op l = true ->
  let q := make_cfg a in
  let r := fst (step q drv p (OpRequest t false)) in
  let p1 := snd (step q drv p (OpRequest t false)) in
  if negb (Nat.eqb (q_maxconn q) 0) && Nat.leb (q_maxconn q) (length (held p))
  then if a_blocking a then r = RBlocked /\ p_wait p1 = p_wait p ++ [(t, WDed)] /\ held p1 = held p
       else r = RTooMany /\ p1 = p
  else (exists i, r = RGot (length (p_hand p)) /\ p_hand p1 = p_hand p ++ [HDed i] /\
                  held p1 = held p ++ [i] /\ ~ In i (held p) /\
                  (p_idle p = i :: p_idle p1 \/ (p_idle p = [] /\ i = length (p_cons p)))) \/
       (exists e, r = RError e /\ p_idle p = [] /\ held p1 = held p).
Proof. exact reply_cases. Qed.
Print Assumptions C46_reply.

(** As long as opening connections does not fail, no wake-up is lost: if a thread
    waits, the limit is reached counting the threads already notified. *)
Theorem C46_no_lost_wakeup : forall a drv l p0, init (make_cfg a) drv (a_mincached a) = (RNone, p0) ->
  forallb dedicated_op l = true -> existsb is_error (replies (make_cfg a) drv p0 l) = false ->
  let p := run (make_cfg a) drv p0 l in
  q_maxconn (make_cfg a) <> 0 -> p_wait p <> [] ->
  q_maxconn (make_cfg a) <= length (held p) + length (p_woken p).
Proof. exact wakeups. Qed.
Print Assumptions C46_no_lost_wakeup.

(** When opening fails it can be lost: a thread waits forever with free capacity
    and nobody notified. *)
Theorem C46_lost_wakeup_refuted :
  exists a drv l p, reachable a drv l p /\ forallb dedicated_op l = true /\ a_blocking a = true /\
    p_wait p <> [] /\ p_woken p = [] /\ length (held p) < a_maxconnections a.
Proof.
  set (a := PArgs 0 1 0 2 true true px_cfg).
  set (l := [OpRequest 1 false; OpRequest 2 false; OpRequest 3 false; OpRequest 4 false; OpRequest 5 false;
             OpClose 0; OpClose 1; OpResume 3; OpResume 4]).
  exists a, (px_drv [5]), l, (px_run a [5] l).
  split; [exists (px_start a [5]); split; reflexivity |].
  vm_compute. repeat split; try discriminate. lia.
Qed.
Print Assumptions C46_lost_wakeup_refuted.

(** The constructor finishes only if [mincached] connections fit under the limit;
    otherwise it is refused or, with [blocking], waits for connections that only it
    holds. *)
Theorem C46_constructor : forall a drv p0, init (make_cfg a) drv (a_mincached a) = (RNone, p0) ->
  a_maxconnections a <> 0 -> a_mincached a <= q_maxconn (make_cfg a).
Proof. exact constructor_limit. Qed.
Print Assumptions C46_constructor.

Example C46_example :
  let a := PArgs 1 1 0 2 false true px_cfg in
  let l := [OpRequest 1 false; OpRequest 2 false; OpRequest 3 false; OpClose 1; OpRequest 4 false] in
  px_replies a [] l = [RGot 1; RGot 2; RTooMany; RNone; RGot 3] /\ length (held (px_run a [] l)) = 2.
Proof. vm_compute. auto. Qed.
Example C46_example_blocking :
  let a := PArgs 0 0 0 1 true true px_cfg in
  let l := [OpRequest 1 false; OpRequest 2 false; OpClose 0; OpResume 2] in
  px_replies a [] l = [RGot 0; RBlocked; RNone; RGot 1] /\ held (px_run a [] l) = [0].
Proof. vm_compute. auto. Qed.
(** [maxconnections] itself can be exceeded: 1 is raised to [maxcached] = 2. *)
Example C46_example_raised_limit :
  px_replies (PArgs 0 2 0 1 false true px_cfg) [] [OpRequest 1 false; OpRequest 2 false; OpRequest 3 false]
  = [RGot 0; RGot 1; RTooMany].
Proof. vm_compute. reflexivity. Qed.
(** [mincached] = 2 with a limit of 1 and [blocking]: the constructor never returns. *)
Example C46_example_deadlock :
  fst (init (make_cfg (PArgs 2 0 0 1 true true px_cfg)) (px_drv []) 2) = RBlocked.
Proof. vm_compute. reflexivity. Qed.

(** ** C47 *)

(** Two clients with dedicated connections have different connections, different
    raw connections, and neither is idle. *)
Theorem C47_exclusive : forall a drv l p h1 h2 i j, reachable a drv l p -> h1 <> h2 ->
  nth h1 (p_hand p) HNone = HDed i -> nth h2 (p_hand p) HNone = HDed j ->
  i <> j /\ c_raw (con_at p i) <> c_raw (con_at p j) /\ ~ In i (p_idle p).
Proof. exact exclusive. Qed.
Print Assumptions C47_exclusive.

(** Whatever any other thread does (requests, closings, using its own connection,
    closing the pool), a client keeps its connection, the connection object is
    unchanged and no driver call is made on its raw connection. *)
Theorem C47_isolated : forall a drv l p h i o, reachable a drv l p -> nth h (p_hand p) HNone = HDed i ->
  o <> OpClose h -> (forall ops, o <> OpUse h ops) ->
  let p1 := snd (step (make_cfg a) drv p o) in
  nth h (p_hand p1) HNone = HDed i /\ con_at p1 i = con_at p i /\
  exists d, p_log p1 = p_log p ++ d /\
            filter (fun e => match raw_of (fst e) with Some x => Nat.eqb x (c_raw (con_at p i)) | None => false end) d = [].
Proof. exact isolated. Qed.
Print Assumptions C47_isolated.

(** With [reset] on, a connection given to a client is outside a transaction and
    every statement or begin ever sent on its raw connection was followed by a
    rollback call on it; unless it is marked closed, which happens only after the
    pool was closed. *)
Theorem C47_rolled_back : forall a drv l p o h i, reachable a drv l p -> a_reset a = true ->
  let p1 := snd (step (make_cfg a) drv p o) in
  fst (step (make_cfg a) drv p o) = RGot h -> nth h (p_hand p1) HNone = HDed i ->
  (existsb closes l = false -> c_closed (con_at p1 i) = false) /\
  (c_closed (con_at p1 i) = false -> settled (c_raw (con_at p1 i)) (p_log p1) /\ c_trans (con_at p1 i) = false).
Proof. exact rolled_back. Qed.
Print Assumptions C47_rolled_back.

(** The rollback may have failed: [_reset] (steady_db.py:326-335) ignores its
    exception, and if no new connection can be opened either, the next client gets
    the old raw connection with the first client's statement still pending. *)
Theorem C47_failed_rollback_refuted :
  exists a drv l p h i, reachable a drv l p /\ a_reset a = true /\ existsb closes l = false /\
    nth h (p_hand p) HNone = HDed i /\
    replies (make_cfg a) drv (snd (init (make_cfg a) drv (a_mincached a))) l
      = [RGot 0; RNone; RNone; RGot 1] /\ h = 1 /\
    In (c_raw (con_at p i), 7) (wk_pending (work_of (p_log p))).
Proof.
  set (a := PArgs 0 0 0 1 false true px_cfg).
  set (l := [OpRequest 1 false; OpUse 0 [OBegin; OCursor; OExec 7]; OpClose 0; OpRequest 2 false]).
  exists a, (px_drv [4; 5]), l, (px_run a [4; 5] l), 1, 0.
  split; [exists (px_start a [4; 5]); split; reflexivity |].
  vm_compute. repeat split. left. reflexivity.
Qed.
Print Assumptions C47_failed_rollback_refuted.

Example C47_example :
  let a := PArgs 0 0 0 2 false true px_cfg in
  let l := [OpRequest 1 false; OpRequest 2 false; OpUse 0 [OBegin; OCursor; OExec 7]; OpClose 0; OpRequest 3 false] in
  p_hand (px_run a [] l) = [HNone; HDed 1; HDed 0] /\
  map fst (p_log (px_run a [] l)) = [KConnect; KConnect; KBegin 0; KCursor 0; KExec 0 3 7; KRollback 0; KPing 0] /\
  wk_pending (work_of (p_log (px_run a [] l))) = [].
Proof. vm_compute. auto. Qed.

(** ** C48 *)

(** The share count of every shared object is the number of clients holding it. *)
Theorem C48_share_count : forall a drv l p o, reachable a drv l p -> snd (obj_at p o) = holders p o.
Proof. exact shares. Qed.
Print Assumptions C48_share_count.

(** A connection that some client shares is neither idle nor given to anybody as a
    dedicated connection; and it stays on offer to others until the pool is closed. *)
Theorem C48_shared_live : forall a drv l p h o, reachable a drv l p -> nth h (p_hand p) HNone = HShared o ->
  0 < holders p o /\ ~ In (fst (obj_at p o)) (p_idle p) /\ ~ In (fst (obj_at p o)) (held p) /\
  (existsb closes l = false -> In o (p_cache p)).
Proof. exact shared_live. Qed.
Print Assumptions C48_shared_live.

(** Releasing a share: if others hold the connection nothing else changes; the
    last release takes it out of the shared cache, and the second step of
    [unshare] puts it into the idle cache, or closes it if that is full. *)
Theorem C48_last_release : forall a drv l p h o, reachable a drv l p -> nth h (p_hand p) HNone = HShared o ->
  let q := make_cfg a in
  let c := fst (obj_at p o) in
  let p1 := snd (step q drv p (OpClose h)) in
  p_idle p1 = p_idle p /\
  if Nat.eqb (holders p o) 1
  then p_rel p1 = p_rel p ++ [c] /\ ~ In o (p_cache p1) /\
       let p2 := snd (step q drv p1 (OpRelease c)) in
       p_rel p2 = p_rel p /\
       (p_idle p2 = p_idle p ++ [c] \/
        (p_idle p2 = p_idle p /\ q_maxcached q <> 0 /\ q_maxcached q <= length (p_idle p)))
  else p_rel p1 = p_rel p /\ p_cache p1 = p_cache p.
Proof. exact last_release. Qed.
Print Assumptions C48_last_release.

(** The connections in the hands of clients exceed the limit by at most
    [maxshared] - 1, as long as the pool is not closed. *)
Theorem C48_total_bound : forall a drv l p, reachable a drv l p -> existsb closes l = false -> a_maxconnections a <> 0 ->
  length (held p) + length (shared_out p) <= q_maxconn (make_cfg a) + Nat.pred (a_maxshared a).
Proof. exact shared_bound. Qed.
Print Assumptions C48_total_bound.

(** The characterised case: a step takes one more connection out only below the
    limit, or when some but fewer than [maxshared] connections are shared (L290-293
    checks the limit only when none is). *)
Theorem C48_exceeds_only : forall q drv p o, (p_count p < p_count (snd (step q drv p o)))%Z ->
  q_maxconn q = 0 \/ (p_count p < Z.of_nat (q_maxconn q))%Z \/ (0 < length (p_cache p) < q_maxshared q).
Proof. exact count_grows_at. Qed.
Print Assumptions C48_exceeds_only.

(** And the limit is exceeded: two connections allowed, three in use. *)
Theorem C48_limit_exceeded_refuted :
  exists a drv l p, reachable a drv l p /\ a_maxconnections a = 2 /\ q_maxconn (make_cfg a) = 2 /\
    length (held p) + length (shared_out p) = 3 /\ existsb closes l = false.
Proof.
  set (a := PArgs 0 0 2 2 false true px_cfg).
  set (l := [OpRequest 1 true; OpRequest 2 false; OpRequest 3 true]).
  exists a, (px_drv []), l, (px_run a [] l).
  split; [exists (px_start a []); split; reflexivity |]. vm_compute. auto.
Qed.
Print Assumptions C48_limit_exceeded_refuted.

Example C48_example :
  let a := PArgs 0 0 1 1 false true px_cfg in
  let l := [OpRequest 1 true; OpRequest 2 true; OpClose 0] in
  p_objs (px_run a [] l) = [(0, 1)] /\ p_idle (px_run a [] l) = [] /\ 
  p_idle (px_run a [] (l ++ [OpClose 1; OpRelease 0])) = [0].
Proof. vm_compute. auto. Qed.
(** A thread waiting for a shared connection to leave its transaction gets an
    IndexError when the connection is returned to the idle cache instead (L306-311). *)
Example C48_example_index_error :
  px_replies (PArgs 0 0 1 1 true true px_cfg) []
    [OpRequest 1 true; OpUse 0 [OBegin]; OpRequest 2 true; OpClose 0; OpRelease 0; OpResume 2]
  = [RGot 0; RNone; RBlocked; RNone; RNone; RIndexError].
Proof. vm_compute. reflexivity. Qed.

(** ** C49 *)

(** [steady_connection] (L276-280) always passes [closeable=True].  After close()
    nothing is idle, every connection that was idle is closed and the driver got
    the call; likewise the shared connections. *)
Theorem C49_closed : forall a drv l p, reachable a drv l p -> g_closeable (a_cfg a) = true ->
  let p1 := snd (step (make_cfg a) drv p OpClosePool) in
  p_idle p1 = [] /\
  (forall i, In i (p_idle p) -> c_closed (con_at p1 i) = true /\
     (c_closed (con_at p i) = false -> exists x, In (KClose (c_raw (con_at p i)), x) (p_log p1))) /\
  (a_maxshared a <> 0 -> p_cache p1 = [] /\
     forall o, In o (p_cache p) -> c_closed (con_at p1 (fst (obj_at p o))) = true).
Proof. exact closed_idle. Qed.
Print Assumptions C49_closed.

(** A connection returned at any time, also after close(): closed exactly if the
    idle cache is full, otherwise it goes into the idle cache. *)
Theorem C49_returned : forall a drv l p h i, reachable a drv l p -> g_closeable (a_cfg a) = true ->
  nth h (p_hand p) HNone = HDed i ->
  let q := make_cfg a in
  let p1 := snd (step q drv p (OpClose h)) in
  nth h (p_hand p1) HNone = HNone /\
  if negb (Nat.eqb (q_maxcached q) 0) && Nat.leb (q_maxcached q) (length (p_idle p))
  then p_idle p1 = p_idle p /\ c_closed (con_at p1 i) = true
  else p_idle p1 = p_idle p ++ [i].
Proof. exact returned. Qed.
Print Assumptions C49_returned.

(** The counter, along every run: the connections out, minus the shared ones
    dropped by close().  Once everything is returned it is therefore negative if
    close() ever found a shared connection in use. *)
Theorem C49_counter : forall a drv l p0, init (make_cfg a) drv (a_mincached a) = (RNone, p0) ->
  let p := run (make_cfg a) drv p0 l in
  (p_count p = Z.of_nat (length (held p)) + Z.of_nat (length (p_rel p)) + Z.of_nat (length (shared_out p))
               - Z.of_nat (dropped (make_cfg a) drv p0 l))%Z.
Proof. exact counter. Qed.
Print Assumptions C49_counter.

(** Sharing, closing the pool and releasing: counter -1, and the closed
    connection is offered again. *)
Example C49_example_negative :
  let p := px_run (PArgs 0 0 2 0 true true px_cfg) [] [OpRequest 1 true; OpClosePool; OpClose 0; OpRelease 0] in
  p_count p = (-1)%Z /\ p_idle p = [0] /\ c_closed (con_at p 0) = true.
Proof. vm_compute. auto. Qed.
(** A dedicated connection returned after close() stays open in the idle cache. *)
Example C49_example_left_open :
  let p := px_run (PArgs 1 0 0 0 true true px_cfg) [] [OpRequest 1 false; OpClosePool; OpClose 1] in
  p_idle p = [0] /\ c_closed (con_at p 0) = false.
Proof. vm_compute. auto. Qed.
Example C49_example :
  let p := px_run (PArgs 2 0 0 0 true true px_cfg) [] [OpRequest 1 false; OpClosePool] in
  p_idle p = [] /\ map c_closed (p_cons p) = [true; false].
Proof. vm_compute. auto. Qed.
