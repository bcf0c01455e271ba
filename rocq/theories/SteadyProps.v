(** * Failover connections: C50, C51, C52, C75

    The driver answers its n-th call with [drv n], an arbitrary function, so every
    failure pattern is covered. *)
From Coq Require Import List Arith NArith ZArith Bool Lia.
From Verif Require Import SteadyModel SteadySpec SteadyProof SteadyFrame.
Import ListNotations.

(** A configuration for the examples: errors of class 1 are connection failures,
    pings as [PooledDB] asks for them (pooled_db.py:180-186: only on checkout). *)
Definition ex_cfg : cfg :=
  Cfg (Nat.eqb 1) Nat.eqb (Exc 1 99) (fun _ => false) (fun _ => false) 0 [] 1%N true true true.
(** A driver that fails the calls of the list with a lost connection. *)
Definition ex_drv (fails : list nat) (n : nat) : answer :=
  if existsb (Nat.eqb n) fails then Raises (Exc 1 n) else Returns (Some 1%Z).
(** A new connection. *)
Definition ex_start (fails : list nat) : st :=
  snd (connect ex_cfg (ex_drv fails) (St [] (Con 0 false true 0 0%N) (Cur 0 0 true))).

(** ** C50 *)

(** Inside a transaction a call of [execute] reaches the database exactly once,
    on the cursor's own raw connection; an exception of that call is what the
    caller sees, and a value is returned only with connection, cursor and flag
    untouched. *)
Theorem C50_single_attempt : forall g drv s sql o s',
  c_trans (s_con s) = true -> execute g drv sql s = (o, s') ->
  let k := s_cur s in
  let a := drv (length (s_log s)) in
  exists d,
    s_log s' = s_log s ++ (KExec (k_raw k) (k_cur k) sql, a) :: d /\
    attempts d = [] /\
    match a with
    | Returns v => o = Ret v /\ d = [] /\ s_cur s' = s_cur s /\ c_raw (s_con s') = c_raw (s_con s) /\
                   c_trans (s_con s') = true /\ c_closed (s_con s') = c_closed (s_con s)
    | Raises e => o = Raise e
    end.
Proof. exact execute_transaction. Qed.
Print Assumptions C50_single_attempt.

(** Whole transactions: if begin, cursor, the statements and commit all return,
    then exactly these statements became durable, in order, whatever the driver
    did; so no part was silently lost with an old connection. *)
Theorem C50_all_or_error : forall g drv l s s',
  (forall q, ~ In (c_raw (s_con s), q) (wk_pending (work_of (s_log s)))) ->
  do_ops g drv (OBegin :: OCursor :: map OExec l ++ [OCommit]) s = (Ret tt, s') ->
  durable (s_log s') = durable (s_log s) ++ l.
Proof. exact transaction_durable. Qed.
Print Assumptions C50_all_or_error.

(** The second statement hits a lost connection: call 4 fails, the client gets
    that error, the statement was tried once, a new connection has been opened. *)
Example C50_example :
  let s := ex_start [4] in
  let (o, s') := do_ops ex_cfg (ex_drv [4]) [OBegin; OCursor; OExec 7; OExec 8; OCommit] s in
  o = Raise (Exc 1 4) /\ map fst (attempts (s_log s')) = [7; 8] /\ durable (s_log s') = [] /\
  c_raw (s_con s') = 5 /\ c_trans (s_con s') = false.
Proof. vm_compute. repeat split. Qed.
Example C50_example_ok :
  let (o, s') := do_ops ex_cfg (ex_drv []) [OBegin; OCursor; OExec 7; OExec 8; OCommit] (ex_start []) in
  o = Ret tt /\ durable (s_log s') = [7; 8].
Proof. vm_compute. repeat split. Qed.

(** steady_db.py:686 resets the flag of the cursor instead of the connection: if
    the new connection cannot be opened either, the connection stays marked as in
    a transaction. *)
Example C50_flag_stuck :
  let (o, s') := do_ops ex_cfg (ex_drv [4; 5]) [OBegin; OCursor; OExec 7; OExec 8] (ex_start [4; 5]) in
  o = Raise (Exc 1 4) /\ c_trans (s_con s') = true.
Proof. vm_compute. repeat split. Qed.

(** ** C51 *)

(** Outside a transaction: at most three attempts, all with this statement.  A
    value is the answer of the last attempt, all earlier ones having failed; an
    exception is raised only if every attempt failed, and it is the exception of
    one of them (or the usage limit was reached before any attempt).  Without a
    usage limit, more than one attempt is made only after a connection failure. *)
Theorem C51_bounded_retry : forall g drv s sql o s',
  c_trans (s_con s) = false -> execute g drv sql s = (o, s') ->
  exists d errs,
    s_log s' = s_log s ++ d /\
    match o with
    | Ret v => attempts d = map (fun e => (sql, Raises e)) errs ++ [(sql, Returns v)] /\ length errs <= 2
    | Raise e => attempts d = map (fun e0 => (sql, Raises e0)) errs /\ length errs <= 3 /\
                 (In e errs \/ (e = g_failure g /\ g_maxusage g <> 0))
    end /\
    (g_maxusage g = 0 ->
     match errs with
     | [] => True
     | e :: r => g_failures g (x_class e) = true \/ (r = [] /\ o = Raise e)
     end).
Proof. exact execute_outside. Qed.
Print Assumptions C51_bounded_retry.

(** The first two attempts fail (calls 2 and 4), the third succeeds on a new
    connection; and all three fail. *)
Example C51_example :
  let (o, s') := do_ops ex_cfg (ex_drv [2; 4]) [OCursor; OExec 7] (ex_start [2; 4]) in
  o = Ret tt /\ attempts (s_log s') = [(7, Raises (Exc 1 2)); (7, Raises (Exc 1 4)); (7, Returns (Some 1%Z))].
Proof. vm_compute. repeat split. Qed.
Example C51_example_fail :
  let (o, s') := do_ops ex_cfg (ex_drv [2; 4; 8]) [OCursor; OExec 7] (ex_start [2; 4; 8]) in
  o = Raise (Exc 1 2) /\ length (attempts (s_log s')) = 3.
Proof. vm_compute. repeat split. Qed.

(** ** C52 *)

(** After commit, rollback and cancel the flag is off, whether they returned or
    raised; after begin it is on, likewise. *)
Theorem C52_commit : forall g drv s, c_trans (s_con (snd (commit g drv s))) = false.
Proof. exact (fun g drv s => finish_flag g drv KCommit s). Qed.
Print Assumptions C52_commit.
Theorem C52_rollback : forall g drv s, c_trans (s_con (snd (rollback g drv s))) = false.
Proof. exact (fun g drv s => finish_flag g drv KRollback s). Qed.
Print Assumptions C52_rollback.
Theorem C52_cancel : forall g drv s, c_trans (s_con (snd (cancel g drv s))) = false.
Proof. exact cancel_flag. Qed.
Print Assumptions C52_cancel.
Theorem C52_begin : forall g drv s, c_trans (s_con (snd (begin g drv s))) = true.
Proof. exact begin_flag. Qed.
Print Assumptions C52_begin.
(** Along any sequence of calls, with any failures: the flag is on only if the
    client called begin and has not ended the transaction since. *)
Theorem C52_flag_sound : forall g drv l s, c_trans (s_con s) = false ->
  c_trans (s_con (run_ops g drv l s)) = true -> in_transaction l = true.
Proof. exact flag_in_transaction. Qed.
Print Assumptions C52_flag_sound.

(** The commit fails with a lost connection: the caller sees the error, the flag is off. *)
Example C52_example :
  let (o, s') := do_ops ex_cfg (ex_drv [3]) [OBegin; OCursor; OCommit] (ex_start [3]) in
  o = Raise (Exc 1 3) /\ c_trans (s_con s') = false.
Proof. vm_compute. repeat split. Qed.
Example C52_example_begin :
  c_trans (s_con (run_ops ex_cfg (ex_drv [1]) [OBegin; OCursor; OExec 3] (ex_start [1]))) = true.
Proof. vm_compute. reflexivity. Qed.

(** ** C75 *)

(** [batch_insert] (scheduler/backend/executors/remote_executor.py:127-169) sends
    its statements and one commit without [begin()].  If the connection is lost at
    the second statement, every call returns normally and the first row is gone. *)
Theorem C75_batch_loses_rows_refuted :
  exists g drv l s s',
    g_maxusage g = 0 /\ c_trans (s_con s) = false /\ wk_pending (work_of (s_log s)) = [] /\
    do_ops g drv (OCursor :: map OExec l ++ [OCommit]) s = (Ret tt, s') /\
    l = [7; 8; 9] /\ durable (s_log s) = [] /\ durable (s_log s') = [8; 9].
Proof.
  exists ex_cfg, (ex_drv [3; 4]), [7; 8; 9], (ex_start [3; 4]), 
    (snd (do_ops ex_cfg (ex_drv [3; 4]) [OCursor; OExec 7; OExec 8; OExec 9; OCommit] (ex_start [3; 4]))).
  vm_compute. repeat split.
Qed.
Print Assumptions C75_batch_loses_rows_refuted.

(** Without failures the batch is complete: if no driver call raises and the
    connection is not replaced by a ping or the usage limit, all rows are durable. *)
Theorem C75_batch_without_failures : forall g drv l s s',
  N.land 2 (c_ping (s_con s)) = 0%N -> N.land 4 (c_ping (s_con s)) = 0%N -> g_maxusage g = 0 ->
  (forall q, ~ In (c_raw (s_con s), q) (wk_pending (work_of (s_log s)))) ->
  do_ops g drv (OCursor :: map OExec l ++ [OCommit]) s = (Ret tt, s') ->
  (forall i a, nth_error (s_log s') i = Some a -> length (s_log s) <= i -> raised (snd a) = false) ->
  durable (s_log s') = durable (s_log s) ++ l.
Proof. exact batch_quiet. Qed.
Print Assumptions C75_batch_without_failures.
Example C75_example :
  let (o, s') := do_ops ex_cfg (ex_drv []) [OCursor; OExec 7; OExec 8; OCommit] (ex_start []) in
  o = Ret tt /\ durable (s_log s') = [7; 8].
Proof. vm_compute. repeat split. Qed.
