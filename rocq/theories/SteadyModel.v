(** * Model of the failover connections (/repo/dbutils/steady_db.py)

    [SteadyDBConnection] and [SteadyDBCursor] wrap a DB-API 2 driver.  The driver
    is arbitrary: the answer to the n-th call that reaches it is [drv n], which
    may be any value or any exception.  Every call that reaches the driver is
    appended to a log together with its answer, so a theorem about the log is a
    theorem about what the database saw.

    Raw connections and raw cursors are named by the number of the driver call
    that returned them, so a new one is never confused with an old one. *)
From Coq Require Import List Arith NArith ZArith Bool Lia.
Import ListNotations.

(** A Python exception: its class and an identity ([raise error] re-raises the
    same object; steady_db.py:435, 450, 504, 687).  Simplified: classes are
    numbers, their meaning is given by [cfg]. *)
Record exc := Exc { x_class : nat; x_id : nat }.

(** What a driver call does: returns a value ([None] or a number, also used for
    truth values) or raises.  steady_db.py:348-358 (ping), 490 (cursor),
    606 (execute). *)
Inductive answer := Returns (v : option Z) | Raises (e : exc).

(** The calls a driver receives; steady_db.py:204 (connect), 300-303 (session
    statements), 320 (close), 347-349 (ping), 420 (begin), 426 (commit),
    441 (rollback), 463 (cancel), 480 (cursor), 606 (execute), 585 (cursor close).
    Arguments are the raw connection, the raw cursor and the statement. *)
Inductive call :=
| KConnect
| KSession (raw : nat) (sql : nat)
| KClose (raw : nat)
| KPing (raw : nat)
| KBegin (raw : nat)
| KCommit (raw : nat)
| KRollback (raw : nat)
| KCancel (raw : nat)
| KCursor (raw : nat)
| KExec (raw cur : nat) (sql : nat)
| KCurClose (raw cur : nat).

(** One line of the log: a driver call and its answer (not in the Python code). *)
Definition event := (call * answer)%type.

(** The constructor arguments of [SteadyDBConnection] (steady_db.py:141-186) and
    what the driver module provides.  Simplified: the search for the exception
    classes and the thread-safety level in [_create] (L206-283) is replaced by
    [g_failures]; [setinputsizes]/[setoutputsize] (L553-577) are left out. *)
Record cfg := Cfg {
  g_failures : nat -> bool;      (* is the class one of self._failures? L262-283 *)
  g_sub : nat -> nat -> bool;    (* is the first class a subclass of the second? L660 *)
  g_failure : exc;               (* raise con._failure, L284-287, L602 *)
  g_probe : nat -> bool;         (* AttributeError, IndexError, TypeError, ValueError, L350 *)
  g_type : nat -> bool;          (* TypeError, L348 *)
  g_maxusage : nat;              (* L172-176 *)
  g_session : list nat;          (* setsession, L177 *)
  g_ping : N;                    (* ping bits, L182 *)
  g_closeable : bool;            (* L183 *)
  g_has_begin : bool;            (* the driver has begin(), L415-420 *)
  g_has_cancel : bool            (* the driver has cancel(), L458-463 *)
}.

(** A [SteadyDBConnection] object; attributes [_con], [_transaction], [_closed],
    [_usage] (steady_db.py:305-310) and [_ping] (L182, L351). *)
Record con := Con { c_raw : nat; c_trans : bool; c_closed : bool; c_usage : nat; c_ping : N }.

(** A [SteadyDBCursor] object; attributes [_cursor] (with the raw connection it
    was opened on) and [_closed] (steady_db.py:522-536). *)
Record cur := Cur { k_raw : nat; k_cur : nat; k_closed : bool }.

(** The state a connection method runs in: driver log, the connection object and
    the cursor object. *)
Record st := St { s_log : list event; s_con : con; s_cur : cur }.

(** Result of a method: a value or a raised exception. *)
Inductive outcome (A : Type) := Ret (a : A) | Raise (e : exc).
Arguments Ret {A}. Arguments Raise {A}.

(** A method: from state to result and state (no lines of its own). *)
Definition M (A : Type) := st -> outcome A * st.

(** Sequencing and exception handling of Python (no lines of their own). *)
Definition ret {A} (a : A) : M A := fun s => (Ret a, s).
Definition raise {A} (e : exc) : M A := fun s => (Raise e, s).
Definition bindM {A B} (m : M A) (f : A -> M B) : M B :=
  fun s => match m s with (Ret a, s1) => f a s1 | (Raise e, s1) => (Raise e, s1) end.
(** [try: ... except Exception: ...]: the outcome becomes a value. *)
Definition attempt {A} (m : M A) : M (outcome A) :=
  fun s => let (o, s1) := m s in (Ret o, s1).

Declare Scope steady_scope.
Delimit Scope steady_scope with steady.
Notation "'let*' x ':=' m 'in' f" := (bindM m (fun x => f))
  (at level 200, x name, right associativity) : steady_scope.
Notation "m ;; f" := (bindM m (fun _ => f)) (at level 100, right associativity) : steady_scope.
Open Scope steady_scope.

(** Attribute reads and assignments, steady_db.py:305-310, 522-536. *)
Definition get_con : M con := fun s => (Ret (s_con s), s).
Definition put_con (c : con) : M unit := fun s => (Ret tt, St (s_log s) c (s_cur s)).
Definition get_cur : M cur := fun s => (Ret (s_cur s), s).
Definition put_cur (k : cur) : M unit := fun s => (Ret tt, St (s_log s) (s_con s) k).

Section Steady.
Variable g : cfg.
Variable drv : nat -> answer.

(** A call to the driver: answered by [drv], logged. *)
Definition driver (k : call) : M (option Z) := fun s =>
  let a := drv (length (s_log s)) in
  let s1 := St (s_log s ++ [(k, a)]) (s_con s) (s_cur s) in
  match a with Returns v => (Ret v, s1) | Raises e => (Raise e, s1) end.

(** A driver call returning a new object, named by the number of the call. *)
Definition driver_new (k : call) : M nat := fun s =>
  let n := length (s_log s) in
  match driver k s with (Ret _, s1) => (Ret n, s1) | (Raise e, s1) => (Raise e, s1) end.

(** [try: x except Exception: pass]; steady_db.py:288-291, 319-322, 584-587. *)
Definition quiet (k : call) : M unit := attempt (driver k) ;; ret tt.

(** steady_db.py:301-302: the session statements. *)
Fixpoint session_loop (raw : nat) (l : list nat) : M unit :=
  match l with
  | [] => ret tt
  | q :: r => driver (KSession raw q) ;; session_loop raw r
  end.

(** [_setsession], steady_db.py:295-303. *)
Definition setsession (raw : nat) : M unit :=
  match g_session g with
  | [] => ret tt
  | l => let* k := driver_new (KCursor raw) in
         session_loop raw l ;;
         driver (KCurClose raw k) ;; ret tt
  end.

(** [_create], steady_db.py:202-293. *)
Definition create : M nat :=
  let* raw := driver_new KConnect in
  let* r := attempt (setsession raw) in
  match r with
  | Ret _ => ret raw
  | Raise e => quiet (KClose raw) ;; raise e
  end.

(** [_store], steady_db.py:305-310. *)
Definition store_con (raw : nat) : M unit :=
  let* c := get_con in put_con (Con raw false false 0 (c_ping c)).

(** [_close], steady_db.py:312-324. *)
Definition close_con : M unit :=
  let* c := get_con in
  if c_closed c then ret tt
  else quiet (KClose (c_raw c)) ;;
       put_con (Con (c_raw c) false true (c_usage c) (c_ping c)).

(** Reopening after a failure, steady_db.py:361-369, 428-434, 443-449. *)
Definition reopen : M bool :=
  let* r := attempt create in
  match r with
  | Ret raw => close_con ;; store_con raw ;; ret true
  | Raise _ => ret false
  end.

(** [self._transaction = b], steady_db.py:414, 424, 439, 457, 503. *)
Definition set_trans (b : bool) : M unit :=
  let* c := get_con in put_con (Con (c_raw c) b (c_closed c) (c_usage c) (c_ping c)).

(** [con._usage += 1], steady_db.py:629, 673, 689. *)
Definition use_con : M unit :=
  let* c := get_con in put_con (Con (c_raw c) (c_trans c) (c_closed c) (S (c_usage c)) (c_ping c)).

(** [_ping_check], steady_db.py:337-370 (the returned [alive] is not used by any caller). *)
Definition ping_check (bits : N) : M unit :=
  let* c := get_con in
  if N.eqb (N.land bits (c_ping c)) 0 then ret tt
  else
    let* r := attempt (driver (KPing (c_raw c))) in
    let* r := (match r with
               | Raise e => if g_type g (x_class e) then attempt (driver (KPing (c_raw c))) else ret r
               | Ret _ => ret r
               end) in
    let* reconnect :=
      (match r with
       | Raise e => if g_probe g (x_class e)
                    then put_con (Con (c_raw c) (c_trans c) (c_closed c) (c_usage c) 0%N) ;; ret false
                    else ret true
       | Ret None => ret false
       | Ret (Some v) => ret (Z.eqb v 0)
       end) in
    if reconnect && negb (c_trans c) then reopen ;; ret tt else ret tt.

(** [begin], steady_db.py:405-420. *)
Definition begin : M unit :=
  set_trans true ;;
  let* c := get_con in
  if g_has_begin g then driver (KBegin (c_raw c)) ;; ret tt else ret tt.

(** [commit] and [rollback], steady_db.py:422-435 and 437-450. *)
Definition finish (k : nat -> call) : M unit :=
  set_trans false ;;
  let* c := get_con in
  let* r := attempt (driver (k (c_raw c))) in
  match r with
  | Ret _ => ret tt
  | Raise e => if g_failures g (x_class e) then reopen ;; raise e else raise e
  end.
Definition commit : M unit := finish KCommit.
Definition rollback : M unit := finish KRollback.

(** [cancel], steady_db.py:452-463. *)
Definition cancel : M unit :=
  set_trans false ;;
  let* c := get_con in
  if g_has_cancel g then driver (KCancel (c_raw c)) ;; ret tt else ret tt.

(** [_reset], steady_db.py:326-335. *)
Definition reset (force : bool) : M unit :=
  let* c := get_con in
  if negb (c_closed c) && (force || c_trans c) then attempt rollback ;; ret tt else ret tt.

(** [close], steady_db.py:390-403. *)
Definition close : M unit :=
  if g_closeable g then close_con
  else let* c := get_con in if c_trans c then reset false else ret tt.

(** The usage limit, steady_db.py:477-479 and 600-602. *)
Definition overused (c : con) (transaction : bool) : bool :=
  negb (Nat.eqb (g_maxusage g) 0) && Nat.leb (g_maxusage g) (c_usage c) && negb transaction.

(** [_cursor], steady_db.py:469-505; returns the raw connection and raw cursor. *)
Definition con_cursor : M (nat * nat) :=
  let* c0 := get_con in
  let transaction := c_trans c0 in
  (if transaction then ret tt else ping_check 2) ;;
  let* c := get_con in
  let* r := attempt (if overused c transaction then raise (g_failure g)
                     else driver_new (KCursor (c_raw c))) in
  match r with
  | Ret k => ret (c_raw c, k)
  | Raise e =>
    if negb (g_failures g (x_class e)) then raise e
    else
      let* n := attempt create in
      let* again :=
        (match n with
         | Raise _ => ret None
         | Ret raw =>
           let* r2 := attempt (driver_new (KCursor raw)) in
           match r2 with
           | Ret k => close_con ;; store_con raw ;;
                      (if transaction then raise e else ret (Some (raw, k)))
           | Raise _ => quiet (KClose raw) ;; ret None
           end
         end) in
      match again with
      | Some k => ret k
      | None => (if transaction then set_trans false else ret tt) ;; raise e
      end
  end.

(** [cursor()], steady_db.py:507-509 and 522-536. *)
Definition cursor : M unit :=
  let* k := con_cursor in put_cur (Cur (fst k) (snd k) false).

(** [SteadyDBCursor.close], steady_db.py:578-588. *)
Definition close_cur : M unit :=
  let* k := get_cur in
  if k_closed k then ret tt
  else quiet (KCurClose (k_raw k) (k_cur k)) ;; put_cur (Cur (k_raw k) (k_cur k) true).

(** [self._cursor = cursor2]: [_closed] is not reset; steady_db.py:628, 650, 672. *)
Definition set_cur (raw k : nat) : M unit :=
  let* c := get_cur in put_cur (Cur raw k (k_closed c)).

(** The second attempt on a new cursor, steady_db.py:609-634. *)
Definition second_try (sql : nat) : M (option (option Z)) :=
  let* n := attempt con_cursor in
  match n with
  | Raise _ => ret None
  | Ret (raw, k) =>
    let* r := attempt (driver (KExec raw k sql)) in
    match r with
    | Ret v => close_cur ;; set_cur raw k ;; use_con ;; ret (Some v)
    | Raise _ => quiet (KCurClose raw k) ;; ret None
    end
  end.

(** [self.close(); con._close(); con._store(con2); self._cursor = cursor2],
    steady_db.py:647-650 and 669-672. *)
Definition switch (raw k : nat) : M unit :=
  close_cur ;; close_con ;; store_con raw ;; set_cur raw k.

(** The third attempt on a new connection, steady_db.py:635-687. *)
Definition third_try (sql : nat) (transaction : bool) (error : exc) : M (option Z) :=
  let* n := attempt create in
  match n with
  | Raise _ => raise error
  | Ret raw =>
    let* kk := attempt (driver_new (KCursor raw)) in
    match kk with
    | Raise _ => quiet (KClose raw) ;; raise error
    | Ret k =>
      if transaction then switch raw k ;; raise error
      else
        let* r := attempt (driver (KExec raw k sql)) in
        match r with
        | Ret v => switch raw k ;; use_con ;; ret v
        | Raise e2 =>
          if g_sub g (x_class e2) (x_class error)
          then quiet (KCurClose raw k) ;; quiet (KClose raw) ;; raise error
          else switch raw k ;; use_con ;; raise e2
        end
    end
  end.

(** [tough_method], steady_db.py:592-691.  The assignment
    [self._transaction = False] at L686 writes an attribute of the cursor that
    nothing reads, so it has no counterpart here. *)
Definition execute (sql : nat) : M (option Z) :=
  let* c0 := get_con in
  let transaction := c_trans c0 in
  (if transaction then ret tt else ping_check 4) ;;
  let* c := get_con in
  let* k := get_cur in
  let* r := attempt (if overused c transaction then raise (g_failure g)
                     else driver (KExec (k_raw k) (k_cur k) sql)) in
  match r with
  | Ret v => use_con ;; ret v
  | Raise error =>
    if negb (g_failures g (x_class error)) then raise error
    else
      let* again := (if transaction then ret None else second_try sql) in
      match again with
      | Some v => ret v
      | None => third_try sql transaction error
      end
  end.

(** [SteadyDBConnection(...)], steady_db.py:141-186: opens a raw connection. *)
Definition connect : M unit :=
  let* raw := create in put_con (Con raw false false 0 (g_ping g)).

(** The calls of a client (steady_db.py:405-463, 507, 592), in terms of which the properties are stated. *)
Inductive op := OBegin | OCommit | ORollback | OCancel | OCursor | OExec (sql : nat).

(** Dispatch to the methods modelled above (steady_db.py:405-463, 507, 592). *)
Definition do_op (o : op) : M (option Z) :=
  match o with
  | OBegin => begin ;; ret None
  | OCommit => commit ;; ret None
  | ORollback => rollback ;; ret None
  | OCancel => cancel ;; ret None
  | OCursor => cursor ;; ret None
  | OExec q => execute q
  end.

(** A client that stops at the first exception. *)
Fixpoint do_ops (l : list op) : M unit :=
  match l with [] => ret tt | o :: r => do_op o ;; do_ops r end.

End Steady.
