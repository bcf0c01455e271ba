(** * Specification vocabulary for the failover connections

    Everything here is defined on the log of driver calls, i.e. on what the
    database saw; nothing refers to the functions of the model. *)
From Coq Require Import List Arith NArith ZArith Bool Lia.
From Verif Require Import SteadyModel.
Import ListNotations.

(** The statements of clients that reached the database, with their answers. *)
Definition attempts (l : list event) : list (nat * answer) :=
  flat_map (fun e => match fst e with KExec _ _ q => [(q, snd e)] | _ => [] end) l.

(** The raw connections on which clients' statements ran. *)
Definition exec_raws (l : list event) : list nat :=
  flat_map (fun e => match fst e with KExec r _ _ => [r] | _ => [] end) l.

Definition raised (a : answer) : bool := match a with Raises _ => true | Returns _ => false end.

(** The work of a database without autocommit: a statement that the driver
    answered is pending on its connection; commit makes the pending statements of
    that connection durable; rollback, close or a lost connection drops them.
    A statement answered by an exception is taken not to have been executed. *)
Record work := Work { wk_pending : list (nat * nat); wk_durable : list nat }.

Definition work_step (w : work) (e : event) : work :=
  match e with
  | (KExec r _ q, Returns _) => Work (wk_pending w ++ [(r, q)]) (wk_durable w)
  | (KCommit r, Returns _) =>
      Work (filter (fun p => negb (Nat.eqb (fst p) r)) (wk_pending w))
           (wk_durable w ++ map snd (filter (fun p => Nat.eqb (fst p) r) (wk_pending w)))
  | (KRollback r, Returns _) =>
      Work (filter (fun p => negb (Nat.eqb (fst p) r)) (wk_pending w)) (wk_durable w)
  | (KClose r, _) =>
      Work (filter (fun p => negb (Nat.eqb (fst p) r)) (wk_pending w)) (wk_durable w)
  | _ => w
  end.

Definition work_of (l : list event) : work := fold_left work_step l (Work [] []).

(** The statements that survive. *)
Definition durable (l : list event) : list nat := wk_durable (work_of l).

(** A client that ignores exceptions and carries on. *)
Fixpoint run_ops (g : cfg) (drv : nat -> answer) (l : list op) (s : st) : st :=
  match l with [] => s | o :: r => run_ops g drv r (snd (do_op g drv o s)) end.

(** The calls that end a transaction. *)
Definition ends (o : op) : bool :=
  match o with OCommit | ORollback | OCancel => true | _ => false end.

(** Is a transaction open after these calls, by the calls alone? *)
Definition in_transaction (l : list op) : bool :=
  fold_left (fun b o => match o with OBegin => true | _ => if ends o then false else b end) l false.

(** A state right after [cursor()]: the cursor belongs to the connection. *)
Definition fresh_cursor (s : st) : Prop :=
  k_raw (s_cur s) = c_raw (s_con s) /\ c_closed (s_con s) = false.
