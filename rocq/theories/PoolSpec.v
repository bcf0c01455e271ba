(** * Specification vocabulary for the connection pool *)
From Coq Require Import List Arith NArith ZArith Bool Lia.
From Verif Require Import SteadyModel PoolModel.
Import ListNotations.

(** The connections checked out by clients as dedicated connections. *)
Definition held (p : pool) : list nat :=
  flat_map (fun h => match h with HDed i => [i] | _ => [] end) (p_hand p).

(** The number of clients holding shared object [o]. *)
Definition holders (p : pool) (o : nat) : nat :=
  length (filter (fun h => match h with HShared x => Nat.eqb x o | _ => false end) (p_hand p)).

(** The connections of the shared objects that some client holds. *)
Definition shared_out (p : pool) : list nat :=
  flat_map (fun x => if Nat.eqb (snd x) 0 then [] else [fst x]) (p_objs p).

(** The pools that can arise: constructor, then any interleaving of steps. *)
Definition reachable (a : pargs) (drv : nat -> answer) (l : list pop) (p : pool) : Prop :=
  exists p0, init (make_cfg a) drv (a_mincached a) = (RNone, p0) /\ p = run (make_cfg a) drv p0 l.

(** Steps of clients that only ask for dedicated connections. *)
Definition dedicated_op (o : pop) : bool := match o with OpRequest _ sh => negb sh | _ => true end.
Definition closes (o : pop) : bool := match o with OpClosePool => true | _ => false end.

(** The replies along a run. *)
Fixpoint replies (q : pcfg) (drv : nat -> answer) (p : pool) (l : list pop) : list reply :=
  match l with
  | [] => []
  | o :: r => fst (step q drv p o) :: replies q drv (snd (step q drv p o)) r
  end.

Definition is_error (r : reply) : bool := match r with RError _ => true | _ => false end.

(** Shared connections dropped from the count by [close()] of the pool along a run. *)
Fixpoint dropped (q : pcfg) (drv : nat -> answer) (p : pool) (l : list pop) : nat :=
  match l with
  | [] => 0
  | o :: r => (if closes o then if Nat.eqb (q_maxshared q) 0 then 0 else length (p_cache p) else 0)
              + dropped q drv (snd (step q drv p o)) r
  end.

(** A client's statement or begin on raw connection [r]. *)
Definition touches (r : nat) (e : event) : Prop :=
  match fst e with KExec x _ _ | KBegin x => x = r | _ => False end.
Definition rolls_back (r : nat) (e : event) : Prop :=
  match fst e with KRollback x => x = r | _ => False end.

(** Every statement on [r] has been followed by a rollback call on [r]. *)
Definition settled (r : nat) (l : list event) : Prop :=
  forall l1 e l2, l = l1 ++ e :: l2 -> touches r e -> Exists (rolls_back r) l2.
