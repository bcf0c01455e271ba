(** Vocabulary for the statements about operator expressions: syntax trees over a table of levels. *)
From Coq Require Import List Arith Bool.
From Verif Require Import InfixModel.
Import ListNotations.

Section Tree.
Context {V : Type}.
(** Expressions: an operand; a prefix, suffix, binary or ternary operator of the level [k].  Operators
    carry the value of their own token. *)
Inductive etree : Type :=
| Leaf (v : V)
| Pre (k : nat) (w : V) (t : etree)
| Suf (k : nat) (t : etree) (w : V)
| Bin (k : nat) (l : etree) (w : V) (r : etree)
| Tri (k : nat) (a : etree) (w : V) (b : etree) (w' : V) (c : etree).

(** The outermost level, counted from one; operands have none. *)
Definition lev (t : etree) : nat :=
  match t with Leaf _ => 0 | Pre k _ _ | Suf k _ _ | Bin k _ _ _ | Tri k _ _ _ _ _ => S k end.

(** The precedence rules: an operator of an earlier level binds tighter; operators of one level group to
    the left.  So an operand on the left belongs to the same level or an earlier one, an operand on the right
    to an earlier one; the operand of a prefix or suffix operator to the same or an earlier one. *)
Fixpoint respects (tbl : list lvl) (t : etree) : Prop :=
  match t with
  | Leaf _ => True
  | Pre k _ t => (exists o, nth_error tbl k = Some (LPre o)) /\ lev t <= S k /\ respects tbl t
  | Suf k t _ => (exists o, nth_error tbl k = Some (LSuf o)) /\ lev t <= S k /\ respects tbl t
  | Bin k l _ r =>
    (exists o, nth_error tbl k = Some (LBin o false)) /\ lev l <= S k /\ lev r < S k /\ respects tbl l /\ respects tbl r
  | Tri k a _ b _ c =>
    (exists o o', nth_error tbl k = Some (LTri o o' false)) /\ lev a <= S k /\ lev b < S k /\ lev c < S k /\
    respects tbl a /\ respects tbl b /\ respects tbl c
  end.

(** The operators of a level. *)
Definition op1 (tbl : list lvl) (k : nat) : option nat :=
  match nth_error tbl k with Some (LPre o) | Some (LSuf o) | Some (LBin o _) | Some (LTri o _ _) => Some o | None => None end.
Definition op2 (tbl : list lvl) (k : nat) : option nat :=
  match nth_error tbl k with Some (LTri _ o _) => Some o | _ => None end.

(** The tokens of an expression from left to right. *)
Fixpoint yield (tbl : list lvl) (t : etree) : list (V * option nat) :=
  match t with
  | Leaf v => [(v, None)]
  | Pre k w t => (w, op1 tbl k) :: yield tbl t
  | Suf k t w => yield tbl t ++ [(w, op1 tbl k)]
  | Bin k l w r => yield tbl l ++ (w, op1 tbl k) :: yield tbl r
  | Tri k a w b w' c => yield tbl a ++ (w, op1 tbl k) :: yield tbl b ++ (w', op2 tbl k) :: yield tbl c
  end.

(** The value of an expression when each operator has its meaning. *)
Fixpoint value (act : nat -> list V -> V) (t : etree) : V :=
  match t with
  | Leaf v => v
  | Pre k w t => act k [w; value act t]
  | Suf k t w => act k [value act t; w]
  | Bin k l w r => act k [value act l; w; value act r]
  | Tri k a w b w' c => act k [value act a; w; value act b; w'; value act c]
  end.

(** Sequences that the rules cover, without ternary operators: operands with their prefix and suffix
    operators, joined by binary operators.  A prefix operator has an earlier level than a binary
    operator before it, and no later level than a prefix operator before it; a suffix operator no earlier
    level than a suffix operator before it. *)
Inductive suffixed (tbl : list lvl) : nat -> list (V * option nat) -> Prop :=
| sx_end k v : suffixed tbl k [(v, None)]
| sx_suf k k' l w o : nth_error tbl k = Some (LSuf o) -> k <= k' -> suffixed tbl k l -> suffixed tbl k' (l ++ [(w, Some o)]).
Inductive operand (tbl : list lvl) : nat -> list (V * option nat) -> Prop :=
| od_suf k j l : suffixed tbl j l -> operand tbl k l
| od_pre k k' l w o : nth_error tbl k = Some (LPre o) -> k < k' -> operand tbl (S k) l -> operand tbl k' ((w, Some o) :: l).
Inductive covered (tbl : list lvl) : list (V * option nat) -> Prop :=
| cv_one k l : operand tbl k l -> covered tbl l
| cv_bin k l w o r : nth_error tbl k = Some (LBin o false) -> covered tbl l -> operand tbl k r ->
    covered tbl (l ++ (w, Some o) :: r).
End Tree.
Arguments etree : clear implicits.

(** Tables: no operator is the first one of two levels; the second operator of a ternary level is the
    first one of no level up to it; no binary or ternary level groups to the right. *)
Definition table_ok (tbl : list lvl) : Prop :=
  (forall i j o, op1 tbl i = Some o -> op1 tbl j = Some o -> i = j) /\
  (forall i j o, op2 tbl i = Some o -> op1 tbl j = Some o -> i < j) /\
  (forall k o, nth_error tbl k <> Some (LBin o true)) /\ (forall k o o', nth_error tbl k <> Some (LTri o o' true)).
(** The suffix levels come first. *)
Definition suffix_first (tbl : list lvl) : Prop :=
  forall i j o l, nth_error tbl i = Some (LSuf o) -> nth_error tbl j = Some l -> j < i -> exists o', l = LSuf o'.
