(** Operator expressions of the parser: make_tree inside infix_notation, parsing/infix.py L258-366.

    Simplifications: a token of flat_tokens, a pair (tokens, op), is a value together with the name of
    the operator whose parser recorded it (record_op, L232-236), or no name for an operand: operands carry
    base_expr (L370) or a tuple (L360), which equal no operator (core.py L723-724: identity).  The parse
    actions of a level (L357-358) are one function [act] of the level and the parts of the new node.  No
    operator of the grammar is suppressed (sql_parser.py L318-352), so is_suppressed is left out. *)
From Coq Require Import String Ascii List Arith Bool.
From Verif Require Import Base.
Import ListNotations.

(** One level of op_list, L186-230: prefix operators (arity 1, RIGHT_ASSOC), suffix operators (arity 1,
    LEFT_ASSOC), operators of arity 2 and 3 with their associativity. *)
Inductive lvl : Type :=
| LPre (o : nat) | LSuf (o : nat) | LBin (o : nat) (ra : bool) | LTri (o0 o1 : nat) (ra : bool).

Section Infix.
Context {V : Type}.
Variable act : nat -> list V -> V.

(** A token: its value and its operator (L232-236). *)
Local Notation item := (V * option nat)%type.
(** [o == op], L269. *)
Definition is_op (o : nat) (x : item) : bool := match snd x with Some o' => Nat.eqb o' o | None => false end.

(** [for i, (r, o) in enumerate(l): if o == op: break], L306-307, and the same over the reversed list, L267-269. *)
Fixpoint first_at (f : nat -> item -> bool) (i : nat) (l : list item) : option nat :=
  match l with [] => None | x :: r => if f i x then Some i else first_at f (S i) r end.
Fixpoint last_at (f : nat -> item -> bool) (i : nat) (l : list item) : option nat :=
  match l with
  | [] => None
  | x :: r => match last_at f (S i) r with Some j => Some j | None => if f i x then Some i else None end
  end.
Definition scan (ra : bool) (f : nat -> item -> bool) (l : list item) : option nat :=
  if ra then last_at f 0 l else first_at f 0 l.

(** flat_tokens[1:-n], L302 and L330 (L285 with n = 0). *)
Definition inner (n : nat) (flat : list item) : list item := firstn (length flat - 1 - n) (tl flat).
(** flat_tokens[i : i+n] = [(result, (expr,))], L359-360, where the parts of result are the values of these
    n tokens (L270-278, L288-296, L308-324, L338-352). *)
Definition put (k i n : nat) (flat : list item) : list item :=
  firstn i flat ++ (act k (map fst (firstn n (skipn i flat))), None) :: skipn (i + n) flat.

(** One level, L263-355: the tokens after the reduction that it finds, if any. *)
Definition at_level (k : nat) (l : lvl) (flat : list item) : option (list item) :=
  match l with
  | LPre o =>
    option_map (fun i => put k i 2 flat) (scan true (fun _ => is_op o) (removelast flat))
  | LSuf o =>
    option_map (fun i => put k i 2 flat) (scan false (fun _ => is_op o) (inner 0 flat))
  | LBin o ra =>
    option_map (fun i => put k i 3 flat) (scan ra (fun _ => is_op o) (inner 1 flat))
  | LTri o0 o1 ra =>
    option_map (fun i => put k i 5 flat)
      (scan ra (fun i x => is_op o0 x && match nth_error flat (i + 3) with Some y => is_op o1 y | None => false end)
        (inner 3 flat))
  end.
(** The levels from op_index on, L262-263 and L281-282: the first one that finds a reduction. *)
Fixpoint at_levels (k : nat) (ls : list lvl) (flat : list item) : option (list item) :=
  match ls with
  | [] => None
  | l :: r => match at_level k l flat with Some flat' => Some flat' | None => at_levels (S k) r flat end
  end.
(** The loop, L262-361: after each reduction the levels are tried from the first again. *)
Fixpoint loop (fuel : nat) (ls : list lvl) (flat : list item) : res (list item) :=
  match fuel with
  | 0 => Err OutOfFuel
  | S f =>
    if length flat <=? 1 then Ok flat
    else match at_levels 0 ls flat with Some flat' => loop f ls flat' | None => Ok flat end
  end.
(** make_tree, L258-366: the first token that remains. *)
Definition make_tree (ls : list lvl) (flat : list item) : res V :=
  bind (loop (S (length flat)) ls flat) (fun l => match l with x :: _ => Ok (fst x) | [] => Err IndexError end).
End Infix.

(** The levels of the grammar: the four suffix forms of sql_parser.py L323-342, then KNOWN_OPS,
    keywords.py L294-322, with CASTING put first by types.py L146; arity and associativity from unary_ops,
    types.py L148-153 and sql_parser.py L344-351.  The operators are numbered in this order; AND is the
    same operator in (BETWEEN, AND), (NOT_BETWEEN, AND) and AND (all_op, infix.py L155-174). *)
Definition O_index := 0.      Definition O_dot := 1.          Definition O_window := 2.    Definition O_filter := 3.
Definition O_cast := 4.       Definition O_collate := 5.      Definition O_concat := 6.    Definition O_mul := 7.
Definition O_neg := 8.        Definition O_add := 9.          Definition O_bnot := 10.     Definition O_band := 11.
Definition O_bor := 12.       Definition O_cmp := 13.         Definition O_eq := 14.       Definition O_zone := 15.
Definition O_between := 16.   Definition O_nbetween := 17.    Definition O_in := 18.       Definition O_nin := 19.
Definition O_isnot := 20.     Definition O_is := 21.          Definition O_like := 22.     Definition O_nlike := 23.
Definition O_rlike := 24.     Definition O_nrlike := 25.      Definition O_similar := 26.  Definition O_nsimilar := 27.
Definition O_not := 28.       Definition O_and := 29.         Definition O_or := 30.       Definition O_lambda := 31.
Definition sql_levels : list lvl :=
  [LSuf O_index; LSuf O_dot; LSuf O_window; LSuf O_filter; LSuf O_cast;
   LBin O_collate false; LBin O_concat false; LBin O_mul false; LPre O_neg; LBin O_add false; LPre O_bnot;
   LBin O_band false; LBin O_bor false; LBin O_cmp false; LBin O_eq false; LBin O_zone false;
   LTri O_between O_and false; LTri O_nbetween O_and false; LBin O_in false; LBin O_nin false;
   LBin O_isnot false; LBin O_is false; LBin O_like false; LBin O_nlike false; LBin O_rlike false;
   LBin O_nrlike false; LBin O_similar false; LBin O_nsimilar false; LPre O_not; LBin O_and false;
   LBin O_or false; LBin O_lambda false].
