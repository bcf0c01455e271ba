(** C83: operator expressions. *)
From Coq Require Import String Ascii List Arith Bool Lia.
From Verif Require Import Base InfixModel InfixSpec InfixProof.
Import ListNotations.

(** Operators are grouped by the levels of the grammar: an earlier level binds tighter, one level groups to
    the left.  For every expression that is grouped so, reading its tokens gives its value. *)
Theorem C83_precedence : forall (V : Type) (act : nat -> list V -> V) (t : etree V), respects sql_levels t ->
  make_tree act sql_levels (yield sql_levels t) = Ok (value act t).
Proof. intros V act t. exact (make_tree_ok act sql_levels sql_levels_ok t). Qed.
Print Assumptions C83_precedence.

(** The grouping is unique, and it exists for every sequence of operands and operators without BETWEEN
    in which no prefix operator follows an operator that binds tighter. *)
Theorem C83_unique : forall (V : Type) (t t' : etree V), respects sql_levels t -> respects sql_levels t' ->
  yield sql_levels t = yield sql_levels t' -> t = t'.
Proof. intros V t t'. exact (yield_inj sql_levels t t' sql_levels_ok). Qed.
Print Assumptions C83_unique.
Theorem C83_exists : forall (V : Type) (flat : list (V * option nat)), covered sql_levels flat ->
  exists t, respects sql_levels t /\ yield sql_levels t = flat /\
    forall act, make_tree act sql_levels flat = Ok (value act t).
Proof.
  intros V flat H. destruct (covered_tree sql_levels sql_suffix_first flat H) as (t & Y & R & _).
  exists t. split; [exact R|]. split; [exact Y|]. intros act. rewrite <- Y. exact (make_tree_ok act sql_levels sql_levels_ok t R).
Qed.
Print Assumptions C83_exists.

(** The same for every other table of levels. *)
Theorem C83_any_table : forall (V : Type) tbl (act : nat -> list V -> V) (t : etree V), table_ok tbl -> respects tbl t ->
  make_tree act tbl (yield tbl t) = Ok (value act t).
Proof. intros V tbl act t T. exact (make_tree_ok act tbl T t). Qed.
Print Assumptions C83_any_table.

(** Reading never fails on a sequence with at least one token. *)
Theorem C83_total : forall (V : Type) tbl (act : nat -> list V -> V) flat, flat <> [] -> exists v, make_tree act tbl flat = Ok v.
Proof. exact @make_tree_total. Qed.
Print Assumptions C83_total.

(** Refuted without that condition: after a binary operator that binds tighter, or after a prefix operator that
    does, the sign of a prefix operator is taken as the operand and the operand itself is lost. *)
Theorem C83_prefix_refuted : forall (V : Type) (act : nat -> list V -> V) k j o o' (a w w' b : V),
  nth_error sql_levels j = Some (LPre o') -> k < j ->
  (nth_error sql_levels k = Some (LBin o false) ->
   make_tree act sql_levels [(a, None); (w, Some o); (w', Some o'); (b, None)] = Ok (act k [a; w; w'])) /\
  (nth_error sql_levels k = Some (LPre o) ->
   make_tree act sql_levels [(w, Some o); (w', Some o'); (b, None)] = Ok (act k [w; w'])).
Proof. exact @prefix_lost. Qed.
Print Assumptions C83_prefix_refuted.

(** [NOT a = b + c * d AND e BETWEEN f AND g OR - h :: i], and [a * - b], whose [b] is lost. *)
Definition ex_join (_ : nat) (l : list string) : string := ("(" ++ String.concat " " l ++ ")")%string.
Definition ex_tok (s : string) (o : nat) : string * option nat := (s, Some o).
Definition ex_val (s : string) : string * option nat := (s, None).
Example C83_example :
  make_tree ex_join sql_levels
    [ex_tok "not" O_not; ex_val "a"; ex_tok "=" O_eq; ex_val "b"; ex_tok "+" O_add; ex_val "c"; ex_tok "*" O_mul; ex_val "d";
     ex_tok "and" O_and; ex_val "e"; ex_tok "between" O_between; ex_val "f"; ex_tok "and" O_and; ex_val "g";
     ex_tok "or" O_or; ex_tok "-" O_neg; ex_val "h"; ex_tok "::i" O_cast] =
    Ok "(((not (a = (b + (c * d)))) and (e between f and g)) or (- (h ::i)))"%string /\
  make_tree ex_join sql_levels [ex_val "a"; ex_tok "-" O_add; ex_val "b"; ex_tok "-" O_add; ex_tok "-" O_neg; ex_val "c"] =
    Ok "((a - b) - (- c))"%string /\
  make_tree ex_join sql_levels [ex_val "a"; ex_tok "*" O_mul; ex_tok "-" O_neg; ex_val "b"] = Ok "(a * -)"%string /\
  make_tree ex_join sql_levels [ex_val "a"; ex_tok "=" O_eq; ex_tok "not" O_not; ex_val "b"; ex_tok "and" O_and; ex_val "c"] =
    Ok "(a = not)"%string.
Proof. repeat split; reflexivity. Qed.
