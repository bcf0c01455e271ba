(** The parse actions of operator expressions: to_json_operator, sql_parsing/utils.py L137-213, with
    binary_ops L243-288, and to_tuple_call L226-240 for parenthesised lists.

    Simplifications: the parts of a node (results.py, __iter__ L155-164) are one element each, which is the
    case for the operands of the grammar (compound, sql_parser.py L250-278): names and numbers, the dict of a
    literal, a Call, or a Group (a parenthesised expression or a node made earlier).  The node that wraps the
    result of a parse action (wrap_parse_action, parsing/utils.py L376-394) is a Group with that one element.
    Numbers are integers, TRUE and FALSE are left out.  Levels with other parse actions (the suffix forms and
    the lambda operator) and the cast operator are left out: [act_json] gives an error for them. *)
From Coq Require Import String Ascii List Arith NArith ZArith Bool.
From Verif Require Import Base ScrubModel InfixModel.
Import ListNotations.

(** A part of a node: an operand, or an operator with its text (None: the operator is a Group of
    keywords) and its parser_name. *)
Inductive tokv : Type := TVal (x : pv) | TOp (txt : option pystr) (name : pystr).

(** A Group with one element. *)
Definition group (x : pv) : pv := PRes [] true false [x].
(** tokens[i], results.py L60-78. *)
Definition elem (t : tokv) : pv :=
  match t with TVal x => x | TOp (Some s) _ => PText s | TOp None _ => PRes [] true false [] end.
(** tokens.tokens[i].type.parser_name, L146 and L153. *)
Definition parser_name (t : tokv) : pystr := match t with TOp _ n => n | TVal _ => [] end.

(** binary_ops, L243-288. *)
Definition binary_ops : list (pystr * pystr) := map (fun p => (u (fst p), u (snd p)))
  [("::", "cast"); ("COLLATE", "collate"); ("||", "concat"); ("*", "mul"); ("/", "div"); ("%", "mod"); ("+", "add");
   ("-", "sub"); ("&", "binary_and"); ("|", "binary_or"); ("<", "lt"); ("<=", "lte"); (">", "gt"); (">=", "gte");
   ("=", "eq"); ("==", "eq"); ("is distinct from", "eq!"); ("is_distinct_from", "eq!"); ("is not distinct from", "ne!");
   ("is_not_distinct_from", "ne!"); ("<=>", "eq!"); ("!=", "neq"); ("<>", "neq"); ("not in", "nin"); ("in", "in");
   ("is_not", "neq"); ("is", "eq"); ("similar_to", "similar_to"); ("like", "like"); ("rlike", "rlike");
   ("not like", "not_like"); ("not_like", "not_like"); ("not rlike", "not_rlike"); ("not_rlike", "not_rlike");
   ("not_simlilar_to", "not_similar_to"); ("or", "or"); ("and", "and"); ("->", "lambda"); ("union", "union");
   ("union_all", "union_all"); ("union all", "union_all"); ("except", "except"); ("minus", "minus");
   ("intersect", "intersect")]%string.
Definition canonical (w : pystr) : pystr := match dget binary_ops w with Some o => o | None => w end.

(** Call(op, args, {}) with a list of arguments. *)
Definition call (op : pystr) (args : list pv) : pv := PCall op (PList args) [].
Definition is_null_tok (x : pv) : bool := match x with PNull => true | _ => false end.

(** The loop that unwraps Groups, L193-199. *)
Fixpoint unwrap (x : pv) : pv := match x with PRes _ true _ (y :: _) => unwrap y | _ => x end.
(** L201-208: the arguments that an operand contributes to an associative operator. *)
Definition operands_of (op : pystr) (x : pv) : list pv :=
  match unwrap x with
  | PCall op' (PList l) _ => if seqb op' op then l else [unwrap x]
  | PDict d => match dget d op with Some (PList (y :: l)) => y :: l | _ => [unwrap x] end
  | y => [y]
  end.
Definition associative (op : pystr) : bool := smem op (map u ["add"; "mul"; "and"; "or"]%string).

(** The binary case, L158-213.  The branches for "is" and "is_not" (L179-188) are never reached, as
    binary_ops maps these names to eq and neq. *)
Definition binary (a : pv) (w : pystr) (b : pv) : pv :=
  let op := canonical w in
  let nullish (n : string) : option pv :=
    if is_null_tok b then Some (PCall (u n) a []) else if is_null_tok a then Some (PCall (u n) b []) else None in
  match (if seqb op (u "eq") || seqb op (u "eq!") then nullish "missing"%string
         else if seqb op (u "neq") || seqb op (u "ne!") then nullish "exists"%string else None) with
  | Some c => c
  | None => if associative op then call op (operands_of op a ++ operands_of op b) else call op [a; b]
  end.

Section Act.
(** Whether float() accepts a text (is_number, parsing/utils.py L188-196); a number always. *)
Variable float_text : pystr -> bool.

(** to_json_operator, L137-213; the minus sign before a text that float() accepts is a TypeError
    (L148), which the parse action reports (parsing/utils.py L397-398). *)
Definition to_json_operator (tokens : list tokv) : res tokv :=
  match tokens with
  | [t0; t1] =>
    if seqb (parser_name t1) (u "cast") then Err Generic
    else if seqb (parser_name t0) (u "neg") then
      match elem t1 with
      | PNum z => Ok (TVal (group (PNum (- z))))
      | PText s => if float_text s then Err TypeError else Ok (TVal (group (call (u "neg") [PText s])))
      | x => Ok (TVal (group (call (u "neg") [x])))
      end
    else Ok (TVal (group (call (parser_name t0) [elem t1])))
  | [t0; t1; t2; t3; t4] => Ok (TVal (group (call (parser_name t1) [elem t0; elem t2; elem t4])))
  | [t0; t1; t2] =>
    let w := match elem t1 with PText s => s | _ => parser_name t1 end in
    Ok (TVal (group (binary (elem t0) w (elem t2))))
  | _ => Err IndexError
  end.
(** The parse action of a level, sql_parser.py L344-351. *)
Definition act_json (k : nat) (parts : list (res tokv)) : res tokv :=
  bind (mapM (fun x => x) parts) (fun l => if (5 <=? k) && (k <=? 30) then to_json_operator l else Err Generic).
End Act.

(** to_tuple_call, L226-240, for the elements of a parenthesised list: one element, or a list, or one dict
    of literals. *)
Definition literal_of (x : pv) : option pv :=
  match x with PNum z => Some (PNum z) | PDict d => dget d (u "literal") | _ => None end.
Definition is_num (x : pv) : bool := match x with PNum _ => true | _ => false end.
Definition to_tuple_call (l : list pv) : pv :=
  match l with
  | [x] => group x
  | _ =>
    if forallb is_num l then group (PList l)
    else if forallb (fun x => match literal_of x with Some _ => true | None => false end) l
    then group (PDict [(u "literal", PList (map (fun x => match literal_of x with Some y => y | None => x end) l))])
    else group (PList l)
  end.
