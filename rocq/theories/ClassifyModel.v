(** The type of a statement: scheduler/compile/parser.py (Parser.tokens, Parser.query_type) and
    scheduler/compile/token.py (SQLToken).

    Simplifications: a statement is the list of tokens that remain after _get_sqlparse_tokens
    (L1012-1023) has removed the white space, _preprocess_query and the tokenizer
    (scheduler/compile/parse, a copy of sqlparse) are in TypeModel.v; the parenthesis kinds and the
    last keyword that the loop also computes are left out, query_type does not read them.
    [uc] is str.upper on one character, any function. *)
From Coq Require Import String Ascii List NArith ZArith Bool.
From Verif Require Import Base ExecModel.
Import ListNotations.

(** A token of the tokenizer: its text and whether it is a comment (token.py L40). *)
Record tok := mkTok { t_text : pystr; t_comment : bool }.

(** An SQLToken (token.py L16-66): position, value, is_comment, is_left_parenthesis (the last from
    the text of the token, L43). *)
Record sqltok := mkSql { s_pos : nat; s_value : pystr; s_comment : bool; s_lpar : bool }.

(** [s.lstrip(c)]. *)
Fixpoint lstrip (c : N) (s : pystr) : pystr :=
  match s with x :: r => if N.eqb x c then lstrip c r else s | [] => [] end.
(** The value: the text stripped of back quotes, then of double quotes, token.py L31. *)
Definition unquoted (s : pystr) : pystr := rstrip 34 (lstrip 34 (rstrip 96 (lstrip 96 s))).

(** SQLToken.normalized, token.py L101-106: without blanks and line ends, then upper(). *)
Definition is_blank (c : N) : bool := (N.eqb c 32 || N.eqb c 10 || N.eqb c 9 || N.eqb c 13)%bool.
Definition normalized (uc : N -> pystr) (v : pystr) : pystr :=
  flat_map uc (filter (fun c => negb (is_blank c)) v).

(** [str(token) == "."], parser.py L986. *)
Definition is_dot (t : tok) : bool := seqb (t_text t) (u ".").

(** _is_token_part_of_complex_identifier, L979-989; [r]: the tokens that follow. *)
Definition part_of_name (t : tok) (r : list tok) : bool :=
  is_dot t || match r with n :: _ => is_dot n | [] => false end.

(** _combine_qualified_names and _combine_tokens, L991-1010. *)
Fixpoint combine_names (all : list tok) (i : nat) (v : pystr) : pystr :=
  match i with
  | S (S j) =>
    match nth_error all (S j), nth_error all j with
    | Some d, Some p => if is_dot d then combine_names all j (unquoted (t_text p) ++ u "." ++ v) else v
    | _, _ => v
    end
  | _ => v
  end.

(** The loop of Parser.tokens, L139-170.  [acc]: the tokens so far, last first; [flag]:
    combine_flag.  [tokens[-1] if index > 0] (L157) raises IndexError on an empty list. *)
Fixpoint token_loop (all : list tok) (i : nat) (flag : bool) (acc : list sqltok) (l : list tok)
    : res (list sqltok) :=
  match l with
  | [] => Ok (rev acc)
  | t :: r =>
    if part_of_name t r then token_loop all (S i) true acc r
    else
      let v := unquoted (t_text t) in
      let s := mkSql i (if flag then combine_names all i v else v) (t_comment t) (seqb (t_text t) (u "(")) in
      match i, acc with
      | S _, [] => Err IndexError
      | _, _ => token_loop all (S i) false (s :: acc) r
      end
  end.
Definition sql_tokens (l : list tok) : res (list sqltok) := token_loop l 0 false [] l.

(** find_nearest_token(value=False, value_attribute="is_left_parenthesis", direction="right"),
    token.py L523-542, from the first token of the list that is no comment: the links run through the
    comments; without such a token the answer is EmptyToken, whose position is -1 (L26). *)
Definition nearest_position (l : list sqltok) : Z :=
  match find (fun s => negb (s_lpar s)) l with Some s => Z.of_nat (s_pos s) | None => (-1)%Z end.
Fixpoint after_first (l : list sqltok) : list sqltok :=
  match l with
  | [] => []
  | s :: r => if s_comment s then after_first r else r
  end.

(** [l[i]] for an int. *)
Definition pyindex {A} (l : list A) (i : Z) : res A :=
  let j := if Z.ltb i 0 then (i + Z.of_nat (length l))%Z else i in
  if Z.ltb j 0 then Err IndexError
  else match nth_error l (Z.to_nat j) with Some x => Ok x | None => Err IndexError end.

(** SUPPORTED_QUERY_TYPES, keywords_lists.py L97-107. *)
Definition supported : dict qtype :=
  [(u "INSERT", QInsert); (u "REPLACE", QReplace); (u "UPDATE", QUpdate); (u "SELECT", QSelect);
   (u "DELETE", QDelete); (u "WITH", QSelect); (u "CREATETABLE", QCreate); (u "ALTERTABLE", QAlter);
   (u "DROP", QDrop)].
Definition lookup (switch : pystr) : res qtype :=
  match dget supported switch with Some t => Ok t | None => Err ValueError end.

(** Parser.query_type, L87-124. *)
Definition query_type (uc : N -> pystr) (l : list tok) : res qtype :=
  do all <- sql_tokens l;
  let tokens := filter (fun s => negb (s_comment s)) all in
  match tokens with
  | [] => Err ValueError
  | t0 :: _ =>
    let index := if s_lpar t0 then nearest_position (after_first all) else 0%Z in
    do t <- pyindex tokens index;
    let k := normalized uc (s_value t) in
    if smem k [u "CREATE"; u "ALTER"]
    then do t' <- pyindex tokens (index + 1); lookup (k ++ normalized uc (s_value t'))
    else lookup k
  end.
