(** * Specification vocabulary for the SQL writer *)
From Coq Require Import String Ascii List NArith ZArith QArith Bool.
From Verif Require Import Base JsonModel CreateModel DotsModel SqlLex SqlRead FmtModel.
Import ListNotations.
Open Scope Z_scope.

(** [str.isalnum] agrees with ASCII on ASCII. *)
Definition ascii_ok (alnum : N -> bool) : Prop :=
  forall c, (c < 128)%N -> alnum c = (letter c || digit c)%bool.

(** What may follow a word or a string: the end, a blank, a parenthesis, a comma or a dot. *)
Definition sep (rest : pystr) : bool :=
  match rest with [] => true | c :: _ => (N.eqb c 32 || N.eqb c 40 || N.eqb c 41 || N.eqb c 44 || N.eqb c 46)%bool end.

(** Plain identifiers: a letter or underscore, then letters, digits and underscores, of any script or
    ASCII only. *)
Definition plain_word (alnum : N -> bool) (s : pystr) : bool :=
  match s with c :: w => (letter c || N.eqb c 95) && forallb (fun x => alnum x || N.eqb x 95) w | [] => false end.
Definition ascii_word (s : pystr) : bool :=
  match s with c :: w => (letter c || N.eqb c 95) && forallb (fun x => letter x || digit x || N.eqb x 95) w | [] => false end.

(** The reserved words of the language of the parser. *)
Definition reserved_names : list pystr := map u
  ["all"; "and"; "as"; "asc"; "between"; "by"; "case"; "collate"; "constraint"; "create"; "cross"; "desc";
   "distinct"; "except"; "else"; "end"; "false"; "fetch"; "foreign"; "from"; "full"; "group"; "having"; "in";
   "index"; "inner"; "intersect"; "interval"; "is"; "join"; "key"; "lateral"; "left"; "like"; "limit"; "minus";
   "nocase"; "not"; "null"; "offset"; "on"; "or"; "order"; "outer"; "over"; "partition"; "primary";
   "references"; "right"; "rlike"; "select"; "then"; "true"; "union"; "unique"; "using"; "when"; "where";
   "window"; "with"; "within"]%string.

(** ** Expressions of parsed statements *)
Section MapO.
Context {A B : Type}.
Variable f : A -> option B.
Fixpoint mapO (l : list A) : option (list B) :=
  match l with
  | [] => Some []
  | x :: r => match f x, mapO r with Some y, Some ys => Some (y :: ys) | _, _ => None end
  end.
End MapO.

Definition binops : list (pystr * binop) :=
  [(u "concat", OConcat); (u "mul", OMul); (u "div", ODiv); (u "mod", OMod); (u "add", OAdd); (u "sub", OSub);
   (u "binary_and", OBand); (u "binary_or", OBor); (u "lt", OLt); (u "lte", OLte); (u "gt", OGt); (u "gte", OGte);
   (u "eq", OEq); (u "neq", ONeq); (u "like", OLike); (u "not_like", ONotLike); (u "rlike", ORlike);
   (u "not_rlike", ONotRlike); (u "and", OAnd); (u "or", OOr)].

(** Keys that are not names of functions. *)
Definition special_keys : list pystr :=
  map fst binops ++ unordered_clauses ++ ordered_clauses ++ set_ops ++ map u
  ["drop"; "value"; "join"; "insert"; "null"; "trim"; "extract"; "binary_not"; "exists"; "missing"; "collate";
   "in"; "nin"; "case"; "cast"; "interval"; "literal"; "get"; "between"; "not_between"; "distinct"; "join_on";
   "not"; "is"]%string.
Definition fun_char (c : N) : bool := (letter c || digit c || N.eqb c 95)%bool.
Definition fun_name (f : pystr) : bool :=
  match f with c :: r => letter c && forallb fun_char r | [] => false end && negb (smem f special_keys) &&
  match kw_of f with None => true | Some _ => false end.

Definition names_of (p : list step) : option (list pystr) :=
  mapO (fun s => match s with Name f => Some f | Up => None end) p.
Definition col_of (s : pystr) : option tree :=
  if seqb s (u "*") then Some EStar
  else match names_of (split_field s) with Some (x :: l) => Some (ECol (x :: l)) | _ => None end.
Definition int_of (z : Z) : tree := if z <? 0 then ENeg (EInt (- z)) else EInt z.
(** A literal: a text or an integer. *)
Definition lit_of (j : json) : option tree :=
  match j with JStr s => Some (EStr s) | JInt z => Some (int_of z) | _ => None end.
Definition keyed (k : string) (f : pystr) : bool := seqb (u k) f.

(** No element is the name "literal", which the writer would look up in the list (formatting.py
    L310-311: a TypeError). *)
Definition no_literal (l : list json) : bool :=
  negb (existsb (fun x => match x with JStr s => seqb s (u "literal") | _ => false end) l).

(** The expression a parsed value stands for; an operator applied to several values groups
    to the left. *)
Fixpoint tree_of (j : json) : option tree :=
  match j with
  | JStr s => col_of s
  | JInt z => Some (int_of z)
  | JNull => Some ENull
  | JDict [(k, v)] =>
    match find (fun p => seqb (fst p) k) binops with
    | Some (_, o) =>
      match v with
      | JList l => match mapO tree_of l with Some (a :: b :: r) => Some (fold_left (EBin o) (b :: r) a) | _ => None end
      | JDict [(c, w)] => match col_of c, lit_of w with Some a, Some b => Some (EBin o a b) | _, _ => None end
      | _ => None
      end
    | None =>
      if keyed "null" k then Some ENull
      else if keyed "literal" k then lit_of v
      else if keyed "in" k || keyed "nin" k then
        match v with
        | JList [m; s] =>
          match tree_of m,
                match s with
                | JList l => if no_literal l then mapO tree_of l else None
                | JDict [(k', w)] =>
                  if keyed "literal" k' then
                    match w with JList l => mapO lit_of l | _ => mapO lit_of [w] end
                  else None
                | _ => None
                end with
          | Some a, Some l => Some (EIn (keyed "nin" k) a l)
          | _, _ => None
          end
        | _ => None
        end
      else if keyed "between" k || keyed "not_between" k then
        match v with
        | JList l => match mapO tree_of l with Some [a; b; c] => Some (EBetween (keyed "not_between" k) a b c) | _ => None end
        | _ => None
        end
      else if keyed "missing" k || keyed "exists" k then
        match tree_of v with Some t => Some (EIs (keyed "exists" k) t) | None => None end
      else if keyed "binary_not" k then
        match tree_of v with Some t => Some (EBnot t) | None => None end
      else if keyed "not" k then
        match v with
        | JNull | JDict [] => None
        | _ => match tree_of v with Some t => Some (ENot t) | None => None end
        end
      else if fun_name k then
        match v with
        | JNull | JDict [] => Some (ECall (upper k) [])
        | JList l => match mapO tree_of l with Some ts => Some (ECall (upper k) ts) | None => None end
        | _ => match tree_of v with Some t => Some (ECall (upper k) [t]) | None => None end
        end
      else None
    end
  | _ => None
  end.

(** ** Which trees the writer's ranks keep *)

(** The rank at which the writer puts an expression in parentheses, if it ever does
    (keywords.py L242-292, times four). *)
Definition rank_op (o : binop) : Z :=
  match o with
  | OConcat => 4 | OMul => 8 | ODiv => 6 | OMod => 8 | OAdd => 12 | OSub => 10 | OBand | OBor => 16
  | OLt | OLte | OGte => 20 | OGt => 24 | OEq | ONeq => 28 | OLike | ONotLike | ORlike | ONotRlike => 32
  | OAnd => 40 | OOr => 44
  end.
Definition rank (t : tree) : option Z :=
  match t with
  | EBin o _ _ => Some (rank_op o)
  | EIn _ _ _ | EBetween _ _ _ _ => Some 32
  | EIs _ _ => Some 28
  | EBnot _ => Some 16
  | _ => None
  end.
Definition bare (c : Z) (t : tree) : bool := match rank t with Some p => p <=? c | None => true end.

Section Ranked.
Variable lev : opk -> nat.
(** The level of the outermost operator; 0 for operands. *)
Definition level (t : tree) : nat :=
  match t with
  | EBin o _ _ => lev (KBin o)
  | EIn n _ _ => lev (KIn n)
  | EBetween n _ _ _ => lev (KBetween n)
  | EIs n _ => lev (KIs n)
  | ENot _ => lev KNot
  | _ => 0%nat
  end.
(** Operands written without parentheses have the level their place needs: at most that of the
    operator on its left, less than it on its right. *)
Fixpoint well_ranked (t : tree) : Prop :=
  match t with
  | EBin o a b =>
    well_ranked a /\ well_ranked b /\
    (bare (rank_op o + 1) a = true -> (level a <= lev (KBin o))%nat) /\
    (bare (rank_op o) b = true -> (level b < lev (KBin o))%nat)
  | EIn n m l =>
    well_ranked m /\ fold_right (fun t P => well_ranked t /\ P) True l /\
    (bare 32 m = true -> (level m <= lev (KIn n))%nat)
  | EBetween n a b c =>
    well_ranked a /\ well_ranked b /\ well_ranked c /\
    (bare 32 a = true -> (level a <= lev (KBetween n))%nat) /\
    (bare 32 b = true -> (level b < lev (KBetween n))%nat) /\
    (bare 32 c = true -> (level c < lev (KBetween n))%nat)
  | EIs n t => well_ranked t /\ (bare 32 t = true -> (level t <= lev (KIs n))%nat)
  | EBnot t => well_ranked t /\ level t = 0%nat
  | ENot t => well_ranked t
  | ECall _ l => fold_right (fun t P => well_ranked t /\ P) True l
  | _ => True
  end.
End Ranked.

(** Names and texts that lexing keeps: no name is [*] or ends in a newline; without backslashes if
    [bs]. *)
Definition name_ok (p : pystr) : Prop := p <> u "*" /\ last p 0%N <> 10%N.
Fixpoint good_leaves (bs : bool) (t : tree) : Prop :=
  match t with
  | ECol l => Forall name_ok l
  | EStr s => bs = true -> ~ In 92%N s
  | ENeg t | EBnot t | ENot t | EIs _ t => good_leaves bs t
  | EBin _ a b => good_leaves bs a /\ good_leaves bs b
  | EIn _ m l => good_leaves bs m /\ fold_right (fun t P => good_leaves bs t /\ P) True l
  | EBetween _ a b c => good_leaves bs a /\ good_leaves bs b /\ good_leaves bs c
  | ECall _ l => fold_right (fun t P => good_leaves bs t /\ P) True l
  | _ => True
  end.

(** Levels a reader may use: operators have levels from 1 to [top]; BETWEEN binds at least as tight
    as AND. *)
Definition lev_ok (lev : opk -> nat) (top : nat) : Prop :=
  (forall k, 1 <= lev k <= top)%nat /\ (forall n, lev (KBetween n) <= lev (KBin OAnd))%nat.

(** A text reads as an expression: with enough fuel, every token is used. *)
Definition reads (bs dq : bool) (lev : opk -> nat) (top : nat) (s : pystr) (t : tree) : Prop :=
  exists ts n, lex bs dq s = Some ts /\ forall m, (n <= m)%nat -> rd lev top m top ts = Some (t, []).

(** Levels of MySQL (operator precedence table of its manual, in the mode where [||] concatenates). *)
Definition mysql_lev (k : opk) : nat :=
  match k with
  | KBin OConcat => 2
  | KBin (OMul | ODiv | OMod) => 4
  | KBin (OAdd | OSub) => 5
  | KBin OBand => 7
  | KBin OBor => 8
  | KBin (OLt | OLte | OGt | OGte | OEq | ONeq | OLike | ONotLike | ORlike | ONotRlike) | KIn _ | KIs _ => 9
  | KBetween _ => 10
  | KNot => 11
  | KBin OAnd => 12
  | KBin OOr => 14
  end%nat.
(** Levels of the grammar in /repo: position in KNOWN_OPS, keywords.py L294-322, plus one. *)
Definition repo_lev (k : opk) : nat :=
  match k with
  | KBin OConcat => 2
  | KBin (OMul | ODiv | OMod) => 3
  | KBin (OAdd | OSub) => 5
  | KBin OBand => 7
  | KBin OBor => 8
  | KBin (OLt | OLte | OGt | OGte) => 9
  | KBin (OEq | ONeq) => 10
  | KBetween false => 12 | KBetween true => 13
  | KIn false => 14 | KIn true => 15
  | KIs true => 16 | KIs false => 17
  | KBin OLike => 18 | KBin ONotLike => 19 | KBin ORlike => 20 | KBin ONotRlike => 21
  | KNot => 24
  | KBin OAnd => 25
  | KBin OOr => 26
  end%nat.

(** Search conditions: comparisons of columns and constants, combined by NOT, AND and OR; no right operand
    of AND is an AND, none of OR an OR. *)
Definition value_tree (t : tree) : bool :=
  match t with ECol _ | EStr _ | EInt _ | ENull | ENeg _ => true | _ => false end.
Definition comparison (o : binop) : bool :=
  match o with OLt | OLte | OGt | OGte | OEq | ONeq | OLike | ONotLike | ORlike | ONotRlike => true | _ => false end.
Definition top_op (t : tree) : option binop := match t with EBin o _ _ => Some o | _ => None end.
Inductive condition : tree -> Prop :=
| C_cmp o a b : comparison o = true -> value_tree a = true -> value_tree b = true -> condition (EBin o a b)
| C_in n m l : value_tree m = true -> forallb value_tree l = true -> condition (EIn n m l)
| C_between n a b c : value_tree a = true -> value_tree b = true -> value_tree c = true -> condition (EBetween n a b c)
| C_is n t : value_tree t = true -> condition (EIs n t)
| C_not t : condition t -> condition (ENot t)
| C_and a b : condition a -> condition b -> top_op b <> Some OAnd -> condition (EBin OAnd a b)
| C_or a b : condition a -> condition b -> top_op b <> Some OOr -> condition (EBin OOr a b).

(** ** Clauses of statements *)

(** The clauses in the order of SQL, with their keywords. *)
Definition clause_keywords : list (pystr * pystr) := map (fun p => (u (fst p), u (snd p)))
  [("with", "WITH "); ("distinct_on", "SELECT DISTINCT ON ("); ("select_distinct", "SELECT DISTINCT "); ("select", "SELECT ");
   ("delete", "DELETE FROM "); ("update", "UPDATE "); ("set", "SET "); ("from", "FROM "); ("where", "WHERE ");
   ("groupby", "GROUP BY "); ("having", "HAVING "); ("orderby", "ORDER BY "); ("limit", "LIMIT "); ("offset", "OFFSET ");
   ("fetch", "FETCH ")]%string.
Definition clause_names : list pystr := map fst clause_keywords.
(** A statement SELECT, UPDATE or DELETE: a clause other than FROM or those of the order, none of the
    keys that are looked at before the clauses. *)
Definition statement (d : dict json) : Prop :=
  (exists k, dmem d k = true /\ In k (map u ["with"; "select_distinct"; "select"; "delete"; "update"; "set"; "where"; "groupby"; "having"]%string)) /\
  Forall (fun k => dmem d k = false) (map u ["drop"; "value"; "join"; "insert"; "distinct_on"]%string).

(** What the text [t] of the clause [k] holds after its keyword, where [f] writes one value: the condition; the
    list of the values; the assignments. *)
Definition as_list (v : json) : list json := match v with JNull => [] | JList l => l | _ => [v] end.
Definition clause_content (f : json -> res pystr) (d : dict json) (k t : pystr) : Prop :=
  exists w v, In (k, w) clause_keywords /\ dget d k = Some v /\
  (In k (map u ["where"; "having"]%string) -> exists x, f v = Ok x /\ t = w ++ x) /\
  (In k (map u ["select_distinct"; "groupby"; "limit"]%string) \/ k = u "select" /\ dmem d (u "top") = false ->
   exists xs, Forall2 (fun j x => f j = Ok x) (as_list v) xs /\ t = w ++ join (u ", ") xs) /\
  (k = u "set" -> exists kvs xs, v = JDict kvs /\ t = w ++ join (u ", ") xs /\
   Forall2 (fun kv x => exists a b, f (JStr (fst kv)) = Ok a /\ f (snd kv) = Ok b /\ x = a ++ u " = " ++ b) kvs xs) /\
  exists rest, t = w ++ rest.

(** MySQL's reading of the inside of a quoted text keeps it exactly when every backslash is followed by
    [%] or [_]. *)
Fixpoint backslash_ok (s : pystr) : bool :=
  match s with
  | [] => true
  | c :: r => if N.eqb c 92 then match r with d :: r' => (N.eqb d 37 || N.eqb d 95) && backslash_ok r' | [] => false end
              else backslash_ok r
  end.
