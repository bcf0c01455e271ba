(** * Model of the SQL writer (/repo/sql_parsing/formatting.py)

    Line numbers without a file name are those of formatting.py.  Precedences are
    counted in quarters, because the code uses 1.5, 2.5 and steps of 0.25.

    Simplified: [str] of a float is an arbitrary function [fstr]; [str.upper] is its
    ASCII part; window specifications (the "over" part of [value], L208-261) raise
    [NotImplementedErr], so do f-strings applied to values that are not texts. *)
From Coq Require Import String Ascii List NArith ZArith QArith Bool.
From Verif Require Import Base JsonModel CreateModel DotsModel.
Import ListNotations.
Open Scope Z_scope.

(** The table [precedence], keywords.py L242-292, times four. *)
Definition precedence_table : dict Z :=
  [(u "literal", -4); (u "interval", 0); (u "cast", 0); (u "collate", 0); (u "concat", 4); (u "mul", 8);
   (u "div", 6); (u "mod", 8); (u "neg", 12); (u "add", 12); (u "sub", 10); (u "binary_not", 16);
   (u "binary_and", 16); (u "binary_or", 16); (u "gte", 20); (u "lte", 20); (u "lt", 20); (u "gt", 24);
   (u "eq", 28); (u "neq", 28); (u "missing", 28); (u "exists", 28); (u "at_time_zone", 32); (u "between", 32);
   (u "not_between", 32); (u "in", 32); (u "nin", 32); (u "is", 32); (u "like", 32); (u "not_like", 32);
   (u "rlike", 32); (u "not_rlike", 32); (u "similar_to", 32); (u "not_similar_to", 32); (u "and", 40);
   (u "or", 44); (u "lambda", 48); (u "join", 72); (u "list", 72); (u "select", 120); (u "from", 120);
   (u "window", 140); (u "union", 160); (u "union_all", 160); (u "except", 160); (u "minus", 160);
   (u "intersect", 160); (u "order", 200)].
(** MAX_PRECEDENCE, L21. *)
Definition max_prec : Z := 400.
(** [precedence.get(k, MAX_PRECEDENCE)], L279. *)
Definition prec_of (k : pystr) : Z := match dget precedence_table k with Some p => p | None => max_prec end.

(** The single words of RESERVED, keywords.py L159-224. *)
Definition reserved_words : list pystr := map u
  ["all"; "and"; "as"; "asc"; "between"; "by"; "case"; "collate"; "constraint"; "create"; "cross"; "desc";
   "distinct"; "except"; "else"; "end"; "false"; "fetch"; "foreign"; "from"; "full"; "group"; "having"; "in";
   "index"; "inner"; "intersect"; "interval"; "is"; "join"; "key"; "lateral"; "left"; "like"; "limit"; "minus";
   "nocase"; "not"; "null"; "offset"; "on"; "or"; "order"; "outer"; "over"; "partition"; "primary";
   "references"; "right"; "rlike"; "select"; "then"; "true"; "union"; "unique"; "using"; "when"; "where";
   "window"; "with"; "within"]%string.

Definition lower_char (c : N) : N := if (N.leb 65 c && N.leb c 90)%bool then (c + 32)%N else c.
Definition lower (s : pystr) : pystr := map lower_char s.

(** Letters, digits, underscore and dollar, whitespaces.py L24: the characters that
    continue a keyword (parsing/tokens.py L188-197). *)
Definition ascii_letter (c : N) : bool := ((N.leb 65 c && N.leb c 90) || (N.leb 97 c && N.leb c 122))%bool.
Definition ascii_digit (c : N) : bool := (N.leb 48 c && N.leb c 57)%bool.
Definition kw_char (c : N) : bool := (ascii_letter c || ascii_digit c || N.eqb c 95 || N.eqb c 36)%bool.

(** [is_keyword], L25-30: a reserved word, in any case, at the start of the text and not
    followed by one of its continuation characters. *)
Fixpoint kw_prefix (w s : pystr) : bool :=
  match w, s with
  | [], [] => true
  | [], c :: _ => negb (kw_char c)
  | x :: w', c :: s' => N.eqb x (lower_char c) && kw_prefix w' s'
  | _ :: _, [] => false
  end.
Definition is_keyword (s : pystr) : bool := existsb (fun w => kw_prefix w s) reserved_words.

Section Fmt.
Variable alnum : N -> bool.       (* str.isalnum of one character *)
Variable fstr : Q -> pystr.       (* str of a float *)
Variable ansi : bool.             (* ansi_quotes, L159; format() leaves it True *)

(** [\w] of a Python 3 text pattern. *)
Definition wordc (c : N) : bool := alnum c || N.eqb c 95.
(** VALID, L22: [$] also matches before a newline at the very end. *)
Fixpoint valid_tail (s : pystr) : bool :=
  match s with
  | [] => true
  | [c] => wordc c || N.eqb c 10
  | c :: r => wordc c && valid_tail r
  end.
Definition valid (s : pystr) : bool :=
  match s with c :: r => (ascii_letter c || N.eqb c 95) && valid_tail r | [] => false end.

(** [should_quote], L33-44. *)
Definition should_quote (s : pystr) : bool := negb (seqb s (u "*")) && (negb (valid s) || is_keyword s).

(** [s.replace(c, 2 * c)], L60 and L376. *)
Definition double_char (q : N) (s : pystr) : pystr := replace1 q [q; q] s.
Definition quote_char : N := if ansi then 34%N else 96%N.
(** [esc], L55-61. *)
Definition esc (s : pystr) : pystr :=
  if should_quote s then quote_char :: double_char quote_char s ++ [quote_char] else s.
(** [escape], L47-63; a step -1 is no text for the pattern. *)
Definition escape (s : pystr) : res pystr :=
  do l <- mapM (fun st => match st with Name f => Ok (esc f) | Up => Err TypeError end) (split_field s);
  Ok (join [DOT] l).

(** [text(x)] and [str(x)] of numbers and None, L197, L380. *)
Definition str_json (j : json) : res pystr :=
  match j with
  | JNull => Ok (u "None")
  | JBool b => Ok (u (if b then "True" else "False"))
  | JInt z => Ok (str_int z)
  | JFloat q => Ok (fstr q)
  | JStr s => Ok s
  | _ => Err NotImplementedErr
  end.
(** A value inside an f-string. *)
Definition fstring (j : json) : res pystr := match j with JStr s => Ok s | _ => Err NotImplementedErr end.

(** [_literal], L370-380. *)
Definition quote_str (s : pystr) : pystr := 39%N :: double_char 39 s ++ [39%N].
Fixpoint literal (j : json) : res pystr :=
  match j with
  | JList l => do ps <- mapM literal l; Ok (u "(" ++ join (u ", ") ps ++ u ")")
  | JStr s => Ok (quote_str s)
  | JDict d => match dget (map (fun kv => (fst kv, literal (snd kv))) d) (u "literal") with
               | Some r => r | None => Err KeyError end
  | _ => str_json j
  end.

(** [listwrap], parsing/utils.py L199-211. *)
Definition listwrap (j : json) : list json :=
  match j with JNull => [] | JList l => l | _ => [j] end.

(** Truth value of a parsed value, L352, L400-406, L448, L451. *)
Definition truthy (j : json) : bool :=
  match j with
  | JNull => false | JBool b => b | JInt z => negb (Z.eqb z 0) | JFloat q => negb (Qeq_bool q 0)
  | JStr s => match s with [] => false | _ => true end
  | JList l => match l with [] => false | _ => true end
  | JDict d => match d with [] => false | _ => true end
  end.

Definition paren (s : pystr) : pystr := u "(" ++ s ++ u ")".
Definition paren_if (b : bool) (s : pystr) : pystr := if b then s else paren s.

(** [s.strip()], L567. *)
Definition is_space (c : N) : bool :=
  ((N.leb 9 c && N.leb c 13) || (N.leb 28 c && N.leb c 32) || N.eqb c 133 || N.eqb c 160 || N.eqb c 5760
   || (N.leb 8192 c && N.leb c 8202) || N.eqb c 8232 || N.eqb c 8233 || N.eqb c 8239 || N.eqb c 8287 || N.eqb c 12288)%bool.
Fixpoint lstrip (s : pystr) : pystr :=
  match s with c :: r => if is_space c then lstrip r else s | [] => [] end.
Definition strip (s : pystr) : pystr := rev (lstrip (rev (lstrip s))).

(** The operators made by [Operator(...)], L133-156: key and the text between the
    operands (L68). *)
Definition operator_table : dict pystr :=
  [(u "concat", u " || "); (u "mul", u " * "); (u "div", u " / "); (u "mod", u " % "); (u "add", u " + ");
   (u "sub", u " - "); (u "neq", u " <> "); (u "gt", u " > "); (u "lt", u " < "); (u "gte", u " >= ");
   (u "lte", u " <= "); (u "eq", u " = "); (u "or", u " OR "); (u "and", u " AND "); (u "binary_and", u " & ");
   (u "binary_or", u " | "); (u "like", u " LIKE "); (u "not_like", u " NOT LIKE "); (u "rlike", u " RLIKE ");
   (u "not_rlike", u " NOT RLIKE "); (u "union", u " UNION "); (u "union_all", u " UNION ALL ");
   (u "intersect", u " INTERSECT "); (u "minus", u " MINUS "); (u "except", u " EXCEPT ")].

(** join_keywords, keywords.py L230-240; is_set_op, utils.py L290; the clause lists, L109-128. *)
Definition join_keywords : list pystr := map u
  ["join"; "full join"; "cross join"; "inner join"; "left join"; "right join"; "full outer join";
   "right outer join"; "left outer join"]%string.
Definition set_ops : list pystr := map u ["union"; "union_all"; "except"; "minus"; "intersect"]%string.
Definition unordered_clauses : list pystr := map u
  ["with"; "distinct_on"; "select_distinct"; "select"; "delete"; "update"; "set"; "from"; "where"; "groupby"; "having"]%string.
Definition ordered_clauses : list pystr := map u ["orderby"; "limit"; "offset"; "fetch"]%string.

Section Step.
(** [self.dispatch], for the values inside. *)
Variable disp : json -> Z -> res pystr.

(** [", ".join(self.dispatch(x) for x in l)]. *)
Definition disp_list (l : list json) (prec : Z) : res pystr :=
  do ps <- mapM (fun j => disp j prec) l; Ok (join (u ", ") ps).

(** [sql_list], L199-204. *)
Definition sql_list (l : list json) (prec : Z) : res pystr :=
  do s <- disp_list l max_prec; Ok (paren_if (prec_of (u "from") <=? prec) s).

(** The function made by [Operator], L70-86, whose parentheses (L83-86) never appear, since [op]
    passes the operator's own precedence. *)
Definition infix (key op : pystr) (j : json) : res pystr :=
  let p := prec_of key in
  let args := match j with
              | JDict ((k, v) :: _) => [JStr k; JDict [(u "literal", v)]]
              | _ => listwrap j
              end in
  match args with
  | [] => Ok []
  | a :: r => do x <- disp a (p + 1); do xs <- mapM (fun j => disp j p) r; Ok (join op (x :: xs))
  end.

(** [a, b = json], L309, L322, L349, L360, L383 (a text or dict is left out). *)
Definition unpack2 (j : json) : res (json * json) :=
  match j with JList [a; b] => Ok (a, b) | JList _ => Err ValueError | JStr _ | JDict _ => Err NotImplementedErr | _ => Err TypeError end.

(** [_in] and [_nin], L308-332; the parentheses of L317-318 never appear, [op] passes the
    operator's own precedence. *)
Definition fmt_in (w : pystr) (j : json) : res pystr :=
  do ' (member, set) <- unpack2 j;
  do c <- contains set (u "literal");
  do set' <- (if c then do l <- getitem set (u "literal"); Ok (JDict [(u "literal", JList (listwrap l))]) else Ok set);
  do m <- disp member (prec_of (u "in"));
  do s <- disp set' (prec_of (u "in"));
  Ok (m ++ w ++ s).

(** [_between] and [_not_between], L388-393, L412-417. *)
Definition fmt_between (w : pystr) (j : json) : res pystr :=
  do a <- index j 0; do b <- index j 1; do c <- index j 2;
  do a' <- disp a (prec_of (u "between")); do b' <- disp b (prec_of (u "between"));
  do c' <- disp c (prec_of (u "between"));
  Ok (a' ++ w ++ b' ++ u " AND " ++ c').

(** [_case], L334-346. *)
Definition fmt_check (c : json) : res (list pystr) :=
  match c with
  | JDict d =>
    match dget d (u "when"), dget d (u "then") with
    | Some w, Some t => do w' <- disp w max_prec; do t' <- disp t max_prec; Ok [u "WHEN"; w'; u "THEN"; t']
    | _, _ => do e <- disp c max_prec; Ok [u "ELSE"; e]
    end
  | _ => do e <- disp c max_prec; Ok [u "ELSE"; e]
  end.
Definition fmt_case (j : json) : res pystr :=
  do ps <- mapM fmt_check (match j with JList l => l | _ => [j] end);
  Ok (join (u " ") ([u "CASE"] ++ concat ps ++ [u "END"])).

(** [_cast], L348-357. *)
Definition fmt_cast (j : json) : res pystr :=
  do ' (e, ty) <- unpack2 j;
  do t <- match ty with
          | JDict ((n, ps) :: _) => Ok (if truthy ps then JDict [(upper n, ps)] else JStr (upper n))
          | JDict [] => Err TypeError
          | _ => Err AttributeError
          end;
  do e' <- disp e max_prec; do t' <- disp t max_prec;
  Ok (u "CAST(" ++ e' ++ u " AS " ++ t' ++ u ")").

(** [_interval], L365-368; [_get], L382-386; [_collate], L303-306. *)
Definition fmt_interval (j : json) : res pystr :=
  do a <- index j 0; do a' <- disp a (prec_of (u "and"));
  do b <- index j 1; do b' <- disp b (prec_of (u "and"));
  Ok (u "INTERVAL " ++ a' ++ u " " ++ upper b').
Definition fmt_get (j : json) : res pystr :=
  do ' (v, i) <- unpack2 j;
  do v' <- disp v (prec_of (u "literal")); do i' <- disp i max_prec;
  Ok (v' ++ u "[" ++ i' ++ u "]").
Definition fmt_collate (j : json) : res pystr :=
  do a <- index j 0; do a' <- disp a (prec_of (u "collate"));
  do b <- index j 1; do b' <- fstring b;
  Ok (a' ++ u " COLLATE " ++ b').

(** [_join_on], L432-454, called from [from_] (L543).  Simplified: of several join keys the first is taken (the code
    takes an arbitrary one). *)
Definition fmt_join_on (d : dict json) : res pystr :=
  match find (fun kv => smem (fst kv) join_keywords) d with
  | None => Err Generic
  | Some (k, v) =>
    do s <- disp v (prec_of (u "join"));
    do on <- match dget d (u "on") with
             | Some e => if truthy e then do t <- disp e max_prec; Ok [u "ON"; t] else Ok []
             | None => Ok []
             end;
    do us <- match dget d (u "using") with
             | Some e => if truthy e then do t <- disp e max_prec; Ok [u "USING"; t] else Ok []
             | None => Ok []
             end;
    Ok (join (u " ") ([upper k; s] ++ on ++ us))
  end.

(** The methods that [op] finds by name, L276-283: those written out (L294-430) and the
    infix operators. *)
Definition method (key : pystr) : option (json -> res pystr) :=
  if seqb key (u "binary_not") then Some (fun v => do s <- disp v max_prec; Ok (u "~" ++ s))
  else if seqb key (u "exists") then Some (fun v => do s <- disp v (prec_of (u "is")); Ok (s ++ u " IS NOT NULL"))
  else if seqb key (u "missing") then Some (fun v => do s <- disp v (prec_of (u "is")); Ok (s ++ u " IS NULL"))
  else if seqb key (u "collate") then Some fmt_collate
  else if seqb key (u "in") then Some (fmt_in (u " IN "))
  else if seqb key (u "nin") then Some (fmt_in (u " NOT IN "))
  else if seqb key (u "case") then Some fmt_case
  else if seqb key (u "cast") then Some fmt_cast
  else if seqb key (u "interval") then Some fmt_interval
  else if seqb key (u "literal") then Some literal
  else if seqb key (u "get") then Some fmt_get
  else if seqb key (u "between") then Some (fmt_between (u " BETWEEN "))
  else if seqb key (u "not_between") then Some (fmt_between (u " NOT BETWEEN "))
  else if seqb key (u "distinct") then Some (fun v => do s <- disp_list (listwrap v) (prec_of (u "select")); Ok (u "DISTINCT " ++ s))
  else if seqb key (u "join_on") then Some (fun v => match v with JDict d => fmt_join_on d | _ => Err AttributeError end)
  else match dget operator_table key with
       | Some op => Some (infix key op)
       | None => None
       end.

(** [op], L268-292. *)
Definition fmt_op (d : dict json) (prec : Z) : res pystr :=
  match d with
  | [(key, value)] =>
    match method key with
    | Some m => do s <- m value; Ok (paren_if (prec_of key <=? prec) s)
    | None =>
      match value with
      | JDict [] => Ok (upper key ++ u "()")
      | _ => do ps <- disp_list (listwrap value) max_prec; Ok (upper key ++ paren ps)
      end
    end
  | _ => Err Generic
  end.

(** [value], L206-266. *)
Definition fmt_value (d : dict json) (prec : Z) : res pystr :=
  do v <- dgetE d (u "value");
  do s <- disp v prec;
  if dmem d (u "over") then Err NotImplementedErr
  else match dget d (u "name") with
       | None => Ok s
       | Some n => do a <- disp n max_prec; Ok (s ++ u " AS " ++ a)
       end.

(** [_trim], L395-410, and [_extract], L359-363. *)
Definition fmt_trim (d : dict json) : res pystr :=
  do v <- dgetE d (u "trim");
  let c := match dget d (u "characters") with Some x => x | None => JNull end in
  let dir := match dget d (u "direction") with Some x => x | None => JNull end in
  do a <- (if truthy dir then do s <- as_str dir; Ok (upper s ++ u " ") else Ok []);
  do b <- (if truthy c then do s <- disp c max_prec; Ok (s ++ u " ") else Ok []);
  do s <- disp v max_prec;
  Ok (u "TRIM(" ++ a ++ b ++ (if truthy c || truthy dir then u "FROM " else []) ++ s ++ u ")").
Definition fmt_extract (d : dict json) : res pystr :=
  do x <- dgetE d (u "extract");
  do ' (i, v) <- unpack2 x;
  do a <- disp i max_prec; do b <- disp v max_prec;
  Ok (u "EXTRACT(" ++ upper a ++ u " FROM " ++ b ++ u ")").

(** The clauses. [with_] L490-499, [select] L501-509, [delete] L511-513, [update] L515-517,
    [set] L519-521, [distinct_on] L523-525, [select_distinct] L527-529, [from_] L531-548,
    [where] L550-552, [groupby] L554-556, [having] L558-559, [orderby] L561-570, [limit] L572-574,
    [offset] L576-578, [fetch] L580-582. *)
Definition fmt_with (d : dict json) (v : json) : res pystr :=
  do ps <- mapM (fun p => do n <- getitem p (u "name"); do n' <- fstring n;
                          do x <- getitem p (u "value"); do x' <- disp x max_prec;
                          Ok (n' ++ u " AS (" ++ x' ++ u ")"))
                (match v with JList l => l | _ => [v] end);
  Ok (u "WITH " ++ join (u ", ") ps).
Definition fmt_select (d : dict json) (v : json) : res pystr :=
  do s <- disp_list (listwrap v) max_prec;
  match dget d (u "top") with
  | Some t => do t' <- disp t max_prec; Ok (u "SELECT TOP (" ++ t' ++ u ") " ++ s)
  | None => if dmem d (u "distinct_on") then Ok s else Ok (u "SELECT " ++ s)
  end.
Definition fmt_set (d : dict json) (v : json) : res pystr :=
  match v with
  | JDict kvs =>
    do ps <- mapM (fun kv => do a <- disp (JStr (fst kv)) max_prec; do b <- disp (snd kv) max_prec;
                             Ok (a ++ u " = " ++ b)) kvs;
    Ok (u "SET " ++ join (u ", ") ps)
  | _ => Err AttributeError
  end.
Definition from_item (v : json) : res (bool * pystr) :=
  match v with
  | JDict d => if existsb (fun kv => smem (fst kv) join_keywords) d
               then do s <- fmt_join_on d; Ok (true, s)
               else do s <- disp v (prec_of (u "from") - 4); Ok (false, s)
  | JStr _ => do s <- disp v (prec_of (u "from") - 4); Ok (false, s)
  | JList _ => Err NotImplementedErr
  | _ => Err TypeError
  end.
Definition fmt_from (d : dict json) (v : json) : res pystr :=
  let generic :=
    do ps <- mapM from_item (listwrap v);
    Ok (u "FROM " ++ join (if existsb fst ps then u " " else u ", ") (map snd ps)) in
  match v with
  | JDict f => if existsb (fun k => dmem f k) set_ops
               then do s <- fmt_op f (prec_of (u "from")); Ok (u "FROM " ++ s)
               else generic
  | _ => generic
  end.
Definition fmt_sort (s : json) : res pystr :=
  do v <- getitem s (u "value");
  do t <- disp v (prec_of (u "order"));
  do o <- match s with JDict d => match dget d (u "sort") with Some x => as_str x | None => Ok [] end | _ => Err TypeError end;
  Ok (strip (t ++ u " " ++ upper o)).
Definition fmt_orderby (d : dict json) (v : json) : res pystr :=
  do ps <- mapM fmt_sort (listwrap v); Ok (u "ORDER BY " ++ join (u ", ") ps).

(** [getattr(self, clause)(json, prec)], L467, L482: the method of a clause, with the value of
    its key. *)
Definition clause (k : pystr) (d : dict json) (v : json) : res pystr :=
  if seqb k (u "with") then fmt_with d v
  else if seqb k (u "distinct_on") then do s <- disp_list (listwrap v) max_prec; Ok (u "SELECT DISTINCT ON (" ++ s ++ u ")")
  else if seqb k (u "select_distinct") then do s <- disp_list (listwrap v) max_prec; Ok (u "SELECT DISTINCT " ++ s)
  else if seqb k (u "select") then fmt_select d v
  else if seqb k (u "delete") then do s <- as_str v; Ok (u "DELETE FROM " ++ s)
  else if seqb k (u "update") then do s <- fstring v; Ok (u "UPDATE " ++ s)
  else if seqb k (u "set") then fmt_set d v
  else if seqb k (u "from") then fmt_from d v
  else if seqb k (u "where") then do s <- disp v max_prec; Ok (u "WHERE " ++ s)
  else if seqb k (u "groupby") then do s <- disp_list (listwrap v) max_prec; Ok (u "GROUP BY " ++ s)
  else if seqb k (u "having") then do s <- disp v max_prec; Ok (u "HAVING " ++ s)
  else if seqb k (u "orderby") then fmt_orderby d v
  else if seqb k (u "limit") then do s <- disp_list (listwrap v) max_prec; Ok (u "LIMIT " ++ s)
  else if seqb k (u "offset") then do s <- disp v (prec_of (u "order")); Ok (u "OFFSET " ++ s)
  else if seqb k (u "fetch") then do o <- dgetE d (u "offset"); do s <- disp o (prec_of (u "order")); Ok (u "FETCH " ++ s ++ u " ROWS ONLY")
  else Err AttributeError.

(** The loops L462-469 and L478-484 over the clause names; an empty part is dropped. *)
Definition clauses (names : list pystr) (d : dict json) : res (list pystr) :=
  do ps <- mapM (fun k => match dget d k with Some v => do s <- clause k d v; Ok [s] | None => Ok [] end) names;
  Ok (filter (fun s => match s with [] => false | _ => true end) (concat ps)).

(** [unordered_query], L477-488, and [ordered_query], L456-475. *)
Definition unordered_query (d : dict json) (prec : Z) : res pystr :=
  do ps <- clauses unordered_clauses d;
  Ok (paren_if (prec_of (u "from") <=? prec) (join (u " ") ps)).
Definition ordered_query (d : dict json) (prec : Z) : res pystr :=
  do s <- (if existsb (fun k => negb (seqb k (u "from")) && dmem d k) unordered_clauses
           then unordered_query d (prec_of (u "order"))
           else do f <- dgetE d (u "from"); disp f (prec_of (u "order")));
  do ps <- clauses ordered_clauses d;
  Ok (paren_if (prec_of (u "order") <=? prec) (join (u " ") (s :: ps))).

(** [sorted(set(...))] of texts, L597. *)
Fixpoint str_le (a b : pystr) : bool :=
  match a, b with
  | [], _ => true
  | _, [] => false
  | x :: a', y :: b' => if N.eqb x y then str_le a' b' else N.ltb x y
  end.
Fixpoint insert_sorted (x : pystr) (l : list pystr) : list pystr :=
  match l with
  | [] => [x]
  | y :: r => if seqb x y then l else if str_le x y then x :: l else y :: insert_sorted x r
  end.
Definition sort_keys (l : list pystr) : list pystr := fold_right insert_sorted [] l.

Definition is_dict (j : json) : bool := match j with JDict _ => true | _ => false end.
Definition dict_keys (j : json) : list pystr := match j with JDict d => dkeys d | _ => [] end.

(** [insert], L584-628.  The second form of VALUES, L610-611, joins the characters of the
    formatted row. *)
Definition fmt_insert (d : dict json) : res pystr :=
  do t <- dgetE d (u "insert"); do t' <- as_str t;
  let head := [u "INSERT"; if dmem d (u "overwrite") then u "OVERWRITE" else u "INTO"; t'] in
  let ife := if dmem d (u "if exists") then [u "IF EXISTS"] else [] in
  do cols <- match dget d (u "columns") with
             | Some c => do l <- iter c; do s <- sql_list l (prec_of (u "from") - 4); Ok [s]
             | None => Ok []
             end;
  do rest <- match dget d (u "values") with
    | Some vs =>
      do rows <- iter vs;
      if forallb is_dict rows then
        let names := sort_keys (concat (map dict_keys rows)) in
        do cs <- sql_list (map JStr names) (prec_of (u "from") - 4);
        do rs <- mapM (fun row => do cells <- mapM (fun c => do v <- getitem row c; literal v) names;
                                  Ok (paren (join (u ", ") cells))) rows;
        Ok ([cs] ++ ife ++ [u "VALUES"; join (u "," ++ [10%N]) rs])
      else
        do rs <- mapM (fun row => do s <- literal row; Ok (paren (join (u ", ") (map (fun c => [c]) s)))) rows;
        Ok (ife ++ [u "VALUES"] ++ rs)
    | None =>
      match dget d (u "query") with
      | Some q =>
        do c <- contains q (u "select");
        if c then
          do sel <- getitem q (u "select");
          do vs <- iter sel;
          if forallb is_dict vs then
            do cells <- mapM (fun v => do x <- getitem v (u "value"); literal x) vs;
            Ok (ife ++ [u "VALUES"; paren (join (u ", ") cells)])
          else Ok []
        else Ok []
      | None => Err KeyError
      end
    end;
  Ok (join (u " ") (head ++ cols ++ rest)).

(** [drop], L630-636. *)
Definition fmt_drop (d : dict json) : res pystr :=
  do v <- dgetE d (u "drop");
  do c <- contains v (u "table");
  if c then do t <- getitem v (u "table"); do t' <- as_str t; Ok (u "DROP TABLE " ++ t')
  else Ok (u "DROP").

(** [dispatch], L166-197.  A dict with the key "join" calls [_join_on] without its second
    argument (L176-177). *)
Definition dispatch_step (j : json) (prec : Z) : res pystr :=
  match j with
  | JList l => sql_list l (prec_of (u "list"))
  | JDict [] => Ok []
  | JDict d =>
    if dmem d (u "drop") then fmt_drop d
    else if dmem d (u "value") then fmt_value d prec
    else if dmem d (u "join") then Err TypeError
    else if dmem d (u "insert") then fmt_insert d
    else if existsb (fun k => dmem d k) ordered_clauses then ordered_query d prec
    else if existsb (fun k => dmem d k) unordered_clauses then unordered_query d prec
    else if dmem d (u "null") then Ok (u "NULL")
    else if dmem d (u "trim") then fmt_trim d
    else if dmem d (u "extract") then fmt_extract d
    else fmt_op d prec
  | JStr s => escape s
  | JNull => Ok (u "NULL")
  | _ => str_json j
  end.
End Step.

(** The recursion, with fuel. *)
Fixpoint dispatch (n : nat) (j : json) (prec : Z) : res pystr :=
  match n with
  | O => Err OutOfFuel
  | S m => dispatch_step (dispatch m) j prec
  end.
End Fmt.

(** Depth of a value: enough fuel for it. *)
Fixpoint jdepth (j : json) : nat :=
  match j with
  | JList l => S (fold_right Nat.max 0%nat (map jdepth l))
  | JDict d => S (fold_right Nat.max 0%nat (map (fun kv => jdepth (snd kv)) d))
  | _ => 0%nat
  end.

(** sql_parsing.format, sql_parsing/__init__.py L86-89: dispatch with precedence 100. *)
Definition format_sql (alnum : N -> bool) (fstr : Q -> pystr) (j : json) : res pystr :=
  dispatch alnum fstr true (jdepth j * 2 + 3) j max_prec.
