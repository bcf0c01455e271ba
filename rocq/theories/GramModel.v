(** The statement grammar of the SQL parser that the proxy uses, from the characters of a text to the parsed value:
    parse_mysql, sql_parsing/__init__.py L42-54 and L75-83, with the grammar of sql_parsing/sql_parser.py L48-56 and
    L72-635 and the parse actions of sql_parsing/utils.py.

    A parser maps the rest of the text to an error, to no match, or to a value and what is left.  An error stands for an
    exception that stops the parse: a parse action that raises anything but a ParseException (parsing/utils.py L397-398), or,
    with NotImplementedErr, a form of the grammar that is not modelled.  The grammar is written over any kind of input with
    a set of terminals; the terminals of texts are at the end.

    Simplifications.  Not modelled (NotImplementedErr): subqueries, VALUES as a query, WITH, set operations, DISTINCT, TOP,
    joins and lists of tables, aliases, GROUP BY, HAVING, FETCH, the form LIMIT a, b, CASE, CAST, TRIM, EXTRACT, intervals,
    time literals, arrays, maps and structs, TRUE and FALSE, windows, FILTER, COLLATE, AT TIME ZONE, SIMILAR TO, <=>, IS
    DISTINCT FROM, the cast and lambda operators, real, hexadecimal and scaled numbers, INSERT OVERWRITE, IF EXISTS,
    CREATE VIEW, CREATE INDEX, CREATE ... AS, identity columns, CHECK, USING, types with a format, arrays and structs of types,
    CACHE, DROP VIEW and DROP INDEX.  In types comments are skipped like blanks (types.py makes them before the comments are
    known).  White space is skipped after each terminal instead of before it
    (expressions.py L259-264: And skips it after an element that matched some text).  ParseResults that have no name and
    are no Group are left out of the results, their tokens stand in their place (results.py L155-164, L195-206, L365-378).
    The alternative of infix_notation for parentheses (infix.py L369) is left out: compound comes before it and reads
    parentheses as well.  The choice of the longest operator (infix.py L248-256) is made by trying the longer one first.  *)
From Coq Require Import String Ascii List Arith NArith ZArith Bool.
From Verif Require Import Base JsonModel LitModel ScrubModel InfixModel OperModel OperSpec ValuesModel.
Import ListNotations.

(** ** Parsers *)
(** _parse of a ParserElement, parsing/core.py; a ParseException is [Ok None]. *)
Definition parser (I A : Type) : Type := I -> res (option (A * I)).
Section Comb.
Context {I : Type}.
Notation P := (parser I).
(** Empty, parsing/tokens.py L50-75. *)
Definition ret {A} (a : A) : P A := fun s => Ok (Some (a, s)).
(** And, parsing/expressions.py L252-285: one after the other. *)
Definition seq {A B} (p : P A) (f : A -> P B) : P B := fun s =>
  match p s with
  | Ok (Some (a, s')) => f a s'
  | Ok None => Ok None
  | Err e => Err e
  end.
(** MatchFirst, parsing/expressions.py L560-600. *)
Definition alt {A} (p q : P A) : P A := fun s =>
  match p s with Ok None => q s | r => r end.
Fixpoint first {A} (l : list (P A)) : P A :=
  match l with [] => fun _ => Ok None | p :: r => alt p (first r) end.
(** Optional, parsing/enhancement.py L458-465. *)
Definition option_of {A} (p : P A) : P (option A) := fun s =>
  match p s with
  | Ok (Some (a, s')) => Ok (Some (Some a, s'))
  | Ok None => Ok (Some (None, s))
  | Err e => Err e
  end.
(** ZeroOrMore, parsing/enhancement.py L250-330, with a bound [k] for the number of matches. *)
Fixpoint many {A} (k : nat) (p : P A) : P (list A) := fun s =>
  match k with
  | O => Err OutOfFuel
  | S k =>
    match p s with
    | Ok (Some (a, s')) =>
      match many k p s' with
      | Ok (Some (l, s'')) => Ok (Some (a :: l, s''))
      | r => r
      end
    | Ok None => Ok (Some ([], s))
    | Err e => Err e
    end
  end.
(** NotAny, parsing/enhancement.py L200-225. *)
Definition none_of {A} (p : P A) : P unit := fun s =>
  match p s with Ok None => Ok (Some (tt, s)) | Ok (Some _) => Ok None | Err e => Err e end.
(** A parse action, parsing/utils.py L376-398. *)
Definition act {A B} (p : P A) (f : A -> res B) : P B := fun s =>
  match p s with
  | Ok (Some (a, s')) => match f a with Ok b => Ok (Some (b, s')) | Err e => Err e end
  | Ok None => Ok None
  | Err e => Err e
  end.
Definition as_ {A B} (p : P A) (b : B) : P B := act p (fun _ => Ok b).
(** Forms of sql_parser.py that are recognised and not modelled (see above). *)
Definition unmodelled {A B} (p : P A) : P B := fun s =>
  match p s with Ok None => Ok None | Ok (Some _) => Err NotImplementedErr | Err e => Err e end.
Definition absent {A} (p : P A) : P unit := alt (unmodelled p) (ret tt).
(** delimited_list, parsing/infix.py L32-43. *)
Definition list_of {A} (k : nat) (p : P A) (comma : P unit) : P (list A) :=
  seq p (fun a => seq (many k (seq comma (fun _ => p))) (fun l => ret (a :: l))).
End Comb.

(** The terminals: keywords (one, or several with blanks between them), the first literal of a list that is next, names,
    strings, integers, the end of the text (sql_parser.py L48-56, utils.py L37-40, L592-617). *)
Record terminals (I : Type) : Type := {
  t_kw : pystr -> parser I unit;
  t_kws : list pystr -> parser I unit;
  t_lit : list pystr -> parser I pystr;
  t_ident : parser I pystr;
  t_string : parser I pystr;
  t_int : parser I Z;
  t_end : parser I unit
}.
Arguments t_kw {I}. Arguments t_kws {I}. Arguments t_lit {I}. Arguments t_ident {I}. Arguments t_string {I}. Arguments t_int {I}. Arguments t_end {I}.

(** lower() of a text of ASCII characters; other letters are left as they are (utils.py L306). *)
Definition low_char (c : N) : N := if ((65 <=? c) && (c <=? 90))%N then (c + 32)%N else c.
(** RESERVED, keywords.py L159-224 (IS_NOT and GROUP_BY begin with reserved words). *)
Definition reserved : list pystr := map u
  ["all"; "and"; "as"; "asc"; "between"; "by"; "case"; "collate"; "constraint"; "create"; "cross"; "desc"; "distinct"; "except";
   "else"; "end"; "false"; "fetch"; "foreign"; "from"; "full"; "group"; "having"; "in"; "index"; "inner"; "intersect"; "interval";
   "is"; "join"; "key"; "lateral"; "left"; "like"; "limit"; "minus"; "nocase"; "not"; "null"; "offset"; "on"; "or"; "order";
   "outer"; "over"; "partition"; "primary"; "references"; "right"; "rlike"; "select"; "then"; "true"; "union"; "unique"; "using";
   "when"; "where"; "window"; "with"; "within"]%string.

Local Open Scope string_scope.
Local Open Scope list_scope.
Section Grammar.
Context {I : Type}.
Variable T : terminals I.
(** Whether float() accepts a text, as in OperModel.v. *)
Variable float_text : pystr -> bool.
(** A bound for repetitions. *)
Variable k : nat.
Notation P := (parser I).
Notation "x <- p ;; q" := (seq p (fun x => q)) (at level 60, p at next level, right associativity).
Notation "p ;;; q" := (seq p (fun _ => q)) (at level 60, right associativity).

(** Keywords and literals, keywords.py L226-228, utils.py L37-40. *)
Definition kw (w : string) : P unit := t_kw T (u w).
Definition kws (l : list string) : P unit := t_kws T (map u l).
Definition lit (s : string) : P unit := as_ (t_lit T [u s]) tt.
Definition LB : P unit := lit "(".
Definition RB : P unit := lit ")".
Definition comma : P unit := lit ",".
Definition kw_of (l : list string) : P unit := first (map kw l).

(** var_name, sql_parser.py L78. *)
Definition var_name : P pystr := none_of (first (map (t_kw T) reserved)) ;;; t_ident T.

(** The operators of infix_notation: KNOWN_OPS, keywords.py L294-322, with the numbers and the token values of OperSpec.v.
    The symbols: the longest one that matches (infix.py L248-256). *)
Definition symbol_ops : list (string * option (nat * res tokv)) :=
  [("<=>", None); ("<=", Some (O_cmp, sym "<=")); ("<>", Some (O_eq, sym "<>")); ("<", Some (O_cmp, sym "<"));
   (">=", Some (O_cmp, sym ">=")); (">", Some (O_cmp, sym ">")); ("==", Some (O_eq, sym "==")); ("=", Some (O_eq, sym "="));
   ("!=", Some (O_eq, sym "!=")); ("||", Some (O_concat, sym "||")); ("|", Some (O_bor, sym "|")); ("&", Some (O_band, sym "&"));
   ("*", Some (O_mul, sym "*")); ("/", Some (O_mul, sym "/")); ("%", Some (O_mul, sym "%")); ("+", Some (O_add, sym "+"));
   ("->", None); ("-", Some (O_add, sym "-"))]%string.
Definition symbol_op : P (nat * res tokv) :=
  act (t_lit T (map (fun p => u (fst p)) symbol_ops))
      (fun s => match find (fun p => seqb (u (fst p)) s) symbol_ops with Some (_, Some x) => Ok x | _ => Err NotImplementedErr end).
Definition word_op : P (nat * res tokv) := first
  [unmodelled (kw_of ["collate"; "at"; "similar"]); unmodelled (kws ["not"; "similar"; "to"]);
   unmodelled (kws ["is"; "not"; "distinct"; "from"]); unmodelled (kws ["is"; "distinct"; "from"]);
   as_ (kws ["is"; "not"]) (O_isnot, words "is_not"); as_ (kw "is") (O_is, word "is");
   as_ (kws ["not"; "between"]) (O_nbetween, words "not_between"); as_ (kw "between") (O_between, word "between");
   as_ (kws ["not"; "in"]) (O_nin, words "nin"); as_ (kw "in") (O_in, word "in");
   as_ (kws ["not"; "like"]) (O_nlike, words "not_like"); as_ (kw "like") (O_like, word "like");
   as_ (kws ["not"; "rlike"]) (O_nrlike, words "not_rlike"); as_ (kw "rlike") (O_rlike, word "rlike");
   as_ (kw "and") (O_and, word "and"); as_ (kw "or") (O_or, word "or")]%string.
Definition item : Type := (res tokv * option nat)%type.
Definition op_item (x : nat * res tokv) : item := (snd x, Some (fst x)).
Definition infix_op : P item := act (alt word_op symbol_op) (fun x => Ok (op_item x)).
(** prefix_ops, infix.py L238-242. *)
Definition prefix_op : P item := act (first
  [as_ (lit "-") (O_neg, Ok (TOp (Some (u "-")) (u "neg"))); as_ (lit "~") (O_bnot, Ok (TOp (Some (u "~")) (u "binary_not")));
   as_ (kw "not") (O_not, word "not")]) (fun x => Ok (op_item x)).
(** suffix_ops, infix.py L243-247, and CASTING, types.py L146: none is modelled. *)
Definition no_suffix : P unit :=
  absent (alt (as_ (t_lit T (map u ["["; "."; "::"]%string)) tt) (kw_of ["within"; "over"; "filter"]%string)).

Section Expr.
(** compound, sql_parser.py L250-277. *)
Variable atom : P pv.
(** modified and flat, infix.py L370-372, with record_op and make_tree. *)
Definition modified : P (list item) :=
  l <- many k prefix_op ;; a <- atom ;; no_suffix ;;; ret (l ++ [(Ok (TVal a), None)]).
Definition flat : P (list item) :=
  l <- modified ;; m <- many k (o <- infix_op ;; l <- modified ;; ret (o :: l)) ;; ret (l ++ concat m).
(** expr, sql_parser.py L317-354: the value of its only token. *)
Definition expr : P pv :=
  alt (as_ (lit "*") (PText (u "*")))
      (act flat (fun l => do t <- read_tokens float_text l; Ok (elem t))).
End Expr.

(** The beginning of a query after parentheses, sql_parser.py L267, L234 (query, L483-486; ordered_sql, L461-473). *)
Definition query_ahead : P unit := many k LB ;;; kw_of ["select"; "values"; "with"].
(** to_json_call, utils.py L304-322, for a function: one argument is taken out of its Group. *)
Definition function_call (op : pystr) (args : list pv) : pv :=
  PCall (canonical (map low_char op)) (PList (match args with [x] => [x] | _ => map group_of args end)) [].
(** call_function, sql_parser.py L231-240. *)
Definition call_function (expr : P pv) : P pv :=
  op <- t_ident T ;; LB ;;; absent query_ahead ;;;
  args <- option_of (list_of k expr comma) ;; absent (kw_of ["respect"; "ignore"]) ;;; RB ;;;
  ret (function_call op (match args with Some l => l | None => [] end)).
(** compound, L250-277, and compound_limit, L279-307, which differ in the numbers. *)
Definition compound (number : P pv) (expr : P pv) : P pv := first
  [as_ (kw "null") PNull;
   unmodelled (kw_of ["true"; "false"; "nocase"; "interval"]);
   unmodelled (kw_of ["date"; "datetime"; "time"; "timestamp"; "timestamptz"; "timetz"] ;;;
     alt (as_ (t_string T) tt) (kw_of ["now"; "today"; "tomorrow"; "eod"]));
   unmodelled (kw_of ["case"; "distinct"]);
   unmodelled (kw_of ["extract"; "cast"; "trim"; "stack"] ;;; LB);
   unmodelled (lit "[");
   unmodelled (kw_of ["array"; "struct"; "map"] ;;; as_ (t_lit T (map u ["<"; "("; "["]%string)) tt);
   unmodelled (LB ;;; query_ahead);
   LB ;;; l <- list_of k expr comma ;; RB ;;; ret (to_tuple_call l);
   act (t_string T) (fun s => Ok (PDict [(u "literal", PText s)]));
   number;
   call_function expr;
   v <- var_name ;; absent (lit ".*") ;;; ret (PText v)]%string.
Definition integer : P pv := act (t_int T) (fun z => Ok (PNum z)).
(** expr is a Forward, sql_parser.py L81 and L317: [n] bounds the nesting. *)
Fixpoint atom (n : nat) : P pv :=
  match n with
  | O => fun _ => Err OutOfFuel
  | S n => compound integer (expr (atom n))
  end.
Definition expression (n : nat) : P pv := expr (atom n).
(** compound_limit, L279-307. *)
Definition limit_value (n : nat) : P pv :=
  compound (alt (unmodelled (t_int T ;;; comma ;;; t_int T)) integer) (expression n).

(** A token with a name and one element. *)
Definition named_tok (n : string) (x : pv) : pv := PRes (u n) false false [x].
(** alias, sql_parser.py L159-172: not modelled. *)
Definition no_alias : P unit := absent (alt (kw "as") (as_ var_name tt)).
(** select_column, L356-361, with to_select_call, utils.py L485-494: [expr == "*"] holds for the text [*] however it was
    written (results.py L114-122). *)
Definition column_of (x : pv) : pv :=
  match x with
  | PText s => if seqb s (u "*") then PRes [] true false [PText (u "*")] else PRes [] true false [named_tok "value" x]
  | _ => PRes [] true false [named_tok "value" x]
  end.
Definition select_column (n : nat) : P pv := x <- expression n ;; no_alias ;;; ret (column_of x).
(** selection, L375-392; the empty result of Optional(TOP ...) stays, to_top_clause, utils.py L402-405. *)
Definition selection (n : nat) : P (list pv) :=
  kw "select" ;;; absent (kw_of ["distinct"; "top"]) ;;; l <- list_of k (select_column n) comma ;;
  ret [PRes (u "top") false false []; PRes (u "select") false false l].
(** table_source, L441-446, with to_table, utils.py L561-566: a name alone. *)
Definition table_source (n : nat) : P pv :=
  absent LB ;;; absent (kw "stack" ;;; LB) ;;; absent (t_ident T ;;; LB) ;;;
  t <- var_name ;; absent (kw_of ["with"; "tablesample"]) ;;; no_alias ;;; ret (PRes [] true false [PText t]).
(** The part of unordered_sql after the selection, L400-405. *)
Definition from_clause (n : nat) : P (list pv) :=
  kw "from" ;;; t <- table_source n ;;
  absent comma ;;; absent (kw_of ["cross"; "outer"; "inner"; "full"; "left"; "right"; "join"; "lateral"; "window"]) ;;;
  w <- option_of (kw "where" ;;; expression n) ;;
  absent (kw_of ["group"; "having"]) ;;;
  ret (PRes (u "from") false false [t] :: match w with Some x => [named_tok "where" x] | None => [] end).
(** unordered_sql, L397-406: the tokens of the Group. *)
Definition unordered_sql (n : nat) : P (list pv) :=
  absent (kw "values") ;;; l <- selection n ;; f <- option_of (from_clause n) ;;
  ret (l ++ match f with Some f => f | None => [] end).

(** sort_column, L309-313. *)
Definition sort_column (n : nat) : P pv :=
  x <- expression n ;;
  d <- option_of (alt (as_ (kw "desc") (u "desc")) (as_ (kw "asc") (u "asc"))) ;;
  absent (kw "nulls") ;;;
  ret (PRes [] true false (named_tok "value" x :: match d with Some s => [named_tok "sort" (PText s)] | None => [] end)).
Definition order_clause (n : nat) : P (list pv) := kws ["order"; "by"] ;;; list_of k (sort_column n) comma.
(** limit, L448-459: MatchAll tries OFFSET, FETCH, LIMIT and again what has not matched (expressions.py L756-790). *)
Definition offset_clause (n : nat) : P pv := kw "offset" ;;; x <- expression n ;; absent (kw_of ["row"; "rows"]) ;;; ret x.
Definition limit_clause (n : nat) : P pv := kw "limit" ;;; limit_value n.
Definition limits (n : nat) : P (option pv * option pv) :=
  o <- option_of (offset_clause n) ;; absent (kw "fetch") ;;;
  match o with
  | Some x => l <- option_of (limit_clause n) ;; absent (kw "fetch") ;;; ret (l, Some x)
  | None =>
    l <- option_of (limit_clause n) ;;
    match l with
    | Some y => o <- option_of (offset_clause n) ;; absent (kw "fetch") ;;; ret (Some y, o)
    | None => ret (None, None)
    end
  end.
(** tokens[name] when there is no token with this name: NO_RESULTS, results.py L61-63. *)
Definition no_results : pv := PRes [] false false [].
Definition or_none (o : option pv) : pv := match o with Some x => x | None => no_results end.
(** tokens["orderby"], results.py L59-67. *)
Definition sorts (l : option (list pv)) : pv :=
  match l with None => no_results | Some [x] => x | Some l => PRes [] false false l end.
(** [items()] of the Group of unordered_sql, results.py L195-206: each of its tokens has a name of its own. *)
Definition group_items (l : list pv) : list (pystr * pv) :=
  flat_map (fun t => match t with PRes nm _ _ _ => [(nm, PList [t])] | _ => [] end) l.
(** to_union_call, utils.py L497-525, for one source; to_query, L550-558. *)
Definition union_call (l : list pv) (o : option (list pv)) (lim off : option pv) : pv :=
  PDict (group_items l ++ [(u "orderby", sorts o); (u "limit", or_none lim); (u "offset", or_none off); (u "fetch", no_results);
                           (u "with", no_results); (u "with_recursive", no_results)]).
(** query, sql_parser.py L461-486. *)
Definition query (n : nat) : P pv :=
  absent (kw "with") ;;; absent (LB ;;; query_ahead) ;;;
  l <- unordered_sql n ;; absent (kw_of ["union"; "intersect"; "except"; "minus"]) ;;;
  o <- option_of (order_clause n) ;; lim <- limits n ;; ret (union_call l o (fst lim) (snd lim)).

(** row, L394; the rows of values, L395. *)
Definition row (n : nat) : P (list pv) := LB ;;; l <- list_of k (expression n) comma ;; RB ;;; ret l.
(** insert, L604-614. *)
Definition insert (n : nat) : P pv :=
  kw "insert" ;;; absent (kw "overwrite") ;;; kw "into" ;;; option_of (kw "table") ;;;
  t <- var_name ;; cs <- option_of (LB ;;; l <- list_of k var_name comma ;; RB ;;; ret l) ;;
  absent (kw "if" ;;; kw "exists") ;;;
  absent (kw_of ["select"; "with"]) ;;; absent (LB ;;; query_ahead) ;;;
  kw "values" ;;; rows <- list_of k (row n) comma ;;
  act (ret tt) (fun _ => do rs <- mapM to_row rows; do q <- to_values rs;
                         Ok (to_insert_call t (match cs with Some l => l | None => [] end) [] q)).
(** update, L616-621.  Dict, enhancement.py L801-846: an Annotation with the name for each assignment. *)
Definition assignment (n : nat) : P (pystr * pv) := c <- var_name ;; lit "=" ;;; x <- expression n ;; ret (c, x).
Definition set_tok (l : list (pystr * pv)) : pv :=
  PRes (u "set") true false (map (fun p => PRes [] true false [PText (fst p); snd p]) l ++
                             map (fun p => PRes (fst p) false true [snd p]) l).
(** to_json_call, utils.py L304-322: the named tokens other than op and params are lists of tokens. *)
Definition where_kwarg (w : option pv) : list (pystr * pv) :=
  match w with Some x => [(u "where", PList [named_tok "where" x])] | None => [] end.
Definition where_clause (n : nat) : P (option pv) := option_of (kw "where" ;;; expression n).
Definition update (n : nat) : P pv :=
  kw "update" ;;; t <- var_name ;; kw "set" ;;; l <- list_of k (assignment n) comma ;; w <- where_clause n ;;
  ret (PCall (u "update") (PList [PText t]) ((u "set", PList [set_tok l]) :: where_kwarg w)).
(** delete, L623-628. *)
Definition delete (n : nat) : P pv :=
  kw "delete" ;;; kw "from" ;;; t <- var_name ;; w <- where_clause n ;;
  ret (PCall (u "delete") (PList [PText t]) (where_kwarg w)).
(** drop_table, L592-594. *)
Definition drop_table : P pv :=
  kw "drop" ;;; kw "table" ;;; absent (kw "if" ;;; kw "exists") ;;; t <- var_name ;;
  ret (PRes [] false false [PRes (u "drop") false false [PText (u "drop_table"); named_tok "table" (PText t)]]).
(** ** CREATE TABLE *)
(** flag, utils.py L43-47. *)
Definition flag_tok (n : string) (b : bool) : pv := PRes (u n) false false [PBool b].
(** to_json_call, utils.py L304-322, for a type: tokens["params"] is a number or a list; the flag is a list of tokens. *)
Definition type_call (op : string) (sizes : list Z) (unsigned : bool) : pv :=
  PCall (u op) (PList (map PNum sizes)) (if unsigned then [(u "unsigned", PList [flag_tok "unsigned" true])] else []).
(** What may stand behind the name of a type: nothing, _size or _sizes (types.py L37-38), _format (L93). *)
Inductive behind := Nothing | Size | Sizes | Format.
(** The types, types.py L42-102, in the order of simple_types, L104-143: their words, what may stand behind them, and whether
    UNSIGNED may follow.  An array or a map is not modelled. *)
Definition simple_types : list (list string * behind * bool) :=
  [(["bigint"], Size, true); (["bool"], Nothing, false); (["boolean"], Nothing, false); (["blob"], Size, false);
   (["bytes"], Size, false); (["char"], Size, false); (["date"], Format, false);
   (["datetime"; "with"; "time"; "zone"], Format, false); (["datetime"], Format, false); (["decimal"], Sizes, false);
   (["double"; "precision"], Nothing, false); (["double"], Nothing, true); (["float64"], Nothing, false);
   (["float"], Nothing, true); (["geometry"], Nothing, false); (["integer"], Nothing, true); (["int"], Size, true);
   (["int32"], Nothing, false); (["int64"], Nothing, false); (["nchar"], Size, false); (["number"], Sizes, false);
   (["numeric"], Sizes, false); (["real"], Nothing, true); (["text"], Nothing, false); (["smallint"], Nothing, true);
   (["string"], Nothing, false); (["time"], Format, false); (["timestamp"; "with"; "time"; "zone"], Format, false);
   (["timestamp"], Format, false); (["timestamptz"], Format, false); (["timetz"], Format, false); (["tinyint"], Size, true);
   (["uuid"], Nothing, false); (["varchar"], Size, false); (["varchar2"], Size, false); (["varbinary"], Size, false)]%string.
(** keyword, utils.py L37-40: the words with underscores between them. *)
Fixpoint joined (l : list string) : string :=
  match l with [] => "" | [w] => w | w :: r => (w ++ "_" ++ joined r)%string end.
Definition sizes_of (b : behind) : P (list Z) :=
  match b with
  | Nothing => ret []
  | Size => o <- option_of (LB ;;; z <- t_int T ;; RB ;;; ret z) ;; ret (match o with Some z => [z] | None => [] end)
  | Sizes => o <- option_of (LB ;;; l <- list_of k (t_int T) comma ;; RB ;;; ret l) ;; ret (match o with Some l => l | None => [] end)
  | Format => absent (t_string T) ;;; ret []
  end.
Definition simple_type (x : list string * behind * bool) : P pv :=
  let '(ws, b, un) := x in
  kws ws ;;; l <- sizes_of b ;; o <- (if un : bool then option_of (kw "unsigned") else ret None) ;;
  ret (type_call (joined ws) l (match o with Some _ => true | None => false end)).
(** column_type, types.py L160-186. *)
Definition column_type : P pv :=
  alt (unmodelled (kw_of ["struct"; "row"; "array"; "map"] ;;; as_ (t_lit T (map u ["<"; "("]%string)) tt)) (first (map simple_type simple_types)).
(** column_def_references, types.py L198-200. *)
Definition references : P pv :=
  kw "references" ;;; t <- var_name ;; LB ;;; l <- list_of k var_name comma ;; RB ;;;
  ret (PRes (u "references") false false [named_tok "table" (PText t); PRes (u "columns") false false (map PText l)]).
Definition literal_tok (n : string) (s : pystr) : pv := named_tok n (PDict [(u "literal", PText s)]).
(** column_options, types.py L202-214; identity and check are not modelled. *)
Definition column_option (expr : P pv) : P pv := first
  [kw "not" ;;; kw "null" ;;; ret (flag_tok "nullable" false);
   as_ (kw "null") (flag_tok "nullable" true);
   as_ (kw "unique") (flag_tok "unique" true);
   as_ (kw "auto_increment") (flag_tok "auto_increment" true);
   kw "comment" ;;; s <- t_string T ;; ret (literal_tok "comment" s);
   kw "collate" ;;; option_of (lit "=") ;;; v <- var_name ;; ret (named_tok "collate" (PText v));
   kw "primary" ;;; kw "key" ;;; ret (flag_tok "primary_key" true);
   unmodelled (kw "generated");
   references;
   unmodelled (kw "check" ;;; LB);
   kw "default" ;;; x <- expr ;; ret (named_tok "default" x)].
(** column_definition, types.py L216-218, a Group, with the name of sql_parser.py L526. *)
Definition column_definition (expr : P pv) : P pv :=
  v <- var_name ;; t <- alt column_type (w <- var_name ;; ret (PText w)) ;; l <- many k (column_option expr) ;;
  ret (PRes (u "columns") true false (named_tok "name" (PText v) :: PRes (u "type") false false [t] :: l)).
(** index_type, index_column_names, index_options, sql_parser.py L493-509; USING is not modelled. *)
Definition index_columns : P (list pv) :=
  absent (kw "using") ;;; LB ;;; l <- list_of k var_name comma ;; RB ;;; ret (map (fun c => named_tok "columns" (PText c)) l).
Definition index_options : P pv := l <- many k var_name ;; ret (PRes (u "table_constraint_options") false false (map PText l)).
(** column_def_delete, L497-500. *)
Definition on_delete : P pv :=
  kw "on" ;;; kw "delete" ;;;
  s <- first [as_ (kw "cascade") "cascade"; kw "set" ;;; as_ (kw "null") "set_null"; kw "set" ;;; as_ (kw "default") "set_default"] ;;
  ret (named_tok "on_delete" (PText (u s))).
(** table_constraint_definition, L502-523; check is not modelled.  FOREIGN_KEY is a Group without tokens, keywords.py L75. *)
Definition some_tok (o : option pv) : list pv := match o with Some x => [x] | None => [] end.
Definition named_opt (n : string) (o : option pystr) : list pv := match o with Some s => [named_tok n (PText s)] | None => [] end.
Definition constraint_of : P pv := first
  [kw "primary" ;;; kw "key" ;;; cs <- index_columns ;; o <- index_options ;; ret (PRes (u "primary_key") false false (cs ++ [o]));
   un <- option_of (kw "unique") ;; option_of (kw_of ["index"; "key"]) ;;; v <- option_of var_name ;;
   cs <- index_columns ;; o <- index_options ;;
   ret (PRes (u "index") false false (match un with Some _ => [flag_tok "unique" true] | None => [] end ++ named_opt "name" v ++ cs ++ [o]));
   unmodelled (kw "check" ;;; LB);
   kws ["foreign"; "key"] ;;;
   x <- option_of (v <- option_of var_name ;; cs <- index_columns ;; r <- references ;; d <- option_of on_delete ;;
                   ret (named_opt "index_name" v ++ cs ++ r :: some_tok d)) ;;
   ret (PRes (u "foreign_key") false false (PRes [] true false [] :: match x with Some l => l | None => [] end))].
Definition table_constraint : P pv :=
  v <- option_of (kw "constraint" ;;; var_name) ;; c <- constraint_of ;;
  ret (PRes (u "constraint") false false (named_opt "name" v ++ [c])).
(** table_element, L525-527. *)
Definition table_element (expr : P pv) : P pv := alt (column_definition expr) table_constraint.
(** The options of a table, L537-544. *)
Definition table_option : P pv := first
  [kw "engine" ;;; lit "=" ;;; v <- var_name ;; ret (named_tok "engine" (PText v));
   kw "collate" ;;; lit "=" ;;; v <- var_name ;; ret (named_tok "collate" (PText v));
   kw "auto_increment" ;;; lit "=" ;;; z <- t_int T ;; ret (named_tok "auto_increment" (PNum z));
   kw "comment" ;;; lit "=" ;;; s <- t_string T ;; ret (literal_tok "comment" s);
   kw "default" ;;; kw "character" ;;; kw "set" ;;; lit "=" ;;; v <- var_name ;; ret (named_tok "default_character_set" (PText v));
   kw "default" ;;; kw "charset" ;;; lit "=" ;;; v <- var_name ;; ret (named_tok "default_charset" (PText v))].
(** create_table, L529-546; AS with a query is not modelled. *)
Definition create_table (n : nat) : P pv :=
  kw "create" ;;; r <- option_of (kw "or" ;;; kw "replace") ;; tm <- option_of (kw "temporary") ;; kw "table" ;;;
  i <- option_of (kw "if" ;;; kw "not" ;;; kw "exists") ;; v <- var_name ;;
  l <- option_of (LB ;;; l <- list_of k (table_element (expression n)) comma ;; RB ;;; ret l) ;;
  os <- many k table_option ;; absent (kw "as") ;;;
  ret (PRes [] false false [PRes (u "create table") false false
    (PText (u "create") :: match r with Some _ => [PText (u "or"); flag_tok "replace" true] | None => [] end ++
     match tm with Some _ => [flag_tok "temporary" true] | None => [] end ++
     match i with Some _ => [flag_tok "replace" false] | None => [] end ++
     named_tok "name" (PText v) :: match l with Some l => l | None => [] end ++ os)]).
(** The statements, L630-635. *)
Definition statement (n : nat) : P pv := first
  [query n; insert n; update n; delete n; create_table n; unmodelled (kw_of ["create"; "cache"]); drop_table;
   unmodelled (kw "drop" ;;; kw_of ["view"; "index"])].
(** parse_all, parsing/core.py L144-162. *)
Definition whole (n : nat) : P pv := x <- statement n ;; t_end T ;;; ret x.
End Grammar.
Local Close Scope string_scope.

(** ** The terminals of texts *)
(** The white space of the grammar, sql_parser.py L73-76, whitespaces.py L137-173: blanks and comments. *)
Fixpoint skip_line (s : pystr) : pystr := match s with c :: r => if N.eqb c 10 then s else skip_line r | [] => [] end.
Fixpoint skip_block (s : pystr) : option pystr :=
  match s with
  | a :: r => match r with b :: r' => if (N.eqb a 42 && N.eqb b 47)%bool then Some r' else skip_block r | [] => None end
  | [] => None
  end.
Fixpoint skip_fuel (f : nat) (s : pystr) : pystr :=
  match f with
  | O => s
  | S f =>
    match s with
    | [] => []
    | c :: r =>
      if blank c then skip_fuel f r
      else if N.eqb c 35 then skip_fuel f (skip_line r)
      else match r with
           | d :: r' =>
             if (N.eqb c 45 && N.eqb d 45)%bool then skip_fuel f (skip_line r')
             else if (N.eqb c 47 && N.eqb d 42)%bool then match skip_block r' with Some r'' => skip_fuel f r'' | None => s end
             else s
           | [] => s
           end
    end
  end.
Definition skip (s : pystr) : pystr := skip_fuel (length s) s.

(** Keyword, parsing/tokens.py L176-214: caseless (utils.py L37-40), not followed by one of keyword_chars (whitespaces.py L24). *)
Definition keyword_char (c : N) : bool :=
  (is_digit c || ((65 <=? c) && (c <=? 90)) || ((97 <=? c) && (c <=? 122)) || (c =? 95) || (c =? 36))%N.
Fixpoint keyword_at (w s : pystr) : option pystr :=
  match w with
  | [] => match s with c :: _ => if keyword_char c then None else Some s | [] => Some [] end
  | x :: w => match s with c :: r => if N.eqb (low_char c) x then keyword_at w r else None | [] => None end
  end.
Definition text_kw (w : pystr) : parser pystr unit := fun s =>
  match keyword_at w s with Some r => Ok (Some (tt, skip r)) | None => Ok None end.
(** The keywords that are made in keywords.py have blanks only between them, whitespaces.py L16. *)
Fixpoint keywords_at (l : list pystr) (s : pystr) : option pystr :=
  match l with
  | [] => None
  | w :: l =>
    match keyword_at w s with
    | Some r => match l with [] => Some r | _ => keywords_at l (skip_blanks r) end
    | None => None
    end
  end.
Definition text_kws (l : list pystr) : parser pystr unit := fun s =>
  match keywords_at l s with Some r => Ok (Some (tt, skip r)) | None => Ok None end.
(** Literal, parsing/tokens.py L100-150. *)
Fixpoint literal_at (w s : pystr) : option pystr :=
  match w with
  | [] => Some s
  | x :: w => match s with c :: r => if N.eqb c x then literal_at w r else None | [] => None end
  end.
Fixpoint text_lit (l : list pystr) : parser pystr pystr := fun s =>
  match l with
  | [] => Ok None
  | w :: l => match literal_at w s with Some r => Ok (Some (w, skip r)) | None => text_lit l s end
  end.

Section Text.
(** The parameters of Python's string literals, see LitModel.v. *)
Variable uname : pystr -> option N.
Variable more : pystr -> pystr -> res pystr.
(** mysql_ident, sql_parser.py L50-54: what the regular expressions match and the parse action refuses is an error, except
    behind a dot, where it is no match (the dot that is left then is an error later). *)
Definition quoted_next (s : pystr) : bool :=
  match s with
  | c :: r =>
    (N.eqb c 96 && match regex_quoted 96 r with Some _ => true | None => false end) ||
    (N.eqb c 91 && match regex_quoted 93 r with Some _ => true | None => false end)
  | [] => false
  end%bool.
Definition text_ident : parser pystr pystr := fun s =>
  match read_name uname more (S (length s)) s with
  | Ok (v, r) => Ok (Some (v, skip r))
  | Err e => if quoted_next s then Err e else Ok None
  end.
(** mysql_string, sql_parser.py L49; utils.py L611-612. *)
Definition string_next (s : pystr) : bool :=
  match s with
  | c :: r => (N.eqb c 39 || N.eqb c 34) && match regex_quoted c r with Some _ => true | None => false end
  | [] => false
  end%bool.
Definition text_string : parser pystr pystr := fun s =>
  match read_string uname more s with
  | Ok (v, r) => Ok (Some (v, skip r))
  | Err e => if string_next s then Err e else Ok None
  end.
(** int_num, utils.py L605, with the digits 0 to 9; a number that goes on as a hexadecimal, real or scaled one is not modelled (L592-608,
    sql_parser.py L242-248). *)
Fixpoint digits_at (s : pystr) : pystr * pystr :=
  match s with
  | c :: r => if is_digit c then let (a, b) := digits_at r in (c :: a, b) else ([], s)
  | [] => ([], [])
  end.
Definition digits_value (l : pystr) : Z := fold_left (fun a c => (10 * a + Z.of_N (c - 48))%Z) l 0%Z.
Definition text_int : parser pystr Z := fun s =>
  let (neg, r) := match s with c :: r => if N.eqb c 45 then (true, r) else if N.eqb c 43 then (false, r) else (false, s) | [] => (false, []) end in
  match digits_at r with
  | ([], d :: e :: _) => if (N.eqb d 46 && is_digit e)%bool then Err NotImplementedErr else Ok None
  | ([], _) => Ok None
  | (l, rest) =>
    match rest with
    | d :: _ =>
      if (N.eqb d 46 || N.eqb d 96 || N.eqb d 91 || ident_char d)%bool then Err NotImplementedErr
      else Ok (Some ((if neg then - digits_value l else digits_value l)%Z, skip rest))
    | [] => Ok (Some ((if neg then - digits_value l else digits_value l)%Z, []))
    end
  end.
(** StringEnd, parsing/core.py L149-156. *)
Definition text_end : parser pystr unit := fun s => match s with [] => Ok (Some (tt, [])) | _ => Ok None end.
Definition text_terminals : terminals pystr :=
  {| t_kw := text_kw; t_kws := text_kws; t_lit := text_lit; t_ident := text_ident; t_string := text_string; t_int := text_int;
     t_end := text_end |}.

(** rstrip() of white space, sql_parsing/__init__.py L78: [py_space] are the characters for which str.isspace() holds; then
    rstrip of semicolons. *)
Definition rstrip (p : N -> bool) (s : pystr) : pystr :=
  rev ((fix go s := match s with c :: r => if p c then go r else s | [] => [] end) (rev s)).
Definition py_space (c : N) : bool :=
  (((9 <=? c) && (c <=? 13)) || ((28 <=? c) && (c <=? 32)) || (c =? 133) || (c =? 160) || (c =? 5760) ||
   ((8192 <=? c) && (c <=? 8202)) || (c =? 8232) || (c =? 8233) || (c =? 8239) || (c =? 8287) || (c =? 12288))%N.
Variable float_text : pystr -> bool.
(** parse_mysql, sql_parsing/__init__.py L42-54, L75-83: the scrubbed result; the replacement of NULL is in [json_of]. *)
Definition parse_mysql (sql : pystr) : res out :=
  let s := rstrip (N.eqb 59) (rstrip py_space sql) in
  match whole text_terminals float_text (S (length s)) (S (length s)) (skip s) with
  | Ok (Some (x, _)) => Ok (scrub x)
  | Ok None => Err ValueError
  | Err e => Err e
  end.
End Text.
