(** The grammar of SQL as a grammar of the parsing engine: mysql_parser of sql_parsing/sql_parser.py with all its parts.

    Simplifications, besides those of EngineModel.  A parse action is any function of [act], by its name; set_parser_name counts as an action that
    changes nothing.  [a + b + c] is written as one And, [a | b | c] as one MatchFirst; C101 says that this makes no difference.
    Digits of regular expressions are those of ASCII.  The alternatives of an Or stand in the order of KNOWN_OPS (in the code, of a
    set) and are not looked up.  The keys of the MatchAll are left out; no choice begins with it.  streamline is applied once, to all that stands
    behind the Forwards. *)
From Coq Require Import String Ascii List Arith NArith Bool.
From Verif Require Import Base EngineModel.
Import ListNotations.
Local Open Scope string_scope.
Local Open Scope list_scope.
Local Open Scope nat_scope.

(** ** Regular expressions, sql_parsing/utils.py: the number of characters that match at the beginning of a text *)
Definition digit (c : N) : bool := ((48 <=? c) && (c <=? 57))%N.
Fixpoint span (p : N -> bool) (l : pystr) : nat := match l with c :: r => if p c then S (span p r) else 0 | [] => 0 end.
(** [+-]? *)
Definition sign (signs : pystr) (l : pystr) : nat := match l with c :: _ => if existsb (N.eqb c) signs then 1 else 0 | [] => 0 end.
(** ([eE][+-]?\d+)? *)
Definition exponent (signs : pystr) (l : pystr) : nat :=
  match l with
  | c :: r =>
    if existsb (N.eqb c) (u "eE") then
      let g := sign signs r in let d := span digit (skipn g r) in if d =? 0 then 0 else S (g + d)
    else 0
  | [] => 0
  end.
(** int_num: [+-]?\d+([eE]\+?\d+)? *)
Definition m_int (l : pystr) : option nat :=
  let g := sign (u "+-") l in let d := span digit (skipn g l) in
  if d =? 0 then None else Some (g + d + exponent (u "+") (skipn (g + d) l)).
(** real_num: [+-]?(\d+\.\d*|\.\d+)([eE][+-]?\d+)? *)
Definition m_real (l : pystr) : option nat :=
  let g := sign (u "+-") l in let d := span digit (skipn g l) in
  match skipn (g + d) l with
  | 46%N :: r => let f := span digit r in if (d =? 0) && (f =? 0) then None else Some (g + d + 1 + f + exponent (u "+-") (skipn f r))
  | _ => None
  end.
(** hex_num: 0x[0-9a-fA-F]+ *)
Definition m_hex (l : pystr) : option nat :=
  match l with
  | 48%N :: 120%N :: r =>
    let d := span (fun c => digit c || ((65 <=? c) && (c <=? 70)) || ((97 <=? c) && (c <=? 102)))%N r in if d =? 0 then None else Some (2 + d)
  | _ => None
  end.
(** ansi_string, mysql_doublequote_string, mysql_backtick_ident, sqlserver_ident: an opening character [o], then doubled closing characters [q] or
    others, then [q]. *)
Fixpoint closing (q : N) (l : pystr) : option nat :=
  match l with
  | [] => None
  | c :: r =>
    if N.eqb c q then
      match r with
      | d :: r' => if N.eqb d q then match closing q r' with Some n => Some (2 + n) | None => Some 1 end else Some 1
      | [] => Some 1
      end
    else match closing q r with Some n => Some (1 + n) | None => None end
  end.
Definition m_quoted (o q : N) (l : pystr) : option nat :=
  match l with c :: r => if N.eqb c o then match closing q r with Some n => Some (1 + n) | None => None end else None | [] => None end.
(** IDENT_CHAR, FIRST_IDENT_CHAR, utils.py L30-31. *)
Definition ranges : list (N * N) := [(64, 64); (95, 95); (36, 36); (65, 90); (97, 122); (192, 214); (216, 246); (248, 447)]%N.
Definition first_char (c : N) : bool := existsb (fun r => (fst r <=? c) && (c <=? snd r))%N ranges.
Definition ident_char (c : N) : bool := digit c || first_char c.
Definition first_chars : pystr := flat_map (fun r => map (fun k => (fst r + N.of_nat k)%N) (seq 0 (S (N.to_nat (snd r - fst r))))) ranges.
(** simple_ident, sql_parser.py L33-37: further characters, and dashes between characters that are neither a space nor a digit. *)
Definition joint (c : N) : bool := negb (digit c || (c =? 32)%N).
Fixpoint ident_rest (before : N) (l : pystr) : nat :=
  match l with
  | [] => 0
  | c :: r =>
    if ident_char c || ((c =? 45)%N && joint before && match r with d :: _ => joint d | [] => false end) then S (ident_rest c r) else 0
  end.
Definition m_ident (l : pystr) : option nat := match l with c :: r => if first_char c then Some (S (ident_rest c r)) else None | [] => None end.

Definition chars (s : pystr) : list pystr := map (fun c => [c]) s.

Section Sql.
Context {T : Type}.
Variable tok : pystr -> T.
Variable skip : pystr -> nat -> nat.
Variable act : string -> list T -> nat -> nat -> pystr -> out T.
Variable none : pe T.                  (* a choice without alternatives *)

(** ** Elements that EngineModel leaves open *)
(** Regex, parsing/regex.py: keys and minimal length are those of the characters that can stand first. *)
Definition leaf (m : pystr -> option nat) : parser T := fun s i =>
  match m (skipn i s) with Some n => Done [tok (firstn n (skipn i s))] (i + n) | None => Fail end.
Definition regex (m : pystr -> option nat) (ks : list pystr) (n : nat) : pe T := Prim (fun _ => leaf m) ks n [].
(** And with NO_WHITESPACE, expressions.py L252-285. *)
Definition close (ps : list (parser T)) : parser T := fun s i => run_and (fun _ j => j) ps s i i [].
Definition And0 (l : list (pe T)) : pe T := Prim close (keys (And l)) (min_length (And l)) l.
(** Or, expressions.py L361-446: the first of those that take most. *)
Fixpoint best (ps : list (parser T)) (s : pystr) (i : nat) (b : option (list T * nat)) : out T :=
  match ps with
  | [] => match b with Some (r, j) => Done r j | None => Fail end
  | p :: l =>
    match p s i with
    | Fail => best l s i b
    | Done r j => best l s i (match b with Some (_, j') => if j' <? j then Some (r, j) else b | None => Some (r, j) end)
    | x => x
    end
  end.
Definition longest (ps : list (parser T)) : parser T := fun s i => best ps s i None.
Definition Or (l : list (pe T)) : pe T :=
  match l with [] => none | _ => Prim longest (keys (First l)) (min_length (First l)) l end.
(** MatchAll of optional elements, expressions.py L761-829: the next that takes characters ... *)
Fixpoint progress (todo before : list (parser T)) (s : pystr) (en : nat) : out T + option (parser T * list (parser T) * nat) :=
  match todo with
  | [] => inr None
  | p :: r =>
    match p s en with
    | Fail => progress r (before ++ [p]) s en
    | Done _ j => if j =? en then progress r (before ++ [p]) s en else inr (Some (p, before ++ r, j))
    | x => inl x
    end
  end.
(** ... the order in which they are found, L771-790, then the others, L817 ... *)
Fixpoint found (n : nat) (todo : list (parser T)) (s : pystr) (en : nat) (acc : list (parser T)) : out T + list (parser T) :=
  match n with
  | O => inr (acc ++ todo)
  | S n' =>
    match progress todo [] s en with
    | inl x => inl x
    | inr None => inr (acc ++ todo)
    | inr (Some (p, rest, j)) => found n' rest s (skip s j) (acc ++ [p])
    end
  end.
(** ... and once more in this order, L822-829. *)
Fixpoint replay (l : list (parser T)) (s : pystr) (at_ last : nat) (acc : list T) : out T :=
  match l with
  | [] => Done acc last
  | p :: r => match p s at_ with Done t j => replay r s (skip s j) j (acc ++ t) | x => x end
  end.
Definition together (ps : list (parser T)) : parser T := fun s i =>
  match found (length ps) ps s i [] with inl x => x | inr l => replay l s i i [] end.
Definition All (l : list (pe T)) : pe T := Prim together [] 0 l.

(** ** Helpers *)
Definition lit (w : string) : pe T := Lit (u w).
Definition nm (w : string) (e : pe T) : pe T := Act true (act w) e.                     (* e("w"), e / w *)
Definition called (e : pe T) : pe T := Act true (fun r _ j _ => Done r j) e.            (* set_parser_name *)
Definition hide (e : pe T) : pe T := Act false (act "Suppress") e.
Definition grp (e : pe T) : pe T := Act false (act "Group") e.
Definition combine (e : pe T) : pe T := Act false (act "Combine") e.
Definition dict (e : pe T) : pe T := Act false (act "Dict") e.
Definition many (e : pe T) : pe T := Many 0 None e.                                     (* ZeroOrMore *)
(** keyword, flag, assign: sql_parsing/utils.py L37-52. *)
Definition kw (l : list string) : pe T := nm (String.append "keyword " (String.concat "_" l)) (And (map (fun w => Kw (u w)) l)).
Definition flag (l : list string) : pe T := nm (String.concat "_" l) (nm "lambda: True" (kw l)).
Definition assign (l : list string) (v : pe T) : pe T := And [hide (kw l); nm (String.concat "_" l) v].
(** delimited_list, parsing/infix.py L43. *)
Definition delimited (e : pe T) : pe T := And [e; many (And [hide (lit ","); e])].

(** ** sql_parsing/utils.py, from real_num on *)
Definition real_num : pe T := nm "float" (regex m_real (chars (u "+-0123456789.")) 2).
Definition int_num : pe T := nm "parse_int" (regex m_int (chars (u "+-0123456789")) 1).
Definition hex_num : pe T := nm "hex" (regex m_hex [u "0x"] 3).
Definition ansi_string : pe T := nm "to_string" (regex (m_quoted 39 39) [[39%N]] 2).
Definition mysql_doublequote_string : pe T := nm "to_string" (regex (m_quoted 34 34) [[34%N]] 2).
Definition ansi_ident : pe T := nm "unquote" (regex (m_quoted 34 34) [[34%N]] 2).
Definition mysql_backtick_ident : pe T := nm "unquote" (regex (m_quoted 96 96) [[96%N]] 2).
Definition sqlserver_ident : pe T := nm "unquote" (regex (m_quoted 91 93) [[91%N]] 2).
(** sql_parser.py L37. *)
Definition simple_ident : pe T := nm "no_dashes" (regex m_ident (chars first_chars) 1).
(** mysql_parser, sql_parser.py L48-56; infix.py L41. *)
Definition literal_string : pe T := called (First [ansi_string; mysql_doublequote_string]).
Definition ident : pe T :=
  let e := First [mysql_backtick_ident; sqlserver_ident; simple_ident] in called (combine (combine (And [e; many (And [lit "."; e])]))).
(** L78. *)
Definition var_name : pe T := And [Not (RESERVED tok); ident].

(** ** Forwards: sql_parser.py L81, L229, L363; types.py L40, L157-158; infix.py L368 *)
Definition expr : pe T := Ref 0.
Definition column_type : pe T := called (Ref 1).
Definition column_definition : pe T := Ref 2.
Definition simple_types : pe T := Ref 3.
Definition query : pe T := called (Ref 4).
Definition table_source : pe T := Ref 5.
Definition flat : pe T := Ref 6.

(** ** sql_parsing/keywords.py *)
Definition NULL := nm "SQL_NULL" (kw ["null"]).
Definition TRUE := nm "True" (kw ["true"]).
Definition FALSE := nm "False" (kw ["false"]).
Definition DISTINCT := kw ["distinct"].
Definition NOT := kw ["not"].
Definition AND := kw ["and"].
Definition BETWEEN := kw ["between"].
Definition AS := hide (kw ["as"]).
Definition FROM := hide (kw ["from"]).
Definition WHERE := hide (kw ["where"]).
Definition ON := hide (kw ["on"]).
Definition TABLE := hide (kw ["table"]).
Definition LT := called (lit "<").
Definition GT := called (lit ">").
Definition LB := hide (lit "(").
Definition RB := hide (lit ")").
Definition EQ := hide (Chr (u "=")).
Definition FOREIGN_KEY := called (grp (And [hide (kw ["foreign"]); hide (kw ["key"])])).
Definition WITHIN_GROUP := called (grp (And [hide (kw ["within"]); hide (kw ["group"])])).
Definition PARTITION_BY := called (grp (And [hide (kw ["partition"]); hide (kw ["by"])])).
Definition GROUP_BY := called (grp (And [hide (kw ["group"]); hide (kw ["by"])])).
Definition ORDER_BY := called (grp (And [hide (kw ["order"]); hide (kw ["by"])])).
(** L130-137. *)
Definition joins := nm "join words" (First
  [And [Opt (First [kw ["cross"]; kw ["outer"]; kw ["inner"];
                    And [First [kw ["full"]; kw ["left"]; kw ["right"]]; Opt (First [kw ["inner"]; kw ["outer"]])]]);
        kw ["join"]; Opt (kw ["lateral"])];
   And [kw ["lateral"]; kw ["view"]; Opt (kw ["outer"])]]).
(** KNOWN_OPS, L294-322: the operators between two expressions. *)
Definition binary_ops : list (pe T) :=
  [kw ["collate"]; called (lit "||"); First [called (lit "*"); called (lit "/"); called (lit "%")];
   First [called (lit "+"); called (lit "-")]; called (lit "&"); called (lit "|");
   First [called (lit ">="); called (lit "<="); LT; GT];
   First [called (First [lit "=="; lit "="]); called (First [lit "!="; lit "<>"]); called (lit "<=>");
          called (kw ["is"; "distinct"; "from"]); called (kw ["is"; "not"; "distinct"; "from"])];
   grp (And [kw ["at"]; kw ["time"]; kw ["zone"]]); BETWEEN; AND; called (grp (And [NOT; BETWEEN])); kw ["in"]; called (grp (And [NOT; kw ["in"]]));
   called (grp (And [kw ["is"]; NOT])); kw ["is"]; kw ["like"]; called (grp (And [NOT; kw ["like"]])); kw ["rlike"];
   called (grp (And [NOT; kw ["rlike"]])); called (grp (And [kw ["similar"]; kw ["to"]])); called (grp (And [NOT; kw ["similar"]; kw ["to"]]));
   kw ["or"]; called (lit "->")]%string.
(** The operators before an expression. *)
Definition prefix_ops : list (pe T) := [called (lit "-"); called (lit "~"); NOT].
Definition times := ["now"; "today"; "tomorrow"; "eod"]%string.  (* L324 *)
(** L326-392. *)
Definition durations :=
  ["microseconds"; "microsecond"; "microsecs"; "microsec"; "useconds"; "usecond"; "usecs"; "usec"; "us"; "milliseconds"; "millisecond"; "millisecon";
   "mseconds"; "msecond"; "millisecs"; "millisec"; "msecs"; "msec"; "ms"; "seconds"; "second"; "secs"; "sec"; "s"; "minutes"; "minute"; "mins"; "min"; "m";
   "hours"; "hour"; "hrs"; "hr"; "h"; "days"; "day"; "d"; "dayofweek"; "dow"; "weekday"; "weeks"; "week"; "w"; "months"; "month"; "mons"; "mon"; "quarters";
   "quarter"; "years"; "year"; "decades"; "decade"; "decs"; "dec"; "centuries"; "century"; "cents"; "cent"; "c"; "millennia"; "millennium"; "mils"; "mil";
   "epoch"]%string.

(** infix_notation, parsing/infix.py L232-256, L368-374: what stands behind [me]. *)
Definition recorded (e : pe T) : pe T := nm "record_op" (nm "record_self" e).
Definition choice_of (l : list (pe T)) : pe T := match l with [] => none | _ => First l end.
Definition infix (me base : pe T) (pre suf bin : list (pe T)) : pe T :=
  let atom := nm "record_op" (First [base; And [hide (lit "("); me; hide (lit ")")]]) in
  let modified := And [many (choice_of (map recorded pre)); atom; many (choice_of (map recorded suf))] in
  nm "make_tree" (And [modified; many (And [Or (map recorded bin); modified])]).

(** ** sql_parsing/types.py *)
Definition json (e : pe T) : pe T := nm "to_json_call" e.
Definition op (w : string) : pe T := nm "op" (kw [w]).
Definition size : pe T := Opt (And [LB; nm "params" int_num; RB]).                      (* L37 *)
Definition sizes : pe T := Opt (And [LB; delimited (nm "params" int_num); RB]).         (* L38 *)
Definition unsigned : pe T := Opt (flag ["unsigned"]).
Definition format : pe T := Opt (nm "params" (First [ansi_string; ansi_ident])).        (* L93 *)
Definition time_functions : pe T := First (map (fun w => kw [w]) ["date"; "datetime"; "time"; "timestamp"; "timestamptz"; "timetz"]).  (* L81-90 *)
Definition bare (w : string) : pe T := json (grp (op w)).
Definition bare_unsigned (w : string) : pe T := json (grp (And [op w; unsigned])).
Definition sized (w : string) : pe T := json (And [op w; size]).
Definition two_sized (w : string) : pe T := json (And [op w; sizes]).
Definition formatted (l : list string) : pe T := json (And [nm "op" (kw l); format]).
(** L42-143. *)
Definition body_simple_types : pe T := First
  [json (And [op "array"; LB; nm "params" simple_types; RB]);
   json (grp (And [op "bigint"; Opt size; unsigned]));
   bare "bool"; bare "boolean"; sized "blob"; sized "bytes"; sized "char";
   formatted ["date"]; formatted ["datetime"; "with"; "time"; "zone"]; formatted ["datetime"];
   two_sized "decimal"; json (grp (nm "op" (nm "double_precision" (kw ["double"; "precision"])))); bare_unsigned "double";
   bare "float64"; bare_unsigned "float"; bare "geometry";
   json (And [op "map"; LB; delimited (nm "params" simple_types); RB]);
   bare_unsigned "integer"; json (And [op "int"; size; unsigned]); bare "int32"; bare "int64";
   sized "nchar"; two_sized "number"; two_sized "numeric"; bare_unsigned "real"; bare "text"; bare_unsigned "smallint"; bare "string";
   formatted ["time"]; formatted ["timestamp"; "with"; "time"; "zone"]; formatted ["timestamp"]; formatted ["timestamptz"]; formatted ["timetz"];
   json (And [op "tinyint"; size; unsigned]); bare "uuid"; sized "varchar"; sized "varchar2"; sized "varbinary"]%string.
Definition CASTING : pe T := called (And [hide (lit "::"); nm "params" simple_types]).  (* L145 *)
(** L160-186. *)
Definition body_column_type : pe T := First
  [json (And [op "struct"; hide LT; nm "params" (grp (delimited column_definition)); hide GT]);
   json (And [op "row"; LB; nm "params" (grp (delimited column_definition)); RB]);
   json (And [op "array"; First [And [hide LT; nm "params" (grp (delimited column_type)); hide GT];
                                 And [LB; nm "params" (grp (delimited column_type)); RB]]]);
   simple_types].
(** L188-220. *)
Definition column_def_identity : pe T := And
  [assign ["generated"] (First [kw ["always"]; nm "by_default" (kw ["by"; "default"])]); hide (kw ["as"; "identity"]);
   Opt (assign ["start"; "with"] int_num); Opt (assign ["increment"; "by"] int_num)].
Definition column_def_references : pe T := assign ["references"] (And [nm "table" var_name; LB; nm "columns" (delimited var_name); RB]).
Definition column_options : pe T := called (many (First
  [nm "nullable" (nm "lambda: False" (And [NOT; NULL])); nm "nullable" (nm "lambda: True" NULL); flag ["unique"]; flag ["auto_increment"];
   assign ["comment"] literal_string; assign ["collate"] (And [Opt EQ; var_name]); flag ["primary"; "key"]; nm "identity" column_def_identity;
   column_def_references; assign ["check"] (And [LB; expr; RB]); assign ["default"] expr])).
Definition body_column_definition : pe T :=
  called (grp (And [nm "name" var_name; nm "type" (First [column_type; var_name]); column_options])).

(** ** sql_parsing/sql_parser.py *)
(** L87-109. *)
Definition whens : pe T := nm "case" (grp (many (nm "to_when_call" (And [hide (kw ["when"]); nm "when" expr; hide (kw ["then"]); nm "then" expr])))).
Definition otherwise : pe T := Opt (And [hide (kw ["else"]); nm "else" expr]).
Definition case : pe T := nm "to_case_call" (And [hide (kw ["case"]); whens; otherwise; kw ["end"]]).
Definition switch : pe T := nm "to_switch_call" (And [hide (kw ["case"]); nm "value" expr; whens; otherwise; kw ["end"]]).
Definition cast : pe T := json (grp (And [op "cast"; LB; nm "params" expr; AS; nm "params" column_type; RB])).
(** L111-126. *)
Definition trim : pe T := nm "to_trim_call" (called (grp (And
  [hide (kw ["trim"]); LB; nm "direction" (Opt (nm "lower" (First [kw ["both"]; kw ["trailing"]; kw ["leading"]])));
   First [assign ["from"] expr; And [nm "chars" expr; Opt (assign ["from"] expr)]]; RB]))).
(** L128-157. *)
Definition standard_time_intervals : pe T := nm "params" (called (First (map (fun d => nm "duration" (kw [d])) durations))).
Definition duration : pe T := And [nm "params" (First [real_num; int_num; literal_string]); standard_time_intervals].
Definition interval : pe T := nm "to_interval_call" (And
  [kw ["interval"]; First [And [Lit [39%N]; delimited duration; Lit [39%N]]; duration]]).
Definition timestamp : pe T := json (And
  [nm "op" time_functions; First [nm "params" literal_string; nm "params" (First (map (fun t => nm "lower" (kw [t])) times))]]).
Definition extract : pe T := json (And [op "extract"; LB; First [standard_time_intervals; nm "params" expr]; FROM; nm "params" expr; RB]).
(** L159-174. *)
Definition cols : pe T := And [LB; delimited (nm "col" ident); RB].
Definition alias : pe T := Opt (nm "name" (nm "to_alias" (First
  [And [AS; And [nm "name" var_name; Opt cols]]; And [nm "name" var_name; Opt (First [cols; And [AS; delimited (nm "col" var_name)]])]]))).
Definition named_column : pe T := grp (And [nm "value" (grp expr); alias]).
(** L176-227. *)
Definition stack : pe T := nm "to_stack" (And [op "stack"; LB; nm "width" int_num; lit ","; nm "args" (delimited expr); RB]).
Definition bracketed : pe T := And [lit "["; nm "args" (delimited (grp expr)); lit "]"].
Definition create_array : pe T := nm "to_array" (First
  [bracketed; And [op "array"; Opt (And [hide LT; nm "type" column_type; hide GT]); First [And [LB; nm "args" (delimited (grp expr)); RB]; bracketed]]]).
Definition create_map : pe T := nm "to_map" (And [kw ["map"]; lit "["; nm "keys" expr; lit ","; nm "values" expr; lit "]"]).
Definition create_struct : pe T := nm "to_struct" (called (And
  [op "struct"; Opt (And [hide LT; nm "types" (delimited column_type); hide GT]); LB;
   nm "args" (delimited (grp (nm "to_select_call" (And [nm "value" expr; alias])))); RB])).
Definition distinct : pe T := json (And [nm "op" DISTINCT; nm "params" (delimited named_column)]).
(** L231-248. *)
Definition call_function : pe T := json (called (And
  [nm "op" ident; LB; nm "params" (Opt (First [grp query; delimited (grp expr)]));
   Opt (And [nm "nulls" (First [kw ["respect"]; kw ["ignore"]]); hide (kw ["nulls"])]); RB])).
Definition scale_function : pe T := nm "scale" (And0 [First [real_num; int_num]; call_function]).
Definition scale_ident : pe T := nm "scale" (And0 [First [real_num; int_num]; ident]).
(** L250-307; [extra]: the alternative that only compound_limit has, L302. *)
Definition compound_of (extra : list (pe T)) : pe T := First
  ([NULL; TRUE; FALSE; kw ["nocase"]; interval; timestamp; extract; case; switch; cast; distinct; trim; stack; create_array; create_map; create_struct;
    And [LB; grp query; RB]; And [LB; nm "to_tuple_call" (grp (delimited expr)); RB]; literal_string; hex_num; scale_function; scale_ident] ++ extra ++
   [real_num; int_num; call_function; combine (And [var_name; Opt (lit ".*")])]).
Definition compound : pe T := compound_of [].
Definition compound_limit : pe T := compound_of [And [int_num; hide (lit ","); int_num]].
(** L309-313. *)
Definition sort_column : pe T := And
  [nm "value" (called expr); Opt (First [nm "sort" (kw ["desc"]); nm "sort" (kw ["asc"])]); Opt (assign ["nulls"] (First [kw ["first"]; kw ["last"]]))].
(** window, sql_parsing/windows.py L64-107. *)
Definition direction : pe T := nm "direction" (First [kw ["preceding"]; kw ["following"]]).
Definition bound (e : pe T) : pe T := nm "to_bound_call" (First
  [nm "zero" (kw ["current"; "row"]); And [nm "limit" (First [kw ["unbounded"]; e]); direction]]).
Definition between (e : pe T) : pe T := nm "to_between_call" (And [BETWEEN; nm "min" (bound e); AND; nm "max" (bound e)]).
Definition row_clause : pe T := First
  [And [hide (kw ["rows"]); First [between int_num; bound int_num]]; And [hide (kw ["range"]); First [between expr; bound expr]]].
Definition ordering : pe T := And [ORDER_BY; nm "orderby" (delimited (grp sort_column))].
Definition over_clause : pe T := And
  [LB; Opt (And [PARTITION_BY; nm "partitionby" (delimited (grp expr))]); Opt ordering; Opt (nm "range" row_clause); RB].
Definition window_clause : pe T := And
  [Opt (nm "within" (And [WITHIN_GROUP; LB; Opt ordering; RB]));
   nm "over" (And [hide (kw ["over"]); nm "to_over" (First [over_clause; var_name])])].
(** L317-354. *)
Definition suffix_ops : list (pe T) :=
  [And [hide (lit "["); expr; hide (lit "]")]; And [hide (lit "."); simple_ident]; window_clause; assign ["filter"] (And [LB; WHERE; expr; RB]); CASTING].
Definition body_flat : pe T := infix flat compound prefix_ops suffix_ops binary_ops.
Definition body_expr : pe T := called (nm "value" (First [lit "*"; flat])).
(** L356-406. *)
Definition select_column : pe T := nm "to_select_call" (called (grp (First [And [nm "value" expr; alias]; nm "value" (lit "*")]))).
Definition join : pe T := nm "to_join_call" (First
  [And [nm "op" (grp joins); nm "join" table_source; Opt (First [And [ON; nm "on" expr]; And [hide (kw ["using"]); nm "using" expr]])];
   And [nm "op" (grp (kw ["window"])); nm "join" (grp (And [nm "name" var_name; AS; nm "value" over_clause]))]]).
Definition SELECT := hide (kw ["select"]).
Definition selection : pe T := First
  [And [SELECT; DISTINCT; ON; LB; nm "distinct_on" (delimited select_column); RB; nm "select" (delimited select_column)];
   And [SELECT; DISTINCT; nm "select_distinct" (delimited select_column)];
   And [SELECT; nm "to_top_clause" (nm "top" (Opt (And [hide (kw ["top"]); nm "value" expr; nm "percent" (Opt (kw ["percent"]));
                                                        nm "ties" (Opt (And [hide (kw ["with"]); kw ["ties"]]))])));
        nm "select" (delimited select_column)]].
Definition row : pe T := nm "to_row" (And [LB; delimited (grp expr); RB]).
Definition values : pe T := And [hide (kw ["values"]); nm "to_values" (delimited row)].
Definition unordered_sql : pe T := called (grp (First
  [values;
   And [selection; Opt (And [nm "from" (And [FROM; delimited table_source; many join]); Opt (And [WHERE; nm "where" expr]);
                             Opt (And [GROUP_BY; nm "groupby" (delimited (grp named_column))]); Opt (And [hide (kw ["having"]); nm "having" expr])])]])).
(** L408-446. *)
Definition ts_bytes : pe T := nm "mult" (And0 [nm "bytes" (First [real_num; int_num]); nm "scale" (Chr (u "bBkKmMgG"))]).
Definition tablesample : pe T := assign ["tablesample"] (And
  [LB; First [json (And [op "bucket"; nm "params" int_num; kw ["out"; "of"]; nm "params" int_num; Opt (And [ON; nm "on" expr])]);
              And [nm "percent" (First [real_num; int_num]); kw ["percent"]]; And [nm "rows" int_num; kw ["rows"]]; ts_bytes]; RB]).
Definition body_table_source : pe T := nm "to_table" (called (grp (And
  [nm "value" (First [And [LB; query; RB]; stack; call_function; var_name]); Opt (flag ["with"; "ordinality"]); Opt tablesample; alias]))).
(** L448-486. *)
Definition rows : pe T := Opt (First [kw ["row"]; kw ["rows"]]).
Definition limit : pe T := All
  [Opt (And [assign ["offset"] expr; rows]);
   Opt (And [hide (kw ["fetch"]); Opt (First [kw ["first"]; kw ["next"]]); nm "fetch" expr; rows; Opt (kw ["only"])]);
   Opt (assign ["limit"] compound_limit)].
Definition operand : pe T := First [unordered_sql; And [LB; query; RB]].
Definition ordered_sql : pe T := nm "to_union_call" (called (And
  [nm "union" (And [operand; many (And [nm "op" (grp (And [First [kw ["union"]; kw ["intersect"]; kw ["except"]; kw ["minus"]]; Opt (First [kw ["all"]; DISTINCT])]));
                                        operand])]);
   Opt ordering; limit])).
Definition with_expr : pe T := delimited (grp (And
  [nm "name" (nm "to_alias" (And [nm "name" var_name; Opt cols])); And [AS; LB; nm "value" (First [query; expr]); RB]])).
Definition body_query : pe T := nm "to_query" (And
  [Opt (First [assign ["with"; "recursive"] with_expr; assign ["with"] with_expr]); nm "query" (grp ordered_sql)]).
(** L493-527. *)
Definition index_type : pe T := Opt (assign ["using"] (nm "index_type" ident)).
Definition index_column_names : pe T := And [LB; delimited (nm "columns" var_name); RB].
Definition column_def_delete : pe T := assign ["on"; "delete"] (First [kw ["cascade"]; kw ["set"; "null"]; kw ["set"; "default"]]).
Definition table_def_foreign_key : pe T := And
  [FOREIGN_KEY; Opt (And [Opt (nm "index_name" var_name); index_column_names; column_def_references; Opt column_def_delete])].
Definition index_options : pe T := nm "table_constraint_options" (many var_name).
Definition index_or_key : pe T := First [hide (kw ["index"]); hide (kw ["key"])].
Definition table_constraint_definition : pe T := And
  [Opt (And [hide (kw ["constraint"]); nm "name" var_name]);
   First [assign ["primary"; "key"] (And [index_type; index_column_names; index_options]);
          nm "index" (And [Opt (flag ["unique"]); Opt index_or_key; Opt (nm "name" var_name); index_type; index_column_names; index_options]);
          assign ["check"] (And [LB; expr; RB]); nm "foreign_key" table_def_foreign_key]].
Definition table_element : pe T := First [nm "columns" column_definition; nm "constraint" table_constraint_definition].
(** L529-590; what stands behind [as_query] is the query of L545. *)
Definition as_query : pe T := Ref 8.
Definition body_as_query : pe T := infix as_query query [] [] [].
Definition or_replace : pe T := Opt (And [kw ["or"]; flag ["replace"]]).
Definition if_not_exists : pe T := Opt (nm "replace" (nm "lambda: False" (kw ["if"; "not"; "exists"]))).
Definition create_table : pe T := nm "create table" (And
  [kw ["create"]; or_replace; Opt (flag ["temporary"]); TABLE; if_not_exists; nm "name" var_name; Opt (And [LB; delimited table_element; RB]);
   many (First [assign ["engine"] (And [EQ; var_name]); assign ["collate"] (And [EQ; var_name]); assign ["auto_increment"] (And [EQ; int_num]);
                assign ["comment"] (And [EQ; literal_string]); assign ["default"; "character"; "set"] (And [EQ; var_name]);
                assign ["default"; "charset"] (And [EQ; var_name])]);
   Opt (And [hide AS; nm "query" as_query])]).
Definition create_view : pe T := nm "create view" (And
  [kw ["create"]; or_replace; Opt (flag ["temporary"]); hide (kw ["view"]); if_not_exists; nm "name" var_name; AS; nm "query" query]).
Definition create_index : pe T := nm "create index" (And
  [kw ["create"; "index"]; nm "INDEX | KEY" or_replace; if_not_exists; nm "name" var_name; ON; nm "table" var_name; index_type; index_column_names;
   index_options]).
Definition cache_options : pe T := Opt (nm "options" (And
  [hide (kw ["options"]); LB; dict (delimited (grp (And [nm "literal" literal_string; Opt EQ; var_name]))); RB])).
Definition create_cache : pe T := nm "cache" (And
  [hide (kw ["cache"]); Opt (flag ["lazy"]); TABLE; nm "name" var_name; cache_options; Opt (And [AS; nm "query" query])]).
(** L592-628. *)
Definition if_exists : pe T := Opt (flag ["if"; "exists"]).
Definition drop (w : string) : pe T := nm "drop" (And [kw ["drop"; w]; if_exists; nm w var_name]).
Definition insert : pe T := nm "to_insert_call" (And
  [hide (kw ["insert"]);
   First [And [flag ["overwrite"]; hide (kw ["table"])]; And [hide (kw ["into"]); Opt (hide (kw ["table"]))]];
   nm "table" var_name; Opt (And [LB; nm "columns" (delimited var_name); RB]); if_exists; nm "query" (First [values; query])]).
Definition update : pe T := json (And
  [op "update"; nm "params" var_name; assign ["set"] (dict (delimited (grp (And [var_name; EQ; expr])))); Opt (assign ["where"] expr)]).
Definition delete : pe T := json (And [op "delete"; hide (kw ["from"]); nm "params" var_name; Opt (assign ["where"] expr)]).
(** L630-635. *)
Definition statement : pe T := First
  [query; First [insert; update; delete]; First [create_table; create_view; create_cache; create_index];
   First [drop "table"; drop "view"; drop "index"]].

(** What stands behind the Forwards; 7: the whole grammar. *)
Definition body (n : nat) : pe T :=
  match n with
  | 0 => body_expr | 1 => body_column_type | 2 => body_column_definition | 3 => body_simple_types | 4 => body_query
  | 5 => body_table_source | 6 => body_flat | 7 => statement | 8 => body_as_query | _ => NoMatch
  end.
End Sql.

(** ** Parsing with the grammar as it is written and as the engine prepares it, to a depth of Forwards; beyond it, an error *)
Section Parse.
Context {T : Type}.
Variable tok : pystr -> T.
Variable full : list T -> bool.
Variable skip : pystr -> nat -> nat.
Variable grammar : nat -> pe T.
Fixpoint written (k n : nat) : parser T :=
  match k with O => fun _ _ => Crash | S k' => run tok full skip (written k') false (grammar n) end.
Fixpoint prepared (k n : nat) : parser T :=
  match k with O => fun _ _ => Crash | S k' => run tok full skip (prepared k') true (streamline false (grammar n)) end.
End Parse.
