(** Vocabulary for the statements about the texts of CREATE TABLE (C97): the definition of a table, the parts of its text, and
    what the parser makes of it. *)
From Coq Require Import String Ascii List Arith NArith ZArith QArith Bool.
From Verif Require Import Base CryptoModel JsonModel RewriteModel SqlSpec EncSpec StmtSpec CreateModel CreateSpec ScrubModel OperModel OperSpec TextSpec LitModel LitSpec GramModel GramSpec.
Import ListNotations.
Open Scope Z_scope.

(** ** Definitions of tables *)
Record ctype := { ty_word : string; ty_sizes : list Z; ty_unsigned : bool }.
(** A default: NULL, a constant, or a word such as CURRENT_TIMESTAMP. *)
Inductive dflt := DNull | DConst (c : const) | DName (v : pystr).
Inductive copt := NotNull | Nullable | Unique | AutoIncrement | PrimaryKey | Comment (s : pystr) | Collate (v : pystr) | Default (d : dflt).
Record column := { cl_name : pystr; cl_type : ctype; cl_opts : list copt }.
(** Constraints with an optional name: PRIMARY KEY (...), FOREIGN KEY (...) REFERENCES t (...), [UNIQUE] KEY [name] (...). *)
Inductive constr :=
| Primary (o : option pystr) (cs : list pystr)
| Foreign (o : option pystr) (cs : list pystr) (t : pystr) (rs : list pystr)
| Index (o : option pystr) (unique : bool) (name : option pystr) (cs : list pystr).
Inductive topt := Engine (v : pystr) | TCollate (v : pystr) | TAuto (z : Z) | TComment (s : pystr) | Charset (v : pystr).
Record table_def := { td_name : pystr; td_guard : bool; td_cols : list column; td_cons : list constr; td_opts : list topt }.

(** The types: those with at most one size, those with any number, those without; those that may be UNSIGNED. *)
Definition sized_types : list string := ["bigint"; "int"; "tinyint"; "blob"; "bytes"; "char"; "nchar"; "varchar"; "varchar2"; "varbinary"]%string.
Definition scaled_types : list string := ["decimal"; "number"; "numeric"]%string.
Definition plain_types : list string :=
  ["bool"; "boolean"; "date"; "datetime"; "double"; "float64"; "float"; "geometry"; "integer"; "int32"; "int64"; "real"; "text"; "smallint"; "string";
   "time"; "timestamp"; "timestamptz"; "timetz"; "uuid"]%string.
Definition unsigned_types : list string := ["bigint"; "double"; "float"; "integer"; "int"; "real"; "smallint"; "tinyint"]%string.
Definition good_type (c : ctype) : Prop :=
  (In (ty_word c) sized_types /\ (length (ty_sizes c) <= 1)%nat \/ In (ty_word c) scaled_types \/ In (ty_word c) plain_types /\ ty_sizes c = []) /\
  (ty_unsigned c = true -> In (ty_word c) unsigned_types).
(** The keys of options; none is given twice, and COLLATE does not stand directly behind a default (it would be an operator on it). *)
Definition opt_key (o : copt) : string :=
  match o with
  | NotNull | Nullable => "nullable" | Unique => "unique" | AutoIncrement => "auto_increment" | PrimaryKey => "primary_key"
  | Comment _ => "comment" | Collate _ => "collate" | Default _ => "default"
  end%string.
Fixpoint apart (l : list copt) : Prop :=
  match l with
  | Default _ :: r => match r with Collate _ :: _ => False | _ => apart r end
  | _ :: r => apart r
  | [] => True
  end.
Definition good_column (c : column) : Prop := good_type (cl_type c) /\ NoDup (map opt_key (cl_opts c)) /\ apart (cl_opts c).
Definition topt_key (o : topt) : string :=
  match o with Engine _ => "engine" | TCollate _ => "collate" | TAuto _ => "auto_increment" | TComment _ => "comment" | Charset _ => "default_charset" end%string.
Definition con_columns (c : constr) : Prop :=
  match c with Primary _ cs => cs <> [] | Foreign _ cs _ rs => cs <> [] /\ rs <> [] | Index _ _ _ cs => cs <> [] end.
Definition good_def (d : table_def) : Prop :=
  td_cols d <> [] /\ Forall good_column (td_cols d) /\ Forall con_columns (td_cons d) /\ NoDup (map topt_key (td_opts d)).

(** ** The parts of their texts *)
(** A word in any case; the words that are not of the language are read like names. *)
Inductive word_lex (w : string) : lexeme -> Prop :=
| wl_kw : word_lex w (K w)
| wl_free f : ~ In (u w) language -> map low_char f = u w -> word_lex w (LFun f).
Definition list_lex (l : list lexeme) : list lexeme := Y "(" :: separated (map (fun x => [x]) l) ++ [Y ")"].
Definition names_lex (cs : list pystr) : list lexeme := list_lex (map LName cs).
Definition sizes_lex (l : list Z) : list lexeme := match l with [] => [] | _ => list_lex (map LNum l) end.
Inductive type_lex : ctype -> list lexeme -> Prop :=
| tl_signed w l x : word_lex w x -> type_lex {| ty_word := w; ty_sizes := l; ty_unsigned := false |} (x :: sizes_lex l)
| tl_unsigned w l x y : word_lex w x -> word_lex "unsigned" y ->
    type_lex {| ty_word := w; ty_sizes := l; ty_unsigned := true |} (x :: sizes_lex l ++ [y]).
Definition dflt_lex (d : dflt) : list lexeme := match d with DNull => [K "null"] | DConst c => const_lex c | DName v => [LName v] end.
Inductive opt_lex : copt -> list lexeme -> Prop :=
| ol_not_null : opt_lex NotNull [K "not"; K "null"]
| ol_nullable : opt_lex Nullable [K "null"]
| ol_unique : opt_lex Unique [K "unique"]
| ol_auto x : word_lex "auto_increment" x -> opt_lex AutoIncrement [x]
| ol_primary : opt_lex PrimaryKey [K "primary"; K "key"]
| ol_comment x s : word_lex "comment" x -> opt_lex (Comment s) [x; LStr s]
| ol_collate v : opt_lex (Collate v) [K "collate"; LName v]
| ol_default x d : word_lex "default" x -> opt_lex (Default d) (x :: dflt_lex d).
Inductive column_lex : column -> list lexeme -> Prop :=
| cl_lex n ty opts lt lo : type_lex ty lt -> Forall2 opt_lex opts lo ->
    column_lex {| cl_name := n; cl_type := ty; cl_opts := opts |} (LName n :: lt ++ concat lo).
Definition con_name_lex (o : option pystr) : list lexeme := match o with Some v => [K "constraint"; LName v] | None => [] end.
Inductive constr_lex : constr -> list lexeme -> Prop :=
| kl_primary o cs : constr_lex (Primary o cs) (con_name_lex o ++ K "primary" :: K "key" :: names_lex cs)
| kl_foreign o cs t rs : constr_lex (Foreign o cs t rs) (con_name_lex o ++ K "foreign" :: K "key" :: names_lex cs ++ K "references" :: LName t :: names_lex rs)
| kl_index o (un : bool) w name cs : w = "key"%string \/ w = "index"%string ->
    constr_lex (Index o un name cs) (con_name_lex o ++ (if un then [K "unique"] else []) ++ K w :: match name with Some v => [LName v] | None => [] end ++ names_lex cs).
Inductive topt_lex : topt -> list lexeme -> Prop :=
| ml_engine x v : word_lex "engine" x -> topt_lex (Engine v) [x; Y "="; LName v]
| ml_collate v : topt_lex (TCollate v) [K "collate"; Y "="; LName v]
| ml_auto x z : word_lex "auto_increment" x -> topt_lex (TAuto z) [x; Y "="; LNum z]
| ml_comment x s : word_lex "comment" x -> topt_lex (TComment s) [x; Y "="; LStr s]
| ml_charset x y v : word_lex "default" x -> word_lex "charset" y -> topt_lex (Charset v) [x; y; Y "="; LName v].
Inductive def_lex : table_def -> list lexeme -> Prop :=
| dl_def t (guard : bool) cols cons opts lc lk lo :
    Forall2 column_lex cols lc -> Forall2 constr_lex cons lk -> Forall2 topt_lex opts lo ->
    def_lex {| td_name := t; td_guard := guard; td_cols := cols; td_cons := cons; td_opts := opts |}
      (K "create" :: K "table" :: (if guard then [K "if"; K "not"; K "exists"] else []) ++ LName t ::
       Y "(" :: separated (lc ++ lk) ++ Y ")" :: concat lo).

(** ** What the parser makes of them *)
(** One value stands alone, several are a list. *)
Definition some_json (l : list json) : json := match l with [x] => x | _ => JList l end.
Definition names_json (cs : list pystr) : json := some_json (map JStr cs).
Definition sizes_json (l : list Z) : json := match l with [] => JDict [] | _ => some_json (map JInt l) end.
Definition type_json (c : ctype) : json :=
  JDict ((if ty_unsigned c then [(u "unsigned", JBool true)] else []) ++ [(u (ty_word c), sizes_json (ty_sizes c))]).
Definition text_json (s : pystr) : json := JDict [(u "literal", JStr s)].
Definition const_value (c : const) : json := match c with KInt z => JInt z | KText s => text_json s end.
Definition dflt_json (d : dflt) : json :=
  match d with DNull => JDict [(u "null", JDict [])] | DConst c => const_value c | DName v => JStr v end.
Definition opt_json (o : copt) : json :=
  match o with
  | NotNull => JBool false | Nullable | Unique | AutoIncrement | PrimaryKey => JBool true
  | Comment s => text_json s | Collate v => JStr v | Default d => dflt_json d
  end.
Definition column_json (c : column) : json :=
  JDict ((u "name", JStr (cl_name c)) :: (u "type", type_json (cl_type c)) :: map (fun o => (u (opt_key o), opt_json o)) (cl_opts c)).
Definition constr_json (c : constr) : json :=
  match c with
  | Primary o cs => primary_con o (names_json cs)
  | Foreign o cs t rs => foreign_con o (names_json cs) t (names_json rs) []
  | Index o un name cs =>
    JDict (con_name o ++ [(u "index", JDict ((if un then [(u "unique", JBool true)] else []) ++ con_name name ++ [(u "columns", names_json cs)]))])
  end.
Definition topt_json (o : topt) : json :=
  match o with Engine v | TCollate v | Charset v => JStr v | TAuto z => JInt z | TComment s => text_json s end.
Definition def_json (d : table_def) : json :=
  JDict [(u "create table", JDict
    ((if td_guard d then [(u "replace", JBool false)] else []) ++
     (u "name", JStr (td_name d)) :: (u "columns", some_json (map column_json (td_cols d))) ::
     match td_cons d with [] => [] | l => [(u "constraint", some_json (map constr_json l))] end ++
     map (fun o => (u (topt_key o), topt_json o)) (td_opts d)))].

(** ** Texts *)
Definition writes_def (d : table_def) (text : pystr) : Prop := exists ls, def_lex d ls /\ spells ls text.
(** rewrite_table parses the text itself, scheduler/handers/table.py L13. *)
Definition parse_create (uname : pystr -> option N) (more : pystr -> pystr -> res pystr) (ft : pystr -> bool) (text : pystr) : res json :=
  do o <- parse_mysql uname more ft text; Ok (json_of o).
(** rewrite_table from the text, scheduler/handers/table.py L12-148. *)
Definition create_from_text (uname : pystr -> option N) (more : pystr -> pystr -> res pystr) (ft : pystr -> bool) (E : env) (fresh : nat -> pystr) (anon : pystr)
    (meta : option dbmeta) (text : pystr) (enc : dict json) : res (pystr * pystr * tmeta) :=
  do j <- parse_create uname more ft text; rewrite_table E fresh anon meta j enc.

(** ** What the proxy accepts *)
(** The options of an encrypted column, given beside the text: a key, the entry fuzzy, and keys of their ciphers or none. *)
Definition good_options (o : json) : Prop := exists d key,
  o = JDict d /\ dget d (u "key") = Some (JStr key) /\ dget d (u "fuzzy") <> None /\
  (dget d (u "homomorphic_key") = None \/ exists p q, dget d (u "homomorphic_key") = Some (JList [JInt p; JInt q])) /\
  (dget d (u "sm4_key") = None \/ exists k, dget d (u "sm4_key") = Some (JStr k)).
(** The types that a column to be encrypted may have. *)
Definition enc_type (c : ctype) : Prop :=
  ty_unsigned c = false /\
  (In (ty_word c) ["int"; "float"; "double"]%string /\ (ty_sizes c = [] \/ ty_sizes c = [0]) \/
   In (ty_word c) ["char"; "varchar"]%string /\ exists z, ty_sizes c = [z] /\ 1 <= z).
Definition takes (enc : dict json) (c : column) : Prop :=
  ~ In "default"%string (map opt_key (cl_opts c)) /\
  match dget enc (cl_name c) with
  | None => ty_unsigned (cl_type c) = false /\ (length (ty_sizes (cl_type c)) <= 1)%nat
  | Some o => enc_type (cl_type c) /\ good_options o
  end.
(** Keys of columns of the table; references to columns of a known table. *)
Definition takes_con (names : list pystr) (meta : option dbmeta) (c : constr) : Prop :=
  match c with
  | Primary _ cs => incl cs names
  | Foreign _ cs t rs => incl cs names /\ exists M m, meta = Some M /\ dget M t = Some m /\ forall r, In r rs -> exists n, key_column (t_cols m) r n
  | Index _ _ _ _ => False
  end.

(** ** What it writes *)
Fixpoint null_words (os : list copt) : pystr :=
  match os with NotNull :: _ => u " NOT NULL " | Nullable :: _ => u " NULL " | _ :: r => null_words r | [] => [] end.
Fixpoint comment_of (os : list copt) : option pystr := match os with Comment s :: _ => Some s | _ :: r => comment_of r | [] => None end.
Definition is_primary (o : copt) : bool := match o with PrimaryKey => true | _ => false end.
Definition is_auto (o : copt) : bool := match o with AutoIncrement => true | _ => false end.
Definition key_words (os : list copt) : pystr :=
  if existsb is_primary os then u " primary key" ++ (if existsb is_auto os then u " auto_increment " else []) else [].
Definition size_words (l : list Z) : pystr := match l with [z] => if z =? 0 then [] else u "(" ++ str_int z ++ u ")" | _ => [] end.
(** The physical columns of a column, whose metadata is [m]: UNIQUE, COMMENT and COLLATE are not among their words. *)
Definition col_decls (c : column) (m : colmeta) : list (pystr * pystr) :=
  let ty := cl_type c in let os := cl_opts c in
  if c_plain m then [(cl_name c, u (ty_word ty) ++ size_words (ty_sizes ty) ++ null_words os ++ key_words os)]
  else map (fun cn => (snd cn, phys_type (fst cn) (u (ty_word ty)) (sizes_json (ty_sizes ty)) ++ null_words os ++
                               (if seqb (fst cn) SYM then key_words os else []))) (c_enc m).
(** The metadata of a column. *)
Definition col_meta (enc : dict json) (c : column) (m : colmeta) : Prop :=
  c_type m = u (ty_word (cl_type c)) /\ c_comment m = comment_of (cl_opts c) /\
  match dget enc (cl_name c) with
  | None => c_plain m = true
  | Some o => c_plain m = false /\ (exists d, o = JDict d /\ dget d (u "key") = Some (JStr (c_key m))) /\
              dkeys (c_enc m) = wanted_parts (u (ty_word (cl_type c))) o
  end.
