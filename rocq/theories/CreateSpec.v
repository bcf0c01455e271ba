(** Vocabulary for the statements about CREATE TABLE (C31, C32). *)
From Coq Require Import String Ascii List NArith ZArith QArith Bool.
From Verif Require Import Base CryptoModel JsonModel RewriteModel WidthModel SqlSpec EncSpec StmtSpec.
Import ListNotations.
Open Scope Z_scope.

(** A column definition as the parser gives it: a dict with a name and a type with at most one
    argument, e.g. [{"name": "n", "type": {"varchar": 20}}] (sql_parsing/types.py L216-218). *)
Definition col_def (col : json) (name ty : pystr) (arg : json) : Prop :=
  exists d, col = JDict d /\ dget d (u "name") = Some (JStr name) /\ dget d (u "type") = Some (JDict [(ty, arg)]).

(** The parser gives a list of one element as the element (sql_parsing/utils.py scrub, L75-118). *)
Definition listed (o : option json) (l : list json) : Prop :=
  match o with
  | None => l = []
  | Some (JList x) => l = x
  | Some (JDict d) => l = [JDict d]
  | Some _ => False
  end.
(** The parsed statement CREATE TABLE t (cols, constraints). *)
Definition create_of (j : json) (t : pystr) (cols cons : list json) : Prop :=
  exists top ct, j = JDict top /\ dget top (u "create table") = Some (JDict ct) /\
    dget ct (u "name") = Some (JStr t) /\ listed (dget ct (u "columns")) cols /\
    listed (dget ct (u "constraint")) cons.

(** What the options of an encrypted column ask for. *)
Definition asked (o : json) (k : string) : bool :=
  match o with JDict d => match dget d (u k) with Some x => truthy x | None => false end | _ => false end.
Definition base_parts (ty : pystr) : list pystr :=
  if smem (map (fun c => if (N.leb 97 c && N.leb c 122)%bool then (c - 32)%N else c) ty) [u "VARCHAR"; u "CHAR"]
  then [SYM] else [OPEC; SYM].
Definition wanted_parts (ty : pystr) (o : json) : list pystr :=
  base_parts ty ++ (if asked o "fuzzy" then [FUZ] else []) ++
  (if asked o "arithmetic" then [ARI] else []) ++ (if asked o "sm4" then [SM4C] else []).

(** The declared type of the physical column for a cipher. *)
Definition phys_type (ci ty : pystr) (arg : json) : pystr :=
  if smem ci [FUZ; SM4C] then u "VARCHAR(2000)"
  else if seqb ci ARI then u "Decimal(65,0)"
  else if seqb ci OPEC then (if seqb ty (u "int") then u "BIGINT" else u "DECIMAL(65)")
  else if seqb ty (u "int") then u "VARCHAR(300)"
  else if smem ty [u "float"; u "double"] then u "VARCHAR(1000)"
  else match arg with
       | JInt z => let '(k, n) := get_type_and_len ty (Z.to_nat z) in k ++ u "(" ++ str_int (Z.of_nat n) ++ u ")"
       | _ => []
       end.

(** The metadata [c] and the physical columns [ds] (name and declaration) of the column [k]. *)
Definition described (E : env) (encrypted : dict json) (k ty : pystr) (arg : json) (c : colmeta)
    (ds : list (pystr * pystr)) : Prop :=
  c_type c = ty /\ map fst ds = phys_of k c /\
  match dget encrypted k with
  | None => c_plain c = true /\ c_enc c = [] /\ exists rest,
      ds = [(k, ty ++ (if truthy arg then u "(" ++ py_str E arg ++ u ")" else []) ++ rest)]
  | Some o => c_plain c = false /\ (exists d, o = JDict d /\ dget d (u "key") = Some (JStr (c_key c))) /\
      dkeys (c_enc c) = wanted_parts ty o /\
      (In ty [u "int"; u "varchar"; u "char"; u "float"; u "double"] ->
       Forall2 (fun cn d => exists rest, snd d = phys_type (fst cn) ty arg ++ rest) (c_enc c) ds)
  end.

(** The physical column that carries a key constraint on the column [k]. *)
Definition key_column (cols : dict colmeta) (k n : pystr) : Prop :=
  exists c, dget cols k = Some c /\ if c_plain c then n = k else dget (c_enc c) SYM = Some n.

(** Constraints as the parser gives them; a single column is given without a list. *)
Definition names_of (j : json) (ks : list pystr) : Prop :=
  j = JList (map JStr ks) \/ exists k, j = JStr k /\ ks = [k].
Definition con_name (o : option pystr) : list (pystr * json) :=
  match o with Some s => [(u "name", JStr s)] | None => [] end.
Definition con_text (o : option pystr) : pystr :=
  match o with Some (c :: s) => u "CONSTRAINT " ++ (c :: s) ++ u " " | _ => [] end.
Definition primary_con (o : option pystr) (cs : json) : json :=
  JDict (con_name o ++ [(u "primary_key", JDict [(u "columns", cs)])]).
Definition foreign_con (o : option pystr) (cs : json) (t : pystr) (rs : json) (more : list (pystr * json)) : json :=
  JDict (con_name o ++
    [(u "foreign_key", JDict ([(u "columns", cs);
        (u "references", JDict [(u "table", JStr t); (u "columns", rs)])] ++ more))]).

(** What they become, in a table with columns [cols] when the database is described by [meta]. *)
Inductive con_rewritten (cols : dict colmeta) (meta : option dbmeta) : json -> pystr -> Prop :=
| primary_rewritten o cs ks ns : names_of cs ks -> Forall2 (key_column cols) ks ns ->
    con_rewritten cols meta (primary_con o cs) (con_text o ++ u "PRIMARY KEY(" ++ join (u ",") ns ++ u ")")
| foreign_rewritten o cs ks ns t rs rks rns more M m :
    names_of cs ks -> names_of rs rks -> meta = Some M -> dget M t = Some m ->
    Forall2 (key_column cols) ks ns -> Forall2 (key_column (t_cols m)) rks rns ->
    con_rewritten cols meta (foreign_con o cs t rs more)
      (con_text o ++ u "FOREIGN KEY(" ++ join (u ",") ns ++ u ") REFERENCES " ++ t_anon m ++
       u "(" ++ join (u ",") rns ++ u ")").
Definition key_con (c : json) : Prop :=
  (exists o cs ks, names_of cs ks /\ c = primary_con o cs) \/
  (exists o cs ks t rs rks more, names_of cs ks /\ names_of rs rks /\ c = foreign_con o cs t rs more).

(** The text of the statement. *)
Definition create_text (anon : pystr) (ds : list (pystr * pystr)) (ks : list pystr) (tail : pystr) : pystr :=
  u "CREATE TABLE IF NOT EXISTS " ++ anon ++ u "(" ++ join (u ",") (map (fun d => fst d ++ u " " ++ snd d) ds) ++
  match ks with [] => [] | _ => u "," ++ join (u ",") ks end ++ u ")" ++ tail.

(** The options of a column definition as they are written out. *)
Definition nullable_of (col : json) : pystr :=
  match col with
  | JDict d => match dget d (u "nullable") with
               | None => []
               | Some x => if truthy x then u " NULL " else u " NOT NULL "
               end
  | _ => []
  end.
Definition key_text (col : json) : pystr :=
  if asked col "primary_key" then u " primary key" ++ (if asked col "auto_increment" then u " auto_increment " else [])
  else [].
(** The physical columns of a column without default: the parts of an encrypted column have their own
    types, all parts repeat NULL or NOT NULL, and the symmetric part alone is the primary key. *)
Definition decl_of (E : env) (col : json) (k ty : pystr) (arg : json) (c : colmeta) : list (pystr * pystr) :=
  if c_plain c then
    [(k, ty ++ (if truthy arg then u "(" ++ py_str E arg ++ u ")" else []) ++ nullable_of col ++ key_text col)]
  else map (fun cn => (snd cn, phys_type (fst cn) ty arg ++ nullable_of col ++
                               (if seqb (fst cn) SYM then key_text col else []))) (c_enc c).
Definition no_default (col : json) : Prop := match col with JDict d => dget d (u "default") = None | _ => False end.
