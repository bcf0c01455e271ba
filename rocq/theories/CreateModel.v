(** CREATE TABLE: scheduler/handers/table.py.  The input is the parsed statement, the output the
    rewritten text and the metadata of the new table.  Physical names come from a source of names:
    the code draws a random letter and appends the MD5 of the clock (L59-60, L80-81, L94-95,
    L109-110). *)
From Coq Require Import String Ascii List NArith ZArith QArith Bool.
From Verif Require Import Base CryptoModel PaillierModel JsonModel RewriteModel WidthModel.
Import ListNotations.
Open Scope Z_scope.

(** [d.get(k)] on a parsed value; None stands for an absent key as well as for a null. *)
Definition get (v : json) (k : pystr) : res json :=
  match v with
  | JDict d => Ok (match dget d k with Some x => x | None => JNull end)
  | _ => Err AttributeError
  end.
(** [not col.get(k)] and the like. *)
Definition flag (v : json) (k : pystr) : res bool := do x <- get v k; Ok (truthy x).
(** [v.items()] *)
Definition items (v : json) : res (list (pystr * json)) :=
  match v with JDict d => Ok d | _ => Err AttributeError end.
(** A value used where [+] wants a str. *)
Definition as_str (v : json) : res pystr := match v with JStr s => Ok s | _ => Err TypeError end.
(** [s.upper()], ASCII part (L56). *)
Definition upper_char (c : N) : N := if (N.leb 97 c && N.leb c 122)%bool then (c - 32)%N else c.
Definition upper (s : pystr) : pystr := map upper_char s.

(** L28-31: is_nullable. *)
Definition nullable_text (col : json) : res pystr :=
  do b <- contains col (u "nullable");
  if b then do f <- flag col (u "nullable"); Ok (if f then u " NULL " else u " NOT NULL ")
  else Ok [].

(** The default as a str, L42-47 (same text at L67-71, L83-86, L97-100, L112-115): a dict with the
    key 'null' becomes 'NULL '; other values are taken as they are. *)
Definition default_of (v : json) : json :=
  match v with
  | JDict d => if dmem d (u "null") then JStr (u "NULL ") else v
  | _ => v
  end.
(** L42-50, [enc] encrypts the default: absent or falsy gives ''. *)
Definition default_text (col : json) (enc : json -> res pystr) : res pystr :=
  do d <- get col (u "default");
  if truthy d then do t <- enc (default_of d); Ok (u " DEFAULT " ++ t) else Ok [].

(** [t_k + '(' + str(t_v) + ')'], L39-41; [str] of a list is Python's. *)
Definition typed_text (E : env) (t_k : pystr) (t_v : json) : pystr :=
  if truthy t_v then t_k ++ u "(" ++ py_str E t_v ++ u ")" else t_k.

(** v(t_k, t_v) with v the entry of element_type, L63-66: calling a str raises; without a length
    the entry itself is used, and a function in place of a str raises at L76.  get_type_and_len
    divides [t_v] (metadata.py L46).  Simplification: a negative length, which the parser does not
    produce, raises here. *)
Definition enc_type_text (t_k : pystr) (t_v : json) (v : elt) : res pystr :=
  if truthy t_v then
    match v with
    | Fixed _ => Err TypeError
    | TypeAndLen =>
      if seqb t_k (u "char") || seqb t_k (u "varchar") then
        match t_v with
        | JInt z => if z <? 0 then Err Generic
                    else let '(k, n) := get_type_and_len t_k (Z.to_nat z) in
                         Ok (k ++ u "(" ++ str_int (Z.of_nat n) ++ u ")")
        | _ => Err TypeError
        end
      else match t_v with
           | JInt z => Ok (t_k ++ u "(" ++ str_int z ++ u ")")
           | _ => Err TypeError (* simplification: str of other values is not spelled out *)
           end
    end
  else match v with Fixed t => Ok t | TypeAndLen => Err TypeError end.

(** A column of the rewritten statement: its name and the text after the blank. *)
Definition decl := (pystr * pystr)%type.

(** AESCipher(key).encrypt(default), L72-73: the default must be a str. *)
Definition aes_default (E : env) (key : pystr) (d : json) : res pystr :=
  match d with JStr s => aes_encrypt (e_P E) key s | _ => Err AttributeError end.
(** SM4CipherBytes(key).encrypt(default), L87-88, L116-117: [str] of the default. *)
Definition sm4_default (E : env) (key : json) (d : json) : res pystr :=
  match key with JStr k => sm4_encrypt (e_P E) k (py_str E d) | _ => Err AttributeError end.
(** HomomorphicCipher(key).encrypt(default), L101-102: the number must parse. *)
Definition homo_default (E : env) (col : pystr) (key : json) (d : json) : res pystr :=
  if truthy key then
    match key with
    | JList [JInt p; JInt q] => do z <- py_int d; homo_encrypt p q (e_rnd E col) z
    | _ => Err ValueError
    end
  else Err AttributeError.

(** Plaintext columns, L37-55. *)
Fixpoint plain_types (E : env) (col : json) (name nul pk : pystr) (tys : list (pystr * json))
    : res (list decl * pystr) :=
  match tys with
  | [] => Ok ([], [])
  | (t_k, t_v) :: r =>
    do d <- default_text col as_str;
    do '(ds, last) <- plain_types E col name nul pk r;
    Ok ((name, typed_text E t_k t_v ++ nul ++ pk ++ d) :: ds,
        match r with [] => t_k | _ => last end)
  end.

(** Symmetric and order-preserving parts, L57-78: one physical column for each entry of
    element_type; [fresh i] is the i-th name drawn. *)
Fixpoint enc_types (E : env) (col : json) (key n nul pk : pystr) (v : elt) (tys : list (pystr * json))
    : res (list decl) :=
  match tys with
  | [] => Ok []
  | (t_k, t_v) :: r =>
    do d <- default_text col (aes_default E key);
    do ty <- enc_type_text t_k t_v v;
    do ds <- enc_types E col key n nul pk v r;
    Ok ((n, ty ++ nul ++ pk ++ d) :: ds)
  end.
Fixpoint enc_parts (E : env) (fresh : nat -> pystr) (col : json) (key nul pk : pystr)
    (parts : dict elt) (tys : list (pystr * json)) (i : nat) : res (list decl * dict pystr * nat) :=
  match parts with
  | [] => Ok ([], [], i)
  | (k, v) :: r =>
    do ds <- enc_types E col key (fresh i) nul (if seqb k SYM then pk else []) v tys;
    do '(ds', enc, j) <- enc_parts E fresh col key nul pk r tys (S i);
    Ok (ds ++ ds', match tys with [] => enc | _ => (k, fresh i) :: enc end, j)
  end.

(** One optional part (LIKE L79-92, homomorphic L93-107, SM4 L108-122). *)
Definition option_part (on : bool) (fresh : nat -> pystr) (ci ty nul : pystr) (dflt : res pystr)
    (i : nat) : res (list decl * dict pystr * nat) :=
  if on then do d <- dflt; Ok ([(fresh i, ty ++ nul ++ d)], [(ci, fresh i)], S i)
  else Ok ([], [], i).

(** The homomorphic key in the metadata, L106.  Simplification: values other than a pair of
    integers or "" raise here. *)
Definition homo_meta (v : json) : res (option (Z * Z)) :=
  match v with
  | JList [JInt p; JInt q] => Ok (Some (p, q))
  | JStr [] => Ok None
  | _ => Err Generic
  end.
(** [.get(k, "")] *)
Definition get_or_empty (v : json) (k : pystr) : res json :=
  match v with
  | JDict d => Ok (match dget d k with Some x => x | None => JStr [] end)
  | _ => Err AttributeError
  end.

(** One column, L24-125: its declarations, its metadata, and the number of names drawn so far.
    Simplification: keys are strings (other values raise here; the code would store them). *)
Definition create_column (E : env) (fresh : nat -> pystr) (encrypted : dict json) (col : json) (i : nat)
    : res (list decl * pystr * colmeta * nat) :=
  do ai <- flag col (u "auto_increment");
  do p <- flag col (u "primary_key");
  let pk := if p then u " primary key" ++ (if ai then u " auto_increment " else []) else [] in
  do name <- (do x <- getitem col (u "name"); as_str x);
  do ty <- getitem col (u "type");
  do nul <- nullable_text col;
  do com <- get col (u "comment");
  do comment <- (if truthy com then do l <- get com (u "literal");
                                    Ok (match l with JStr s => Some s | _ => None end)
                 else Ok None);
  match dget encrypted name with
  | None =>
    do tys <- items ty;
    do '(ds, t_k) <- plain_types E col name nul pk tys;
    match tys with
    | [] => Err KeyError (* simplification: the entry without 'plaintext' fails when it is used *)
    | _ => Ok (ds, name, {| c_plain := true; c_type := t_k; c_key := []; c_enc := [];
                            c_homo := None; c_sm4 := None; c_comment := comment |}, i)
    end
  | Some o =>
    do tys <- items ty;
    match tys with
    | [] => Err IndexError
    | (t0, _) :: _ =>
      match element_type (upper t0) with
      | None => Err AttributeError
      | Some parts =>
        do key <- (do x <- getitem o (u "key"); as_str x);
        do '(ds, enc, i1) <- enc_parts E fresh col key nul pk parts tys i;
        do fz <- (do x <- getitem o (u "fuzzy"); Ok (truthy x));
        do sk <- get_or_empty o (u "sm4");
        do '(ds2, enc2, i2) <- option_part fz fresh FUZ fuzzy_type_fixed nul
                                 (default_text col (sm4_default E sk)) i1;
        do ar <- flag o (u "arithmetic");
        do hk <- get_or_empty o (u "homomorphic_key");
        do '(ds3, enc3, i3) <- option_part ar fresh ARI arithmetic_type_fixed nul
                                 (default_text col (homo_default E name hk)) i2;
        do homo <- (if ar then do h <- homo_meta hk; Ok (Some h) else Ok None);
        do s4 <- flag o (u "sm4");
        do s4k <- get_or_empty o (u "sm4_key");
        do '(ds4, enc4, i4) <- option_part s4 fresh SM4C sm4_type_fixed nul
                                 (default_text col (sm4_default E s4k)) i3;
        do sm4 <- (if s4 then do k <- as_str s4k; Ok (Some k) else Ok None);
        Ok (ds ++ ds2 ++ ds3 ++ ds4, name,
            {| c_plain := false; c_type := last (map fst tys) []; c_key := key;
               c_enc := enc ++ enc2 ++ enc3 ++ enc4; c_homo := homo; c_sm4 := sm4; c_comment := comment |}, i4)
      end
    end
  end.

(** The loop over the columns, L24-125; a repeated name replaces the entry of columns_kv. *)
Fixpoint create_columns (E : env) (fresh : nat -> pystr) (encrypted : dict json) (cols : list json)
    (kv : dict colmeta) (i : nat) : res (list decl * dict colmeta * nat) :=
  match cols with
  | [] => Ok ([], kv, i)
  | col :: r =>
    do '(ds, name, c, j) <- create_column E fresh encrypted col i;
    do '(ds', kv', k) <- create_columns E fresh encrypted r (dset kv name c) j;
    Ok (ds ++ ds', kv', k)
  end.

(** get_enc_columns, L151-159, with cipher='symmetric': the physical name of each column.  An
    unknown column has no 'enc-cols' (L157). *)
Definition enc_column (cols : dict colmeta) (v : json) : res pystr :=
  match v with
  | JStr i =>
    match dget cols i with
    | Some c => if c_plain c then Ok i else dgetE (c_enc c) SYM
    | None => Err KeyError
    end
  | JList _ | JDict _ => Err TypeError
  | _ => Err KeyError
  end.
Definition get_enc_columns (columns : json) (cols : dict colmeta) : res (list pystr) :=
  mapM (enc_column cols) (match columns with JList l => l | x => [x] end).

(** get_reference_phrase, L175-179: [meta] is Delta().meta[db] (KeyError when the database is
    unknown). *)
Definition reference_phrase (reference : json) (meta : option dbmeta) : res pystr :=
  do M <- (match meta with Some M => Ok M | None => Err KeyError end);
  do t <- getitem reference (u "table");
  do m <- lookup M t;
  do cs <- getitem reference (u "columns");
  do enc <- get_enc_columns cs (t_cols m);
  Ok (u " REFERENCES " ++ t_anon m ++ u "(" ++ join (u ",") enc ++ u ")").

(** get_constraint_key, L162-172. *)
Definition constraint_key (con : json) (cols : dict colmeta) (meta : option dbmeta) : res pystr :=
  do n <- get con (u "name");
  do cname <- (if truthy n then do s <- as_str n; Ok (u "CONSTRAINT " ++ s ++ u " ") else Ok []);
  do pk <- get con (u "primary_key");
  do fk <- contains con (u "foreign_key");
  do cons <- (if fk then getitem con (u "foreign_key") else Ok pk);
  match cons with
  | JNull => Err AssertionError
  | _ =>
    do ref <- get cons (u "references");
    do phrase <- (if truthy ref then reference_phrase ref meta else Ok []);
    do columns <- get cons (u "columns");
    do enc <- get_enc_columns columns cols;
    Ok (cname ++ (if truthy ref then u "FOREIGN KEY" else u "PRIMARY KEY") ++
        u "(" ++ join (u ",") enc ++ u ")" ++ phrase)
  end.

(** ['X = ' + json.get(k) if json.get(k) else ''], L134-136. *)
Definition table_option (j : json) (txt : string) (k : string) : res pystr :=
  do v <- get j (u k);
  if truthy v then do s <- as_str v; Ok (u txt ++ s) else Ok [].

(** rewrite_table, L12-148, up to the update of the metadata: the text, the name of the table and
    its metadata.  [anon] is the name drawn at L126. *)
Definition rewrite_table (E : env) (fresh : nat -> pystr) (anon : pystr) (meta : option dbmeta)
    (j : json) (encrypted : dict json) : res (pystr * pystr * tmeta) :=
  do b <- contains j (u "create table");
  if negb b then Err Generic else
  do ct <- getitem j (u "create table");
  do name <- (do x <- getitem ct (u "name"); as_str x);
  do columns <- getitem ct (u "columns");
  do '(ds, kv, _) <- create_columns E fresh encrypted (match columns with JList l => l | x => [x] end) [] 0%nat;
  do cons <- get ct (u "constraint");
  do cl <- (match cons with
            | JNull => Ok []
            | JDict _ => Ok [cons]
            | x => iter x
            end);
  do ks <- mapM (fun c => constraint_key c kv meta) cl;
  do engine <- table_option j "ENGINE = " "engine";
  do auto <- table_option j "AUTO_INCREMENT = " "auto_increment";
  do coll <- table_option j "COLLATE = " "collate";
  do com <- (do b <- contains j (u "comment");
             if b then do c <- getitem j (u "comment"); get c (u "literal") else Ok JNull);
  Ok (u "CREATE TABLE IF NOT EXISTS " ++ anon ++ u "(" ++
      join (u ",") (map (fun d => fst d ++ u " " ++ snd d) ds) ++
      match ks with [] => [] | _ => u "," ++ join (u ",") ks end ++ u ")" ++
      engine ++ auto ++ coll ++ u ";",
      name,
      {| t_anon := anon; t_cols := kv; t_comment := match com with JStr s => Some s | _ => None end |}).
