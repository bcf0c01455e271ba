(** Statement rewriting: scheduler/handers/clause/*.py, scheduler/handers/rewrite_hander.py, and
    the decryption of results, scheduler/handers/decrypt_handler.py.

    The model starts from the parsed statement (a [json]) and ends with the rewritten [json]; the
    text parser is not modelled, the formatter is modelled separately. *)
From Coq Require Import String Ascii List NArith ZArith QArith Bool.
From Verif Require Import Base CryptoModel FuzzyModel OpeModel EncodeModel PaillierModel JsonModel.
Import ListNotations.
Open Scope Z_scope.

(** ** Metadata of a database: scheduler/handers/table.py L29-146. *)

(** One entry of ['columns'] (L29-36, L52-54, L78, L92, L106-107, L121-125).  [c_enc] is
    ['enc-cols']: cipher name to physical column.  [c_homo]: outer None when ['homomorphic_key']
    is absent, inner None when it is "" (L107). *)
Record colmeta := {
  c_plain : bool;
  c_type : pystr;
  c_key : pystr;
  c_enc : dict pystr;
  c_homo : option (option (Z * Z));
  c_sm4 : option pystr;
  c_comment : option pystr }.

(** One table (L140-146). *)
Record tmeta := { t_anon : pystr; t_cols : dict colmeta; t_comment : option pystr }.
Definition dbmeta := dict tmeta.

(** What the code takes from its surroundings: the ciphers, the alnum table of Python, the
    hypergeometric sampler and key stream of the order-preserving cipher, the random number drawn
    for each homomorphic encryption, [str()] of values other than strings and integers, and
    [eval] (encrypt.py L75) on texts other than decimal integers (None when it raises). *)
Record env := {
  e_P : prim;
  e_alnum : N -> bool;
  e_hyper : sampler;
  e_ks : list Init.Byte.byte -> pystr -> nat -> Init.Byte.byte;
  e_rnd : pystr -> Z;
  e_repr : json -> pystr;
  e_eval : pystr -> option sqlv }.

Definition env_ope (E : env) : pystr -> Z -> res Z := opec_encrypt (e_hyper E) (e_ks E) (e_P E).
Definition env_ope_dec (E : env) : pystr -> Z -> res Z := opec_decrypt (e_hyper E) (e_ks E) (e_P E).

Definition SYM := u "symmetric".
Definition OPEC := u "order-preserving".
Definition FUZ := u "fuzzy".
Definition ARI := u "arithmetic".
Definition SM4C := u "sm4".
Definition PLAIN := u "plaintext".

(** [str(v)] *)
Definition py_str (E : env) (v : json) : pystr :=
  match v with
  | JStr s => s
  | JInt z => str_int z
  | JBool true => u "True"
  | JBool false => u "False"
  | JNull => u "None"
  | _ => e_repr E v
  end.

(** [int(v)]; on texts see Base.parse_int. *)
Definition py_int (v : json) : res Z :=
  match v with
  | JInt z => Ok z
  | JBool b => Ok (if b then 1 else 0)
  | JFloat q => Ok (trunc q)
  | JStr s => parse_int s
  | _ => Err TypeError
  end.

(** The number a value stands for in arithmetic; a string or list times 10**12 exhausts memory
    (reported as [Generic]). *)
Definition py_num (v : json) : res Q :=
  match v with
  | JInt z => Ok (inject_Z z)
  | JBool b => Ok (if b then 1%Q else 0%Q)
  | JFloat q => Ok q
  | JStr _ | JList _ => Err Generic
  | _ => Err TypeError
  end.

(** Truth value of a parsed value in [if v:]. *)
Definition truthy (v : json) : bool :=
  match v with
  | JNull => false
  | JBool b => b
  | JInt z => negb (z =? 0)
  | JFloat q => negb (Qeq_bool q 0)
  | JStr s => match s with [] => false | _ => true end
  | JList l => match l with [] => false | _ => true end
  | JDict d => match d with [] => false | _ => true end
  end.

(** ** clause/utils.py *)

(** get_table, L2-11. *)
Definition table_words : list pystr :=
  [u "from"; u "join"; u "left join"; u "right join"; u "inner join"; u "value"].
Fixpoint get_table (k_word : pystr) (v : json) : option pystr :=
  match v with
  | JStr s => if smem k_word table_words then Some s else None
  | JDict d => (fix go d := match d with
                            | [] => None
                            | (k, x) :: r => match get_table k x with
                                             | Some t => Some t
                                             | None => go r
                                             end
                            end) d
  | _ => None
  end.

(** get_nest_table, L14-20, on a dict; the dict itself when nothing is found. *)
Fixpoint nest_search (d : list (pystr * json)) : option pystr :=
  match d with
  | [] => None
  | (k, v) :: r => match get_table k v with Some t => Some t | None => nest_search r end
  end.
Definition get_nest_table (d : list (pystr * json)) : json :=
  match nest_search d with Some t => JStr t | None => JDict d end.

(** The loop [for key in keys: if key in ti: ti = ti[key]] (sql_select.py L29-31, utils.py
    L26-28). *)
Fixpoint descend (keys : list pystr) (ti : json) : res json :=
  match keys with
  | [] => Ok ti
  | k :: r => do b <- contains ti k;
              if b then do x <- getitem ti k; descend r x else descend r ti
  end.

(** get_origin_table, utils.py L23-41, without recursion into lists: a FROM list is flat.  The
    first part handles a string, the second a dict. *)
Definition origin_str (name s : pystr) : json := if seqb name s then JStr s else JStr [].
Definition origin_keys : list pystr := [u "join"; u "inner join"; u "left join"; u "right join"].
Definition origin_item (name : pystr) (t : json) : res json :=
  match t with
  | JStr s => Ok (origin_str name s)
  | JDict _ =>
    do t' <- descend origin_keys t;
    match t' with
    | JStr s => Ok (origin_str name s)
    | JDict d => match dget d (u "name") with
                 | Some (JStr n) => if seqb n name then Ok (get_nest_table d) else Ok (JStr [])
                 | _ => Ok (JStr [])
                 end
    | _ => Ok (JStr [])
    end
  | _ => Ok (JStr [])
  end.
(** L34-37: the last match wins. *)
Fixpoint origin_list (name : pystr) (l : list json) (acc : json) : res json :=
  match l with
  | [] => Ok acc
  | t :: r => do x <- origin_item name t; origin_list name r (if truthy x then x else acc)
  end.
Definition get_origin_table (name : pystr) (table : json) : res json :=
  match table with
  | JList l => origin_list name l (JStr [])
  | _ => origin_item name table
  end.

(** ** clause/rewriter.py *)

(** split_table_col, L8-11: needs a string with at least one dot. *)
Definition split_table_col (v : json) : res (pystr * pystr) :=
  match v with
  | JStr s => match split DOT s with
              | a :: b :: _ => Ok (a, b)
              | _ => Err IndexError
              end
  | _ => Err AttributeError
  end.

(** ** clause/sql_where.py *)

(** L13-18: the columns of a known table, None otherwise. *)
Definition where_cols (M : dbmeta) (table : json) : option (dict colmeta) :=
  match lookup M table with
  | Ok t => Some (t_cols t)
  | Err _ => None
  end.

(** [if col:] (L22) *)
Definition cols_truthy (c : option (dict colmeta)) : bool :=
  match c with None | Some [] => false | _ => true end.

(** [col[v0]] *)
Definition col_at (c : option (dict colmeta)) (v0 : json) : res colmeta :=
  match c with
  | Some d => lookup d v0
  | None => Err TypeError
  end.

(** L55-89: a constant.  Strings under a cipher other than fuzzy and symmetric, integers under
    a cipher other than those three, and all other values are returned as they are. *)
Definition where_leaf (E : env) (cipher key : pystr) (v : json) : res json :=
  match v with
  | JInt _ | JBool _ =>
    if seqb cipher FUZ then do t <- fuzzy_pattern (e_alnum E) (e_P E) key (py_str E v); Ok (JStr t)
    else if seqb cipher SYM then do t <- aes_encrypt (e_P E) key (py_str E v); Ok (JStr t)
    else if seqb cipher OPEC then do z <- py_int v; do c <- env_ope E key z; Ok (JInt c)
    else Ok v
  | JStr s =>
    if seqb cipher FUZ then do t <- fuzzy_pattern (e_alnum E) (e_P E) key s; Ok (JStr t)
    else if seqb cipher SYM then do t <- aes_encrypt (e_P E) key s; Ok (JStr t)
    else Ok v
  | _ => Ok v
  end.

(** L29-38: an equation between columns of two tables. *)
Definition where_join (M : dbmeta) (cipher : pystr) (v0 v1 : json) : res json :=
  do '(t0, c0) <- split_table_col v0;
  do '(t1, c1) <- split_table_col v1;
  do m0 <- dgetE M t0; do k0 <- dgetE (t_cols m0) c0;
  do m1 <- dgetE M t1; do k1 <- dgetE (t_cols m1) c1;
  do n0 <- (if c_plain k0 then Ok c0 else dgetE (c_enc k0) cipher);
  do n1 <- (if c_plain k1 then Ok c1 else dgetE (c_enc k1) cipher);
  Ok (JDict [(u "eq", JList [JStr (t_anon m0 ++ DOT :: n0); JStr (t_anon m1 ++ DOT :: n1)])]).

(** SQLWhere.rewrite, L12-89.  [Some r]: the loop body returned; [None]: fall through to the
    next key, and after the last key to L89. *)
Fixpoint where_rw (E : env) (M : dbmeta) (table : json) (cipher key : pystr) (v : json)
    {struct v} : res json :=
  let col := where_cols M table in
  (* [self.rewrite(x[1], ...)]: the second element of x *)
  let second (x : json) (ci ke : pystr) :=
    match x with
    | JList (_ :: b :: _) => where_rw E M table ci ke b
    | JStr (_ :: b :: _) => where_leaf E ci ke (JStr [b])
    | JList _ | JStr _ => Err IndexError
    | JDict _ => Err KeyError
    | _ => Err TypeError
    end in
  match v with
  | JDict d =>
    (fix items (d : list (pystr * json)) : res json :=
       match d with
       | [] => Ok v
       | (k, x) :: r =>
         if seqb k (u "eq") then (* L21-38 *)
           if cols_truthy col then
             do v0 <- index x 0;
             do c <- col_at col v0;
             if c_plain c then items r
             else do n <- dgetE (c_enc c) SYM;
                  do w <- second x SYM (c_key c);
                  Ok (JDict [(k, JList [JStr n; w])])
           else do v0 <- index x 0; do v1 <- index x 1; where_join M cipher v0 v1
         else if smem k [u "gt"; u "lt"; u "gte"; u "lte"] then (* L40-44 *)
           do v0 <- index x 0;
           do c <- col_at col v0;
           if c_plain c then items r
           else if seqb (c_type c) (u "int") then
             do n <- dgetE (c_enc c) OPEC;
             do w <- second x OPEC (c_key c);
             Ok (JDict [(k, JList [JStr n; w])])
           else items r
         else if seqb k (u "like") then (* L45-50 *)
           do v0 <- index x 0;
           do c <- col_at col v0;
           if c_plain c then items r
           else do n <- dgetE (c_enc c) FUZ;
                do w <- second x FUZ (c_key c);
                Ok (JDict [(k, JList [JStr n; w])])
         else if smem k [u "and"; u "or"] then (* L51-52; utils/keywords.py L13 *)
           match x with
           | JList l => do l' <- mapM (where_rw E M table cipher []) l;
                        Ok (JDict [(k, JList l')])
           | _ => do l <- iter x;
                  do l' <- mapM (where_leaf E cipher []) l;
                  Ok (JDict [(k, JList l')])
           end
         else if seqb k (u "literal") then (* L53-54 *)
           do w <- where_rw E M table cipher key x; Ok (JDict [(k, w)])
         else items r
       end) d
  | _ => where_leaf E cipher key v
  end.

(** ** clause/sql_values.py *)

(** encrypt.encode, encrypt.py L63-69. *)
Definition encode (v : json) (ty : pystr) : res json :=
  if seqb ty (u "float") then do q <- py_num v; Ok (JInt (encode_float q))
  else if seqb ty (u "double") then do q <- py_num v; do z <- encode_double q; Ok (JInt z)
  else Ok v.

(** [{'value': v}] and [{'value': {'literal': s}}] *)
Definition value_of (v : json) : json := JDict [(u "value", v)].
Definition literal_of (s : pystr) : json := JDict [(u "literal", JStr s)].

(** encrypt_value, L20-33; a cipher with no branch (sm4) yields None. *)
Definition encrypt_value (E : env) (c : colmeta) (col : pystr) (v : json) (enc : pystr) : res json :=
  do v1 <- match v with JDict d => dgetE d (u "literal") | _ => Ok v end;
  do v2 <- encode v1 (c_type c);
  if seqb enc OPEC then
    do z <- py_int v2; do e <- env_ope E (c_key c) z; Ok (value_of (JInt e))
  else if seqb enc SYM then
    do t <- aes_encrypt (e_P E) (c_key c) (py_str E v2); Ok (value_of (literal_of t))
  else if seqb enc FUZ then
    do t <- fuzzy_encrypt (e_alnum E) (e_P E) (c_key c) (py_str E v2); Ok (value_of (literal_of t))
  else if seqb enc ARI then
    match c_homo c with
    | None => Err KeyError
    | Some None => do z <- py_int v2; Err AttributeError
    | Some (Some (p, q)) =>
      do z <- py_int v2; do t <- homo_encrypt p q (e_rnd E col) z; Ok (value_of (literal_of t))
    end
  else Ok JNull.

(** rewrite, L9-18: one column of the INSERT. *)
Definition values_col (E : env) (t : tmeta) (colj value : json) : res (list json) :=
  do c <- lookup (t_cols t) colj;
  if c_plain c then Ok [value]
  else mapM (fun enc => do v <- getitem value (u "value");
                        match colj with
                        | JStr col => encrypt_value E c col v enc
                        | _ => Err KeyError
                        end) (dkeys (c_enc c)).
(** [zip(json['columns'], values)] stops at the shorter list. *)
Fixpoint values_loop (E : env) (t : tmeta) (cols vals : list json) : res (list json) :=
  match cols, vals with
  | c :: cr, v :: vr => do a <- values_col E t c v; do b <- values_loop E t cr vr; Ok (a ++ b)
  | _, _ => Ok []
  end.
Definition values_rw (E : env) (M : dbmeta) (table : json) (source values : json) : res json :=
  do t <- lookup M table;
  do cj <- getitem source (u "columns");
  do cols <- iter cj;
  do vals <- iter values;
  do l <- values_loop E t cols vals;
  Ok (JList l).

(** ** clause/sql_columns.py L8-17 *)
Definition columns_col (t : tmeta) (colj : json) : res (list json) :=
  do c <- lookup (t_cols t) colj;
  if c_plain c then Ok [colj] else Ok (map JStr (dvals (c_enc c))).
Definition columns_rw (M : dbmeta) (table : json) (columns : json) : res json :=
  do t <- lookup M table;
  do cols <- iter columns;
  do l <- mapM (columns_col t) cols;
  Ok (JList (concat l)).

(** ** clause/sql_set.py L10-19 *)
Fixpoint set_enc (E : env) (M : dbmeta) (table v : json) (key : pystr) (encs : dict pystr)
    (acc : dict json) : res (dict json) :=
  match encs with
  | [] => Ok acc
  | (ci, n) :: r => do w <- where_rw E M table ci key v; set_enc E M table v key r (dset acc n w)
  end.
Fixpoint set_loop (E : env) (M : dbmeta) (table : json) (t : tmeta) (items : list (pystr * json))
    (acc : dict json) : res (dict json) :=
  match items with
  | [] => Ok acc
  | (k, v) :: r =>
    do c <- dgetE (t_cols t) k;
    do acc' <- (if c_plain c then Ok (dset acc k v)
                else set_enc E M table v (c_key c) (c_enc c) acc);
    set_loop E M table t r acc'
  end.
Definition set_rw (E : env) (M : dbmeta) (table set_value : json) : res json :=
  do t <- lookup M table;
  match set_value with
  | JDict d => do r <- set_loop E M table t d []; Ok (JDict r)
  | _ => Err AttributeError
  end.

(** ** clause/function.py L8-13 *)
Definition orderby_rw (M : dbmeta) (table v : json) : res json :=
  do t <- lookup M table;
  do n <- getitem v (u "value");
  do c <- lookup (t_cols t) n;
  if c_plain c then Ok v
  else do e <- dgetE (c_enc c) OPEC; Ok (JDict [(u "value", JStr e)]).

(** ** clause/anonymous_table.py L8-9 *)
Definition anonymous_rw (M : dbmeta) (table : json) : res json :=
  do t <- lookup M table; Ok (JStr (t_anon t)).

(** ** clause/sql_drop.py L8-12 *)
Definition drop_rw (M : dbmeta) (v : json) : res json :=
  match v with
  | JDict d => do l <- mapM (fun kv => do t <- lookup M (snd kv); Ok (fst kv, JStr (t_anon t))) d;
               Ok (JDict l)
  | _ => Err AttributeError
  end.

(** ** clause/sql_from.py *)

Definition join_list : list pystr := [u "inner join"; u "join"; u "left join"; u "right join"].

(** join, L45-55.  A key occurs once in a Python dict, so [result[key] = ...] appends. *)
Definition from_join (E : env) (M : dbmeta) (t : json) : res json :=
  match t with
  | JDict d =>
    do l <- mapM (fun kv =>
              if smem (fst kv) join_list then do m <- lookup M (snd kv); Ok [(fst kv, JStr (t_anon m))]
              else if seqb (fst kv) (u "on") then
                do w <- where_rw E M (JList []) SYM [] (snd kv); Ok [(fst kv, w)]
              else Ok []) d;
    Ok (JDict (concat l))
  | _ => Err Generic
  end.

(** rewrite, L13-43; for a dict the function ends without a return. *)
Definition from_rw (E : env) (M : dbmeta) (table : json) : res json :=
  match table with
  | JList l => do r <- mapM (fun t => match t with
                                      | JStr s => do m <- dgetE M s; Ok (JStr (t_anon m))
                                      | _ => from_join E M t
                                      end) l;
               Ok (JList r)
  | JStr s => do m <- dgetE M s; Ok (JStr (t_anon m))
  | _ => Ok JNull
  end.

(** ** clause/sql_select.py *)

(** select_columns, select_types, select_state (L10-12). *)
Record sstate := { s_cols : list pystr; s_types : list pystr; s_state : list pystr }.
Definition s_empty : sstate := {| s_cols := []; s_types := []; s_state := [] |}.
Definition s_push (st : sstate) (c t s : pystr) : sstate :=
  {| s_cols := s_cols st ++ [c]; s_types := s_types st ++ [t]; s_state := s_state st ++ [s] |}.

(** [name + '.' if name else name] *)
Definition dotted (name : pystr) : pystr := match name with [] => [] | _ => name ++ [DOT] end.

(** [name + ...] where name comes from the statement *)
Definition as_name (v : json) : res pystr :=
  match v with JStr s => Ok s | _ => Err TypeError end.

(** L27-42: the prefix of the physical names of one FROM item; [many]: more than one item. *)
Definition star_prefix (M : dbmeta) (many : bool) (single : tmeta) (item : json) : res pystr :=
  match item with
  | JDict _ =>
    do ti <- descend join_list item;
    match ti with
    | JDict d =>
      match dget d (u "name") with
      | Some n => if truthy n then do s <- as_name n; Ok (dotted s)
                  else Ok (if many then dotted (t_anon single) else [])
      | None => Ok (if many then dotted (t_anon single) else [])
      end
    | _ => do t <- lookup M ti; Ok (dotted (t_anon t))
    end
  | _ => Ok (if many then dotted (t_anon single) else [])
  end.

(** L43-51: one column. *)
Definition star_col (cipher prefix lprefix : pystr) (k : pystr) (v : colmeta) (st : sstate)
    : res (json * sstate) :=
  if c_plain v then Ok (JStr (prefix ++ k), s_push st (lprefix ++ k) (c_type v) PLAIN)
  else do n <- dgetE (c_enc v) cipher;
       Ok (JStr (prefix ++ n), s_push st (lprefix ++ k) (c_type v) cipher).

Fixpoint star_cols (M : dbmeta) (cipher : pystr) (many : bool) (single : pystr) (m : tmeta) (item : json)
    (cols : dict colmeta) (st : sstate) : res (list json * sstate) :=
  match cols with
  | [] => Ok ([], st)
  | (k, v) :: r =>
    do prefix <- star_prefix M many m item;
    do '(j, st1) <- star_col cipher prefix (if many then single ++ [DOT] else []) k v st;
    do '(js, st2) <- star_cols M cipher many single m item r st1;
    Ok (j :: js, st2)
  end.

(** L20-52. *)
Fixpoint star_tables (M : dbmeta) (cipher : pystr) (many : bool) (items : list json) (st : sstate)
    : res (list json * sstate) :=
  match items with
  | [] => Ok ([], st)
  | item :: r =>
    let single := match item with JDict d => get_nest_table d | _ => item end in
    do m <- lookup M single;
    match single with
    | JStr s =>
      do '(js, st1) <- star_cols M cipher many s m item (t_cols m) st;
      do '(js', st2) <- star_tables M cipher many r st1;
      Ok (js ++ js', st2)
    | _ => Err KeyError
    end
  end.
Definition select_star (M : dbmeta) (table : json) (cipher : pystr) (st : sstate) : res (json * sstate) :=
  let cache := match table with JList l => l | _ => [table] end in
  do '(js, st') <- star_tables M cipher (Nat.ltb 1 (length cache)) cache st;
  Ok (JList js, st').

(** [t_name, v = v.split('.') if '.' in v else ('', v)] (L77, L92) *)
Definition split_dot (s : pystr) : res (pystr * pystr) :=
  if has_char DOT s then
    match split DOT s with [a; b] => Ok (a, b) | _ => Err ValueError end
  else Ok ([], s).

(** L60-101: a column name. *)
Definition select_name (M : dbmeta) (table : json) (cipher s : pystr) (st : sstate) : res (json * sstate) :=
  match table with
  | JList _ =>
    do '(tn, cn) <- split_table_col (JStr s);
    do true_table <- get_origin_table tn table;
    do m <- lookup M true_table;
    do c <- dgetE (t_cols m) cn;
    let prefix := match true_table with
                  | JStr t => if seqb tn t then t_anon m ++ [DOT] else tn
                  | _ => tn
                  end in
    if c_plain c then Ok (JStr (prefix ++ cn), s_push st s (c_type c) PLAIN)
    else do n <- dgetE (c_enc c) cipher; Ok (JStr (prefix ++ n), s_push st s (c_type c) cipher)
  | _ =>
    let single := match table with JDict d => get_nest_table d | _ => table end in
    do '(tn, cn) <- split_dot s;
    do m <- lookup M single;
    do c <- dgetE (t_cols m) cn;
    if c_plain c then Ok (JStr (dotted tn ++ cn), s_push st s (c_type c) PLAIN)
    else do n <- dgetE (c_enc c) cipher; Ok (JStr (dotted tn ++ n), s_push st s (c_type c) cipher)
  end.

(** L20 and L60: a string is "*" or a column name. *)
Definition select_str (M : dbmeta) (table : json) (cipher s : pystr) (st : sstate) : res (json * sstate) :=
  if seqb s (u "*") then select_star M table cipher st else select_name M table cipher s st.

(** scheduler/schema/metadata.py L86-91. *)
Definition func_ciphers : dict pystr :=
  [(u "max", OPEC); (u "min", OPEC); (u "sum", ARI); (u "avg", ARI)].

(** [l[-i]] *)
Definition from_end (l : list pystr) (i : nat) : res pystr :=
  match nth_error (rev l) (pred i) with Some x => Ok x | None => Err IndexError end.

(** L118-129: the key of an operand of a homomorphic addition. *)
Definition homo_key_of (M : dbmeta) (table v : json) : res (option (Z * Z)) :=
  do b <- contains v [DOT];
  do c <- (if b then
             match v with
             | JStr s => do '(t, c) <- split_dot s; do o <- get_origin_table t table;
                         do m <- lookup M o; dgetE (t_cols m) c
             | _ => Err AttributeError
             end
           else do m <- lookup M table; lookup (t_cols m) v);
  match c_homo c with Some k => Ok k | None => Err KeyError end.

(** [p0 == p1] *)
Definition homo_key_eqb (a b : option (Z * Z)) : bool :=
  match a, b with
  | Some (p, q), Some (p', q') => (p =? p') && (q =? q')
  | None, None => true
  | _, _ => false
  end.

(** L110-132, after both operands are rewritten. *)
Definition select_add (M : dbmeta) (table v0 v1 : json) (st : sstate) : res (list (pystr * json) * sstate) :=
  do ci <- from_end (s_state st) 1;
  let st1 := {| s_cols := s_cols st; s_types := removelast (s_types st);
                s_state := removelast (s_state st) |} in
  do a <- from_end (s_state st1) 1;
  do b <- from_end (s_state st1) 2;
  if negb (seqb a b && smem ci [PLAIN; ARI]) then Err AssertionError
  else if seqb ci PLAIN then Ok ([(u "add", JList [v0; v1])], st1)
  else do p0 <- homo_key_of M table v0;
       do p1 <- homo_key_of M table v1;
       if negb (homo_key_eqb p0 p1) then Err AssertionError
       else match p1 with
            | None => Err IndexError
            | Some (p, _) => Ok ([(u "mod", JList [JDict [(u "mul", JList [v0; v1])];
                                                   JInt ((p * p) ^ 2)])], st1)
            end.

(** [select_val == {'count': '*'}] *)
Definition is_count_star (v : json) : bool :=
  match v with
  | JDict [(k, JStr s)] => seqb k (u "count") && seqb s (u "*")
  | _ => false
  end.

(** SQLSelect.rewrite, L14-135.  A value of any other type falls through to the end and yields
    None.  [result[k] = ...] never meets an existing key except ['mod'] of L132. *)
Fixpoint select_rw (M : dbmeta) (table : json) (cipher : pystr) (v : json) (st : sstate)
    {struct v} : res (json * sstate) :=
  match v with
  | JStr s => select_str M table cipher s st
  | JList l =>
    do '(js, st') <-
      (fix each (l : list json) (st : sstate) : res (list json * sstate) :=
         match l with
         | [] => Ok ([], st)
         | x :: r =>
           do '(j, st1) <-
             match x with
             | JDict d =>
               (fix find (d : list (pystr * json)) : res (json * sstate) :=
                  match d with
                  | [] => Err KeyError
                  | (k, y) :: d' => if seqb k (u "value") then select_rw M table SYM y st else find d'
                  end) d
             | _ => Err TypeError
             end;
           do '(js, st2) <- each r st1;
           Ok (j :: js, st2)
         end) l st;
    Ok (JList js, st')
  | JDict d =>
    if is_count_star v then Ok (v, s_push st (u "count") (u "int") PLAIN)
    else
      do '(r, st') <-
        (fix items (d : list (pystr * json)) (acc : dict json) (st : sstate) : res (dict json * sstate) :=
           match d with
           | [] => Ok (acc, st)
           | (k, x) :: r =>
             match dget func_ciphers k with
             | Some ci => do '(j, st1) <- select_rw M table ci x st; items r (dset acc k j) st1
             | None =>
               if seqb k (u "add") then
                 do '(v0, v1, st1) <-
                   match x with
                   | JList (a :: b :: _) =>
                     do '(v0, st1) <- select_rw M table SYM a st;
                     do '(v1, st2) <- select_rw M table SYM b st1;
                     Ok (v0, v1, st2)
                   | JStr (a :: b :: _) =>
                     do '(v0, st1) <- select_str M table SYM [a] st;
                     do '(v1, st2) <- select_str M table SYM [b] st1;
                     Ok (v0, v1, st2)
                   | JList _ | JStr _ => Err IndexError
                   | JDict _ => Err KeyError
                   | _ => Err TypeError
                   end;
                 do '(kvs, st2) <- select_add M table v0 v1 st1;
                 items r (dupdate acc kvs) st2
               else do '(j, st1) <- select_rw M table SYM x st; items r (dset acc k j) st1
             end
           end) d [] st;
      Ok (JDict r, st')
  | _ => Ok (JNull, st)
  end.

(** ** rewrite_hander.py *)

(** clause/__init__.py L31-38. *)
Definition table_key : list pystr :=
  [u "insert"; u "from"; u "select_distinct"; u "update"; u "delete"; u "drop"; u "alter"].
(** clause/__init__.py L11-29, in order. *)
Definition clause_keys : list pystr :=
  [u "insert"; u "delete"; u "update"; u "select"; u "select_distinct"; u "from"; u "where"; u "set";
   u "orderby"; u "columns"; u "drop"; u "query"; u "alter"; u "reference_table";
   u "add primary key"; u "add foreign key"; u "reference_feature"].

(** L32-37, L83-88. *)
Fixpoint find_table (keys : list pystr) (d : dict json) : res json :=
  match keys with
  | [] => Err Generic
  | k :: r => match dget d k with Some t => Ok t | None => find_table r d end
  end.

(** __inner__, L39-47 and L90-98, called on the statement with the key 'query'.  The functions
    registered for 'query' are {'select': SQLValues}. *)
Fixpoint inner (f : json -> res json) (v : json) (k : pystr) {struct v} : res json :=
  match v with
  | JDict d =>
    (fix find (e : list (pystr * json)) : res json :=
       match e with
       | [] => Err KeyError
       | (k', x) :: r =>
         if seqb k k' then
           match x with
           | JDict dx =>
             do dx' <- (fix each (dx : list (pystr * json)) : res (list (pystr * json)) :=
                          match dx with
                          | [] => Ok []
                          | (a, b) :: t => do b' <- inner f b a; do t' <- each t; Ok ((a, b') :: t')
                          end) dx;
             Ok (JDict (dset d k (JDict dx')))
           | _ => Ok JNull
           end
         else find r
       end) d
  | _ => if seqb k (u "select") then f v else Err KeyError
  end.

(** One clause other than a nested FROM: L67-71, L110-114.  The three last keys have SQLSelect
    objects of their own, whose recorded state is not used. *)
Definition clause_rw (E : env) (M : dbmeta) (table source : json) (k : pystr) (d : dict json)
    (x : json) (st : sstate) : res (json * sstate) :=
  let put (r : res json) := do y <- r; Ok (JDict (dset d k y), st) in
  if smem k [u "insert"; u "delete"; u "update"; u "alter"; u "reference_table"]
  then put (anonymous_rw M table)
  else if smem k [u "select"; u "select_distinct"] then
    do '(y, st') <- select_rw M table SYM x st; Ok (JDict (dset d k y), st')
  else if seqb k (u "from") then put (from_rw E M table)
  else if seqb k (u "where") then put (where_rw E M table SYM [] x)
  else if seqb k (u "set") then put (set_rw E M table x)
  else if seqb k (u "orderby") then put (orderby_rw M table x)
  else if seqb k (u "columns") then put (columns_rw M table x)
  else if seqb k (u "drop") then put (drop_rw M x)
  else if seqb k (u "query") then
    do j <- inner (values_rw E M table source) (JDict d) k; Ok (j, st)
  else (do '(y, _) <- select_rw M table SYM x s_empty; Ok (JDict (dset d k y), st)).

(** The loops L49-71 and L100-114 over the clauses; [nested] is the treatment of a FROM clause
    that holds a subquery. *)
Fixpoint clauses_rw (E : env) (M : dbmeta) (table source : json)
    (nested : json -> sstate -> res (option (json * sstate)))
    (keys : list pystr) (j : json) (st : sstate) : res (json * sstate) :=
  match keys with
  | [] => Ok (j, st)
  | k :: r =>
    match j with
    | JDict d =>
      match dget d k with
      | None => clauses_rw E M table source nested r j st
      | Some x =>
        do o <- (if seqb k (u "from") then nested x st else Ok None);
        do '(j', st') <- match o with
                         | Some (x', st') => Ok (JDict (dset d k x'), st')
                         | None => clause_rw E M table source k d x st
                         end;
        clauses_rw E M table source nested r j' st'
      end
    | _ => Err AttributeError
    end
  end.

(** L64-66, L107-109: [if 'value' in json[key]: json[key]['value'] = self.rewrite_clause(...)]. *)
Definition nested_value (rc : json -> sstate -> res (json * sstate)) (x : json) (st : sstate)
    : res (option (json * sstate)) :=
  do b <- contains x (u "value");
  if b then
    do y <- getitem x (u "value");
    do '(y', st') <- rc y st;
    match x with
    | JDict dx => Ok (Some (JDict (dset dx (u "value") y'), st'))
    | _ => Err TypeError
    end
  else Ok None.

(** rewrite_clause, L79-115.  [table = json[key]] is not copied here, but after the FROM clause
    has been rewritten in place no later clause looks at it except as an unknown table.
    The fuel bounds the nesting of subqueries; [rewrite_query] gives enough. *)
Fixpoint rewrite_clause (fuel : nat) (E : env) (M : dbmeta) (j : json) (st : sstate)
    : res (json * sstate) :=
  match fuel with
  | O => Err OutOfFuel
  | S n =>
    match j with
    | JStr s => do m <- dgetE M s; Ok (JStr (t_anon m), st)
    | JDict d =>
      do table <- find_table table_key d;
      clauses_rw E M table j (nested_value (rewrite_clause n E M)) clause_keys j st
    | _ => Err AttributeError
    end
  end.

(** L56-63: a FROM list; every item without 'value' is replaced by the item at its position of the
    rewritten list. *)
Fixpoint nested_list (E : env) (M : dbmeta) (table : json) (rc : json -> sstate -> res (json * sstate))
    (i : nat) (l : list json) (st : sstate) : res (list json * sstate) :=
  match l with
  | [] => Ok ([], st)
  | x :: r =>
    do o <- nested_value rc x st;
    do '(x', st') <- match o with
                     | Some p => Ok p
                     | None => do fl <- from_rw E M table; do y <- index fl i; Ok (y, st)
                     end;
    do '(r', st2) <- nested_list E M table rc (S i) r st';
    Ok (x' :: r', st2)
  end.

(** Nesting depth of a parsed value. *)
Fixpoint jdepth (j : json) : nat :=
  match j with
  | JList l => S ((fix go l := match l with [] => O | x :: r => Nat.max (jdepth x) (go r) end) l)
  | JDict d => S ((fix go d := match d with [] => O | (_, x) :: r => Nat.max (jdepth x) (go r) end) d)
  | _ => O
  end.

(** rewrite_query, L19-77, on the parsed statement: the rewritten statement, the FROM value used
    for decryption, and the recorded select columns, types and ciphers. *)
Definition rewrite_query (E : env) (M : dbmeta) (j : json) : res (json * json * sstate) :=
  match j with
  | JDict d =>
    do table <- find_table table_key d;
    let rc := rewrite_clause (S (jdepth j)) E M in
    do '(j', st) <-
      clauses_rw E M table j
        (fun x st => match x with
                     | JList l => do '(l', st') <- nested_list E M table rc 0 l st;
                                  Ok (Some (JList l', st'))
                     | _ => nested_value rc x st
                     end)
        clause_keys j s_empty;
    Ok (j', table, st)
  | _ => Err AttributeError
  end.

(** ** decrypt_handler.py *)

(** [eval(text)], encrypt.py L75: a decimal integer in canonical form stands for itself. *)
Definition py_eval (E : env) (s : pystr) : option sqlv :=
  match parse_int s with
  | Ok z => if seqb (str_int z) s then Some (VInt z) else e_eval E s
  | Err _ => e_eval E s
  end.

(** decode, encrypt.py L72-85.  [eval] on a number raises TypeError, which L76-77 swallow. *)
Definition decode (E : env) (v : sqlv) (ty : pystr) : res sqlv :=
  if smem ty [u "int"; u "float"; u "double"] then
    let w := match v with
             | VStr s => match py_eval E s with Some x => x | None => v end
             | _ => v
             end in
    if seqb ty (u "int") then Ok w
    else
      do q <- match w with
              | VInt z => Ok (inject_Z z)
              | VFloat q => Ok q
              | _ => Err TypeError
              end;
      if seqb ty (u "float") then Ok (VFloat (q / p10 12)%Q)
      else do r <- inverse_stretch q; Ok (VFloat (r / p10 12)%Q)
  else Ok v.

(** [int(enc)] and [str(enc)] on a cell (encrypt.py L275, L319). *)
Definition cell_int (v : sqlv) : res Z :=
  match v with
  | VInt z => Ok z
  | VFloat q => Ok (trunc q)
  | VStr s => parse_int s
  | VNull => Err TypeError
  end.
(** Simplification: [str()] of a non-integer number goes through [e_repr]. *)
Definition cell_str (E : env) (v : sqlv) : pystr :=
  match v with
  | VInt z => str_int z
  | VStr s => s
  | VFloat q => e_repr E (JFloat q)
  | VNull => u "None"
  end.

(** The dictionary lookup [decrypter[state]] and the call of [decrypt], L75-78.  State "fuzzy" or
    "sm4" is a KeyError. *)
Definition decrypt_state (E : env) (c : colmeta) (state : pystr) (v : sqlv) : res sqlv :=
  if seqb state SYM then
    match v with
    | VStr s => do t <- aes_decrypt (e_P E) (c_key c) s; Ok (VStr t)
    | _ => Err TypeError
    end
  else if seqb state OPEC then do z <- cell_int v; do r <- env_ope_dec E (c_key c) z; Ok (VInt r)
  else if seqb state ARI then
    match c_homo c with
    | Some (Some (p, q)) =>
      do h <- homo_decrypt p q (cell_str E v);
      Ok (match h with HInt z => VInt z | HFloat f => VFloat f end)
    | _ => Err AttributeError
    end
  else Err KeyError.

(** __decrypt__, L64-78. *)
Definition decrypt_cell (E : env) (M : dbmeta) (table : json) (name state : pystr) (v : sqlv) : res sqlv :=
  match v with
  | VNull => Ok VNull
  | _ =>
    do '(cn, t) <-
      (if has_char DOT name then
         match split DOT name with
         | [a; b] => do o <- get_origin_table a table; Ok (b, o)
         | _ => Err ValueError
         end
       else Ok (name, table));
    let t1 := match t with JDict d => get_nest_table d | _ => t end in
    do m <- lookup M t1;
    do c <- dgetE (t_cols m) cn;
    do x <- decrypt_state E c state v;
    decode E x (c_type c)
  end.

(** One row, L25-37: [zip] stops at the shortest of names, states and cells. *)
Fixpoint decrypt_row (E : env) (M : dbmeta) (table : json) (names states : list pystr) (row : list sqlv)
    : res (list sqlv) :=
  match names, states, row with
  | n :: nr, s :: sr, v :: vr =>
    do x <- (if seqb s PLAIN then Ok v else decrypt_cell E M table n s v);
    do xs <- decrypt_row E M table nr sr vr;
    Ok (x :: xs)
  | _, _, _ => Ok []
  end.

(** decrypt, L21-38. *)
Definition decrypt_result (E : env) (M : dbmeta) (table : json) (st : sstate) (rows : list (list sqlv))
    : res (list (list sqlv)) :=
  mapM (decrypt_row E M table (s_cols st) (s_state st)) rows.
