(** Vocabulary for the theorems about single clauses. *)
From Coq Require Import String Ascii List NArith ZArith QArith Bool.
From Verif Require Import Base CryptoModel FuzzyModel PaillierModel JsonModel RewriteModel SqlSpec EncSpec StmtSpec.
Import ListNotations.
Open Scope Z_scope.

(** [masked E m j j']: [j'] is [j] with every encrypted column replaced by a physical column and
    every constant compared with it replaced by a ciphertext of it under that column's key. *)
Inductive masked (kw : pystr -> bool) (E : env) (m : tmeta) : json -> json -> Prop :=
| masked_plain k x :
    (forall s, In s (refs kw (JDict [(k, x)])) -> plain_col m s) ->
    masked kw E m (JDict [(k, x)]) (JDict [(k, x)])
| masked_text c cm n s t :
    dget (t_cols m) c = Some cm -> c_plain cm = false -> dget (c_enc cm) SYM = Some n ->
    aes_encrypt (e_P E) (c_key cm) s = Ok t ->
    masked kw E m (JDict [(u "eq", JList [JStr c; lit s])]) (JDict [(u "eq", JList [JStr n; lit t])])
| masked_int c cm n z t :
    dget (t_cols m) c = Some cm -> c_plain cm = false -> dget (c_enc cm) SYM = Some n ->
    aes_encrypt (e_P E) (c_key cm) (str_int z) = Ok t ->
    masked kw E m (JDict [(u "eq", JList [JStr c; JInt z])]) (JDict [(u "eq", JList [JStr n; JStr t])])
| masked_order k c cm n z e :
    smem k [u "gt"; u "lt"; u "gte"; u "lte"] = true ->
    dget (t_cols m) c = Some cm -> c_plain cm = false -> dget (c_enc cm) OPEC = Some n ->
    env_ope E (c_key cm) z = Ok e ->
    masked kw E m (JDict [(k, JList [JStr c; JInt z])]) (JDict [(k, JList [JStr n; JInt e])])
| masked_like c cm n p t :
    dget (t_cols m) c = Some cm -> c_plain cm = false -> dget (c_enc cm) FUZ = Some n ->
    fuzzy_pattern (e_alnum E) (e_P E) (c_key cm) p = Ok t ->
    masked kw E m (JDict [(u "like", JList [JStr c; lit p])]) (JDict [(u "like", JList [JStr n; lit t])])
| masked_join k l l' :
    smem k [u "and"; u "or"] = true -> Forall2 (masked kw E m) l l' ->
    masked kw E m (JDict [(k, JList l)]) (JDict [(k, JList l')]).

(** The cells of one result column: [v] is shown for the stored [w]. *)
Definition shows (E : env) (m : tmeta) (name state : pystr) (v w : sqlv) : Prop :=
  (state = PLAIN /\ w = v) \/
  (In state [SYM; OPEC] /\ has_char DOT name = false /\
   exists c, dget (t_cols m) name = Some c /\ typed c v /\ enc_cell E c state v w).

(** Rows of two tables side by side, every column under its qualified name. *)
Definition qualify (t : pystr) (r : row) : row := map (fun kv => (t ++ DOT :: fst kv, snd kv)) r.
Definition side_by_side (t0 : pystr) (r0 : row) (t1 : pystr) (r1 : row) : row := qualify t0 r0 ++ qualify t1 r1.
Definition qname (t c : pystr) : json := JStr (t ++ DOT :: c).
Definition join_cond (t0 c0 t1 c1 : pystr) : json := JDict [(u "eq", JList [qname t0 c0; qname t1 c1])].

(** The keys under which a joined table stands in a FROM clause. *)
Definition join_words : list pystr := map u ["join"; "inner join"; "left join"; "right join"]%string.
(** FROM items: [from_item x name t]: the item [x] makes the table [t] known as [name]. *)
Inductive from_item : json -> pystr -> pystr -> Prop :=
| item_table t : from_item (JStr t) t t
| item_alias t a : from_item (JDict [(u "value", JStr t); (u "name", JStr a)]) a t
| item_join k t rest : In k join_words -> (forall x, In x (dkeys rest) -> ~ In x join_words) ->
    from_item (JDict ((k, JStr t) :: rest)) t t
| item_join_alias k t a rest : In k join_words -> (forall x, In x (dkeys rest) -> ~ In x join_words) ->
    from_item (JDict ((k, JDict [(u "value", JStr t); (u "name", JStr a)]) :: rest)) a t.

(** The pairs of physical column and value that the pair (k, v) of an INSERT becomes. *)
Definition pairs_ok (E : env) (m : tmeta) (kv : pystr * json) (ps : list (json * json)) : Prop :=
  exists c, dget (t_cols m) (fst kv) = Some c /\
  if c_plain c then ps = [(JStr (fst kv), val (snd kv))]
  else map fst ps = map JStr (dvals (c_enc c)) /\
       Forall2 (fun ci p => encrypt_value E c (fst kv) (snd kv) ci = Ok (snd p)) (dkeys (c_enc c)) ps.

(** A stored row [ws] shows the row [vs]. *)
Inductive shows_row (E : env) (m : tmeta) : list pystr -> list pystr -> list sqlv -> list sqlv -> Prop :=
| shows_nil : shows_row E m [] [] [] []
| shows_cons n ns s ss v vs w ws : shows E m n s v w -> shows_row E m ns ss vs ws ->
    shows_row E m (n :: ns) (s :: ss) (v :: vs) (w :: ws).

(** What a statement answers, without the database it leaves. *)
Definition answer (x : res (db * list (list sqlv))) : res (list (list sqlv)) := do y <- x; Ok (snd y).
(** The stored values of a column. *)
Definition column (t : tbl) (k : pystr) : list sqlv := map (fun r => cell r k) (tb_rows t).
(** The order of ORDER BY on integers: NULL first. *)
Definition ascending (a b : sqlv) : Prop :=
  match a, b with
  | VNull, _ => True
  | VInt x, VInt y => x <= y
  | _, _ => False
  end.
