(** Vocabulary for the statements about whole SQL texts: SELECT, INSERT, UPDATE and DELETE on one table as a database
    reads them from text and runs them, and the same statements as an application writes them.  The reader and the engine
    do not depend on the parsed JSON of /repo. *)
From Coq Require Import String Ascii List NArith ZArith QArith Bool.
From Verif Require Import Base CryptoModel FuzzyModel JsonModel RewriteModel LikeSpec SqlSpec EncSpec StmtSpec
  SqlLex SqlRead FmtModel FmtSpec ScrubModel OperModel OperSpec EndSpec.
Import ListNotations.
Open Scope Z_scope.

(** Constants: integers and texts.  What a SELECT returns: every column, columns, the number of rows, the largest or the
    smallest value of a column. *)
Inductive const := KInt (z : Z) | KText (s : pystr).
Inductive items := IAll | ICols (l : list pystr) | ICount | IExtreme (largest : bool) (c : pystr).
(** Statements with conditions of type [C].  [o]: column and whether the order is descending; [lim]: LIMIT and OFFSET. *)
Inductive cmd (C : Type) : Type :=
| Select (i : items) (t : pystr) (w : option C) (o : option (pystr * bool)) (lim : option (N * option N))
| Insert (t : pystr) (cs : list pystr) (vs : list const)
| Update (t : pystr) (sets : list (pystr * const)) (w : option C)
| Delete (t : pystr) (w : option C).
Arguments Select {C}. Arguments Insert {C}. Arguments Update {C}. Arguments Delete {C}.
Definition target {C} (q : cmd C) : pystr :=
  match q with Select _ t _ _ _ | Insert t _ _ | Update t _ _ | Delete t _ => t end.

(** ** What a statement does *)
Definition cval (k : const) : sqlv := match k with KInt z => VInt z | KText s => VStr s end.
Definition field (r : row) (c : pystr) : res sqlv := match dget r c with Some v => Ok v | None => Err DbError end.
(** The rows for which the condition is true. *)
Definition keeps (w : option tree) (r : row) : res bool :=
  match w with
  | None => Ok true
  | Some t => do x <- truth r t; Ok (match x with Some true => true | _ => false end)
  end.
Definition sorted (o : option (pystr * bool)) (rows : list row) : res (list row) :=
  match o with
  | None => Ok rows
  | Some (c, desc) =>
    if forallb (fun r => dmem r c) rows
    then Ok (sort_by (fun a b => if desc : bool then vle (cell b c) (cell a c) else vle (cell a c) (cell b c)) rows)
    else Err DbError
  end.
Definition cut {A} (lim : option (N * option N)) (l : list A) : list A :=
  match lim with
  | None => l
  | Some (n, k) => firstn (N.to_nat n) (skipn (match k with Some k => N.to_nat k | None => O end) l)
  end.
Definition returned (tb : tbl) (i : items) (o : option (pystr * bool)) (lim : option (N * option N)) (rows : list row)
    : res (list (list sqlv)) :=
  match i with
  | ICount => Ok (cut lim [[VInt (Z.of_nat (length rows))]])
  | IExtreme mx c =>
    do vs <- mapM (fun r => field r c) rows; Ok (cut lim [[extreme (if mx then fun a b => vle b a else vle) vs]])
  | IAll => do rs <- sorted o rows; mapM (fun r => mapM (field r) (tb_cols tb)) (cut lim rs)
  | ICols cs => do rs <- sorted o rows; mapM (fun r => mapM (field r) cs) (cut lim rs)
  end.
Fixpoint assigned (old : row) (sets : list (pystr * const)) (r : row) : res row :=
  match sets with
  | [] => Ok r
  | (c, k) :: rest => if dmem old c then assigned old rest (dset r c (cval k)) else Err DbError
  end.
Definition of_table (D : db) (t : pystr) : res tbl := match dget D t with Some tb => Ok tb | None => Err DbError end.
Definition with_rows (D : db) (t : pystr) (tb : tbl) (rows : list row) : db :=
  dset D t {| tb_cols := tb_cols tb; tb_rows := rows |}.
(** The database afterwards and the result. *)
Definition obey (D : db) (q : cmd tree) : res (db * list (list sqlv)) :=
  match q with
  | Select i t w o lim =>
    do tb <- of_table D t; do rows <- filterM (keeps w) (tb_rows tb);
    do out <- returned tb i o lim rows; Ok (D, out)
  | Insert t cs vs =>
    do tb <- of_table D t;
    if Nat.eqb (length cs) (length vs) && forallb (fun c => smem c (tb_cols tb)) cs
    then Ok (with_rows D t tb (tb_rows tb ++ [map (fun c => (c, cell (combine cs (map cval vs)) c)) (tb_cols tb)]), [])
    else Err DbError
  | Update t sets w =>
    do tb <- of_table D t;
    do rows <- mapM (fun r => do b <- keeps w r; if b : bool then assigned r sets r else Ok r) (tb_rows tb);
    Ok (with_rows D t tb rows, [])
  | Delete t w =>
    do tb <- of_table D t; do rows <- filterM (fun r => do b <- keeps w r; Ok (negb b)) (tb_rows tb);
    Ok (with_rows D t tb rows, [])
  end.

(** ** Reading a statement from the tokens of a text *)
Definition is_w (w : string) (t : token) : bool := match t with TWord x => seqb (map low x) (u w) | _ => false end.
(** Words of statements that are no names unless they are quoted. *)
Definition stmt_words : list pystr := map u
  ["select"; "from"; "where"; "order"; "by"; "asc"; "desc"; "limit"; "insert"; "into"; "values"; "update"; "set"; "delete"]%string.
Definition ident (t : token) : option pystr :=
  match t with
  | TWord x => if smem (map low x) stmt_words then None else name_tok t
  | _ => name_tok t
  end.
Fixpoint idents (ts : list token) : option (list pystr * list token) :=
  match ts with
  | [] => None
  | x :: r =>
    match ident x with
    | None => None
    | Some s =>
      match r with
      | c :: r' => if is_sym COMMA c then match idents r' with Some (l, q) => Some (s :: l, q) | None => None end
                   else Some ([s], r)
      | [] => Some ([s], [])
      end
    end
  end.
Definition constant (ts : list token) : option (const * list token) :=
  match ts with
  | TNum s :: r => Some (KInt (numval s), r)
  | TStr s :: r => Some (KText s, r)
  | TSym m :: TNum s :: r => if seqb m (u "-") then Some (KInt (- numval s), r) else None
  | _ => None
  end.
Fixpoint constants (n : nat) (ts : list token) : option (list const * list token) :=
  match n with
  | O => None
  | S n =>
    match constant ts with
    | None => None
    | Some (k, r) =>
      match r with
      | c :: r' => if is_sym COMMA c then match constants n r' with Some (l, q) => Some (k :: l, q) | None => None end
                   else Some ([k], r)
      | [] => Some ([k], [])
      end
    end
  end.
Fixpoint assignments (n : nat) (ts : list token) : option (list (pystr * const) * list token) :=
  match n with
  | O => None
  | S n =>
    match ts with
    | x :: e :: r =>
      match ident x, is_sym (u "=") e, constant r with
      | Some s, true, Some (k, r) =>
        match r with
        | c :: r' => if is_sym COMMA c
                     then match assignments n r' with Some (l, q) => Some ((s, k) :: l, q) | None => None end
                     else Some ([(s, k)], r)
        | [] => Some ([(s, k)], [])
        end
      | _, _, _ => None
      end
    | _ => None
    end
  end.
(** The list of a SELECT. *)
Definition read_items (ts : list token) : option (items * list token) :=
  match ts with
  | x :: p :: y :: q :: r =>
    if is_sym (u "*") x then Some (IAll, p :: y :: q :: r)
    else if is_sym LP p && is_sym RP q then
      if is_w "count" x && is_sym (u "*") y then Some (ICount, r)
      else match ident y with
           | Some c => if is_w "max" x then Some (IExtreme true c, r)
                       else if is_w "min" x then Some (IExtreme false c, r) else None
           | None => None
           end
    else match idents ts with Some (l, r) => Some (ICols l, r) | None => None end
  | x :: r => if is_sym (u "*") x then Some (IAll, r)
              else match idents ts with Some (l, r) => Some (ICols l, r) | None => None end
  | [] => None
  end.
(** The clauses that may follow. *)
Definition read_where (n : nat) (ts : list token) : option (option tree * list token) :=
  match ts with
  | w :: r => if is_w "where" w then match rd mysql_lev 14 n 14 r with Some (t, q) => Some (Some t, q) | None => None end
              else Some (None, ts)
  | [] => Some (None, [])
  end.
Definition read_order (ts : list token) : option (option (pystr * bool) * list token) :=
  match ts with
  | a :: b :: x :: r =>
    if is_w "order" a && is_w "by" b then
      match ident x with
      | Some c =>
        match r with
        | d :: r' => if is_w "desc" d then Some (Some (c, true), r')
                     else if is_w "asc" d then Some (Some (c, false), r') else Some (Some (c, false), r)
        | [] => Some (Some (c, false), [])
        end
      | None => None
      end
    else Some (None, ts)
  | _ => Some (None, ts)
  end.
Definition read_limit (ts : list token) : option (option (N * option N) * list token) :=
  match ts with
  | a :: TNum n :: r =>
    if is_w "limit" a then
      match r with
      | b :: TNum k :: r' => if is_w "offset" b then Some (Some (Z.to_N (numval n), Some (Z.to_N (numval k))), r')
                             else Some (Some (Z.to_N (numval n), None), r)
      | _ => Some (Some (Z.to_N (numval n), None), r)
      end
    else Some (None, ts)
  | _ => Some (None, ts)
  end.
Definition read_cmd (n : nat) (ts : list token) : option (cmd tree) :=
  match ts with
  | k :: r =>
    if is_w "select" k then
      match read_items r with
      | Some (i, f :: x :: r1) =>
        if is_w "from" f then
          match ident x, read_where n r1 with
          | Some t, Some (w, r2) =>
            match read_order r2 with
            | Some (o, r3) => match read_limit r3 with Some (lim, []) => Some (Select i t w o lim) | _ => None end
            | None => None
            end
          | _, _ => None
          end
        else None
      | _ => None
      end
    else if is_w "insert" k then
      match r with
      | a :: x :: p :: r1 =>
        if is_w "into" a && is_sym LP p then
          match ident x, idents r1 with
          | Some t, Some (cs, q :: v :: p' :: r2) =>
            if is_sym RP q && is_w "values" v && is_sym LP p' then
              match constants n r2 with
              | Some (vs, [q']) => if is_sym RP q' then Some (Insert t cs vs) else None
              | _ => None
              end
            else None
          | _, _ => None
          end
        else None
      | _ => None
      end
    else if is_w "update" k then
      match r with
      | x :: s :: r1 =>
        if is_w "set" s then
          match ident x, assignments n r1 with
          | Some t, Some (sets, r2) => match read_where n r2 with Some (w, []) => Some (Update t sets w) | _ => None end
          | _, _ => None
          end
        else None
      | _ => None
      end
    else if is_w "delete" k then
      match r with
      | f :: x :: r1 =>
        if is_w "from" f then
          match ident x, read_where n r1 with Some t, Some (w, []) => Some (Delete t w) | _, _ => None end
        else None
      | _ => None
      end
    else None
  | [] => None
  end.
(** Reading a text with fuel [n]; a text reads as a statement when every larger fuel gives it. *)
Definition read_text (n : nat) (bs dq : bool) (text : pystr) : option (cmd tree) :=
  match lex bs dq text with Some ts => read_cmd n ts | None => None end.
Definition says (bs dq : bool) (text : pystr) (q : cmd tree) : Prop :=
  exists n, forall k, (n <= k)%nat -> read_text k bs dq text = Some q.

(** ** Statements as the application writes them *)
(** The condition in its tokens. *)
Definition meaning (c : cmd sx) : cmd tree :=
  match c with
  | Select i t w o lim => Select i t (option_map mean w) o lim
  | Insert t cs vs => Insert t cs vs
  | Update t sets w => Update t sets (option_map mean w)
  | Delete t w => Delete t (option_map mean w)
  end.
(** The JSON of the parser: the condition is read from its tokens, the rest has the parsed forms of StmtSpec.v. *)
Definition cjson (k : const) : json := match k with KInt z => JInt z | KText s => lit s end.
Definition items_json (i : items) : json :=
  match i with
  | IAll => JStr (u "*")
  | ICols [c] => val (JStr c)
  | ICols l => JList (map (fun c => val (JStr c)) l)
  | ICount => val (JDict [(u "count", JStr (u "*"))])
  | IExtreme mx c => val (JDict [(if mx then u "max" else u "min", JStr c)])
  end.
Definition order_json (o : pystr * bool) : json :=
  JDict ((u "value", JStr (fst o)) :: if snd o then [(u "sort", JStr (u "desc"))] else []).
Definition count_json (n : N) : json := JInt (Z.of_N n).
Definition cond_json (ft : pystr -> bool) (s : sx) : res json :=
  do t <- read_tokens ft (tokens_of ft s);
  match t with TVal x => Ok (json_of (scrub x)) | TOp _ _ => Err TypeError end.
Definition optR {A B} (f : A -> res B) (o : option A) : res (option B) :=
  match o with None => Ok None | Some a => do b <- f a; Ok (Some b) end.
Definition parsed (ft : pystr -> bool) (c : cmd sx) : res json :=
  match c with
  | Select i t w o lim =>
    do w <- optR (cond_json ft) w;
    Ok (select_stmt t (items_json i) w (option_map order_json o) (option_map (fun l => count_json (fst l)) lim)
          (match lim with Some (_, Some k) => Some (count_json k) | _ => None end))
  | Insert t cs vs => Ok (insert_stmt t cs (map cjson vs))
  | Update t sets w =>
    do w <- optR (cond_json ft) w; Ok (update_stmt t (map (fun kv => (fst kv, cjson (snd kv))) sets) w)
  | Delete t w => do w <- optR (cond_json ft) w; Ok (delete_stmt t w)
  end.

(** ** The supported statements *)
Section Supported.
Variables (ft : pystr -> bool) (bs : bool) (E : env) (M : dbmeta).
Definition where_sup (m : tmeta) (w : option sx) : Prop :=
  match w with
  | None => True
  | Some s => grouped ft s /\ simple_atoms s /\ EndSpec.supported (e_alnum E) bs m (mean s)
  end.
Definition int_order (m : tmeta) (c : pystr) : Prop := exists cm, enc_col m c cm OPEC /\ c_type cm = u "int".
Definition order_sup (m : tmeta) (o : option (pystr * bool)) : Prop :=
  match o with
  | None => True
  | Some (c, desc) => plain_col m c \/ desc = false /\ int_order m c
  end.
Definition items_sup (m : tmeta) (o : option (pystr * bool)) (i : items) : Prop :=
  match i with
  | IAll => t_cols m <> []
  | ICols l => l <> [] /\ forall c, In c l -> In c (dkeys (t_cols m))
  | ICount => o = None
  | IExtreme _ c => o = None /\ (plain_col m c \/ int_order m c)
  end.
(** A text in a plaintext column has no backslash if the database treats these as escapes. *)
Definition plain_text (c : colmeta) (k : const) : Prop :=
  match k with KText s => c_plain c = true -> bs = true -> ~ In 92%N s | KInt _ => True end.
Definition sup_cmd (c : cmd sx) : Prop :=
  match c with
  | Select i t w o lim =>
    exists m, dget M t = Some m /\ substrb (u "value") t = false /\ items_sup m o i /\ where_sup m w /\ order_sup m o
  | Insert t cs vs =>
    exists m, dget M t = Some m /\ (2 <= length cs)%nat /\ NoDup cs /\ length cs = length vs /\
    forall k v, In (k, v) (combine cs vs) ->
      exists c, dget (t_cols m) k = Some c /\ const_ok E k c (cjson v) /\ plain_text c v
  | Update t sets w =>
    exists m, dget M t = Some m /\ sets <> [] /\ NoDup (map fst sets) /\ where_sup m w /\
    forall k v, In (k, v) sets -> exists c, dget (t_cols m) k = Some c /\ update_ok E k c (cjson v) /\ plain_text c v
  | Delete t w => exists m, dget M t = Some m /\ where_sup m w
  end.
End Supported.

(** Physical table and column names that are no words of statements. *)
Definition usable (n : pystr) : Prop := colname is_keyword n /\ ~ In (map low n) stmt_words.
Definition usable_names (M : dbmeta) : Prop :=
  forall t m, dget M t = Some m -> usable (t_anon m) /\ forall n, In n (phys m) -> usable n.

(** ** One statement through the proxy and back, with its SQL text *)
Definition text_proxy (ft : pystr -> bool) (alnum : N -> bool) (fstr : Q -> pystr) (bs : bool) (n : nat) (E : env) (M : dbmeta)
    (D : db) (c : cmd sx) : res (db * list (list sqlv)) :=
  do j <- parsed ft c;
  do '(j', table, st) <- rewrite_query E M j;
  do text <- format_sql alnum fstr j';
  match read_text n bs true text with
  | None => Err DbError
  | Some q => do '(D', rs) <- obey D q; do out <- decrypt_result E M table st rs; Ok (D', out)
  end.
(** The answers to a history of statements; after an error the database is as before. *)
Fixpoint answers {A} (step : (pystr -> Z) -> db -> A -> res (db * list (list sqlv)))
    (D : db) (h : list ((pystr -> Z) * A)) : list (res (list (list sqlv))) :=
  match h with
  | [] => []
  | (r, c) :: rest =>
    match step r D c with
    | Ok (D', rs) => Ok rs :: answers step D' rest
    | Err e => Err e :: answers step D rest
    end
  end.
