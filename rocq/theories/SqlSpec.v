(** What the database does: a small relational engine that executes a statement in its parsed
    form.  It is the yardstick for the rewriting and does not depend on it; the same engine runs
    the original statement on a plaintext database and the rewritten one on the encrypted database.

    It reads a statement as MySQL (default SQL mode, binary collation) reads the text that
    sql_parsing/formatting.py prints for it:
    - [{'literal': s}] is printed in single quotes: a string constant;
    - a bare string is printed as it is when every dot-separated part matches [VALID]
      (formatting.py L22) and is no keyword: a column.  Otherwise it is printed in double quotes
      (L47-63), which MySQL reads as a string constant.
    Not covered: expressions, grouping, implicit conversions between numbers and strings
    (comparing them is [Err DbError]), column types and sizes. *)
From Coq Require Import String Ascii List NArith ZArith QArith Bool.
From Verif Require Import Base JsonModel LikeSpec.
Import ListNotations.
Open Scope Z_scope.

Definition row := dict sqlv.
Record tbl := { tb_cols : list pystr; tb_rows : list row }.
Definition db := dict tbl.

Definition ident_start (c : N) : bool :=
  ((65 <=? c) && (c <=? 90) || (97 <=? c) && (c <=? 122) || (c =? 95))%N.
Definition ident_char (c : N) : bool := ident_start c || ((48 <=? c) && (c <=? 57))%N.
(** [a-zA-Z_]\w*, ASCII part. *)
Definition valid_name (s : pystr) : bool :=
  match s with [] => false | c :: r => ident_start c && forallb ident_char r end.
(** Printed without quotes; [kw]: the keywords (formatting.py L25-30). *)
Definition is_column (kw : pystr -> bool) (s : pystr) : bool :=
  forallb (fun p => valid_name p && negb (kw p)) (split DOT s).

Section Engine.
Variable kw : pystr -> bool.

(** Constants and columns. *)
Definition operand (r : row) (j : json) : res sqlv :=
  match j with
  | JInt z => Ok (VInt z)
  | JFloat q => Ok (VFloat q)
  | JBool b => Ok (VInt (if b then 1 else 0))
  | JNull => Ok VNull
  | JStr s => if is_column kw s
              then match dget r s with Some v => Ok v | None => Err DbError end
              else Ok (VStr s)
  | JDict [(k, x)] =>
    if seqb k (u "literal") then match x with
                                 | JStr s => Ok (VStr s)
                                 | JInt z => Ok (VInt z)
                                 | JFloat q => Ok (VFloat q)
                                 | _ => Err DbError
                                 end
    else if seqb k (u "null") then Ok VNull
    else Err DbError
  | _ => Err DbError
  end.

Definition num (v : sqlv) : Q := match v with VInt z => inject_Z z | VFloat q => q | _ => 0%Q end.

(** Code point order. *)
Fixpoint scmp (a b : pystr) : comparison :=
  match a, b with
  | [], [] => Eq
  | [], _ => Lt
  | _, [] => Gt
  | x :: a', y :: b' => match N.compare x y with Eq => scmp a' b' | c => c end
  end.

(** Comparison with NULL is unknown. *)
Definition vcmp (a b : sqlv) : res (option comparison) :=
  match a, b with
  | VNull, _ | _, VNull => Ok None
  | VStr s, VStr t => Ok (Some (scmp s t))
  | VStr _, _ | _, VStr _ => Err DbError
  | _, _ => Ok (Some (Qcompare (num a) (num b)))
  end.

Definition holds (k : pystr) (c : comparison) : option bool :=
  if seqb k (u "eq") then Some (match c with Eq => true | _ => false end)
  else if seqb k (u "neq") then Some (match c with Eq => false | _ => true end)
  else if seqb k (u "gt") then Some (match c with Gt => true | _ => false end)
  else if seqb k (u "lt") then Some (match c with Lt => true | _ => false end)
  else if seqb k (u "gte") then Some (match c with Lt => false | _ => true end)
  else if seqb k (u "lte") then Some (match c with Gt => false | _ => true end)
  else None.

(** Three-valued logic: None is unknown. *)
Definition tv := option bool.
Definition tv_and (a b : tv) : tv :=
  match a, b with
  | Some false, _ | _, Some false => Some false
  | Some true, Some true => Some true
  | _, _ => None
  end.
Definition tv_or (a b : tv) : tv :=
  match a, b with
  | Some true, _ | _, Some true => Some true
  | Some false, Some false => Some false
  | _, _ => None
  end.
Definition tv_not (a : tv) : tv := option_map negb a.

(** The members of an IN list. *)
Definition in_set (r : row) (j : json) : res (list sqlv) :=
  match j with
  | JList l => mapM (operand r) l
  | JDict [(k, JList l)] => if seqb k (u "literal")
                            then mapM (fun x => operand r (JDict [(k, x)])) l else Err DbError
  | _ => do v <- operand r j; Ok [v]
  end.

Definition veq (a b : sqlv) : res tv :=
  do c <- vcmp a b; Ok (match c with Some Eq => Some true | Some _ => Some false | None => None end).

(** LIKE, IN and BETWEEN on values. *)
Definition like_vals (a b : sqlv) : res tv :=
  match a, b with
  | VNull, _ | _, VNull => Ok None
  | VStr s, VStr p => Ok (Some (like p s))
  | _, _ => Err DbError
  end.
Definition member (v : sqlv) (l : list sqlv) : res tv :=
  do ts <- mapM (veq v) l; Ok (fold_left tv_or ts (Some false)).
Definition range (v a b : sqlv) : res tv :=
  do c1 <- vcmp v a; do c2 <- vcmp v b;
  Ok (tv_and (match c1 with Some c => holds (u "gte") c | None => None end)
             (match c2 with Some c => holds (u "lte") c | None => None end)).
Definition negated (n : bool) (t : tv) : tv := if n then tv_not t else t.

(** Truth value of a condition in a row. *)
Fixpoint cond (r : row) (j : json) {struct j} : res tv :=
  match j with
  | JInt z => Ok (Some (negb (z =? 0)))
  | JBool b => Ok (Some b)
  | JDict [(k, x)] =>
    if smem k [u "eq"; u "neq"; u "gt"; u "lt"; u "gte"; u "lte"] then
      match x with
      | JList [a; b] =>
        do va <- operand r a; do vb <- operand r b; do c <- vcmp va vb;
        Ok (match c with Some c => holds k c | None => None end)
      | _ => Err DbError
      end
    else if smem k [u "like"; u "not_like"] then
      match x with
      | JList [a; b] =>
        do va <- operand r a; do vb <- operand r b; do t <- like_vals va vb; Ok (negated (seqb k (u "not_like")) t)
      | _ => Err DbError
      end
    else if smem k [u "in"; u "nin"] then
      match x with
      | JList [a; b] =>
        do va <- operand r a; do l <- in_set r b; do t <- member va l; Ok (negated (seqb k (u "nin")) t)
      | _ => Err DbError
      end
    else if smem k [u "between"; u "not_between"] then
      match x with
      | JList [a; b; c] =>
        do va <- operand r a; do vb <- operand r b; do vc <- operand r c;
        do t <- range va vb vc; Ok (negated (seqb k (u "not_between")) t)
      | _ => Err DbError
      end
    else if seqb k (u "missing") then
      do v <- operand r x; Ok (Some (match v with VNull => true | _ => false end))
    else if seqb k (u "exists") then
      do v <- operand r x; Ok (Some (match v with VNull => false | _ => true end))
    else if seqb k (u "not") then do t <- cond r x; Ok (tv_not t)
    else if seqb k (u "and") then
      match x with
      | JList l => do ts <- mapM (cond r) l; Ok (fold_left tv_and ts (Some true))
      | _ => Err DbError
      end
    else if seqb k (u "or") then
      match x with
      | JList l => do ts <- mapM (cond r) l; Ok (fold_left tv_or ts (Some false))
      | _ => Err DbError
      end
    else Err DbError
  | _ => Err DbError
  end.

(** Rows for which the WHERE clause (if any) is true. *)
Definition selected (w : option json) (r : row) : res bool :=
  match w with
  | None => Ok true
  | Some c => do t <- cond r c; Ok (match t with Some true => true | _ => false end)
  end.
Fixpoint filterM {A} (f : A -> res bool) (l : list A) : res (list A) :=
  match l with
  | [] => Ok []
  | x :: r => do b <- f x; do rest <- filterM f r; Ok (if b then x :: rest else rest)
  end.

(** ORDER BY: NULL first; stable. *)
Definition vle (a b : sqlv) : bool :=
  match a, b with
  | VNull, _ => true
  | _, VNull => false
  | VStr s, VStr t => match scmp s t with Gt => false | _ => true end
  | VStr _, _ => false
  | _, VStr _ => true
  | _, _ => Qle_bool (num a) (num b)
  end.
Fixpoint insert_by {A} (le : A -> A -> bool) (x : A) (l : list A) : list A :=
  match l with
  | [] => [x]
  | y :: r => if le x y then x :: l else y :: insert_by le x r
  end.
Fixpoint sort_by {A} (le : A -> A -> bool) (l : list A) : list A :=
  match l with
  | [] => []
  | x :: r => insert_by le x (sort_by le r)
  end.
Definition cell (r : row) (n : pystr) : sqlv := match dget r n with Some v => v | None => VNull end.

(** ORDER BY one column: [{'value': c}] or [{'value': c, 'sort': 'desc'}]. *)
Definition order_rows (o : option json) (rows : list row) : res (list row) :=
  match o with
  | None => Ok rows
  | Some (JDict [(k, JStr c)]) =>
    if seqb k (u "value") && is_column kw c && forallb (fun r => dmem r c) rows
    then Ok (sort_by (fun a b => vle (cell a c) (cell b c)) rows) else Err DbError
  | Some (JDict [(k, JStr c); (k', JStr s)]) =>
    if seqb k (u "value") && seqb k' (u "sort") && is_column kw c && forallb (fun r => dmem r c) rows
    then Ok (if seqb s (u "desc") then sort_by (fun a b => vle (cell b c) (cell a c)) rows
             else sort_by (fun a b => vle (cell a c) (cell b c)) rows)
    else Err DbError
  | _ => Err DbError
  end.

(** LIMIT n, OFFSET n. *)
Definition count_of (j : json) : res nat :=
  match j with JInt z => if 0 <=? z then Ok (Z.to_nat z) else Err DbError | _ => Err DbError end.
Definition limit_rows {A} (o l : option json) (rows : list A) : res (list A) :=
  do k <- match o with None => Ok 0%nat | Some j => count_of j end;
  match l with
  | None => Ok (skipn k rows)
  | Some j => do n <- count_of j; Ok (firstn n (skipn k rows))
  end.

(** One item of the select list. *)
Definition project (r : row) (j : json) : res sqlv :=
  match j with
  | JStr s => if is_column kw s
              then match dget r s with Some v => Ok v | None => Err DbError end
              else Ok (VStr s)
  | JDict [(k, x)] => if seqb k (u "value") then operand r x else Err DbError
  | _ => Err DbError
  end.

(** MIN and MAX ignore NULL. *)
Fixpoint extreme (better : sqlv -> sqlv -> bool) (l : list sqlv) : sqlv :=
  match l with
  | [] => VNull
  | VNull :: r => extreme better r
  | v :: r => match extreme better r with
              | VNull => v
              | w => if better v w then v else w
              end
  end.

(** Aggregates over all selected rows: COUNT of rows, MIN, MAX of a column. *)
Definition aggregate (rows : list row) (j : json) : option (res sqlv) :=
  match j with
  | JDict [(k, JDict [(f, JStr c)])] =>
    if seqb k (u "value") then
      if seqb f (u "count") && seqb c (u "*") then Some (Ok (VInt (Z.of_nat (length rows))))
      else if seqb f (u "max") then
        Some (do l <- mapM (fun r => operand r (JStr c)) rows; Ok (extreme (fun a b => vle b a) l))
      else if seqb f (u "min") then
        Some (do l <- mapM (fun r => operand r (JStr c)) rows; Ok (extreme vle l))
      else None
    else None
  | _ => None
  end.

(** SELECT: filter, sort, cut, project.  An aggregate query yields one row, cut afterwards. *)
Definition exec_select (t : tbl) (sel : json) (w o l off : option json) : res (list (list sqlv)) :=
  do rows <- filterM (selected w) (tb_rows t);
  match aggregate rows sel with
  | Some v => do x <- v; limit_rows off l [[x]]
  | None =>
    do rows1 <- order_rows o rows;
    do rows2 <- limit_rows off l rows1;
    let items := match sel with
                 | JStr s => if seqb s (u "*") then map JStr (tb_cols t) else [sel]
                 | JList js => js
                 | _ => [sel]
                 end in
    mapM (fun r => mapM (project r) items) rows2
  end.

(** The constants of a VALUES list (formatting.py L370-380). *)
Definition insert_const (j : json) : res sqlv :=
  match j with
  | JDict [(k, v)] =>
    if seqb k (u "value") then
      match v with
      | JStr s => Ok (VStr s)
      | _ => operand [] v
      end
    else Err DbError
  | _ => Err DbError
  end.
Fixpoint assoc_row (cols : list json) (vals : list sqlv) : res row :=
  match cols, vals with
  | [], [] => Ok []
  | JStr c :: cr, v :: vr => do r <- assoc_row cr vr; Ok ((c, v) :: r)
  | _, _ => Err DbError
  end.
(** Columns that are not mentioned are NULL. *)
Definition exec_insert (t : tbl) (cols vals : list json) : res tbl :=
  do vs <- mapM insert_const vals;
  do given <- assoc_row cols vs;
  if forallb (fun c => smem c (tb_cols t) && is_column kw c) (dkeys given) then
    Ok {| tb_cols := tb_cols t;
          tb_rows := tb_rows t ++ [map (fun c => (c, cell given c)) (tb_cols t)] |}
  else Err DbError.

(** UPDATE: the new values are computed from the old row. *)
Fixpoint assign (old : row) (sets : list (pystr * json)) (r : row) : res row :=
  match sets with
  | [] => Ok r
  | (c, j) :: rest =>
    do v <- operand old j;
    if is_column kw c && dmem old c then assign old rest (dset r c v) else Err DbError
  end.
Definition exec_update (t : tbl) (sets : list (pystr * json)) (w : option json) : res tbl :=
  do rows <- mapM (fun r => do b <- selected w r; if b then assign r sets r else Ok r) (tb_rows t);
  Ok {| tb_cols := tb_cols t; tb_rows := rows |}.

Definition exec_delete (t : tbl) (w : option json) : res tbl :=
  do rows <- filterM (fun r => do b <- selected w r; Ok (negb b)) (tb_rows t);
  Ok {| tb_cols := tb_cols t; tb_rows := rows |}.

Definition the_table (D : db) (j : json) : res (pystr * tbl) :=
  match j with
  | JStr n => match dget D n with Some t => Ok (n, t) | None => Err DbError end
  | _ => Err DbError
  end.

(** One statement: the database afterwards and the result set. *)
Definition exec (D : db) (j : json) : res (db * list (list sqlv)) :=
  match j with
  | JDict d =>
    match dget d (u "insert"), dget d (u "update"), dget d (u "delete"), dget d (u "select") with
    | Some t, _, _, _ =>
      do '(n, tb) <- the_table D t;
      match dget d (u "columns"), dget d (u "query") with
      | Some (JList cols), Some (JDict [(k, JList vals)]) =>
        if seqb k (u "select") then
          do tb' <- exec_insert tb cols vals; Ok (dset D n tb', [])
        else Err DbError
      | _, _ => Err DbError
      end
    | _, Some t, _, _ =>
      do '(n, tb) <- the_table D t;
      match dget d (u "set") with
      | Some (JDict sets) => do tb' <- exec_update tb sets (dget d (u "where")); Ok (dset D n tb', [])
      | _ => Err DbError
      end
    | _, _, Some t, _ =>
      do '(n, tb) <- the_table D t;
      do tb' <- exec_delete tb (dget d (u "where")); Ok (dset D n tb', [])
    | _, _, _, Some sel =>
      match dget d (u "from") with
      | Some t =>
        do '(n, tb) <- the_table D t;
        do rs <- exec_select tb sel (dget d (u "where")) (dget d (u "orderby"))
                   (dget d (u "limit")) (dget d (u "offset"));
        Ok (D, rs)
      | None => Err DbError
      end
    | _, _, _, _ => Err DbError
    end
  | _ => Err DbError
  end.
End Engine.
