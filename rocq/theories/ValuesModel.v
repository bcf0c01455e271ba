(** The parse actions of INSERT ... VALUES: to_row, get_literal, to_values, to_insert_call, sql_parsing/utils.py
    L422-451 and L528-547, as they are used in sql_parser.py L394-395 and L604-613, followed by scrub.

    Simplifications: numbers are integers (as in ScrubModel); the source of the rows is VALUES (INSERT ... SELECT is not
    modelled); a row holds for each expression the first token of its group. *)
From Coq Require Import String Ascii List NArith ZArith Bool.
From Verif Require Import Base JsonModel ScrubModel.
Import ListNotations.

(** The group that the grammar makes of one expression: [Group(expr)], sql_parser.py L394; expr is a Forward without a name of
    its own, whose result hides the name of the only token it holds (results.py L333-362). *)
Definition group_of (x : pv) : pv := PRes [] true false [PRes [] false false [x]].

(** to_row, utils.py L422-427: with one expression the group itself is the value. *)
Definition to_row (cells : list pv) : res pv :=
  match cells with
  | [] => Err IndexError
  | [x] => Ok (PDict [(u "select", PDict [(u "value", group_of x)])])
  | _ => Ok (PDict [(u "select", PList (map (fun x => PDict [(u "value", x)]) cells))])
  end.

(** get_literal, L430-438; SQL_NULL is a Call (L32).  [in] of a text looks for a part of the text, and a text has no item
    of that name; a group that holds only the name value has no item literal (results.py L220-223). *)
Definition get_literal (x : pv) : res (option pv) :=
  match x with
  | PNum _ | PBool _ => Ok (Some x)
  | PCall _ _ _ | PNull => Ok None
  | PDict d => Ok (dget d (u "literal"))
  | PText s => if substrb (u "literal") s then Err TypeError else Ok None
  | PList l => if existsb (fun y => match y with PText s => seqb s (u "literal") | _ => false end) l then Err TypeError else Ok None
  | PRes _ _ _ _ => Ok None
  | PNone => Err TypeError
  end.

(** The truth value of what get_literal returns, used by all(...) at L447. *)
Definition py_true (o : option pv) : bool :=
  match o with
  | None | Some PNone => false
  | Some (PNum z) => negb (Z.eqb z 0)
  | Some (PBool b) => b
  | Some (PText s) => match s with [] => false | _ => true end
  | Some (PDict d) => match d with [] => false | _ => true end
  | Some (PList l) => match l with [] => false | _ => true end
  | Some _ => true
  end.

(** [x[k]] of a dict, L444, L535; any other value is a TypeError. *)
Definition item (x : pv) (k : pystr) : res pv :=
  match x with
  | PDict d => match dget d k with Some v => Ok v | None => Err KeyError end
  | _ => Err TypeError
  end.
(** listwrap, parsing/utils.py L199-210. *)
Definition listwrap (x : pv) : list pv := match x with PNone => [] | PList l => l | _ => [x] end.
(** The value that a literal of a row stands for in the list L443-445. *)
Definition plain_of (o : option pv) : pv := match o with Some x => x | None => PNone end.

(** to_values, L441-451.  One row is passed on as it is. *)
Definition to_values (rows : list pv) : res pv :=
  match rows with
  | [] => Err IndexError
  | [r] => Ok r
  | _ =>
    do values <- mapM (fun row => do sel <- item row (u "select");
                                  mapM (fun s => do v <- item s (u "value"); get_literal v) (listwrap sel)) rows;
    if forallb py_true (concat values)
    then Ok (PDict [(u "from", PDict [(u "literal", PList (map (fun r => PList (map plain_of r)) values))])])
    else Ok (PDict [(u "union_all", PList rows)])
  end.

(** [tokens["columns"]], results.py L59-67: nothing, one name, or a ParseResults with the names. *)
Definition columns_of (cols : list pystr) : pv :=
  match cols with
  | [] => PRes [] false false []
  | [c] => PText c
  | _ => PRes [] false false (map PText cols)
  end.
(** What iterating over the columns gives at L538: a text is iterated over its characters. *)
Definition iter_columns (cols : list pystr) : list pystr :=
  match cols with [c] => map (fun x => [x]) c | _ => cols end.
(** [dict(zip(columns, row))], L538. *)
Definition row_dict (cols : list pystr) (row : pv) : pv :=
  PDict (fold_left (fun d kv => dset d (fst kv) (snd kv))
                   (combine (iter_columns cols) (match row with PList l => l | _ => [] end)) []).

(** to_insert_call, L528-547; [options] are the remaining named tokens (L529-531).  An exception in L535-541 leads to L545. *)
Definition to_insert_call (table : pystr) (cols : list pystr) (options : list (pystr * pv)) (query : pv) : pv :=
  let other := PCall (u "insert") (PList [PText table]) ((u "columns", columns_of cols) :: (u "query", query) :: options) in
  match bind (item query (u "from")) (fun f => item f (u "literal")) with
  | Ok (PList values) =>
    match values, cols with
    | [], _ => other
    | _, [] => PCall (u "insert") (PList [PText table]) ((u "values", PList values) :: options)
    | _, _ => PCall (u "insert") (PList [PText table]) ((u "values", PList (map (row_dict cols) values)) :: options)
    end
  | _ => other
  end.

(** The insert statement, sql_parser.py L604-613, from the expressions of its rows. *)
Definition parse_insert (table : pystr) (cols : list pystr) (options : list (pystr * pv)) (rows : list (list pv)) : res out :=
  do rs <- mapM to_row rows;
  do q <- to_values rs;
  Ok (scrub (to_insert_call table cols options q)).
