(** The web front end: handler.py and the entry points of controller/rewriter.py.

    The handlers read the request body with json.loads, look the data source up in the metadata
    database, split its JDBC URL and hand a keyword dictionary to a controller, which calls
    scheduler.backend.execution_context.

    Simplifications.  The HTTP layer (tornado) is not modelled: a handler maps the body to the value it
    writes, or raises.  The metadata database is a function from the text of a statement to the rows
    it answers.  [execution_context.invoke], [batch_process] and [encrypt_sql] are parameters (they
    are modelled in ExecModel).  [repr] of lists and dicts, [int] of a float and [eval] of a text are
    parameters too. *)
From Coq Require Import String Ascii List NArith ZArith Bool.
From Verif Require Import Base JsonText.
Import ListNotations.

(** ** Trailing semicolons *)

(** [while query[-1] == ";": query = query[:-1]] (handler.py L221-222 and L332-333), for a string and
    also for a JSON list, which Python indexes the same way.  [semi] is the comparison with ";". *)
Section Strip.
  Context {A : Type} (semi : A -> bool).
  Fixpoint strip_loop (n : nat) (q : list A) : res (list A) :=
    match n with
    | O => Err OutOfFuel
    | S n =>
      match rev q with
      | [] => Err IndexError
      | c :: _ => if semi c then strip_loop n (removelast q) else Ok q
      end
    end.
  (** The loop shortens the query every time round, so its length bounds the rounds. *)
  Definition strip_semis (q : list A) : res (list A) := strip_loop (S (length q)) q.
End Strip.

(** [x == ";"] for an element of a JSON list (handler.py L221). *)
Definition jsemi (v : jv) : bool := match v with VStr s => seqb s (u ";") | _ => false end.

(** handler.py L221-222 on whatever the body holds under 'sqlQuery': numbers, booleans and null
    cannot be subscripted, an object has no key -1. *)
Definition strip_query (q : jv) : res jv :=
  match q with
  | VStr s => do r <- strip_semis (fun c => N.eqb c 59) s; Ok (VStr r)
  | VList l => do r <- strip_semis jsemi l; Ok (VList r)
  | VDict _ => Err KeyError
  | _ => Err TypeError
  end.

(** ** Data source URL *)

(** Where a request goes (handler.py L235-247). *)
Record target := Target { tg_host : pystr; tg_port : Z; tg_db : pystr }.

(** [l[1]] of a split (handler.py L237-238). *)
Definition second (l : list pystr) : res pystr :=
  match l with _ :: x :: _ => Ok x | _ => Err IndexError end.

(** handler.py L234-247 (the same text at L344-357, L552-565, L660-672): None for a URL that does not
    start with jdbc:mysql://.  [int(port)] accepts what [parse_int] accepts. *)
Definition parse_url (url : pystr) : res (option target) :=
  if seqb (firstn 13 url) (u "jdbc:mysql://") then
    let rest := skipn 13 url in
    let host_port := hd [] (split 47 rest) in
    let host := hd [] (split 58 host_port) in
    do port <- second (split 58 host_port);
    do db <- second (split 47 rest);
    do p <- parse_int port;
    Ok (Some (Target host p db))
  else Ok None.

Section Front.
  (** Parts of Python that are not modelled, see the head of the file. *)
  Context (repr : jv -> pystr) (float_int : pystr -> res Z) (eval : pystr -> res jv).

  (** [str.format] of a value with "{}" (handler.py L229). *)
  Definition py_str (v : jv) : pystr :=
    match v with
    | VStr s => s
    | VInt z => str_int z
    | VFloat t => t
    | VNull => u "None"
    | VBool true => u "True"
    | VBool false => u "False"
    | _ => repr v
    end.

  (** The statement that looks a data source up (handler.py L228-229, L338-339, L546-547, L654-655,
      L746-747). *)
  Definition source_sql (id : jv) : pystr :=
    u "SELECT id, name, connection_url, driver_class_name, username, password, ping FROM p_datasource WHERE id="
    ++ py_str id.

  (** [int(v)] (handler.py L251). *)
  Definition to_int (v : jv) : res Z :=
    match v with
    | VInt z => Ok z
    | VBool b => Ok (if b then 1 else 0)%Z
    | VStr s => parse_int s
    | VFloat t => float_int t
    | _ => Err TypeError
    end.

  (** [row[i]] of a result row. *)
  Definition cell (row : list jv) (i : nat) : res jv :=
    match nth_error row i with Some v => Ok v | None => Err IndexError end.

  (** [v[k]] of a JSON value with a string key. *)
  Definition jget (v : jv) (k : pystr) : res jv :=
    match v with VDict d => dgetE d k | _ => Err TypeError end.

  (** The URL, user and password of a data source (handler.py L228-240): IndexError when the id
      finds nothing, TypeError when the URL is not text. *)
  Definition find_source (db : pystr -> res (list (list jv))) (id : jv) : res (pystr * jv * jv) :=
    do rows <- db (source_sql id);
    match rows with
    | [] => Err IndexError
    | row :: _ =>
      do url <- cell row 2;
      match url with
      | VStr url => do user <- cell row 4; do pw <- cell row 5; Ok (url, user, pw)
      | _ => Err TypeError
      end
    end.

  (** Keyword arguments of the controllers: a Python dict. *)
  Definition kwargs := dict jv.

  (** The first part of QueryHandler._post (handler.py L212-224): query, data source id, encrypted
      columns, ciphertext flag. *)
  Definition read_request (body : jv) : res (jv * jv * jv * jv) :=
    match body with
    | VDict d =>
      if dmem d (u "create_table") then
        do q <- dgetE d (u "create_table");
        do sel <- dgetE d (u "selectedJdbcDataSource");
        do id <- jget sel (u "value");
        do enc <- dgetE d (u "encrypted_columns");
        Ok (q, id, enc, VBool true)
      else
        do q <- dgetE d (u "sqlQuery");
        do q' <- strip_query q;
        do id <- dgetE d (u "jdbcDataSourceId");
        do ct <- dgetE d (u "ciphertext");
        Ok (q', id, VDict [], ct)
    | _ => Err AttributeError
    end.

  (** 'resultLimit' (handler.py L250-251). *)
  Definition add_limit (body : jv) (kw : kwargs) : res kwargs :=
    match body with
    | VDict d =>
      match dget d (u "resultLimit") with
      | Some v => do z <- to_int v; Ok (dset kw (u "limit") (VInt z))
      | None => Ok kw
      end
    | _ => Err AttributeError
    end.

  (** What execution_context.invoke gives the console: the decrypted rows, the selected column names
      and their types (execution_context.py L27-35). *)
  Definition qresult : Type := list (list jv) * (list pystr * list jv).

  (** ** Result formatting *)

  (** handler.py L614-626. *)
  Definition build_columns (k : pystr) (v : jv) : jv :=
    match v with
    | VStr t =>
      if seqb t (u "varchar") then
        VDict [(u "name", VStr k); (u "javaType", VStr (u "VARCHAR"));
               (u "dbType", VStr (u "VARCHAR")); (u "length", VInt 100)]
      else
        VDict [(u "name", VStr k); (u "javaType", VStr (u "INTEGER"));
               (u "dbType", VStr (u "INT")); (u "length", VInt 10)]
    | _ =>
        VDict [(u "name", VStr k); (u "javaType", VStr (u "INTEGER"));
               (u "dbType", VStr (u "INT")); (u "length", VInt 10)]
    end.

  (** [isinstance(v, int)] (handler.py L294): booleans are integers. *)
  Definition is_int (v : jv) : bool := match v with VInt _ | VBool _ => true | _ => false end.

  (** One row under its column names (handler.py L297-299). *)
  Definition row_dict (order : list pystr) (row : list jv) : dict jv :=
    fold_left (fun d kv => dset d (fst kv) (snd kv)) (combine order row) [].

  (** What the console gets: descriptions of the columns and the rows as one JSON text
      (handler.py L280-302). *)
  Record answer := Answer { an_columns : list jv; an_data : pystr }.

  (** ["null" + str(i) for i in range(n)] (handler.py L291). *)
  Definition null_names (n : nat) : list pystr :=
    map (fun i => u "null" ++ str_int (Z.of_nat i)) (seq 0 n).

  (** QueryHandler.format_result (handler.py L276-302); None is the empty object [{}]. *)
  Definition format_result (r : qresult) : res (option answer) :=
    let '(rows, (names, types)) := r in
    match rows with
    | [] => Ok None
    | first :: _ =>
      let pairs := combine names types in
      let wide := Nat.ltb (length pairs) (length first) in
      let order := if wide then null_names (length first) else map fst pairs in
      let cols :=
        if wide
        then map (fun kv => build_columns (fst kv) (VStr (if is_int (snd kv) then u "int" else u "varchar")))
                 (combine order first)
        else map (fun kv => build_columns (fst kv) (snd kv)) pairs in
      do data <- mapM (fun row => dumps (VDict (row_dict order row))) rows;
      Ok (Some (Answer cols (u "[" ++ join (u ",") data ++ u "]")))
    end.

  (** ** Controllers (controller/rewriter.py) *)

  Context (invoke : kwargs -> jv -> jv -> res qresult) (batch_process : kwargs -> res unit).

  (** ControllerDatabase.do_query (controller/rewriter.py L16-28). *)
  Definition do_query (kw : kwargs) : res qresult :=
    let enc := match dget kw (u "encrypted_columns") with Some e => e | None => VNull end in
    if dmem kw (u "batch_process") then do _ <- batch_process kw; Ok ([], ([], []))
    else
      do q <- dgetE kw (u "query");
      invoke kw q enc.

  (** ControllerDatabase.do_create (controller/rewriter.py L30-34). *)
  Definition do_create (kw : kwargs) : res unit :=
    do q <- dgetE kw (u "query");
    do enc <- dgetE kw (u "encrypted_columns");
    do enc <- match enc with VStr s => eval s | _ => Ok enc end;
    do _ <- invoke kw q enc;
    Ok tt.

  (** QueryHandler._post (handler.py L211-261); None is the empty object. *)
  Definition query_post (db : pystr -> res (list (list jv))) (body : jv) : res (option answer) :=
    do '(q, id, enc, ct) <- read_request body;
    do '(url, user, pw) <- find_source db id;
    do tg <- parse_url url;
    match tg with
    | None => Ok None
    | Some tg =>
      let kw := [(u "host", VStr (tg_host tg)); (u "db", VStr (tg_db tg)); (u "user", user);
                 (u "password", pw); (u "query", q); (u "port", VInt (tg_port tg));
                 (u "encrypted_columns", enc); (u "ciphertext", ct)] in
      do kw <- add_limit body kw;
      match body with
      | VDict d =>
        if dmem d (u "create_table") then do _ <- do_create kw; Ok None
        else do r <- do_query kw; format_result r
      | _ => Err AttributeError
      end
    end.

  (** QueryComponentHandler.format_result (handler.py L695-725) calls [columns.items()] on the list
      that do_query returns: AttributeError unless the result is empty. *)
  Definition component_format (r : qresult) : res (option answer) :=
    match fst r with [] => Ok None | _ => Err AttributeError end.

  (** QueryComponentHandler._post (handler.py L650-681): the keyword dictionary has no 'query'. *)
  Definition component_post (db : pystr -> res (list (list jv))) (id : jv) (body : jv)
    : res (option answer) :=
    do '(url, user, pw) <- find_source db id;
    do tg <- parse_url url;
    match tg with
    | None => Ok None
    | Some tg =>
      let kw := [(u "host", VStr (tg_host tg)); (u "db", VStr (tg_db tg)); (u "user", user);
                 (u "password", pw); (u "port", VInt (tg_port tg))] in
      match body with
      | VDict d =>
        if dmem d (u "create_table") then do _ <- do_create kw; Ok None
        else do r <- do_query kw; component_format r
      | _ => Err AttributeError
      end
    end.

  (** ** Schema listing *)

  (** Python truth of a JSON value (handler.py L773). *)
  Definition truthy (v : jv) : bool :=
    match v with
    | VNull => false
    | VBool b => b
    | VInt z => negb (Z.eqb z 0)
    | VFloat t => negb (seqb t (u "0.0"))
    | VStr s => negb (seqb s [])
    | VList l => match l with [] => false | _ => true end
    | VDict d => match d with [] => false | _ => true end
    | VOther => true
    end.

  (** One item of a column record (handler.py L770-783): varchar and int columns get a description,
      other types keep what was there. *)
  Definition column_entry (acc : jv) (kv : pystr * jv) : res jv :=
    let '(k, v) := kv in
    do ty <- jget v (u "type");
    match ty with
    | VStr t =>
      if seqb t (u "varchar") then
        do p <- jget v (u "plaintext");
        Ok (VDict [(u "name", VStr (if truthy p then k else k ++ u " *"));
                   (u "javaType", VStr (u "VARCHAR")); (u "dbType", VStr (u "VARCHAR"));
                   (u "length", VInt 258)])
      else if seqb t (u "int") then
        do p <- jget v (u "plaintext");
        Ok (VDict [(u "name", VStr (if truthy p then k else k ++ u " *"));
                   (u "javaType", VStr (u "INTEGER")); (u "dbType", VStr (u "INT UNSIGNED"));
                   (u "length", VInt 20)])
      else Ok acc
    | _ => Ok acc
    end.

  (** The items of a record in turn (handler.py L770). *)
  Fixpoint column_entries (acc : jv) (items : list (pystr * jv)) : res jv :=
    match items with
    | [] => Ok acc
    | kv :: r => do acc <- column_entry acc kv; column_entries acc r
    end.

  (** A column record: json.loads, then [col.items()] (handler.py L764, L769-783). *)
  Definition column_of (text : pystr) : res jv :=
    do v <- loads text;
    match v with
    | VDict items => column_entries (VDict []) items
    | _ => Err AttributeError
    end.

  (** The table object that is printed (handler.py L761, L765-768, L789); empty before the first
      row. *)
  Definition table_obj (t : option (pystr * list jv)) : jv :=
    match t with
    | None => VDict []
    | Some (n, cols) => VDict [(u "name", VStr n); (u "type", VStr (u "USER TABLE"));
                               (u "columns", VList cols)]
    end.

  (** The loop of SchemaHandler.format_result (handler.py L763-791): texts of the finished tables. *)
  Fixpoint schema_loop (rows : list (pystr * pystr)) (t : option (pystr * list jv))
    : res (list pystr) :=
    match rows with
    | [] => do last <- dumps (table_obj t); Ok [last]
    | (name, text) :: r =>
      let '(n, cols) := match t with None => (name, []) | Some x => x end in
      do c <- column_of text;
      if seqb name n then schema_loop r (Some (n, cols ++ [c]))
      else
        do done <- dumps (table_obj (Some (n, cols)));
        do rest <- schema_loop r (Some (name, [c]));
        Ok (done :: rest)
    end.

  (** SchemaHandler.format_result (handler.py L760-792). *)
  Definition schema_listing (rows : list (pystr * pystr)) : res pystr :=
    do texts <- schema_loop rows None;
    Ok (u "[" ++ join (u ",") texts ++ u "]").

  (** SchemaHandler.get (handler.py L742-757).  [asked name] are the (table_name, col_info) rows of
      p_db_meta with that database name, ordered by table_name (L752-753).  None is the empty
      object. *)
  Definition schema_get (db : pystr -> res (list (list jv))) (asked : pystr -> list (pystr * pystr))
      (id : jv) : res (option pystr) :=
    do rows <- db (source_sql id);
    match rows with
    | [] => Err IndexError
    | row :: _ =>
      do url <- cell row 2;
      match url with
      | VStr url =>
        if seqb (firstn 13 url) (u "jdbc:mysql://")
        then do t <- schema_listing (asked (skipn 13 url)); Ok (Some t)
        else Ok None
      | _ => Err TypeError
      end
    end.

  (** ** Table designer *)

  (** [s.lower()], compared only with "int" and "true" (handler.py L594, L598, L599); letters outside
      ASCII never become one of these. *)
  Definition lower_char (c : N) : N := if ((65 <=? c) && (c <=? 90))%N then (c + 32)%N else c.
  Definition lower (s : pystr) : pystr := map lower_char s.

  (** One column of the designer: all fields are text (handler.py L592-606). *)
  Record dcol := DCol { dc_name : pystr; dc_type : pystr; dc_length : pystr;
                        dc_encryption : pystr; dc_fuzzy : pystr; dc_token : jv }.

  (** The text of a column (handler.py L594-597). *)
  Definition column_text (c : dcol) : res pystr :=
    do n <- parse_int (dc_length c);
    if ((0 <? n)%Z && negb (seqb (lower (dc_type c)) (u "int"))%bool)%bool
    then Ok (dc_name c ++ u " " ++ dc_type c ++ u "(" ++ dc_length c ++ u ")")
    else Ok (dc_name c ++ u " " ++ dc_type c).

  (** Its entry in the encrypted columns (handler.py L598-606). *)
  Definition enc_entry (enc : dict jv) (c : dcol) : dict jv :=
    if seqb (lower (dc_encryption c)) (u "true")
    then dset enc (dc_name c)
              (VDict [(u "fuzzy", VBool (seqb (lower (dc_fuzzy c)) (u "true"))); (u "key", dc_token c)])
    else enc.

  (** The loop of generate_table (handler.py L591-606): IndexError when there are fewer columns than
      the count says. *)
  Fixpoint designer_loop (cols : list dcol) (size : nat) (enc : dict jv)
    : res (list pystr * dict jv) :=
    match size with
    | O => Ok ([], enc)
    | S k =>
      match cols with
      | [] => Err IndexError
      | c :: r =>
        do t <- column_text c;
        do '(ts, enc') <- designer_loop r k (enc_entry enc c);
        Ok (t :: ts, enc')
      end
    end.

  (** CreateHandler.generate_table (handler.py L587-611). *)
  Definition generate_table (cols : list dcol) (size : nat) (table : pystr)
    : res (pystr * dict jv) :=
    do '(ts, enc) <- designer_loop cols size [];
    Ok (u "create table if not exists " ++ table ++ u "(" ++ join (u ", ") ts ++ u ")", enc).
End Front.
