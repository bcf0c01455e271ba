(** C60-C63, C78-C80: the web front end. *)
From Coq Require Import String Ascii List NArith ZArith Bool Lia Sorted Permutation.
From Verif Require Import Base BaseProof JsonText JsonTextProof FrontModel FrontSpec FrontProof.
Import ListNotations.

(** ** C60: trailing semicolons *)

(** Every statement text is either nothing but semicolons, and then the console raises without calling
    the execution layer, or it is [q] followed by semicolons with [q] not ending in one, and then exactly
    [q] is run. *)
Theorem C60_console :
  forall repr float_int eval db d s id url user pw tg,
    console_body d s id -> source repr db id url user pw -> parse_url url = Ok (Some tg) ->
    (exists n, s = repeat 59%N n
               /\ forall invoke batch,
                    query_post repr float_int eval invoke batch db (VDict d) = Err IndexError)
    \/ (exists q n kw, clean q /\ s = q ++ repeat 59%N n /\ dget kw (u "query") = Some (VStr q)
                       /\ console_runs repr float_int eval db (VDict d) kw (VStr q)).
Proof.
  intros repr float_int eval db d s id url user pw tg B S P.
  destruct (semis_cases s) as [[n E]|(q & n & C & E)].
  - left. exists n. split; [exact E|]. intros invoke batch. subst s.
    exact (console_empty repr float_int eval invoke batch db d n id B).
  - right. destruct (console_run repr float_int eval db d s id url user pw tg q n B S P C E)
      as (kw & K1 & _ & _ & _ & _ & _ & K2).
    exists q, n, kw. repeat split; try assumption; apply C.
Qed.
Print Assumptions C60_console.

(** The form for table creation removes nothing: the statement goes through as it is. *)
Theorem C60_create_unchanged :
  forall repr float_int eval db d q enc id url user pw tg,
    create_body d q enc id -> source repr db id url user pw -> parse_url url = Ok (Some tg) ->
    exists kw, dget kw (u "query") = Some q
      /\ forall invoke batch,
           query_post repr float_int eval invoke batch db (VDict d)
           = do _ <- invoke kw q (VDict enc); Ok None.
Proof.
  intros repr float_int eval db d q enc id url user pw tg B S P.
  destruct (create_run repr float_int eval db d q enc id url user pw tg B S P)
    as (kw & K1 & _ & _ & _ & K2).
  exists kw. split; assumption.
Qed.
Print Assumptions C60_create_unchanged.

Definition ex_repr (v : jv) : pystr := u "?".
Definition ex_int (t : pystr) : res Z := Err ValueError.
Definition ex_eval (t : pystr) : res jv := Err ValueError.
Definition ex_url := u "jdbc:mysql://10.0.0.7:3307/shop".
Definition ex_db (sql : pystr) : res (list (list jv)) :=
  if seqb sql (u "SELECT id, name, connection_url, driver_class_name, username, password, ping FROM p_datasource WHERE id=4")
  then Ok [[VInt 4; VStr (u "n"); VStr ex_url; VNull; VStr (u "bob"); VStr (u "pw"); VNull]]
  else Ok [].
Definition ex_body s := [(u "sqlQuery", VStr s); (u "jdbcDataSourceId", VInt 4); (u "ciphertext", VBool false)].
(** An execution layer that answers with the statement it was given. *)
Definition ex_invoke (kw : kwargs) (q enc : jv) : res qresult := Ok ([[q]], ([u "q"], [VStr (u "varchar")])).
Definition ex_batch (kw : kwargs) : res unit := Ok tt.

Example C60_console_example :
  (match query_post ex_repr ex_int ex_eval ex_invoke ex_batch ex_db (VDict (ex_body (u "select ';' from t; ;;;"))) with
   | Ok (Some a) => an_data a = u "[{""q"": ""select ';' from t; ""}]"
   | _ => False
   end)
  /\ query_post ex_repr ex_int ex_eval ex_invoke ex_batch ex_db (VDict (ex_body (u ";;"))) = Err IndexError
  /\ query_post ex_repr ex_int ex_eval ex_invoke ex_batch ex_db (VDict (ex_body [])) = Err IndexError.
Proof. vm_compute. repeat split; reflexivity. Qed.

Example C60_create_example :
  query_post ex_repr ex_int ex_eval
    (fun _ q enc => if jsemi q then Err DbError else Ok ([], ([], []))) ex_batch ex_db
    (VDict [(u "create_table", VStr (u ";")); (u "selectedJdbcDataSource", VDict [(u "value", VInt 4)]);
            (u "encrypted_columns", VDict [])]) = Err DbError.
Proof. vm_compute. reflexivity. Qed.

(** ** C61: result formatting *)

(** Distinct names, as many as the rows are wide: one object per row, in order, with exactly the
    names as keys and each cell under its own name. *)
Theorem C61_cells :
  forall rows names types,
    rows <> [] -> names_ok names -> cells_ok rows -> length names = length types ->
    NoDup names -> Forall (fun row => length row = length names) rows ->
    exists cols data,
      format_result (rows, (names, types)) = Ok (Some (Answer cols data))
      /\ length cols = length names
      /\ loads data = Ok (VList (map (fun row => VDict (combine names row)) rows)).
Proof.
  intros rows names types Hne Hn Hc Hl Hd Hw. destruct rows as [|first rows]; [contradiction|].
  assert (W : length first <= length names) by (inversion Hw; lia).
  destruct (format_narrow first rows names types Hn Hc Hl W) as (data & A & B).
  do 2 eexists. split; [exact A|]. split.
  - rewrite map_length, combine_length, <- Hl. apply Nat.min_id.
  - rewrite B. do 2 f_equal. apply map_ext_in. intros row Hin. f_equal.
    rewrite Forall_forall in Hw. apply row_distinct; [exact Hd | symmetry; apply Hw, Hin].
Qed.
Print Assumptions C61_cells.

(** Any names: still one object per row in order, its keys are distinct, and under a name it has the
    last of the cells with that name, so every earlier cell with the same name is lost. *)
Theorem C61_last_wins :
  forall rows names types,
    rows <> [] -> names_ok names -> cells_ok rows -> length names = length types ->
    length (hd [] rows) <= length names ->
    exists cols data objs,
      format_result (rows, (names, types)) = Ok (Some (Answer cols data))
      /\ loads data = Ok (VList (map VDict objs))
      /\ Forall2 (fun row obj => NoDup (map fst obj)
                                 /\ forall k v, dget obj k = Some v <-> last_under names row k v) rows objs.
Proof.
  intros rows names types Hne Hn Hc Hl Hw. destruct rows as [|first rows]; [contradiction|].
  destruct (format_narrow first rows names types Hn Hc Hl Hw) as (data & A & B).
  do 2 eexists. exists (map (row_dict names) (first :: rows)). split; [exact A|]. split.
  - rewrite B, map_map. reflexivity.
  - clear. generalize (first :: rows). intros l. induction l as [|row l IH]; constructor; [|exact IH].
    split; [apply row_nodup | intros k v; apply row_last].
Qed.
Print Assumptions C61_last_wins.

(** Rows wider than the list of names: the names are replaced by null0, null1, ... and every cell of
    the width of the first row is kept. *)
Theorem C61_wide :
  forall first rows names types,
    cells_ok (first :: rows) -> Nat.min (length names) (length types) < length first ->
    Forall (fun row => length row = length first) rows ->
    exists cols data objs,
      format_result (first :: rows, (names, types)) = Ok (Some (Answer cols data))
      /\ loads data = Ok (VList (map VDict objs))
      /\ Forall2 (fun row obj => forall i v, nth_error row i = Some v ->
                                   nth_error obj i = Some (u "null" ++ str_int (Z.of_nat i), v))
                 (first :: rows) objs.
Proof.
  intros first rows names types Hc Hlt Hw.
  destruct (format_wide first rows names types Hc Hlt) as (cols & data & A & B).
  exists cols, data, (map (fun row => combine (null_names (length first)) row) (first :: rows)).
  assert (Hw' : Forall (fun row : list jv => length row = length first) (first :: rows))
    by (constructor; [reflexivity | exact Hw]).
  split; [exact A|]. split.
  - rewrite B, map_map. do 2 f_equal. apply map_ext_in. intros row Hin. f_equal.
    rewrite Forall_forall in Hw'. apply row_distinct; [apply null_names_nodup|].
    rewrite null_names_length. symmetry. apply Hw', Hin.
  - clear - Hw'. revert Hw'. generalize (first :: rows). intros l H.
    induction H as [|row l Hr Hl IH]; constructor; [|exact IH].
    intros i v Hi. assert (Hlt : i < length first).
    { rewrite <- Hr. apply nth_error_Some. congruence. }
    pose proof (null_names_nth (length first) i Hlt) as Hk.
    exact (combine_nth_error _ _ _ _ _ Hk Hi).
Qed.
Print Assumptions C61_wide.

(** One cell that JSON cannot carry (a decimal, a date, bytes) makes the whole answer fail. *)
Theorem C61_refused_cell :
  forall first rows names types row j,
    length names = length types -> NoDup names -> length first <= length names ->
    In row (first :: rows) -> nth_error row j = Some VOther -> j < length names ->
    format_result (first :: rows, (names, types)) = Err TypeError.
Proof. exact format_other. Qed.
Print Assumptions C61_refused_cell.

Example C61_example :
  (exists a, format_result ([[VInt 7; VStr (u "a""b"); VNull]; [VInt (-8); VStr [233%N]; VFloat (u "1.5")]],
                            ([u "id"; u "name"; u "w"], [VStr (u "int"); VStr (u "varchar"); VNull])) = Ok (Some a)
             /\ an_data a = u "[{""id"": 7, ""name"": ""a\""b"", ""w"": null},{""id"": -8, ""name"": ""\u00e9"", ""w"": 1.5}]")
  /\ (exists a, format_result ([[VInt 1; VInt 2]], ([u "id"; u "id"], [VNull; VNull])) = Ok (Some a)
                /\ an_data a = u "[{""id"": 2}]")
  /\ (exists a, format_result ([[VInt 1; VInt 2]], ([u "id"], [VNull])) = Ok (Some a)
                /\ an_data a = u "[{""null0"": 1, ""null1"": 2}]")
  /\ format_result ([[VInt 1; VOther]], ([u "a"; u "b"], [VNull; VNull])) = Err TypeError.
Proof. repeat split; try (eexists; split; vm_compute; reflexivity). Qed.

(** ** C62: schema listing *)

(** For any rows at all: reading the listing table by table and column by column gives back the rows in
    their order, no table is empty and neighbouring tables differ; this determines the listing. *)
Theorem C62_runs :
  forall ms rows,
    ms <> [] -> Forall mrow_ok ms -> Forall2 stored ms rows ->
    exists out tables,
      schema_listing rows = Ok out /\ loads out = Ok (VList (map listed tables))
      /\ flat tables = map (fun m => (mr_table m, shown m)) ms
      /\ no_repeat (map fst tables) /\ Forall (fun t => snd t <> []) tables.
Proof. exact schema_runs. Qed.
Print Assumptions C62_runs.

(** Rows sorted by table name: every table once, in that order, with exactly its columns in the order
    of the rows. *)
Theorem C62_sorted :
  forall (le : pystr -> pystr -> Prop) ms rows,
    (forall a b, le a b -> le b a -> a = b) ->
    ms <> [] -> Forall mrow_ok ms -> Forall2 stored ms rows -> StronglySorted le (map mr_table ms) ->
    exists out tables,
      schema_listing rows = Ok out /\ loads out = Ok (VList (map listed tables))
      /\ NoDup (map fst tables) /\ StronglySorted le (map fst tables)
      /\ (forall t, In t (map fst tables) <-> In t (map mr_table ms))
      /\ forall t cols, In (t, cols) tables ->
           cols = map shown (filter (fun m => seqb (mr_table m) t) ms).
Proof. exact schema_sorted. Qed.
Print Assumptions C62_sorted.

(** No rows: one empty object. *)
Theorem C62_empty :
  exists out, schema_listing [] = Ok out /\ loads out = Ok (VList [VDict []]).
Proof. eexists. split; vm_compute; reflexivity. Qed.
Print Assumptions C62_empty.

Definition ex_ms := [MRow (u "T") (u "a") (u "int") true []; MRow (u "t") (u "b") (u "int") true [];
                     MRow (u "T") (u "c") (u "varchar") false []].
Definition ex_rows :=
  [(u "T", u "{""a"": {""type"": ""int"", ""plaintext"": true}}");
   (u "t", u "{""b"": {""type"": ""int"", ""plaintext"": true}}");
   (u "T", u "{""c"": {""type"": ""varchar"", ""plaintext"": false}}")].

Lemma ex_ms_ok m : In m ex_ms -> mrow_ok m.
Proof.
  intros H. split.
  - apply ascii_scalar. repeat (destruct H as [<-|H]; [reflexivity|]). destruct H.
  - apply wfj_dict. split; [constructor; [intros []|constructor]|].
    constructor; [|constructor]. split.
    + apply ascii_scalar. repeat (destruct H as [<-|H]; [reflexivity|]). destruct H.
    + cbn [snd]. unfold mr_info.
      assert (E : mr_more m = []) by (repeat (destruct H as [<-|H]; [reflexivity|]); destruct H).
      rewrite E. apply wfj_dict. split.
      * constructor; [intros [X|[]]; discriminate|]. constructor; [intros []|constructor].
      * constructor; [split|constructor; [split|constructor]].
        -- apply ascii_scalar. reflexivity.
        -- apply ascii_scalar. repeat (destruct H as [<-|H]; [reflexivity|]). destruct H.
        -- apply ascii_scalar. reflexivity.
        -- exact I.
Qed.

(** Under a collation that identifies names (A and a), sorted rows need not keep a table together, and
    the same table is listed twice. *)
Theorem C62_collation_refuted :
  exists ms rows out,
    Forall mrow_ok ms /\ Forall2 stored ms rows
    /\ StronglySorted (fun a b => map lower_char a = map lower_char b) (map mr_table ms)
    /\ schema_listing rows = Ok out
    /\ exists a b c, loads out = Ok (VList [listed (u "T", a); listed (u "t", b); listed (u "T", c)]).
Proof.
  exists ex_ms, ex_rows, (match schema_listing ex_rows with Ok t => t | Err _ => [] end).
  split; [apply Forall_forall; exact ex_ms_ok|].
  split.
  { constructor; [split; vm_compute; reflexivity|]. constructor; [split; vm_compute; reflexivity|].
    constructor; [split; vm_compute; reflexivity|]. constructor. }
  split.
  { constructor; [constructor; [constructor; [constructor|constructor]|]|];
      repeat (constructor; [reflexivity|]); constructor. }
  split; [vm_compute; reflexivity|].
  exists [VDict [(u "name", VStr (u "a")); (u "javaType", VStr (u "INTEGER")); (u "dbType", VStr (u "INT UNSIGNED")); (u "length", VInt 20)]],
    [VDict [(u "name", VStr (u "b")); (u "javaType", VStr (u "INTEGER")); (u "dbType", VStr (u "INT UNSIGNED")); (u "length", VInt 20)]],
    [VDict [(u "name", VStr (u "c *")); (u "javaType", VStr (u "VARCHAR")); (u "dbType", VStr (u "VARCHAR")); (u "length", VInt 258)]].
  vm_compute. reflexivity.
Qed.
Print Assumptions C62_collation_refuted.

Example C62_example :
  schema_listing
    [(u "a", u "{""id"": {""plaintext"": true, ""type"": ""int""}}");
     (u "a", u "{""name"": {""type"": ""varchar"", ""plaintext"": false, ""key"": ""k""}}");
     (u "b", u "{""day"": {""type"": ""date"", ""plaintext"": true}}")]
  = Ok (u "[{""name"": ""a"", ""type"": ""USER TABLE"", ""columns"": [{""name"": ""id"", ""javaType"": ""INTEGER"", ""dbType"": ""INT UNSIGNED"", ""length"": 20}, {""name"": ""name *"", ""javaType"": ""VARCHAR"", ""dbType"": ""VARCHAR"", ""length"": 258}]},{""name"": ""b"", ""type"": ""USER TABLE"", ""columns"": [{}]}]").
Proof. vm_compute. reflexivity. Qed.

(** ** C63: JDBC URLs *)

(** The connection data are exactly host, port and database: the database name ends at the next '/',
    so parameters after '?' stay part of it. *)
Theorem C63_target :
  forall repr float_int eval db d q id host port name tail user pw,
    console_body d q id -> clean q ->
    source repr db id (u "jdbc:mysql://" ++ host ++ u ":" ++ str_int port ++ u "/" ++ name ++ tail) user pw ->
    has_char 58 host = false -> has_char 47 host = false -> has_char 47 name = false ->
    (tail = [] \/ exists t, tail = 47%N :: t) ->
    exists kw,
      dget kw (u "host") = Some (VStr host) /\ dget kw (u "port") = Some (VInt port)
      /\ dget kw (u "db") = Some (VStr name) /\ dget kw (u "user") = Some user
      /\ dget kw (u "password") = Some pw
      /\ console_runs repr float_int eval db (VDict d) kw (VStr q).
Proof.
  intros repr float_int eval db d q id host port name tail user pw B C S H1 H2 H3 H4.
  pose proof (parse_url_ok host port name tail H1 H2 H3 H4) as P.
  assert (E : q = q ++ repeat 59%N 0) by (symmetry; apply app_nil_r).
  destruct (console_run repr float_int eval db d q id _ user pw _ q 0 B S P C E)
    as (kw & _ & K1 & K2 & K3 & K4 & K5 & K6).
  exists kw. repeat split; assumption.
Qed.
Print Assumptions C63_target.

(** A URL with connection parameters names another database than the one meant. *)
Theorem C63_parameters :
  forall repr float_int eval db d q id host port name params user pw,
    console_body d q id -> clean q ->
    source repr db id
      (u "jdbc:mysql://" ++ host ++ u ":" ++ str_int port ++ u "/" ++ name ++ u "?" ++ params) user pw ->
    has_char 58 host = false -> has_char 47 host = false -> has_char 47 name = false ->
    has_char 47 params = false ->
    exists kw,
      dget kw (u "db") = Some (VStr (name ++ u "?" ++ params)) /\ name ++ u "?" ++ params <> name
      /\ console_runs repr float_int eval db (VDict d) kw (VStr q).
Proof.
  intros repr float_int eval db d q id host port name params user pw B C S H1 H2 H3 H4.
  assert (H5 : has_char 47 (name ++ u "?" ++ params) = false).
  { rewrite has_char_app, H3. exact H4. }
  assert (S' : source repr db id
      (u "jdbc:mysql://" ++ host ++ u ":" ++ str_int port ++ u "/" ++ (name ++ u "?" ++ params) ++ []) user pw)
    by (rewrite app_nil_r; exact S).
  destruct (C63_target repr float_int eval db d q id host port (name ++ u "?" ++ params) [] user pw
              B C S' H1 H2 H5 (or_introl eq_refl)) as (kw & _ & _ & K & _ & _ & R).
  exists kw. split; [exact K|]. split; [|exact R].
  intros E. apply (f_equal (@length N)) in E. rewrite app_length in E. cbn in E. lia.
Qed.
Print Assumptions C63_parameters.

(** Without a port or without a database the request fails before the execution layer is called. *)
Theorem C63_incomplete :
  forall repr float_int eval invoke batch db d q id rest user pw,
    console_body d q id -> clean q ->
    source repr db id (u "jdbc:mysql://" ++ rest) user pw ->
    has_char 58 (hd [] (split 47 rest)) = false \/ has_char 47 rest = false ->
    query_post repr float_int eval invoke batch db (VDict d) = Err IndexError.
Proof.
  intros repr float_int eval invoke batch db d q id rest user pw (B1 & B2 & B3 & [ct B4] & B5) C S H.
  assert (P : parse_url (u "jdbc:mysql://" ++ rest) = Err IndexError).
  { destruct H as [H|H]; [apply parse_url_no_port, H | apply parse_url_no_db, H]. }
  unfold query_post, read_request, dmem, dgetE. rewrite B1, B2. cbn [bind]. unfold strip_query.
  pose proof (strip_clean q 0 C) as Q. cbn [repeat] in Q. rewrite app_nil_r in Q. rewrite Q. cbn [bind].
  rewrite B3, B4. cbn [bind]. rewrite (find_source_ok repr db id _ user pw S). cbn [bind].
  rewrite P. reflexivity.
Qed.
Print Assumptions C63_incomplete.

Example C63_example :
  parse_url (u "jdbc:mysql://10.0.0.7:3307/shop") = Ok (Some (Target (u "10.0.0.7") 3307 (u "shop")))
  /\ parse_url (u "jdbc:mysql://h:1/shop?useSSL=false") = Ok (Some (Target (u "h") 1 (u "shop?useSSL=false")))
  /\ parse_url (u "jdbc:mysql://h:1/a/b") = Ok (Some (Target (u "h") 1 (u "a")))
  /\ parse_url (u "jdbc:mysql://h/shop") = Err IndexError
  /\ parse_url (u "jdbc:mysql://bob:pw@h:1/shop") = Err ValueError
  /\ parse_url (u "jdbc:postgresql://h:1/shop") = Ok None
  /\ source ex_repr ex_db (VInt 4) ex_url (VStr (u "bob")) (VStr (u "pw"))
  /\ console_body (ex_body (u "select 1")) (u "select 1") (VInt 4).
Proof.
  repeat split; try (vm_compute; reflexivity).
  - do 2 eexists. repeat split; vm_compute; reflexivity.
  - eexists. vm_compute. reflexivity.
  - left. reflexivity.
Qed.

(** ** C78: column records as text *)

(** Whatever value with distinct keys and ordinary text is written with json.dumps is read back
    unchanged by json.loads: the metadata table and the request bodies lose nothing. *)
Theorem C78_round_trip :
  forall v, wfj v -> exists t, dumps v = Ok t /\ loads t = Ok v /\ Forall (fun c => (32 <= c <= 126)%N) t.
Proof. exact dumps_round_trip. Qed.
Print Assumptions C78_round_trip.

(** Two values with the same text are the same value. *)
Theorem C78_injective :
  forall v w t, wfj v -> wfj w -> dumps v = Ok t -> dumps w = Ok t -> v = w.
Proof.
  intros v w t Wv Ww Ev Ew. pose proof (loads_dumps v t Wv Ev) as A.
  pose proof (loads_dumps w t Ww Ew) as B. congruence.
Qed.
Print Assumptions C78_injective.

(** Text outside Unicode scalars does not survive: two lone surrogates come back as one character. *)
Theorem C78_surrogates_refuted :
  exists s t, dumps (VStr s) = Ok t /\ loads t <> Ok (VStr s).
Proof.
  exists [55357; 56832]%N. eexists. split; [vm_compute; reflexivity|]. vm_compute. discriminate.
Qed.
Print Assumptions C78_surrogates_refuted.

Example C78_example :
  dumps (VDict [([20320%N], VDict [(u "type", VStr (u "int")); (u "k", VStr (u "a\b""" ++ [9; 128512]%N))])])
  = Ok (u "{""\u4f60"": {""type"": ""int"", ""k"": ""a\\b\""\t\ud83d\ude00""}}").
Proof. vm_compute. reflexivity. Qed.

(** ** C79: the schema endpoint *)

(** The endpoint asks for the tables stored under "host:port/db", but tables are stored under "db": for
    a data source that can be used at all, and tables created through any data source, the listing is
    always the empty one. *)
Theorem C79_never_lists :
  forall repr db (store : list (pystr * (pystr * pystr))) asked id url user pw tg,
    source repr db id url user pw -> parse_url url = Ok (Some tg) ->
    (forall name, Permutation (asked name) (map snd (filter (fun r => seqb (fst r) name) store))) ->
    (forall r, In r store -> exists url' tg', parse_url url' = Ok (Some tg') /\ fst r = tg_db tg') ->
    schema_get repr db asked id = Ok (Some (u "[{}]")).
Proof. exact schema_none. Qed.
Print Assumptions C79_never_lists.

Definition ex_store := [(u "shop", (u "orders", u "{""id"": {""plaintext"": true, ""type"": ""int""}}"))].
Definition ex_asked (name : pystr) := map snd (filter (fun r : pystr * (pystr * pystr) => seqb (fst r) name) ex_store).

Example C79_example :
  schema_get ex_repr ex_db ex_asked (VInt 4) = Ok (Some (u "[{}]"))
  /\ length (ex_asked (u "shop")) = 1
  /\ exists t, schema_get ex_repr ex_db (fun n => ex_asked (skipn 14 n)) (VInt 4) = Ok (Some t) /\ t <> u "[{}]".
Proof.
  repeat split; try (vm_compute; reflexivity).
  eexists. split; [vm_compute; reflexivity | vm_compute; discriminate].
Qed.

(** ** C80: the component endpoint *)

(** /jdbc_query/component never runs a statement: its answer does not depend on the execution layer, it
    is the empty object or an error; for a MySQL data source it is always a KeyError. *)
Theorem C80_never_runs :
  forall repr eval invoke invoke' batch batch' db id body,
    component_post repr eval invoke batch db id body = component_post repr eval invoke' batch' db id body
    /\ (component_post repr eval invoke batch db id body = Ok None
        \/ exists e, component_post repr eval invoke batch db id body = Err e).
Proof. exact component_never. Qed.
Print Assumptions C80_never_runs.

Theorem C80_key_error :
  forall repr eval invoke batch db id d url user pw tg,
    source repr db id url user pw -> parse_url url = Ok (Some tg) ->
    component_post repr eval invoke batch db id (VDict d) = Err KeyError.
Proof. exact component_mysql. Qed.
Print Assumptions C80_key_error.

Example C80_example :
  component_post ex_repr ex_eval ex_invoke ex_batch ex_db (VInt 4)
    (VDict [(u "query", VStr (u "select 1"))]) = Err KeyError.
Proof. vm_compute. reflexivity. Qed.
