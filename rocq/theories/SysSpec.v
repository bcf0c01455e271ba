(** The whole system for C81: a client, the proxy (execution_context.py invoke), and a database server
    that executes what it is sent; beside it a plaintext database that runs the client's statements. *)
From Coq Require Import String Ascii List NArith ZArith QArith Bool Arith.
From Verif Require Import Base CryptoModel JsonModel RewriteModel SqlSpec EncSpec StmtSpec CreateModel CreateSpec
  MetaModel MetaSpec ExecModel ExecSpec.
Import ListNotations.
Open Scope Z_scope.

Definition rows := list (list sqlv).

(** ** How the server reads CREATE TABLE IF NOT EXISTS name(definitions)... *)
(** The definitions: split at the commas outside parentheses, up to the closing parenthesis. *)
Fixpoint definitions (depth : nat) (cur s : pystr) : list pystr :=
  match s with
  | [] => [rev cur]
  | c :: r =>
    if N.eqb c 40 then definitions (S depth) (c :: cur) r
    else if N.eqb c 41 then match depth with O => [rev cur] | S d => definitions d (c :: cur) r end
    else if (N.eqb c 44 && Nat.eqb depth 0)%bool then rev cur :: definitions 0 [] r
    else definitions depth (c :: cur) r
  end.
Fixpoint first_word (s : pystr) : pystr :=
  match s with [] => [] | c :: r => if (N.eqb c 32 || N.eqb c 40)%bool then [] else c :: first_word r end.
(** Definitions that begin with one of these words are constraints; the others begin with the name of
    a column. *)
Definition constraint_words : list pystr := [u "PRIMARY"; u "FOREIGN"; u "CONSTRAINT"].
Definition read_create (q : pystr) : option (pystr * list pystr) :=
  let p := u "CREATE TABLE IF NOT EXISTS " in
  if seqb (firstn (length p) q) p then
    let s := skipn (length p) q in
    let n := until_paren s in
    Some (n, filter (fun w => negb (smem w constraint_words))
                    (map first_word (definitions 0 [] (skipn (S (length n)) s))))
  else None.

(** ** The server *)
Fixpoint distinct (l : list pystr) : bool :=
  match l with [] => true | x :: r => negb (smem x r) && distinct r end.
Definition new_table (D : db) (n : pystr) (cols : list pystr) : res (db * rows) :=
  if distinct cols then Ok (dset D n {| tb_cols := cols; tb_rows := [] |}, []) else Err DbError.
Definition without {V} (D : dict V) (n : pystr) : dict V := filter (fun x => negb (seqb (fst x) n)) D.
(** A statement given parsed: DROP TABLE n, or a statement of SqlSpec. *)
Definition exec_any (kw : pystr -> bool) (D : db) (j : json) : res (db * rows) :=
  match j with
  | JDict d =>
    match dget d (u "drop") with
    | Some (JDict e) => match dget e (u "table") with
                        | Some (JStr n) => if dmem D n then Ok (without D n, []) else Err DbError
                        | _ => Err DbError
                        end
    | Some _ => Err DbError
    | None => exec kw D j
    end
  | _ => exec kw D j
  end.
Definition server (kw : pystr -> bool) (D : db) (s : sent) : res (db * rows) :=
  match s with
  | SText q => match read_create q with
               | Some (n, cols) => if dmem D n then Ok (D, []) else new_table D n cols
               | None => Err DbError
               end
  | SJson j => exec_any kw D j
  end.

(** ** The plaintext database: CREATE TABLE given parsed *)
Definition column_name (c : json) : res pystr :=
  match c with
  | JDict d => match dget d (u "name") with Some (JStr s) => Ok s | _ => Err DbError end
  | _ => Err DbError
  end.
Definition plain_server (kw : pystr -> bool) (D : db) (j : json) : res (db * rows) :=
  match j with
  | JDict top =>
    match dget top (u "create table") with
    | Some (JDict ct) =>
      match dget ct (u "name") with
      | Some (JStr t) =>
        do cols <- mapM column_name (match dget ct (u "columns") with Some (JList l) => l | Some x => [x] | None => [] end);
        if dmem D t then Err DbError else new_table D t cols
      | _ => Err DbError
      end
    | Some _ => Err DbError
    | None => exec_any kw D j
    end
  | _ => exec_any kw D j
  end.

(** ** Databases by name *)
Definition dbs := dict db.
Definition db_of (S : dbs) (n : pystr) : db := match dget S n with Some D => D | None => [] end.

(** What the connection reports. *)
Definition reports (x : res (db * rows)) : answer :=
  match x with
  | Ok (_, l) => {| a_cursor := None; a_exec := None; a_fetch := Ok l; a_commit := None |}
  | Err e => {| a_cursor := None; a_exec := Some e; a_fetch := Err e; a_commit := None |}
  end.
Definition state_after (D : db) (x : res (db * rows)) : db := match x with Ok (D', _) => D' | Err _ => D end.

(** inject_procedure, remote_executor.py L188-191: statements without SUM or AVG in their text are left
    alone.  [text]: the writer; [rest]: the rest of the function. *)
Definition inject (text : sent -> pystr) (rest : delta -> sent -> json -> res sent) (d : delta) (q : sent) (t : json)
    : res sent :=
  if (substrb (u " SUM(") (text q) || substrb (u " AVG(") (text q))%bool then rest d q t else Ok q.

Section System.
Variables (kw : pystr -> bool) (E : env) (text : sent -> pystr) (rest : delta -> sent -> json -> res sent).

(** A request, with the random numbers of its homomorphic encryptions, or a restart of the proxy. *)
Inductive event := Ask (rnd : pystr -> Z) (r : request) | Reboot.
(** The process of the proxy and the server. *)
Definition system := (delta * dbs)%type.

(** The statement that the proxy sends for a request. *)
Definition sent_for (rnd : pystr -> Z) (d : delta) (r : request) : option sent :=
  match snd (call (with_rnd E rnd) (inject text rest) MySQL None d r (reports (Ok ([], [])))) with
  | Execute s :: _ => Some s
  | _ => None
  end.
Definition sys_step (w : system) (e : event) : system * option (res rows) :=
  match e with
  | Reboot => ((restart (fst w), snd w), None)
  | Ask rnd r =>
    let D := db_of (snd w) (q_db r) in
    let x := match sent_for rnd (fst w) r with Some s => server kw D s | None => Ok (D, []) end in
    let '(d', y, _) := invoke (with_rnd E rnd) (inject text rest) MySQL None (fst w) r (reports x) in
    ((d', dset (snd w) (q_db r) (state_after D x)), Some (do '(l, _) <- y; Ok l))
  end.
Fixpoint sys_run (w : system) (h : list event) : list (res rows) :=
  match h with
  | [] => []
  | e :: r => match sys_step w e with
              | (w', Some y) => y :: sys_run w' r
              | (w', None) => sys_run w' r
              end
  end.
Definition sys_after (w : system) (h : list event) : system := fold_left (fun w e => fst (sys_step w e)) h w.

(** The same requests on the plaintext databases.  A SELECT is answered with its rows or the error, all
    other statements with no rows and without an error (cf. C40). *)
Definition plain_step (P : dbs) (e : event) : dbs * option (res rows) :=
  match e with
  | Reboot => (P, None)
  | Ask _ r =>
    let D := db_of P (q_db r) in
    let x := do j <- q_parsed r; plain_server kw D j in
    (dset P (q_db r) (state_after D x),
     Some (match q_type r with Ok QSelect => do '(_, l) <- x; Ok l | _ => Ok [] end))
  end.
Fixpoint plain_run (P : dbs) (h : list event) : list (res rows) :=
  match h with
  | [] => []
  | e :: r => match plain_step P e with
              | (P', Some y) => y :: plain_run P' r
              | (P', None) => plain_run P' r
              end
  end.

(** ** The requests the theorem is about *)
Definition type_of (j : json) : option qtype :=
  match j with
  | JDict ((k, _) :: _) =>
    if seqb k (u "insert") then Some QInsert
    else if seqb k (u "update") then Some QUpdate
    else if seqb k (u "delete") then Some QDelete
    else if seqb k (u "select") then Some QSelect else None
  | _ => None
  end.
Definition fresh_name (s : pystr) : Prop := colname kw s /\ ~ In s constraint_words.
(** An argument of a type: none or a number. *)
Definition type_arg (arg : json) : Prop := arg = JDict [] \/ exists z, arg = JInt z.
(** A constraint as in C32 whose name, if any, is an identifier. *)
Definition named_con (c : json) : Prop :=
  (exists o cs ks, (forall s, o = Some s -> valid_name s = true) /\ names_of cs ks /\ c = primary_con o cs) \/
  (exists o cs ks t rs rks more, (forall s, o = Some s -> valid_name s = true) /\ names_of cs ks /\ names_of rs rks /\
     c = foreign_con o cs t rs more).

Inductive good (d : delta) (S : dbs) (rnd : pystr -> Z) (r : request) : Prop :=
(** CREATE TABLE of a new table: column names and drawn names are identifiers and do not clash; the types
    are single words with at most one argument; encrypted columns are as in C31_supported; no defaults;
    the proxy does not reject the statement. *)
| good_create enc j t cols cons (defs : list (pystr * pystr * json)) q m :
    q_enc r = Some enc -> q_type r = Ok QCreate -> q_parsed r = Ok j -> create_of j t cols cons ->
    Forall2 (fun col x => col_def col (fst (fst x)) (snd (fst x)) (snd x)) cols defs ->
    defs <> [] -> NoDup (map (fun x => fst (fst x)) defs) -> Forall no_default cols -> Forall named_con cons ->
    (forall x, In x defs -> fresh_name (fst (fst x)) /\ valid_name (snd (fst x)) = true /\ type_arg (snd x)) ->
    (forall a, fresh_name (q_fresh r a)) -> (forall a b, q_fresh r a = q_fresh r b -> a = b) ->
    (forall a, ~ In (q_fresh r a) (map (fun x => fst (fst x)) defs)) ->
    (forall x o, In x defs -> dget enc (fst (fst x)) = Some o -> asked o "sm4" = false /\
       (snd (fst x) = u "int" \/ In (snd (fst x)) [u "char"; u "varchar"] /\ asked o "arithmetic" = false)) ->
    valid_name (q_anon r) = true -> dget (db_of S (q_db r)) (q_anon r) = None ->
    in_memory d (q_db r) t = None ->
    rewrite_table (with_rnd E rnd) (q_fresh r) (q_anon r) (dget (self_meta d) (q_db r)) j enc = Ok (q, t, m) ->
    good d S rnd r
(** DROP TABLE of a table that exists. *)
| good_drop n m :
    q_enc r = None -> q_type r = Ok QDrop -> q_parsed r = Ok (JDict [(u "drop", JDict [(u "table", JStr n)])]) ->
    in_memory d (q_db r) n = Some m -> good d S rnd r
(** A statement of the fragment of C67; a SELECT has no SUM or AVG in its rewritten text. *)
| good_stmt j ty :
    q_enc r = None -> q_parsed r = Ok j -> type_of j = Some ty -> q_type r = Ok ty -> q_ciphertext r = false ->
    frag_stmt kw (with_rnd E rnd) (db_meta d (q_db r)) j ->
    (ty = QSelect -> forall j' t st, rewrite_query (with_rnd E rnd) (db_meta d (q_db r)) j = Ok (j', t, st) ->
       substrb (u " SUM(") (text (SJson j')) = false /\ substrb (u " AVG(") (text (SJson j')) = false) ->
    good d S rnd r.

Fixpoint good_run (w : system) (h : list event) : Prop :=
  match h with
  | [] => True
  | e :: r => match e with Ask rnd q => good (fst w) (snd w) rnd q | Reboot => True end /\
              good_run (fst (sys_step w e)) r
  end.
End System.
