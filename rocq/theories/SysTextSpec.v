(** The whole system of C81 with the SQL text of every statement between the proxy and the database server (C93). *)
From Coq Require Import String Ascii List NArith ZArith QArith Bool.
From Verif Require Import Base CryptoModel JsonModel RewriteModel SqlSpec EncSpec StmtSpec SqlLex SqlRead FmtModel FmtSpec
  CreateModel MetaModel MetaSpec ExecModel ScrubModel OperModel OperSpec EndSpec TextSpec SysSpec.
Import ListNotations.
Open Scope Z_scope.

(** ** A server that is given texts *)
(** DROP TABLE name. *)
Definition read_drop (ts : list token) : option pystr :=
  match ts with [d; t; x] => if is_w "drop" d && is_w "table" t then ident x else None | _ => None end.
(** CREATE TABLE is read as in C81, the other statements from their tokens. *)
Definition text_server (n : nat) (bs : bool) (D : db) (text : pystr) : res (db * rows) :=
  match read_create text with
  | Some (t, cols) => if dmem D t then Ok (D, []) else new_table D t cols
  | None =>
    match lex bs true text with
    | None => Err DbError
    | Some ts =>
      match read_cmd n ts with
      | Some q => obey D q
      | None =>
        match read_drop ts with
        | Some t => if dmem D t then Ok (without D t, []) else Err DbError
        | None => Err DbError
        end
      end
    end
  end.

(** ** Requests *)
(** What the application writes: a CREATE TABLE (parsed), a DROP TABLE, or a statement on one table. *)
Inductive written := WCreate (j : json) | WDrop (t : pystr) | WCmd (c : cmd sx).
(** A request about database [db], with the options of the encrypted columns of a CREATE TABLE and the names it draws;
    or a restart of the proxy. *)
Inductive tevent :=
| TAsk (rnd : pystr -> Z) (db : pystr) (w : written) (enc : dict json) (fresh : nat -> pystr) (anon : pystr)
| TReboot.
Definition kind {C} (c : cmd C) : qtype :=
  match c with Select _ _ _ _ _ => QSelect | Insert _ _ _ => QInsert | Update _ _ _ => QUpdate | Delete _ _ => QDelete end.
Definition request_of (ft : pystr -> bool) (db : pystr) (w : written) (enc : dict json) (fresh : nat -> pystr) (anon : pystr) : request :=
  {| q_db := db;
     q_type := Ok (match w with WCreate _ => QCreate | WDrop _ => QDrop | WCmd c => kind c end);
     q_parsed := match w with WCreate j => Ok j | WDrop t => Ok (JDict [(u "drop", JDict [(u "table", JStr t)])]) | WCmd c => parsed ft c end;
     q_enc := match w with WCreate _ => Some enc | _ => None end;
     q_ciphertext := false; q_fresh := fresh; q_anon := anon |}.

Section System.
Variables (ft : pystr -> bool) (alnum : N -> bool) (fstr : Q -> pystr) (bs : bool).
Variables (E : env) (rest : delta -> sent -> json -> res sent).
(** The text of what the proxy sends. *)
Definition wire (s : sent) : res pystr := match s with SText q => Ok q | SJson j => format_sql alnum fstr j end.
Definition wire_text (s : sent) : pystr := match wire s with Ok t => t | Err _ => [] end.

(** As [sys_step], with the text server. *)
Definition tsys_step (n : nat) (w : system) (e : tevent) : system * option (res rows) :=
  match e with
  | TReboot => ((restart (fst w), snd w), None)
  | TAsk rnd db wr enc fresh anon =>
    let r := request_of ft db wr enc fresh anon in
    let D := db_of (snd w) db in
    let x := match sent_for E wire_text rest rnd (fst w) r with
             | Some s => do text <- wire s; text_server n bs D text
             | None => Ok (D, [])
             end in
    let '(d', y, _) := invoke (with_rnd E rnd) (inject wire_text rest) MySQL None (fst w) r (reports x) in
    ((d', dset (snd w) db (state_after D x)), Some (do '(l, _) <- y; Ok l))
  end.
Fixpoint tsys_run (n : nat) (w : system) (h : list tevent) : list (res rows) :=
  match h with
  | [] => []
  | e :: r => match tsys_step n w e with
              | (w', Some y) => y :: tsys_run n w' r
              | (w', None) => tsys_run n w' r
              end
  end.
Definition tsys_after (n : nat) (w : system) (h : list tevent) : system := fold_left (fun w e => fst (tsys_step n w e)) h w.

(** The same statements on plaintext databases. *)
Definition run_written (D : db) (w : written) : res (db * rows) :=
  match w with
  | WCreate j => plain_server is_keyword D j
  | WDrop t => if dmem D t then Ok (without D t, []) else Err DbError
  | WCmd c => obey D (meaning c)
  end.
Definition tplain_step (P : dbs) (e : tevent) : dbs * option (res rows) :=
  match e with
  | TReboot => (P, None)
  | TAsk _ db w _ _ _ =>
    let D := db_of P db in
    let x := run_written D w in
    (dset P db (state_after D x), Some (match w with WCmd (Select _ _ _ _ _) => do '(_, l) <- x; Ok l | _ => Ok [] end))
  end.
Fixpoint tplain_run (P : dbs) (h : list tevent) : list (res rows) :=
  match h with
  | [] => []
  | e :: r => match tplain_step P e with
              | (P', Some y) => y :: tplain_run P' r
              | (P', None) => tplain_run P' r
              end
  end.
Definition tplain_after (P : dbs) (h : list tevent) : dbs := fold_left (fun P e => fst (tplain_step P e)) h P.

(** ** The supported histories *)
(** CREATE TABLE as in C81, with physical names that a text may contain unquoted; DROP TABLE of a table that exists;
    the supported statements of C91, where the text sent for a SELECT does not contain SUM( or AVG( after a space. *)
Definition tgood (d : delta) (S : dbs) (e : tevent) : Prop :=
  match e with
  | TReboot => True
  | TAsk rnd db w enc fresh anon =>
    match w with
    | WCreate j =>
      good is_keyword E wire_text d S rnd (request_of ft db w enc fresh anon) /\
      forall q t m, rewrite_table (with_rnd E rnd) fresh anon (dget (self_meta d) db) j enc = Ok (q, t, m) ->
        usable (t_anon m) /\ forall n, In n (phys m) -> usable n
    | WDrop t => in_memory d db t <> None
    | WCmd c =>
      sup_cmd ft bs (with_rnd E rnd) (db_meta d db) c /\
      (kind c = QSelect -> forall j j' t st text, parsed ft c = Ok j ->
         rewrite_query (with_rnd E rnd) (db_meta d db) j = Ok (j', t, st) -> format_sql alnum fstr j' = Ok text ->
         substrb (u " SUM(") text = false /\ substrb (u " AVG(") text = false)
    end
  end.
(** Every request is supported in the state that the system has reached with a server that is given the parsed statements
    (that of C81). *)
Definition event_of (e : tevent) : event :=
  match e with TAsk rnd db w enc fresh anon => Ask rnd (request_of ft db w enc fresh anon) | TReboot => Reboot end.
Fixpoint tgood_run (w : system) (h : list tevent) : Prop :=
  match h with
  | [] => True
  | e :: r => tgood (fst w) (snd w) e /\ tgood_run (fst (sys_step is_keyword E wire_text rest w (event_of e))) r
  end.
End System.
