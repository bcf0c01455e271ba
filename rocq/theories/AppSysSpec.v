(** The whole system in which the application sends SQL texts, and the plaintext databases that get the same texts (C98). *)
From Coq Require Import String Ascii List Arith NArith ZArith QArith Bool.
From Verif Require Import Base CryptoModel JsonModel RewriteModel SqlSpec EncSpec StmtSpec SqlLex SqlRead FmtModel FmtSpec
  CreateModel MetaModel MetaSpec ExecModel ScrubModel OperModel OperSpec EndSpec TextSpec SysSpec SysTextSpec LitModel LitSpec GramModel GramSpec FullModel FullSpec
  DirectSpec DdlSpec.
Import ListNotations.

(** ** The plaintext databases *)
(** CREATE TABLE: the words IF NOT EXISTS, the first tokens of the definitions, and the names of the columns. *)
Definition guarded (ts : list token) : bool * list token :=
  match ts with
  | i :: n :: e :: r => if is_w "if" i && is_w "not" n && is_w "exists" e then (true, r) else (false, ts)
  | _ => (false, ts)
  end.
Fixpoint heads (depth : nat) (start : bool) (ts : list token) : option (list token) :=
  match ts with
  | [] => None
  | t :: r =>
    if is_sym (u "(") t then if start then None else heads (S depth) false r
    else if is_sym (u ")") t then match depth with O => if start then None else Some [] | S d => heads d false r end
    else if (is_sym (u ",") t && Nat.eqb depth 0)%bool then if start then None else heads 0 true r
    else if start then option_map (cons t) (heads depth false r) else heads depth false r
  end.
Definition is_con (t : token) : bool := existsb (fun w => is_w w t) ["primary"; "foreign"; "constraint"; "unique"; "key"; "index"]%string.
Fixpoint column_names (hs : list token) : option (list pystr) :=
  match hs with
  | [] => Some []
  | h :: r => if is_con h then column_names r
              else match ident h, column_names r with Some c, Some l => Some (c :: l) | _, _ => None end
  end.
Definition read_table (ts : list token) : option (bool * pystr * list pystr) :=
  match ts with
  | c :: t :: r =>
    if (is_w "create" c && is_w "table" t)%bool then
      let (guard, r1) := guarded r in
      match r1 with
      | x :: p :: r2 =>
        if is_sym (u "(") p then
          match ident x, heads 0 true r2 with
          | Some n, Some hs => option_map (fun cols => (guard, n, cols)) (column_names hs)
          | _, _ => None
          end
        else None
      | _ => None
      end
    else None
  | _ => None
  end.
(** A database that is given the text of the application. *)
Definition app_server (n : nat) (bs : bool) (D : db) (text : pystr) : res (db * rows) :=
  match lex bs true text with
  | None => Err DbError
  | Some ts0 =>
    let ts := unended ts0 in
    match read_cmd n ts with
    | Some q => obey D q
    | None =>
      match read_drop ts with
      | Some t => if dmem D t then Ok (without D t, []) else Err DbError
      | None =>
        match read_table ts with
        | Some (guard, t, cols) => if dmem D t then (if guard then Ok (D, []) else Err DbError) else new_table D t cols
        | None => Err DbError
        end
      end
    end
  end.
(** Only a SELECT is answered with rows or an error, as in C93. *)
Definition asks_rows (bs : bool) (text : pystr) : bool := match lex bs true text with Some (t :: _) => is_w "select" t | _ => false end.

(** ** The requests of an application *)
(** A text for database [db]; for a CREATE TABLE the options of its encrypted columns and the names it draws. *)
Inductive aevent :=
| AText (rnd : pystr -> Z) (db text : pystr) (enc : option (dict json)) (fresh : nat -> pystr) (anon : pystr)
| AReboot.

Section System.
Variables (uname : pystr -> option N) (more : pystr -> pystr -> res pystr) (ft : pystr -> bool) (alnum : N -> bool) (fstr : Q -> pystr) (bs : bool).
Variables (E : env) (rest : delta -> sent -> json -> res sent) (ty : pystr -> res qtype).
(** rewrite_table parses the text itself (scheduler/handers/table.py L13); the other statements are parsed in
    rewrite_hander.py L27-28.  [ty]: Parser(query_sql).query_type. *)
Definition text_request (db text : pystr) (enc : option (dict json)) (fresh : nat -> pystr) (anon : pystr) : request :=
  {| q_db := db; q_type := ty text;
     q_parsed := match enc with Some _ => parse_create uname more ft text | None => parse_text uname more ft alnum text end;
     q_enc := enc; q_ciphertext := false; q_fresh := fresh; q_anon := anon |}.
(** The text of what the proxy sends, rewrite_hander.py L75-77; a cursor cannot execute None. *)
Definition sent_text (s : sent) : res pystr :=
  match s with
  | SText q => Ok q
  | SJson j => do o <- write_text alnum fstr j; match o with Some t => Ok t | None => Err DbError end
  end.
Definition sent_words (s : sent) : pystr := match sent_text s with Ok t => t | Err _ => [] end.
(** As [tsys_step] of C93, from the text of the application. *)
Definition asys_step (n : nat) (w : system) (e : aevent) : system * option (res rows) :=
  match e with
  | AReboot => ((restart (fst w), snd w), None)
  | AText rnd db text enc fresh anon =>
    let r := text_request db text enc fresh anon in
    let D := db_of (snd w) db in
    let x := match sent_for E sent_words rest rnd (fst w) r with
             | Some s => do t <- sent_text s; text_server n bs D t
             | None => Ok (D, [])
             end in
    let '(d', y, _) := invoke (with_rnd E rnd) (inject sent_words rest) MySQL None (fst w) r (reports x) in
    ((d', dset (snd w) db (state_after D x)), Some (do '(l, _) <- y; Ok l))
  end.
Fixpoint asys_run (n : nat) (w : system) (h : list aevent) : list (res rows) :=
  match h with
  | [] => []
  | e :: r => match asys_step n w e with
              | (w', Some y) => y :: asys_run n w' r
              | (w', None) => asys_run n w' r
              end
  end.
(** The same texts, given to plaintext databases. *)
Definition aplain_step (n : nat) (P : dbs) (e : aevent) : dbs * option (res rows) :=
  match e with
  | AReboot => (P, None)
  | AText _ db text _ _ _ =>
    let D := db_of P db in
    let x := app_server n bs D text in
    (dset P db (state_after D x), Some (if asks_rows bs text then do '(_, l) <- x; Ok l else Ok []))
  end.
Fixpoint aplain_run (n : nat) (P : dbs) (h : list aevent) : list (res rows) :=
  match h with
  | [] => []
  | e :: r => match aplain_step n P e with
              | (P', Some y) => y :: aplain_run n P' r
              | (P', None) => aplain_run n P' r
              end
  end.

(** ** Which texts *)
(** The text consists of the parts, written for the parser and for MySQL. *)
Definition app_text (parts : list lexeme -> Prop) (text : pystr) : Prop :=
  exists ls lead s fin, parts ls /\ text = lead ++ s ++ fin /\ blanks lead /\ readable bs s ls /\
    (fin = [] \/ exists w, fin = 59%N :: w /\ blanks w).
Definition text_of (w : SysTextSpec.written) (text : pystr) : Prop :=
  match w with
  | WCreate j => exists d, good_def d /\ j = def_json d /\ app_text (def_lex d) text
  | WDrop t => app_text (eq [K "drop"; K "table"; LName t]) text
  | WCmd c => shared_text bs c text
  end.
(** The event stands for that of C93; the text has the type of the statement it writes. *)
Definition stands (a : aevent) (e : tevent) : Prop :=
  match a, e with
  | AText rnd db text enc fresh anon, TAsk rnd' db' w enc' fresh' anon' =>
    rnd = rnd' /\ db = db' /\ fresh = fresh' /\ anon = anon' /\ enc = match w with WCreate _ => Some enc' | _ => None end /\
    text_of w text /\ ty text = Ok (match w with WCreate _ => QCreate | WDrop _ => QDrop | WCmd c => kind c end)
  | AReboot, TReboot => True
  | _, _ => False
  end.
End System.
