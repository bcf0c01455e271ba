(** C97: the text of CREATE TABLE, from its characters to the physical table. *)
From Coq Require Import String Ascii List Arith NArith ZArith QArith Bool Lia.
From Verif Require Import Base BaseProof CryptoModel JsonModel RewriteModel SqlSpec EncSpec StmtSpec CreateModel CreateSpec CreateProof CreateProps ScrubModel OperModel OperSpec TextSpec RewriteExample
  LitModel LitSpec GramModel GramSpec GramSimProof GramCheckProof DdlSpec DdlProof DdlJsonProof DdlTableProof.
Import ListNotations.
Open Scope Z_scope.

(** Whatever letters, blanks, quotes and comments it is written with, the definition of a table is parsed to its JSON. *)
Theorem C97_parse : forall uname more ft d text, good_def d -> writes_def d text -> parse_create uname more ft text = Ok (def_json d).
Proof. exact create_parsed. Qed.
Print Assumptions C97_parse.

(** A definition that the proxy supports is accepted.  The statement it sends declares the physical columns of every column, in
    order, and the constraints with physical names; UNIQUE, COLLATE, COMMENT and the options of the table are lost.  The metadata
    has the columns of the definition. *)
Theorem C97_create : forall uname more ft E fresh anon meta text d enc,
  good_def d -> writes_def d text -> NoDup (map cl_name (td_cols d)) -> Forall (takes enc) (td_cols d) ->
  Forall (takes_con (map cl_name (td_cols d)) meta) (td_cons d) ->
  exists cols ks,
    create_from_text uname more ft E fresh anon meta text enc =
      Ok (create_text anon (concat (map (fun x => col_decls (fst x) (snd (snd x))) (combine (td_cols d) cols))) ks (u ";"),
          td_name d, {| t_anon := anon; t_cols := cols; t_comment := None |}) /\
    dkeys cols = map cl_name (td_cols d) /\ Forall2 (fun c kc => col_meta enc c (snd kc)) (td_cols d) cols /\
    Forall2 (con_rewritten cols meta) (map constr_json (td_cons d)) ks.
Proof. exact text_to_table. Qed.
Print Assumptions C97_create.

(** Columns of other types cannot be encrypted: unsigned numbers, INT(11), texts without a size, DECIMAL, DATE, ... *)
Theorem C97_encrypted_types : forall uname more ft E fresh anon meta text d enc q n m,
  good_def d -> writes_def d text -> create_from_text uname more ft E fresh anon meta text enc = Ok (q, n, m) ->
  forall c, In c (td_cols d) -> dget enc (cl_name c) <> None -> enc_type (cl_type c).
Proof. exact encrypted_types. Qed.
Print Assumptions C97_encrypted_types.

(** Refuted for all definitions of tables: a constant default other than 0, and an index, are rejected. *)
Theorem C97_default_refuted : forall uname more ft E fresh anon meta text d enc c k,
  good_def d -> writes_def d text -> In c (td_cols d) -> In (Default (DConst k)) (cl_opts c) -> k <> KInt 0 ->
  exists e, create_from_text uname more ft E fresh anon meta text enc = Err e.
Proof. exact default_rejected. Qed.
Print Assumptions C97_default_refuted.
Theorem C97_index_refuted : forall uname more ft E fresh anon meta text d enc o un name cs,
  good_def d -> writes_def d text -> In (Index o un name cs) (td_cons d) ->
  exists e, create_from_text uname more ft E fresh anon meta text enc = Err e.
Proof. exact index_rejected. Qed.
Print Assumptions C97_index_refuted.

(** Refuted for unsigned columns that are not encrypted: the statement sent declares such a column twice. *)
Theorem C97_unsigned_refuted : forall uname more ft E fresh anon meta text d enc q n m c,
  good_def d -> writes_def d text -> create_from_text uname more ft E fresh anon meta text enc = Ok (q, n, m) ->
  In c (td_cols d) -> ty_unsigned (cl_type c) = true ->
  exists ds ks, q = create_text anon ds ks (u ";") /\ ~ NoDup (map fst ds).
Proof. exact unsigned_twice. Qed.
Print Assumptions C97_unsigned_refuted.

(** Refuted for types with two sizes, such as DECIMAL(10, 2): the statement sent contains Python's text of the list. *)
Theorem C97_sizes_refuted : forall uname more ft E fresh anon meta text d enc q n m c,
  good_def d -> writes_def d text -> create_from_text uname more ft E fresh anon meta text enc = Ok (q, n, m) ->
  In c (td_cols d) -> dget enc (cl_name c) = None -> ty_unsigned (cl_type c) = false -> (2 <= length (ty_sizes (cl_type c)))%nat ->
  exists a b rest ks, q = create_text anon
    (a ++ (cl_name c, u (ty_word (cl_type c)) ++ u "(" ++ e_repr E (JList (map JInt (ty_sizes (cl_type c)))) ++ u ")" ++ rest) :: b) ks (u ";").
Proof. exact sizes_repr. Qed.
Print Assumptions C97_sizes_refuted.

(** A text with its definition: the names are encrypted as in the example of C31. *)
Local Open Scope string_scope.
Local Open Scope list_scope.
Definition ty (w : string) (l : list Z) : ctype := {| ty_word := w; ty_sizes := l; ty_unsigned := false |}.
Definition col (n : string) (t : ctype) (os : list copt) : column := {| cl_name := u n; cl_type := t; cl_opts := os |}.
Definition staff : table_def :=
  {| td_name := u "staff"; td_guard := true;
     td_cols := [col "id" (ty "int" []) []; col "name" (ty "varchar" [20]) [NotNull; Comment (u "full name")]; col "boss" (ty "varchar" [9]) [Nullable]; col "age" (ty "int" []) [Unique]];
     td_cons := [Primary None [u "id"]; Foreign (Some (u "fk")) [u "boss"] (u "dep") [u "boss"]];
     td_opts := [Engine (u "InnoDB"); TComment (u "people"); Charset (u "utf8")] |}.
Definition staff_text : pystr :=
  u "Create TABLE if not exists `staff`(id INT, name VarChar(20) NOT NULL comment 'full name', boss varchar( 9 ) null, age int unique, primary key(id), CONSTRAINT fk FOREIGN KEY (boss) REFERENCES dep (boss)) ENGINE=InnoDB Comment = 'people' default charset=utf8 ; ".
Definition tw (l : list (string * string)) : list (pystr * pystr) := map (fun p => (u (fst p), u (snd p))) l.
Lemma free w f : in_language (u w) = false -> map low_char (u f) = u w -> word_lex w (LFun (u f)).
Proof. intros H. apply wl_free. intros X. apply language_in in X. congruence. Qed.
Local Ltac fw f := apply (free _ f); vm_compute; reflexivity.
Lemma staff_writes : writes_def staff staff_text.
Proof.
  eexists. split.
  - apply (dl_def (u "staff") true).
    + repeat apply Forall2_cons; [| | | |apply Forall2_nil]; apply cl_lex;
      [apply tl_signed; fw "INT"|apply Forall2_nil| apply tl_signed; fw "VarChar"|repeat apply Forall2_cons; [apply ol_not_null|apply ol_comment; fw "comment"|apply Forall2_nil]
      |apply tl_signed; fw "varchar"|repeat apply Forall2_cons; [apply ol_nullable|apply Forall2_nil]|apply tl_signed; fw "int"|repeat apply Forall2_cons; [apply ol_unique|apply Forall2_nil]].
    + repeat apply Forall2_cons; [apply kl_primary|apply kl_foreign|apply Forall2_nil].
    + repeat apply Forall2_cons; [apply ml_engine; fw "ENGINE"|apply ml_comment; fw "Comment"|apply ml_charset; [fw "default"|fw "charset"]|apply Forall2_nil].
  - apply (spells_by _ _ [] (u "Create TABLE if not exists `staff`(id INT, name VarChar(20) NOT NULL comment 'full name', boss varchar( 9 ) null, age int unique, primary key(id), CONSTRAINT fk FOREIGN KEY (boss) REFERENCES dep (boss)) ENGINE=InnoDB Comment = 'people' default charset=utf8 ") (u ";") (u " ")
      (tw [("Create", " "); ("TABLE", " "); ("if", " "); ("not", " "); ("exists", " "); ("`staff`", ""); ("(", ""); ("id", " "); ("INT", ""); (",", " ");
           ("name", " "); ("VarChar", ""); ("(", ""); ("20", ""); (")", " "); ("NOT", " "); ("NULL", " "); ("comment", " "); ("'full name'", ""); (",", " ");
           ("boss", " "); ("varchar", ""); ("(", " "); ("9", " "); (")", " "); ("null", ""); (",", " "); ("age", " "); ("int", " "); ("unique", ""); (",", " ");
           ("primary", " "); ("key", ""); ("(", ""); ("id", ""); (")", ""); (",", " "); ("CONSTRAINT", " "); ("fk", " "); ("FOREIGN", " "); ("KEY", " "); ("(", ""); ("boss", ""); (")", " ");
           ("REFERENCES", " "); ("dep", " "); ("(", ""); ("boss", ""); (")", ""); (")", " "); ("ENGINE", ""); ("=", ""); ("InnoDB", " "); ("Comment", " "); ("=", " "); ("'people'", " ");
           ("default", " "); ("charset", ""); ("=", ""); ("utf8", " ")])); vm_compute; reflexivity.
Qed.
Local Ltac nodup := repeat (apply NoDup_cons; [let X := fresh in intros X; vm_compute in X; intuition discriminate|]); apply NoDup_nil.
Lemma staff_good : good_def staff.
Proof.
  split; [discriminate|]. split; [|split].
  - repeat (apply Forall_cons; [split; [split; [left; split; [vm_compute; tauto|cbn; lia]|discriminate]|split; [cbn; nodup|exact I]]|]). apply Forall_nil.
  - repeat (apply Forall_cons; [cbn; repeat split; discriminate|]). apply Forall_nil.
  - cbn. nodup.
Qed.
Lemma ex_good key fz ar : good_options (ex_opts key fz ar).
Proof. eexists _, _. split; [reflexivity|]. split; [reflexivity|]. split; [discriminate|]. split; [right; eexists _, _; reflexivity|left; reflexivity]. Qed.
Definition no_name : pystr -> option N := fun _ => None.
Definition no_more : pystr -> pystr -> res pystr := fun _ _ => Err Generic.
Example C97_example :
  good_def staff /\ writes_def staff staff_text /\ NoDup (map cl_name (td_cols staff)) /\ Forall (takes ex_enc) (td_cols staff) /\
  Forall (takes_con (map cl_name (td_cols staff)) (Some exM)) (td_cons staff) /\
  exists m, create_from_text no_name no_more (fun _ => false) exE ex_fresh (u "t77") (Some exM) staff_text ex_enc =
    Ok (u "CREATE TABLE IF NOT EXISTS t77(id int,c0 varchar(44) NOT NULL ,c1 VARCHAR(2000) NOT NULL ,c2 varchar(24) NULL ,c3 BIGINT,c4 VARCHAR(300),c5 Decimal(65,0),PRIMARY KEY(id),CONSTRAINT fk FOREIGN KEY(c2) REFERENCES q04(f10));", u "staff", m) /\
    dkeys (t_cols m) = [u "id"; u "name"; u "boss"; u "age"].
Proof.
  split; [exact staff_good|]. split; [exact staff_writes|]. split; [cbn; nodup|]. split; [|split].
  - assert (NF : forall c, In c (td_cols staff) -> ~ In "default" (map opt_key (cl_opts c))) by (intros c I0; cbn [In td_cols staff] in I0; each I0 ltac:(idtac; cbn; intuition discriminate)).
    apply Forall_forall. intros c I0. split; [now apply NF|]. clear NF. cbn [In td_cols staff] in I0.
    destruct I0 as [<-|[<-|[<-|[<-|[]]]]].
    + split; [reflexivity|cbn; lia].
    + split; [split; [reflexivity|right; split; [cbn; tauto|exists 20; split; [reflexivity|lia]]]|apply ex_good].
    + split; [split; [reflexivity|right; split; [cbn; tauto|exists 9; split; [reflexivity|lia]]]|apply ex_good].
    + split; [split; [reflexivity|left; split; [cbn; tauto|left; reflexivity]]|apply ex_good].
  - apply Forall_cons; [intros x [<-|[]]; cbn; tauto|]. apply Forall_cons; [|apply Forall_nil]. split; [intros x [<-|[]]; cbn; tauto|].
    eexists _, _. split; [reflexivity|]. split; [reflexivity|]. intros r [<-|[]]. eexists _, _. split; reflexivity.
  - eexists. split; vm_compute; reflexivity.
Qed.

(** What goes wrong: INT UNSIGNED is declared twice, DECIMAL(10, 2) becomes decimal([10, 2]), and these texts are rejected. *)
Definition made (text : string) (enc : dict json) : res pystr :=
  do '(q, _, _) <- create_from_text no_name no_more (fun _ => false) exE ex_fresh (u "t77") None (u text) enc; Ok q.
Example C97_wrong :
  made "CREATE TABLE t (a int unsigned)" [] = Ok (u "CREATE TABLE IF NOT EXISTS t77(a unsigned(True),a int);") /\
  made "CREATE TABLE t (a decimal(10,2))" [] = Ok (u "CREATE TABLE IF NOT EXISTS t77(a decimal(" ++ e_repr exE (JList [JInt 10; JInt 2]) ++ u "));") /\
  made "CREATE TABLE t (a int unsigned)" [(u "a", ex_opts "k" false false)] = Err AttributeError /\
  made "CREATE TABLE t (a INT(11))" [(u "a", ex_opts "k" false false)] = Err TypeError /\
  made "CREATE TABLE t (a int default 5)" [] = Err TypeError /\
  made "CREATE TABLE t (a varchar(9) default 'x')" [] = Err TypeError /\
  made "CREATE TABLE t (a int default 0)" [] = Ok (u "CREATE TABLE IF NOT EXISTS t77(a int);") /\
  made "CREATE TABLE t (a int, unique key k (a))" [] = Err AssertionError /\
  made "CREATE TABLE t (a int primary key auto_increment) engine=InnoDB auto_increment=7 default charset=utf8" [] =
    Ok (u "CREATE TABLE IF NOT EXISTS t77(a int primary key auto_increment );").
Proof. vm_compute. repeat split. Qed.
