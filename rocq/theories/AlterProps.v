(** C89, C90: ALTER TABLE ... ADD/DROP of keys and indexes. *)
From Coq Require Import String Ascii List Arith NArith ZArith Bool Lia.
From Verif Require Import Base BaseProof CryptoModel FuzzyModel JsonModel DotsModel RewriteModel SqlLex FmtModel FmtSpec AlterModel AlterSpec AlterProof AlterRewriteProof RewriteExample.
Import ListNotations.
Open Scope N_scope.

(** ** C89: the statement that is read *)

(** However a change of a key or an index is written, it is recognised, with the table, the names and the column it has. *)
Theorem C89_recognised : forall alnum t x sql,
  ascii_ok alnum -> names_ok alnum t x -> written alnum (toks t x) sql -> parse_alter_key alnum sql = change_dict t x.
Proof. intros alnum t x sql HA. exact (parse_written alnum HA t x sql). Qed.
Print Assumptions C89_recognised.

(** Whatever the text, nothing is recognised or one of these changes is, and every name in it is a word. *)
Theorem C89_nothing_else : forall alnum sql,
  ascii_ok alnum ->
  parse_alter_key alnum sql = [] \/
  exists t x, parse_alter_key alnum sql = change_dict t x /\ Forall (fun w => forallb (name_char alnum) w = true) (t :: change_names x).
Proof. intros alnum sql HA. exact (parse_shape alnum HA sql). Qed.
Print Assumptions C89_nothing_else.

(** A change is written as a text that is recognised as the same change. *)
Theorem C89_written_back : forall alnum t x,
  ascii_ok alnum -> names_ok alnum t x ->
  exists text, format_alter_key (change_dict t x) = Ok (Some text) /\ text = alter_text t x /\
    written alnum (toks t x) text /\ parse_alter_key alnum text = change_dict t x.
Proof.
  intros alnum t x HA OK. exists (alter_text t x). split; [|split; [reflexivity|split; [exact (written_text alnum HA t x OK)|]]].
  - apply format_change. unfold names_ok in OK. apply Forall_inv_tail in OK. destruct x; cbn [change_names hd] in *; try exact Logic.I; exact (proj1 (Forall_inv OK)).
  - apply parse_written; [exact HA|exact OK|]. now apply written_text.
Qed.
Print Assumptions C89_written_back.

(** Refuted: a key of several columns, a name with its schema, a comment, a quoted text: with a character that is neither of a word
    nor a blank, back quote, parenthesis or semicolon, no statement is recognised. *)
Theorem C89_other_character_refuted : forall alnum sql c,
  ascii_ok alnum -> In c sql -> name_char alnum c = false -> is_blank c = false -> ~ In c [96; 40; 41; 59] -> parse_alter_key alnum sql = [].
Proof. intros alnum sql c HA. exact (other_character alnum HA sql c). Qed.
Print Assumptions C89_other_character_refuted.

(** Refuted: only the table may be in back quotes; a statement with a third back quote is not recognised. *)
Theorem C89_quoted_column_refuted : forall alnum a b c d, ascii_ok alnum -> parse_alter_key alnum (a ++ 96 :: b ++ 96 :: c ++ 96 :: d) = [].
Proof. intros alnum a b c d HA. exact (third_quote alnum HA a b c d). Qed.
Print Assumptions C89_quoted_column_refuted.

(** Refuted: after the semicolon only one line feed may follow. *)
Theorem C89_after_semicolon_refuted : forall alnum a b, ascii_ok alnum -> b <> [] -> b <> [10] -> parse_alter_key alnum (a ++ 59 :: b) = [].
Proof. intros alnum a b HA. exact (after_semicolon alnum HA a b). Qed.
Print Assumptions C89_after_semicolon_refuted.

(** Refuted: words may touch; a text that names the table xdrop, and is no statement, is taken for dropping the primary key of x. *)
Theorem C89_touching_words_refuted : forall alnum x,
  ascii_ok alnum -> name alnum x -> parse_alter_key alnum (u "alter table " ++ x ++ u "drop primary key") = change_dict x DropPrimary.
Proof. intros alnum x HA [NE W]. exact (touching alnum HA x NE W). Qed.
Print Assumptions C89_touching_words_refuted.

(** Refuted: an index without a name, which MySQL allows, is recognised but nothing is written. *)
Theorem C89_unnamed_index_refuted : forall t c,
  format_alter_key (change_dict t (AddIndex [] c)) = Ok None /\ format_alter_key (change_dict t (AddUnique [] c)) = Ok None /\
  format_alter_key (change_dict t (AddFulltext [] c)) = Ok None.
Proof. intros t c. repeat split; now apply format_unnamed. Qed.
Print Assumptions C89_unnamed_index_refuted.

Example C89_example :
  let fk := AddForeign (u "boss_fk") (u "boss") (u "emp") (u "id") in
  names_ok ascii_alnum (u "dep") fk /\
  parse_alter_key ascii_alnum (u "ALTER TABLE `dep` add  Constraint boss_fk FOREIGN KEY (boss)REFERENCES emp( id ) ;") = change_dict (u "dep") fk /\
  parse_alter_key ascii_alnum (u "alter table emp add primary key(id, name)") = [] /\
  parse_alter_key ascii_alnum (u "alter table `emp` add primary key(`id`)") = [] /\
  parse_alter_key ascii_alnum (u "alter table emp add unique (id)") = change_dict (u "emp") (AddUnique [] (u "id")).
Proof. cbv zeta. split; [|repeat split; vm_compute; reflexivity]. repeat (constructor; [split; [discriminate|reflexivity]|]). constructor. Qed.

(** ** C90: the statement that is sent *)

(** Dropping a key or an index: the text that is sent says the same of the anonymous table. *)
Theorem C90_drop : forall E M t m x sql,
  ascii_ok (e_alnum E) -> dget M t = Some m -> names_ok (e_alnum E) t x -> written (e_alnum E) (toks t x) sql ->
  (x = DropPrimary \/ exists n, x = DropForeign n \/ x = DropIndex n) ->
  rewrite_alter E M (parse_alter_key (e_alnum E) sql) = Ok (Some (alter_text (t_anon m) x)).
Proof.
  intros E M t m x sql HA HM OK W D. rewrite (parse_written _ HA t x sql OK W). apply Forall_inv_tail in OK.
  assert (O : only_table x = true) by (destruct D as [->|[n [->| ->]]]; reflexivity). rewrite (table_only E M t m x HM O). apply format_change.
  destruct D as [->|[n [->| ->]]]; [exact Logic.I|..]; exact (proj1 (Forall_inv OK)).
Qed.
Print Assumptions C90_drop.

(** Adding an index: the text that is sent adds it to the anonymous table, for the column as the client named it. *)
Theorem C90_add_index : forall E M t m x sql n c,
  ascii_ok (e_alnum E) -> dget M t = Some m -> names_ok (e_alnum E) t x -> written (e_alnum E) (toks t x) sql ->
  (x = AddIndex n c \/ x = AddUnique n c \/ x = AddFulltext n c) ->
  rewrite_alter E M (parse_alter_key (e_alnum E) sql) = Ok (Some (alter_text (t_anon m) x)).
Proof.
  intros E M t m x sql n c HA HM OK W D. rewrite (parse_written _ HA t x sql OK W). apply Forall_inv_tail in OK.
  assert (O : only_table x = true) by (destruct D as [->|[->| ->]]; reflexivity). rewrite (table_only E M t m x HM O). apply format_change.
  destruct D as [->|[->| ->]]; exact (proj1 (Forall_inv OK)).
Qed.
Print Assumptions C90_add_index.

(** Refuted: for an encrypted column that is not the column of the anonymous table; the text has the clear name of the column, which is
    no column there. *)
Theorem C90_encrypted_index_refuted : forall E M t m n c,
  ascii_ok (e_alnum E) -> dget M t = Some m -> name (e_alnum E) t -> name (e_alnum E) (t_anon m) -> name (e_alnum E) n -> name (e_alnum E) c ->
  ~ In c (EncSpec.phys m) ->
  exists text c', rewrite_alter E M (parse_alter_key (e_alnum E) (u "alter table " ++ t ++ u " add index " ++ n ++ u "(" ++ c ++ u ");")) = Ok (Some text) /\
    parse_alter_key (e_alnum E) text = change_dict (t_anon m) (AddIndex n c') /\ ~ In c' (EncSpec.phys m).
Proof.
  intros E M t m n c HA HM NT NA NN NC P. exists (alter_text (t_anon m) (AddIndex n c)), c.
  assert (O1 : names_ok (e_alnum E) t (AddIndex n c)) by (constructor; [exact NT|constructor; [exact NN|constructor; [exact NC|constructor]]]).
  assert (O2 : names_ok (e_alnum E) (t_anon m) (AddIndex n c)) by (constructor; [exact NA|constructor; [exact NN|constructor; [exact NC|constructor]]]).
  split; [|split; [|exact P]].
  - apply (C90_add_index E M t m (AddIndex n c) _ n c HA HM O1); [|now left]. exact (written_text (e_alnum E) HA t (AddIndex n c) O1).
  - apply parse_written; [exact HA|exact O2|]. now apply written_text.
Qed.
Print Assumptions C90_encrypted_index_refuted.

(** Refuted: adding a primary or a foreign key always raises, whatever the table and the columns; TypeError when they are known. *)
Theorem C90_add_key_refuted : forall E M t,
  (forall c, exists e, rewrite_alter E M (change_dict t (AddPrimary c)) = Err e) /\
  (forall n c rt rc, exists e, rewrite_alter E M (change_dict t (AddForeign n c rt rc)) = Err e) /\
  forall m c cm, dget M t = Some m -> dget (t_cols m) c = Some cm -> (c_plain cm = true \/ exists n, dget (c_enc cm) SYM = Some n) ->
    has_char DOT c = false -> c <> u "*" -> rewrite_alter E M (change_dict t (AddPrimary c)) = Err TypeError.
Proof.
  intros E M t. split; [|split].
  - intros c. now apply add_key_never.
  - intros n c rt rc. now apply add_key_never.
  - intros m c cm. apply add_primary_known.
Qed.
Print Assumptions C90_add_key_refuted.

(** Refuted: the columns that a foreign key refers to are looked for in the table that has the key, not in the table they are columns of:
    KeyError when the first has no column of that name. *)
Theorem C90_reference_refuted : forall E M t m n c cm rt rc,
  dget M t = Some m -> dget (t_cols m) c = Some cm -> (c_plain cm = true \/ exists n, dget (c_enc cm) SYM = Some n) -> has_char DOT c = false -> c <> u "*" ->
  dget (t_cols m) rc = None -> has_char DOT rc = false -> rc <> u "*" ->
  rewrite_alter E M (change_dict t (AddForeign n c rt rc)) = Err KeyError.
Proof.
  intros E M t m n c cm rt rc HM HC K D S HR DR SR. rewrite add_foreign_rw, (anonymous_known M t m HM). cbn [bind].
  destruct (select_known M t m c cm HM HC K D S) as [y ->]. cbn [bind]. rewrite select_one. unfold select_str, select_name, split_dot, lookup, dgetE. rewrite DR.
  destruct (seqb rc (u "*")) eqn:X; [apply seqb_eq in X; contradiction|]. cbn [bind]. rewrite HM. cbn [bind]. now rewrite HR.
Qed.
Print Assumptions C90_reference_refuted.

(** A table that is not known: KeyError, whatever the change. *)
Theorem C90_unknown_table : forall E M t x, dget M t = None -> rewrite_alter E M (change_dict t x) = Err KeyError.
Proof. exact unknown_table. Qed.
Print Assumptions C90_unknown_table.

Example C90_example :
  let sent s := rewrite_alter exE exM (parse_alter_key (e_alnum exE) (u s)) in
  sent "alter table emp drop index by_age"%string = Ok (Some (u "alter table t9f drop index by_age;")) /\
  sent "alter table `emp` add index by_age (age);"%string = Ok (Some (u "alter table t9f add index by_age(age);")) /\
  smem (u "age") (EncSpec.phys emp) = false /\
  sent "alter table emp add unique (id);"%string = Ok None /\
  sent "alter table emp add primary key (id);"%string = Err TypeError /\
  sent "alter table dep add constraint f foreign key (boss) references emp (name);"%string = Err KeyError.
Proof. vm_compute. repeat split. Qed.
