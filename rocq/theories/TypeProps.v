(** C99: the type of a statement comes from its text, through the tokenizer of the proxy. *)
From Coq Require Import String Ascii List Arith NArith ZArith QArith Bool Lia.
From Verif Require Import Base BaseProof CryptoModel CryptoSpec FuzzyModel JsonModel RewriteModel SqlSpec EncSpec StmtSpec CreateModel CreateSpec MetaModel MetaSpec
  ExecModel ExecSpec SqlLex SqlRead FmtModel FmtSpec FmtProof FmtNameProof ScrubModel OperModel OperSpec EndSpec TextSpec EndProps RewriteExample TextProps SysSpec SysProps
  SysTextSpec SysTextProps LitModel LitSpec GramModel GramSpec GramCheckProof FullModel FullSpec FullProps DirectSpec DirectProps DdlSpec DdlProps AppSysSpec AppSysProps
  ClassifyModel ClassifySpec TypeModel TypeSpec TypeProof.
Import ListNotations.
Open Scope Z_scope.

(** The type that Parser(text).query_type gives is that of the statement which the text writes for the parser of the proxy: CREATE
    TABLE, DROP TABLE, SELECT, INSERT, UPDATE, DELETE; parentheses in strings and quoted names do not count.  Whatever str.upper and
    the classes of the regular expressions are outside ASCII. *)
Theorem C99_type_of_text : forall uword uspace udigit ulet uc w text,
  upper_ok uc -> tame_of w text -> parser_type uword uspace udigit ulet uc text = Ok (type_of w).
Proof. intros uword uspace udigit ulet uc w text. apply type_of_text. Qed.
Print Assumptions C99_type_of_text.

(** C98 with the tokenizer of the proxy in place of a function that is right by hypothesis. *)
Theorem C99_whole_system_with_types : forall uname more ft alnum fstr bs E rest uword uspace udigit ulet uc h hw,
  prim_ok (e_P E) -> ascii_ok alnum -> upper_ok uc -> Forall2 (stands_text bs) h hw -> tgood_run ft alnum fstr bs E rest (fresh_install, []) hw ->
  exists N, forall n, (N <= n)%nat ->
    asys_run uname more ft alnum fstr bs E rest (parser_type uword uspace udigit ulet uc) n (fresh_install, []) h = aplain_run bs n [] h.
Proof.
  intros uname more ft alnum fstr bs E rest uword uspace udigit ulet uc h hw HP HA HU F G.
  apply (C98_whole_system_from_texts uname more ft alnum fstr bs E rest (parser_type uword uspace udigit ulet uc) h hw HP HA); [|exact G].
  clear G. induction F as [|a e h hw S F IH]; constructor; [|exact IH].
  destruct a as [rnd db text enc fresh anon|], e as [rnd' db' w enc' fresh' anon'|]; cbn [stands_text stands] in *; try exact S.
  destruct S as (S1 & S2 & S3 & S4 & S5 & S6 & S7). repeat (split; [assumption|]). now apply (C99_type_of_text uword uspace udigit ulet uc w text HU).
Qed.
Print Assumptions C99_whole_system_with_types.

(** ** Examples *)
Lemma upper_ascii : upper_ok ascii_up.
Proof.
  split; intros c H; unfold ascii_up; destruct (N.leb 97 c && N.leb c 122)%bool eqn:E; try reflexivity; exfalso.
  - apply andb_false_iff in E. rewrite !N.leb_gt in E. lia.
  - apply andb_true_iff in E. rewrite !N.leb_le in E. lia.
Qed.
Definition bareb (t next : pystr) : bool :=
  forallb (fun c => keyword_char c && negb (N.eqb c 36)) t && negb (seqb (map low_char t) (u "zone")) && negb (N.eqb (hd 0%N next) 39).
Lemma bareb_ok t next : bareb t next = true -> bare t next.
Proof.
  unfold bareb, bare. rewrite !andb_true_iff, !negb_true_iff, forallb_forall, Forall_forall. intros ((A & B) & C).
  split; [|split; [now apply seqb_neq|now apply N.eqb_neq]]. intros c I. specialize (A c I). rewrite andb_true_iff, negb_true_iff in A. now rewrite N.eqb_neq in A.
Qed.
Definition tame_partb (x : lexeme) (t next : pystr) : bool :=
  match x with
  | LKw _ | LNum _ => negb (N.eqb (hd 0%N next) 39)
  | LFun _ => bareb t next
  | LName _ => bareb t next || (N.eqb (hd 0%N t) 96 && negb (memb 39 t) && negb (memb 34 t) && negb (N.eqb (hd 0%N next) 34))
  | LStr _ => negb (seqb t [34; 34]%N) && (negb (N.eqb (hd 0%N t) 34) || (negb (memb 96 t) && negb (N.eqb (hd 0%N next) 96)))
  | LSym s => negb (seqb s (u "%"))
  end.
Lemma tame_partb_ok x t next : tame_partb x t next = true -> tame_part x t next.
Proof.
  destruct x; cbn [tame_partb tame_part]; intros H.
  - apply negb_true_iff in H. now apply N.eqb_neq.
  - apply orb_true_iff in H. destruct H as [H|H]; [left; now apply bareb_ok|right]. rewrite !andb_true_iff, !negb_true_iff in H. destruct H as (((A & B) & C) & D).
    split; [now apply N.eqb_eq|]. split; [apply memb_out; now rewrite B|]. split; [apply memb_out; now rewrite C|now apply N.eqb_neq].
  - now apply bareb_ok.
  - apply negb_true_iff in H. now apply N.eqb_neq.
  - rewrite andb_true_iff, orb_true_iff, andb_true_iff, !negb_true_iff in H. destruct H as (A & B). split; [now apply seqb_neq|]. intros E. destruct B as [B|[B C]].
    + apply N.eqb_neq in B. contradiction.
    + split; [apply memb_out; now rewrite B|now apply N.eqb_neq].
  - apply negb_true_iff in H. now apply seqb_neq.
Qed.
Fixpoint tameb (s : pystr) (l : list (lexeme * pystr * pystr)) : bool :=
  match l with
  | [] => false
  | [(x, t, w)] => seqb s (t ++ w) && writesb x t w && tame_partb x t w && blanksb w
  | (x, t, w) :: r =>
    let rest := skipn (length (t ++ w)) s in
    seqb s ((t ++ w) ++ rest) && writesb x t (w ++ rest) && tame_partb x t (w ++ rest) && blanksb w && tameb rest r
  end.
Lemma tameb_ok l : forall s, tameb s l = true -> tame s (map (fun p => fst (fst p)) l).
Proof.
  induction l as [|[[x t] w] l IH]; intros s H; [discriminate H|]. destruct l as [|p l].
  - cbn [tameb] in H. rewrite !andb_true_iff in H. destruct H as (((H1 & H2) & H3) & H4). apply seqb_eq in H1. subst s. constructor; [now apply writesb_ok|now apply tame_partb_ok|now apply blanksb_ok].
  - change (tameb s ((x, t, w) :: p :: l)) with (let rest := skipn (length (t ++ w)) s in
      seqb s ((t ++ w) ++ rest) && writesb x t (w ++ rest) && tame_partb x t (w ++ rest) && blanksb w && tameb rest (p :: l))%bool in H.
    cbv zeta in H. rewrite !andb_true_iff in H. destruct H as ((((H1 & H2) & H3) & H4) & H5). apply seqb_eq in H1. rewrite <- app_assoc in H1. rewrite H1. cbn [map fst].
    constructor; [now apply writesb_ok|now apply tame_partb_ok|now apply blanksb_ok|discriminate|]. now apply (IH (skipn (length (t ++ w)) s)).
Qed.
Lemma by_tame (parts : list lexeme -> Prop) ls text a s b l : parts ls -> text = u a ++ u s ++ u b -> length ls = length (FullProps.tw l) -> blanksb (u a) = true -> tameb (u s) (zip ls (FullProps.tw l)) = true ->
  match u b with [] => true | x :: r => N.eqb x 59 && blanksb r end = true -> negb (memb 34 text && memb 92 text) = true -> tame_text parts text.
Proof.
  intros CL E L A S B Q. split.
  { apply negb_true_iff, andb_false_iff in Q. destruct Q as [Q|Q]; [left|right]; apply memb_out; now rewrite Q. }
  exists ls, (u a), (u s), (u b). split; [exact CL|]. split; [exact E|]. split; [now apply blanksb_ok|]. split.
  - rewrite (zip_fst ls (FullProps.tw l) L). now apply tameb_ok.
  - destruct (u b) as [|x r]; [now left|right]. apply andb_true_iff in B. destruct B as [B1 B2]. apply N.eqb_eq in B1. subst x. exists r. split; [reflexivity|now apply blanksb_ok].
Qed.
Local Open Scope string_scope.
Local Open Scope list_scope.
Local Ltac by_parts a s b l tac := eapply (by_tame _ _ _ a s b l); [tac|vm_compute; reflexivity..].
Local Ltac fw f := apply (free _ f); vm_compute; reflexivity.
(** The requests of C98_example. *)
Lemma c99_tame : Forall2 (fun a e => match a, e with AText _ _ text _ _ _, TAsk _ _ w _ _ _ => tame_of w text | _, _ => True end) (map fst c98) (map snd c98).
Proof.
  unfold c98, c98_ask, t_ask. cbn [map fst snd]. repeat apply Forall2_cons; try apply Forall2_nil; try exact Logic.I; unfold tame_of.
  - exists c98_def. split; [reflexivity|].
    eapply (by_tame _ _ _ "" "create table `staff` (id INT, name Varchar(20) NOT NULL, age int, PRIMARY KEY (id)) engine=InnoDB" ";"
      [("create", " "); ("table", " "); ("`staff`", " "); ("(", ""); ("id", " "); ("INT", ""); (",", " "); ("name", " "); ("Varchar", ""); ("(", ""); ("20", ""); (")", " "); ("NOT", " "); ("NULL", ""); (",", " ");
       ("age", " "); ("int", ""); (",", " "); ("PRIMARY", " "); ("KEY", " "); ("(", ""); ("id", ""); (")", ""); (")", " "); ("engine", ""); ("=", ""); ("InnoDB", "")]);
    [apply (dl_def (u "staff") false);
     [repeat apply Forall2_cons; [| | |apply Forall2_nil]; apply cl_lex;
      [apply tl_signed; fw "INT"|apply Forall2_nil|apply tl_signed; fw "Varchar"|repeat apply Forall2_cons; [apply ol_not_null|apply Forall2_nil]|apply tl_signed; fw "int"|apply Forall2_nil]
     |repeat apply Forall2_cons; [apply kl_primary|apply Forall2_nil]
     |repeat apply Forall2_cons; [apply ml_engine; fw "engine"|apply Forall2_nil]]
    |vm_compute; reflexivity..].
  - by_parts "" "INSERT INTO staff (id, name, age) VALUES (1, 'Bob Ray', 44)" ""
      [("INSERT", " "); ("INTO", " "); ("staff", " "); ("(", ""); ("id", ""); (",", " "); ("name", ""); (",", " "); ("age", ""); (")", " "); ("VALUES", " "); ("(", ""); ("1", ""); (",", " "); ("'Bob Ray'", ""); (",", " "); ("44", ""); (")", "")]
      ltac:(apply (l_insert false)).
  - by_parts "" "insert into `staff`(id,name,age) values(2,""Ann Lee"",38) " "; "
      [("insert", " "); ("into", " "); ("`staff`", ""); ("(", ""); ("id", ""); (",", ""); ("name", ""); (",", ""); ("age", ""); (")", " "); ("values", ""); ("(", ""); ("2", ""); (",", ""); ("""Ann Lee""", ""); (",", ""); ("38", ""); (")", " ")]
      ltac:(apply (l_insert false)).
  - by_parts "" "Select name , id From staff Where age>40" ""
      [("Select", " "); ("name", " "); (",", " "); ("id", " "); ("From", " "); ("staff", " "); ("Where", " "); ("age", ""); (">", ""); ("40", "")]
      ltac:(apply l_select; [apply i_cols; [discriminate|vm_compute; intuition discriminate]|eexists; split; [apply (c_bin OGt false); constructor; constructor; lia|reflexivity]]).
  - by_parts "" "DELETE FROM staff" ";" [("DELETE", " "); ("FROM", " "); ("staff", "")] ltac:(apply l_delete; reflexivity).
  - by_parts " " "Drop Table `staff` " ";" [("Drop", " "); ("Table", " "); ("`staff`", " ")] ltac:(reflexivity).
Qed.
Lemma c99_stands : Forall2 (stands_text true) (map fst c98) (map snd c98).
Proof.
  pose proof c98_stands as S. pose proof c99_tame as T. revert S T. generalize (map fst c98) (map snd c98). intros h hw S.
  induction S as [|a e h hw X S IH]; intros T; inversion T; subst; constructor; [|now apply IH].
  destruct a, e; cbn [stands stands_text] in *; try exact X. destruct X as (X1 & X2 & X3 & X4 & X5 & X6 & _). repeat (split; [assumption|]). assumption.
Qed.
Definition ex_ty : pystr -> res qtype := parser_type (fun _ => false) (fun _ => false) (fun _ => false) (fun _ => false) ascii_up.
Example C99_example :
  upper_ok ascii_up /\ Forall2 (stands_text true) (map fst c98) (map snd c98) /\
  tgood_run exft ascii_alnum (fun _ => []) true exE ex_rest (fresh_install, []) (map snd c98) /\
  asys_run FullProps.no_name FullProps.no_more exft ascii_alnum (fun _ => []) true exE ex_rest ex_ty 60 (fresh_install, []) (map fst c98) =
    [Ok []; Ok []; Ok []; Ok [[VStr (u "Bob Ray"); VInt 1]]; Ok []; Ok []] /\
  aplain_run true 60 [] (map fst c98) = [Ok []; Ok []; Ok []; Ok [[VStr (u "Bob Ray"); VInt 1]]; Ok []; Ok []].
Proof. split; [exact upper_ascii|]. split; [exact c99_stands|]. split; [exact c98_good|]. split; vm_compute; reflexivity. Qed.

(** Parentheses in strings and in a quoted name do not count. *)
Definition c99_text : pystr := u "Insert into t (`a)`,b) values("")))"",'it''s (')".
Example C99_quoted_example :
  tame_of (WCmd (Insert (u "t") [u "a)"; u "b"] [KText (u ")))"); KText (u "it's (")])) c99_text /\ ex_ty c99_text = Ok QInsert.
Proof.
  split; [|vm_compute; reflexivity].
  by_parts "" "Insert into t (`a)`,b) values("")))"",'it''s (')" ""
    [("Insert", " "); ("into", " "); ("t", " "); ("(", ""); ("`a)`", ""); (",", ""); ("b", ""); (")", " "); ("values", ""); ("(", ""); (""")))""", ""); (",", ""); ("'it''s ('", ""); (")", "")]
    ltac:(apply (l_insert false)).
Qed.

(** What [tame_of] asks of strings in double quotes is needed: the proxy takes the quotes of an empty string for the end and the
    start of others, so that a parenthesis in the string behind it counts, and an INSERT that its parser and MySQL read is answered
    with IndexError. *)
Definition c99_bad : pystr := u "insert into t (a,b) values ("""", ""x)"")".
Theorem C99_empty_string_refuted : ~ (forall uword uspace udigit ulet w text, text_of true w text ->
  parser_type uword uspace udigit ulet ascii_up text = Ok (type_of w)).
Proof.
  intros H. specialize (H (fun _ => false) (fun _ => false) (fun _ => false) (fun _ => false) (WCmd (Insert (u "t") [u "a"; u "b"] [KText []; KText (u "x)")])) c99_bad).
  assert (T : text_of true (WCmd (Insert (u "t") [u "a"; u "b"] [KText []; KText (u "x)")])) c99_bad).
  { eapply (by_shared _ _ _ _ "" "insert into t (a,b) values ("""", ""x)"")" ""
      [("insert", " "); ("into", " "); ("t", " "); ("(", ""); ("a", ""); (",", ""); ("b", ""); (")", " "); ("values", " "); ("(", ""); ("""""", ""); (",", " "); ("""x)""", ""); (")", "")]);
    [apply (l_insert false)|vm_compute; reflexivity..]. }
  specialize (H T). vm_compute in H. discriminate H.
Qed.
Print Assumptions C99_empty_string_refuted.
Example C99_empty_string_example : forall uword uspace udigit ulet, parser_type uword uspace udigit ulet ascii_up c99_bad = Err IndexError.
Proof. intros. vm_compute. reflexivity. Qed.
