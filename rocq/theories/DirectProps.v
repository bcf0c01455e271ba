(** C96: the proxy and a plaintext database that get the same SQL texts. *)
From Coq Require Import String Ascii List Arith NArith ZArith QArith Bool Lia.
From Verif Require Import Base BaseProof CryptoModel CryptoSpec FuzzyModel JsonModel DotsModel RewriteModel LikeSpec SqlSpec EncSpec WhereProof StmtSpec SimProof HistoryProof RewriteExample
  SqlLex SqlRead FmtModel FmtSpec FmtLexProof ScrubModel OperModel OperSpec EndSpec EndProps TextSpec TextProps LitModel LitSpec GramModel GramSpec GramCheckProof FullModel FullSpec FullProof FullProps
  DirectSpec DirectProof.
Import ListNotations.
Open Scope Z_scope.

(** MySQL reads a text of an application as the statement that the text writes for the parser of the proxy: the groups, the
    precedences, the names and the constants are the same. *)
Theorem C96_text_means : forall ft bs E M c text,
  sup_cmd ft bs E M c -> shared_text bs c text ->
  exists n, forall k, (n <= k)%nat -> read_app k bs text = Some (meaning c).
Proof. intros ft bs E M c text SC SH. apply (reads_shared ft bs c text); [now apply (sup_fit ft bs E M)|exact SH]. Qed.
Print Assumptions C96_text_means.

(** A history of texts: what the application gets from the proxy in front of the encrypted tables is what it gets when the
    same texts go to a database with plaintext tables.  No parsed statement is mentioned on either side. *)
Theorem C96_same_answers : forall uname more ft alnum fstr bs E M h,
  prim_ok (e_P E) -> wf_meta is_keyword M -> usable_names M -> ascii_ok alnum ->
  Forall (fun x => exists c, sup_cmd ft bs (with_rnd E (fst x)) M c /\ shared_text bs c (snd x)) h ->
  exists N, forall n, (N <= n)%nat ->
    answers (fun r D t => app_proxy uname more ft alnum fstr bs n (with_rnd E r) M D t) (empty_enc M) h =
    answers (fun _ D t => direct bs n D t) (empty_plain M) h.
Proof.
  intros uname more ft alnum fstr bs E M h HP HM UN HA F.
  destruct (chosen (fun r t c => sup_cmd ft bs (with_rnd E r) M c /\ shared_text bs c t) h F) as (g & G & ->).
  destruct (C95_history_of_texts uname more ft alnum fstr bs E M g HP HM UN HA) as [N1 H1].
  { rewrite Forall_forall in *. intros x X. destruct (G x X) as [A B]. split; [exact A|]. now apply shared_writes in B. }
  destruct (direct_history ft bs E M g (empty_plain M) G) as [N2 H2]. exists (N1 + N2)%nat. intros n L.
  rewrite (answers_map (fun r D t => app_proxy uname more ft alnum fstr bs n (with_rnd E r) M D t) fst g (empty_enc M)).
  rewrite (answers_map (fun _ D t => direct bs n D t) fst g (empty_plain M)). rewrite H1, H2 by lia. reflexivity.
Qed.
Print Assumptions C96_same_answers.

(** ** Example *)
Definition partb (bs : bool) (x : lexeme) (t next : pystr) : bool :=
  match x with
  | LStr _ => bs || negb (memb 92 t)
  | LName v => negb (N.eqb (hd 0%N v) 36) && negb (memb 8 v)
  | LFun f => negb (N.eqb (hd 0%N f) 36) && match next with c :: _ => N.eqb c 40 | [] => false end
  | LSym s => negb (seqb s (u "=="))
  | LKw w => negb (seqb w (u "table"))
  | LNum _ => true
  end.
Lemma partb_ok bs x t next : partb bs x t next = true -> shared_part bs x t next.
Proof.
  destruct x; cbn [partb shared_part]; rewrite ?andb_true_iff, ?orb_true_iff, ?negb_true_iff.
  - intros H ->. now rewrite seqb_refl in H.
  - intros [H1 H2]. split; [now apply N.eqb_neq|now apply memb_out; rewrite H2].
  - intros [H1 H2]. split; [now apply N.eqb_neq|]. destruct next as [|c r]; [discriminate|]. apply N.eqb_eq in H2. subst c. now exists r.
  - reflexivity.
  - intros [H|H] E; [congruence|]. apply memb_out. now rewrite H.
  - intros H ->. now rewrite seqb_refl in H.
Qed.
Fixpoint sharedb (bs : bool) (s : pystr) (l : list (lexeme * pystr * pystr)) : bool :=
  match l with
  | [] => false
  | [(x, t, w)] => seqb s (t ++ w) && writesb x t w && partb bs x t w && blanksb w
  | (x, t, w) :: r =>
    let rest := skipn (length (t ++ w)) s in
    seqb s ((t ++ w) ++ rest) && writesb x t (w ++ rest) && partb bs x t (w ++ rest) && blanksb w && sharedb bs rest r
  end.
Lemma sharedb_ok bs l : forall s, sharedb bs s l = true -> shared bs s (map (fun p => fst (fst p)) l).
Proof.
  induction l as [|[[x t] w] l IH]; intros s H; [discriminate H|]. destruct l as [|p l].
  - cbn [sharedb] in H. rewrite !andb_true_iff in H. destruct H as (((H1 & H2) & H3) & H4). apply seqb_eq in H1. subst s. constructor; [now apply writesb_ok|now apply partb_ok|now apply blanksb_ok].
  - change (sharedb bs s ((x, t, w) :: p :: l)) with (let rest := skipn (length (t ++ w)) s in
      seqb s ((t ++ w) ++ rest) && writesb x t (w ++ rest) && partb bs x t (w ++ rest) && blanksb w && sharedb bs rest (p :: l))%bool in H.
    cbv zeta in H. rewrite !andb_true_iff in H. destruct H as ((((H1 & H2) & H3) & H4) & H5). apply seqb_eq in H1. rewrite <- app_assoc in H1. rewrite H1. cbn [map fst].
    constructor; [now apply writesb_ok|now apply partb_ok|now apply blanksb_ok|discriminate|]. now apply (IH (skipn (length (t ++ w)) s)).
Qed.
Lemma zip_fst ls : forall tw, length ls = length tw -> ls = map (fun p => fst (fst p)) (zip ls tw).
Proof. unfold zip. induction ls as [|x ls IH]; intros [|y tw] L; try discriminate L; [reflexivity|]. cbn [combine map fst snd]. f_equal. apply IH. now injection L. Qed.
Lemma by_shared bs c ls text a s b l : cmd_lex c ls -> text = u a ++ u s ++ u b -> length ls = length (tw l) -> blanksb (u a) = true -> sharedb bs (u s) (zip ls (tw l)) = true ->
  match u b with [] => true | x :: r => N.eqb x 59 && blanksb r end = true -> shared_text bs c text.
Proof.
  intros CL -> L A S B. exists ls, (u a), (u s), (u b). split; [exact CL|]. split; [reflexivity|]. split; [now apply blanksb_ok|]. split.
  - rewrite (zip_fst ls (tw l) L). now apply sharedb_ok.
  - destruct (u b) as [|x r]; [now left|right]. apply andb_true_iff in B. destruct B as [B1 B2]. apply N.eqb_eq in B1. subst x. exists r. split; [reflexivity|now apply blanksb_ok].
Qed.

(** The statements [app_stmts]; the texts of C95_example without comments. *)
Definition two_texts : list pystr := map u
  ["INSERT INTO emp (id, name, age) VALUES (1, 'Bob O''Ray', 35);";
   "insert  into `emp`(age,name,id) values(-4,""Ann"",2) ; ";
   "Select name, age From emp Where age > -9 Order By age Limit 5 Offset 0";
   "update emp set age=36 , id=7 where name = 'Bob O''Ray'";
   "select MAX(age) from emp";
   " DELETE FROM emp WHERE age>35";
   "SELECT * FROM `emp` ORDER BY id DESC";
   "SELECT count( * ) FROM emp"]%string.
Local Open Scope string_scope.
Local Ltac by_parts a s b l tac := eapply (by_shared _ _ _ _ a s b l); [tac|vm_compute; reflexivity..].
Lemma two_shared : Forall2 (shared_text true) app_stmts two_texts.
Proof.
  unfold app_stmts, two_texts, ex_stmts. cbn [firstn skipn app map].
  apply Forall2_cons.
  { by_parts "" "INSERT INTO emp (id, name, age) VALUES (1, 'Bob O''Ray', 35)" ";"
      [("INSERT", " "); ("INTO", " "); ("emp", " "); ("(", ""); ("id", ""); (",", " "); ("name", ""); (",", " "); ("age", ""); (")", " "); ("VALUES", " "); ("(", ""); ("1", ""); (",", " "); ("'Bob O''Ray'", ""); (",", " "); ("35", ""); (")", "")]
      ltac:(apply (l_insert false)). }
  apply Forall2_cons.
  { by_parts "" "insert  into `emp`(age,name,id) values(-4,""Ann"",2) " "; "
      [("insert", "  "); ("into", " "); ("`emp`", ""); ("(", ""); ("age", ""); (",", ""); ("name", ""); (",", ""); ("id", ""); (")", " "); ("values", ""); ("(", ""); ("-", ""); ("4", ""); (",", ""); ("""Ann""", ""); (",", ""); ("2", ""); (")", " ")]
      ltac:(apply (l_insert false)). }
  apply Forall2_cons.
  { by_parts "" "Select name, age From emp Where age > -9 Order By age Limit 5 Offset 0" ""
      [("Select", " "); ("name", ""); (",", " "); ("age", " "); ("From", " "); ("emp", " "); ("Where", " "); ("age", " "); (">", " "); ("-", ""); ("9", " "); ("Order", " "); ("By", " "); ("age", " "); ("Limit", " "); ("5", " "); ("Offset", " "); ("0", "")]
      ltac:(apply l_select; [apply i_cols; [discriminate|vm_compute; intuition discriminate]|eexists; split; [apply (c_bin OGt false); [constructor; constructor|now apply c_minus]|reflexivity]]). }
  apply Forall2_cons.
  { by_parts "" "update emp set age=36 , id=7 where name = 'Bob O''Ray'" ""
      [("update", " "); ("emp", " "); ("set", " "); ("age", ""); ("=", ""); ("36", " "); (",", " "); ("id", ""); ("=", ""); ("7", " "); ("where", " "); ("name", " "); ("=", " "); ("'Bob O''Ray'", "")]
      ltac:(apply l_update; eexists; split; [apply (c_bin OEq false); constructor; constructor|reflexivity]). }
  apply Forall2_cons.
  { by_parts "" "select MAX(age) from emp" ""
      [("select", " "); ("MAX", ""); ("(", ""); ("age", ""); (")", " "); ("from", " "); ("emp", "")]
      ltac:(apply l_select; [apply (i_extreme (u "MAX") true); reflexivity|reflexivity]). }
  apply Forall2_cons.
  { by_parts " " "DELETE FROM emp WHERE age>35" ""
      [("DELETE", " "); ("FROM", " "); ("emp", " "); ("WHERE", " "); ("age", ""); (">", ""); ("35", "")]
      ltac:(apply l_delete; eexists; split; [apply (c_bin OGt false); constructor; constructor; lia|reflexivity]). }
  apply Forall2_cons.
  { by_parts "" "SELECT * FROM `emp` ORDER BY id DESC" ""
      [("SELECT", " "); ("*", " "); ("FROM", " "); ("`emp`", " "); ("ORDER", " "); ("BY", " "); ("id", " "); ("DESC", "")]
      ltac:(apply l_select; [apply i_all|reflexivity]). }
  apply Forall2_cons.
  { by_parts "" "SELECT count( * ) FROM emp" ""
      [("SELECT", " "); ("count", ""); ("(", " "); ("*", " "); (")", " "); ("FROM", " "); ("emp", "")]
      ltac:(apply l_select; [apply (i_count (u "count")); reflexivity|reflexivity]). }
  constructor.
Qed.
Local Close Scope string_scope.
(** Both read the texts; the answers agree, and the last shows that a row was deleted. *)
Example C96_example :
  Forall (fun c => sup_cmd (fun _ => false) true (with_rnd exE (fun _ => 2%Z)) exM c) app_stmts /\ Forall2 (shared_text true) app_stmts two_texts /\
  let h := map (fun t => (fun _ => 2%Z, t)) two_texts in
  answers (fun _ D t => direct true 60 D t) (empty_plain exM) h =
    [Ok []; Ok []; Ok [[VStr (u "Ann"); VInt (-4)]; [VStr (u "Bob O'Ray"); VInt 35]]; Ok []; Ok [[VInt 36]]; Ok [];
     Ok [[VInt 2; VStr (u "Ann"); VInt (-4)]]; Ok [[VInt 1]]] /\
  answers (fun r D t => app_proxy no_name no_more (fun _ => false) ascii_alnum (fun _ => []) true 60 (with_rnd exE r) exM D t) (empty_enc exM) h =
  answers (fun _ D t => direct true 60 D t) (empty_plain exM) h.
Proof. split; [exact app_supported|]. split; [exact two_shared|]. cbv zeta. split; vm_compute; reflexivity. Qed.

(** A text may be good for one of them only: the proxy takes [==] for [=] and sends what it sends for [=]; MySQL refuses the
    text, whatever the fuel. *)
Definition equals_text : pystr := u "SELECT name FROM emp WHERE age == 35".
Theorem C96_double_equals_refuted :
  app_sent equals_text = app_sent (u "SELECT name FROM emp WHERE age = 35") /\
  (exists s, app_sent equals_text = Ok (Some s)) /\
  forall bs n D, direct bs n D equals_text = Err DbError.
Proof.
  split; [vm_compute; reflexivity|]. split; [eexists; vm_compute; reflexivity|]. intros bs n D. unfold direct.
  assert (R : read_app n bs equals_text = None); [|now rewrite R].
  destruct bs; do 8 (destruct n as [|n]; [vm_compute; reflexivity|]); vm_compute; reflexivity.
Qed.
Print Assumptions C96_double_equals_refuted.
