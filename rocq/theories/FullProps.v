(** C95: texts of an application through the whole proxy. *)
From Coq Require Import String Ascii List Arith NArith ZArith QArith Bool Lia.
From Verif Require Import Base BaseProof CryptoModel CryptoSpec FuzzyModel JsonModel DotsModel RewriteModel LikeSpec SqlSpec EncSpec WhereProof StmtSpec SimProof HistoryProof RewriteExample
  SqlLex SqlRead FmtModel FmtSpec FmtLexProof ScrubModel OperModel OperSpec EndSpec EndProps TextSpec TextProps LitModel LitSpec GramModel GramSpec GramCheckProof FullModel FullSpec FullProof.
Import ListNotations.
Open Scope Z_scope.

(** Whatever way an application writes a supported statement, the proxy parses it, rewrites it and sends a text for the
    anonymous table that does to the encrypted tables what the statement does to the plaintext tables; the decrypted answer
    is the answer of the plaintext tables. *)
Theorem C95_text_to_text : forall uname more ft alnum fstr bs E M c text pdb edb,
  prim_ok (e_P E) -> wf_meta is_keyword M -> usable_names M -> ascii_ok alnum ->
  sup_cmd ft bs E M c -> writes_cmd c text -> db_rel E M pdb edb ->
  exists m table st sent q,
    dget M (target c) = Some m /\
    rewrite_text uname more ft alnum fstr E M text = Ok (Some sent, table, st) /\
    says bs true sent q /\ target q = t_anon m /\
    match obey pdb (meaning c), (do '(D, rs) <- obey edb q; do out <- decrypt_result E M table st rs; Ok (D, out)) with
    | Ok (pdb', rs), Ok (edb', out) => rs = out /\ db_rel E M pdb' edb'
    | Err e, Err e' => e = e'
    | _, _ => False
    end.
Proof.
  intros uname more ft alnum fstr bs E M c text pdb edb HP HM UN HA SC WC D.
  destruct (full_step uname more ft alnum fstr bs M HA HM UN E c text pdb edb HP SC WC D) as (m & table & st & sent & q & X1 & X2 & X3 & X4 & X7).
  exists m, table, st, sent, q. repeat (split; [assumption|]). unfold same_step, res_rel in X7.
  set (e := do '(D, rs) <- obey edb q; do out <- decrypt_result E M table st rs; Ok (D, out)) in *. clearbody e.
  destruct (obey pdb (meaning c)) as [[p' rs]|], e as [[e' out]|]; exact X7.
Qed.
Print Assumptions C95_text_to_text.

(** A history of such texts is answered as plaintext tables answer the statements that they write. *)
Theorem C95_history_of_texts : forall uname more ft alnum fstr bs E M h,
  prim_ok (e_P E) -> wf_meta is_keyword M -> usable_names M -> ascii_ok alnum ->
  Forall (fun x => sup_cmd ft bs (with_rnd E (fst x)) M (snd (snd x)) /\ writes_cmd (snd (snd x)) (fst (snd x))) h ->
  exists N, forall n, (N <= n)%nat ->
    answers (fun r D x => app_proxy uname more ft alnum fstr bs n (with_rnd E r) M D (fst x)) (empty_enc M) h =
    answers (fun _ D x => obey D (meaning (snd x))) (empty_plain M) h.
Proof.
  intros uname more ft alnum fstr bs E M h HP HM UN HA F. apply full_history; try assumption. now apply (empty_rel is_keyword).
Qed.
Print Assumptions C95_history_of_texts.

(** The statements of [ex_stmts] as an application may write them. *)
Definition app_texts : list pystr := map u
  ["INSERT INTO emp (id, name, age) VALUES (1, 'Bob O''Ray', 35);";
   "insert  into `emp`(age,name,id) values(-4,""Ann"",2) ; ";
   "Select name, age From emp Where age > -9 Order By age Limit 5 Offset 0";
   "update emp set age=36 , id=7 where name = 'Bob O''Ray' -- older";
   "select MAX(age) from emp";
   " DELETE FROM emp WHERE age>35";
   "SELECT * FROM `emp` ORDER BY id DESC";
   "SELECT count( * ) FROM emp # all"]%string.
Definition no_name : pystr -> option N := fun _ => None.
Definition no_more : pystr -> pystr -> res pystr := fun _ _ => Err Generic.
(** The statement by its rule, the text by its parts. *)
Definition tw (l : list (string * string)) : list (pystr * pystr) := map (fun p => (u (fst p), u (snd p))) l.
Lemma by_texts ls text a s b c l : text = u a ++ u s ++ u b ++ u c -> length ls = length (tw l) -> spellsb (u a) (u s) (u b) (u c) (zip ls (tw l)) = true -> spells ls text.
Proof. apply spells_by. Qed.
Local Ltac by_parts a s b c l := apply (by_texts _ _ a s b c l); vm_compute; reflexivity.
Local Open Scope string_scope.
Definition app_third : cmd sx := Select (ICols (cemp ["name"; "age"]%string)) (u "emp") (Some (XBin OGt false (end_col "age") (XMinus 9))) (Some (u "age", false)) (Some (5%N, Some 0%N)).
Definition app_stmts : list (cmd sx) := firstn 2 ex_stmts ++ app_third :: skipn 3 ex_stmts.
Lemma app_supported : Forall (fun c => sup_cmd (fun _ => false) true (with_rnd exE (fun _ => 2%Z)) exM c) app_stmts.
Proof.
  pose proof ex_supported as H. unfold ex_stmts in H. unfold app_stmts, ex_stmts. cbn [firstn skipn app].
  repeat match goal with H : Forall _ (_ :: _) |- _ => let A := fresh "A" in let B := fresh "B" in inversion_clear H as [|? ? A B] end.
  repeat (constructor; [first [assumption|clear]|]); [|constructor].
  assert (AO : enc_col emp (u "age") (col_enc "int" "k2" [(SYM, u "d33"); (OPEC, u "e45")]) OPEC) by (split; [reflexivity|]; split; [reflexivity|]; eexists; reflexivity).
  exists emp. split; [reflexivity|]. split; [reflexivity|]. split; [|split].
  - split; [discriminate|]. intros c [<-|[<-|[]]]; cbn; auto.
  - split; [|split].
    + split; [|cbn; repeat split; eauto; first [lia|cbv; lia]]. cbn -[tree_of u]. unfold expr_of. repeat split; try (cbn; lia); try discriminate; auto; repeat constructor;
        try (eexists; reflexivity); try (eexists _, _; reflexivity).
    + cbn. auto 20.
    + cbn [mean end_col]. change (ENeg (EInt 9)) with (int_of (-9)); eapply sup_order; [cbn; tauto|exact AO|reflexivity|]; split; (discriminate || reflexivity).
  - right. split; [reflexivity|]. eexists. split; [exact AO|reflexivity].
Qed.
Lemma app_written : Forall2 writes_cmd app_stmts app_texts.
Proof.
  unfold app_stmts, app_texts, ex_stmts. cbn [firstn skipn app map].
  apply Forall2_cons; [eexists; split; [apply (l_insert false)|]|].
  { by_parts "" "INSERT INTO emp (id, name, age) VALUES (1, 'Bob O''Ray', 35)" ";" ""
      [("INSERT", " "); ("INTO", " "); ("emp", " "); ("(", ""); ("id", ""); (",", " "); ("name", ""); (",", " "); ("age", ""); (")", " "); ("VALUES", " "); ("(", ""); ("1", ""); (",", " "); ("'Bob O''Ray'", ""); (",", " "); ("35", ""); (")", "")]. }
  apply Forall2_cons; [eexists; split; [apply (l_insert false)|]|].
  { by_parts "" "insert  into `emp`(age,name,id) values(-4,""Ann"",2) " ";" " "
      [("insert", "  "); ("into", " "); ("`emp`", ""); ("(", ""); ("age", ""); (",", ""); ("name", ""); (",", ""); ("id", ""); (")", " "); ("values", ""); ("(", ""); ("-", ""); ("4", ""); (",", ""); ("""Ann""", ""); (",", ""); ("2", ""); (")", " ")]. }
  apply Forall2_cons; [eexists; split; [apply l_select; [apply i_cols; [discriminate|vm_compute; intuition discriminate]|eexists; split; [apply (c_bin OGt false); [constructor; constructor|now apply c_minus]|reflexivity]]|]|].
  { by_parts "" "Select name, age From emp Where age > -9 Order By age Limit 5 Offset 0" "" ""
      [("Select", " "); ("name", ""); (",", " "); ("age", " "); ("From", " "); ("emp", " "); ("Where", " "); ("age", " "); (">", " "); ("-", ""); ("9", " "); ("Order", " "); ("By", " "); ("age", " "); ("Limit", " "); ("5", " "); ("Offset", " "); ("0", "")]. }
  apply Forall2_cons; [eexists; split; [apply l_update; eexists; split; [apply (c_bin OEq false); constructor; constructor|reflexivity]|]|].
  { by_parts "" "update emp set age=36 , id=7 where name = 'Bob O''Ray' -- older" "" ""
      [("update", " "); ("emp", " "); ("set", " "); ("age", ""); ("=", ""); ("36", " "); (",", " "); ("id", ""); ("=", ""); ("7", " "); ("where", " "); ("name", " "); ("=", " "); ("'Bob O''Ray'", " -- older")]. }
  apply Forall2_cons; [eexists; split; [apply l_select; [apply (i_extreme (u "MAX") true); reflexivity|reflexivity]|]|].
  { by_parts "" "select MAX(age) from emp" "" ""
      [("select", " "); ("MAX", ""); ("(", ""); ("age", ""); (")", " "); ("from", " "); ("emp", "")]. }
  apply Forall2_cons; [eexists; split; [apply l_delete; eexists; split; [apply (c_bin OGt false); constructor; constructor; lia|reflexivity]|]|].
  { by_parts " " "DELETE FROM emp WHERE age>35" "" ""
      [("DELETE", " "); ("FROM", " "); ("emp", " "); ("WHERE", " "); ("age", ""); (">", ""); ("35", "")]. }
  apply Forall2_cons; [eexists; split; [apply l_select; [apply i_all|reflexivity]|]|].
  { by_parts "" "SELECT * FROM `emp` ORDER BY id DESC" "" ""
      [("SELECT", " "); ("*", " "); ("FROM", " "); ("`emp`", " "); ("ORDER", " "); ("BY", " "); ("id", " "); ("DESC", "")]. }
  apply Forall2_cons; [eexists; split; [apply l_select; [apply (i_count (u "count")); reflexivity|reflexivity]|]|].
  { by_parts "" "SELECT count( * ) FROM emp # all" "" ""
      [("SELECT", " "); ("count", ""); ("(", " "); ("*", " "); (")", " "); ("FROM", " "); ("emp", " # all")]. }
  constructor.
Qed.
Local Close Scope string_scope.
(** The texts write supported statements; what the proxy sends for them, and what it answers. *)
Definition app_sent (t : pystr) : res (option pystr) := do '(s, _, _) <- rewrite_text no_name no_more (fun _ => false) ascii_alnum (fun _ => []) exE exM t; Ok s.
Example C95_example :
  Forall (fun c => sup_cmd (fun _ => false) true (with_rnd exE (fun _ => 2%Z)) exM c) app_stmts /\ Forall2 writes_cmd app_stmts app_texts /\
  map app_sent (skipn 1 app_texts) = map (fun s => Ok (Some (u s)))
    ["INSERT INTO t9f (d33, e45, b71, c02, id) VALUES ('AAAAAAAtNAAAAAAAAAAAAA==', -4, 'AAAAAABBbm4AAAAAAAAAAA==', 'AAAAAABBbm4AAAAAAAAAAA==', 2)";
     "SELECT b71, d33 FROM t9f WHERE e45 > -9 ORDER BY e45 LIMIT 5 OFFSET 0";
     "UPDATE t9f SET d33 = ""AAAAAAAzNgAAAAAAAAAAAA=="", e45 = 36, id = 7 WHERE b71 = 'AAAAAABCb2IgTydSYXkAAA=='";
     "SELECT MAX(e45) FROM t9f";
     "DELETE FROM t9f WHERE e45 > 35";
     "SELECT id, b71, d33 FROM t9f ORDER BY id DESC";
     "SELECT COUNT(*) FROM t9f"]%string /\
  answers (fun r D t => app_proxy no_name no_more (fun _ => false) ascii_alnum (fun _ => []) true 60 (with_rnd exE r) exM D t) (empty_enc exM) (map (fun t => (fun _ => 2%Z, t)) app_texts) =
    [Ok []; Ok []; Ok [[VStr (u "Ann"); VInt (-4)]; [VStr (u "Bob O'Ray"); VInt 35]]; Ok []; Ok [[VInt 36]]; Ok [];
     Ok [[VInt 2; VStr (u "Ann"); VInt (-4)]]; Ok [[VInt 1]]].
Proof. split; [exact app_supported|]. split; [exact app_written|]. split; vm_compute; reflexivity. Qed.
