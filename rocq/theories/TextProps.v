(** C91: a statement from its tokens to the SQL text that is sent and back; C92: histories of statements. *)
From Coq Require Import String Ascii List Arith NArith ZArith QArith Bool Lia.
From Verif Require Import Base BaseProof CryptoModel CryptoSpec CryptoProof FuzzyModel JsonModel JsonProof DotsModel RewriteModel LikeSpec SqlSpec EncSpec RewriteSpec
  WhereProof StmtSpec SimProof StmtProof UpdateProof SelectProof HistoryProof RewriteProof SqlLex SqlRead FmtModel FmtSpec FmtProof FmtNameProof ScrubModel OperModel OperSpec EndSpec
  EndTruthProof EndMaskProof EndLexProof TextSpec TextExecProof TextShapeProof TextReadProof TextFormatProof TextProof EndProps RewriteExample.
Import ListNotations.

(** A supported statement is parsed, rewritten and written as a text.  The database reads in it a statement on the
    anonymised table whose decrypted answer and whose effect are those of the original statement on plaintext tables. *)
Theorem C91_statement_text : forall ft alnum fstr bs E M c pdb edb,
  prim_ok (e_P E) -> wf_meta is_keyword M -> usable_names M -> ascii_ok alnum ->
  sup_cmd ft bs E M c -> db_rel E M pdb edb ->
  exists m j j' table st text q,
    dget M (target c) = Some m /\
    parsed ft c = Ok j /\
    rewrite_query E M j = Ok (j', table, st) /\
    format_sql alnum fstr j' = Ok text /\
    says bs true text q /\ target q = t_anon m /\
    match obey pdb (meaning c), (do '(D, rs) <- obey edb q; do out <- decrypt_result E M table st rs; Ok (D, out)) with
    | Ok (pdb', rs), Ok (edb', out) => rs = out /\ db_rel E M pdb' edb'
    | Err e, Err e' => e = e'
    | _, _ => False
    end.
Proof.
  intros ft alnum fstr bs E M c pdb edb HP HM UN HA SC D.
  destruct (text_step ft alnum fstr bs M HA HM UN E c pdb edb HP SC D) as (m & j & j' & table & st & text & q & X1 & X2 & X3 & X4 & X5 & X6 & X7).
  exists m, j, j', table, st, text, q. repeat (split; [assumption|]). unfold same_step, res_rel in X7.
  set (e := do '(D, rs) <- obey edb q; do out <- decrypt_result E M table st rs; Ok (D, out)) in *. clearbody e.
  destruct (obey pdb (meaning c)) as [[p' rs]|], e as [[e' out]|]; exact X7.
Qed.
Print Assumptions C91_statement_text.

(** Refuted for a plaintext column named like one of the words set, values, insert, into, update or delete: the name is
    written without quotes and the text sent is no statement. *)
Theorem C91_statement_word_refuted : forall ft E M t m alnum fstr bs c,
  wf_meta is_keyword M -> ascii_ok alnum -> dget M t = Some m -> usable (t_anon m) -> substrb (u "value") t = false ->
  In c (map u ["set"; "values"; "insert"; "into"; "update"; "delete"]%string) -> plain_col m c ->
  exists j j' table st text,
    parsed ft (Select (ICols [c]) t None None None) = Ok j /\
    rewrite_query E M j = Ok (j', table, st) /\
    format_sql alnum fstr j' = Ok text /\
    forall n, read_text n bs true text = None.
Proof.
  intros ft E M t m alnum fstr bs c HM HA Hm UT HV IC (cm & Hc & Hp).
  pose proof (wf_names _ _ (wm_table _ _ HM t m Hm) c (dget_Some_key _ _ _ Hc)) as NC.
  pose proof (select_one_ok is_keyword M t m HM Hm c cm Hc) as SR. unfold SelectProof.phys_name in SR. rewrite Hp in SR.
  destruct (column_text bs alnum fstr HA c (t_anon m) NC UT) as [F L].
  eexists _, _, _, _, _. split; [reflexivity|]. split; [apply rewrite_select; [exact Hm|exact HV|exact SR|reflexivity|reflexivity]|].
  split; [exact F|]. intros n. unfold read_text. rewrite L. clear -IC.
  destruct IC as [<-|[<-|[<-|[<-|[<-|[<-|[]]]]]]]; reflexivity.
Qed.
Print Assumptions C91_statement_word_refuted.

(** The tables [emp] and [dep]; the column names are no keywords and no words of statements. *)
Lemma exM_names : wf_meta is_keyword exM /\ usable_names exM.
Proof.
  split.
  - constructor.
    + nodup.
    + intros t m H. apply dget_In in H. destruct H as [[= <- <-]|[[= <- <-]|[]]]; (constructor; [nodup|nodup| | | ]).
      * intros k [<-|[<-|[<-|[]]]]; split; reflexivity.
      * intros n [<-|[<-|[<-|[<-|[<-|[]]]]]]; split; reflexivity.
      * intros k c H. apply dget_In in H. destruct H as [[= <- <-]|[[= <- <-]|[[= <- <-]|[]]]]; nodup.
      * intros k [<-|[<-|[]]]; split; reflexivity.
      * intros n [<-|[<-|[]]]; split; reflexivity.
      * intros k c H. apply dget_In in H. destruct H as [[= <- <-]|[[= <- <-]|[]]]; nodup.
    + exact (wm_supp _ _ exM_wf).
    + exact (wm_anon _ _ exM_wf).
  - intros t m H. apply dget_In in H. destruct H as [[= <- <-]|[[= <- <-]|[]]].
    + split; [repeat split; vm_compute; intuition discriminate|]. intros n [<-|[<-|[<-|[<-|[<-|[]]]]]]; repeat split; vm_compute; intuition discriminate.
    + split; [repeat split; vm_compute; intuition discriminate|]. intros n [<-|[<-|[]]]; repeat split; vm_compute; intuition discriminate.
Qed.
Definition cemp (cs : list string) : list pystr := map u cs.
Definition older (z : Z) : sx := XBin OGt false (end_col "age") (end_int z).
Definition named (s : string) : sx := XBin OEq false (end_col "name") (end_lit s).
(** Statements of an application. *)
Definition ex_stmts : list (cmd sx) :=
  [Insert (u "emp") (cemp ["id"; "name"; "age"]%string) [KInt 1; KText (u "Bob O'Ray"); KInt 35];
   Insert (u "emp") (cemp ["age"; "name"; "id"]%string) [KInt (-4); KText (u "Ann"); KInt 2];
   Select (ICols (cemp ["name"; "age"]%string)) (u "emp") (Some (older (-9))) (Some (u "age", false)) (Some (5%N, Some 0%N));
   Update (u "emp") [(u "age", KInt 36); (u "id", KInt 7)] (Some (named "Bob O'Ray"));
   Select (IExtreme true (u "age")) (u "emp") None None None;
   Delete (u "emp") (Some (older 35));
   Select IAll (u "emp") None (Some (u "id", true)) None;
   Select ICount (u "emp") None None None].
Definition ex_sent (c : cmd sx) : res pystr :=
  do j <- parsed (fun _ => false) c; do '(j', _, _) <- rewrite_query exE exM j; format_sql ascii_alnum (fun _ => []) j'.
Definition ex_hist : list ((pystr -> Z) * cmd sx) := map (fun c => (fun _ => 2%Z, c)) ex_stmts.
Lemma ex_supported : Forall (fun c => sup_cmd (fun _ => false) true (with_rnd exE (fun _ => 2%Z)) exM c) ex_stmts.
Proof.
  assert (NA : enc_col emp (u "name") (col_enc "varchar" "k1" [(SYM, u "b71"); (FUZ, u "c02")]) SYM) by (split; [reflexivity|]; split; [reflexivity|]; eexists; reflexivity).
  assert (AO : enc_col emp (u "age") (col_enc "int" "k2" [(SYM, u "d33"); (OPEC, u "e45")]) OPEC) by (split; [reflexivity|]; split; [reflexivity|]; eexists; reflexivity).
  assert (WO : forall z, z = (-9)%Z \/ z = 35%Z -> where_sup (fun _ => false) true (with_rnd exE (fun _ => 2%Z)) emp (Some (older z))).
  { intros z [-> | ->]; (split; [|split]).
    1,4: (split; [|cbn; repeat split; eauto; first [lia|cbv; lia]]; cbn -[tree_of u]; unfold expr_of; repeat split; try (cbn; lia); try discriminate; auto; repeat constructor;
      try (eexists; reflexivity); try (eexists _, _; reflexivity)).
    1,3: cbn; auto 20.
    all: cbn [mean older end_col end_int]; eapply sup_order; [cbn; tauto|exact AO|reflexivity|]; split; (discriminate || reflexivity). }
  assert (WN : where_sup (fun _ => false) true (with_rnd exE (fun _ => 2%Z)) emp (Some (named "Bob O'Ray"))).
  { split; [|split].
    - split; [|cbn; repeat split; eauto; first [lia|cbv; lia]].
      cbn -[tree_of u]. unfold expr_of. repeat split; try (cbn; lia); try discriminate; auto; repeat constructor.
      all: try (eexists; reflexivity); try (eexists _, _; reflexivity).
      intros op J; cbn in J; destruct J as [J|[J|[J|[J|[]]]]]; subst op; reflexivity.
    - cbn. auto 20.
    - cbn [mean named end_col end_lit]. eapply sup_text; [exact NA|reflexivity|]. split; [reflexivity|]. right. discriminate. }
  unfold ex_stmts.
  assert (HI : forall cs vs, length cs = length vs -> (2 <= length cs)%nat -> NoDup cs ->
    (forall k v, In (k, v) (combine cs vs) -> exists c, dget (t_cols emp) k = Some c /\ const_ok (with_rnd exE (fun _ => 2%Z)) k c (cjson v) /\ plain_text true c v) ->
    sup_cmd (fun _ => false) true (with_rnd exE (fun _ => 2%Z)) exM (Insert (u "emp") cs vs)).
  { intros cs vs L NE ND H. exists emp. repeat (split; [first [reflexivity|assumption]|]). exact H. }
  assert (NARI : forall l, In ARI l -> l = [SYM; OPEC] -> False) by (intros l X ->; destruct X as [X|[X|[]]]; discriminate X).
  assert (IK : forall k v, In (k, v) [(u "id", KInt 1); (u "name", KText (u "Bob O'Ray")); (u "age", KInt 35); (u "age", KInt (-4)); (u "name", KText (u "Ann")); (u "id", KInt 2);
      (u "age", KInt 36); (u "id", KInt 7)] ->
    exists c, dget (t_cols emp) k = Some c /\ const_ok (with_rnd exE (fun _ => 2%Z)) k c (cjson v) /\ plain_text true c v).
  { assert (PI : forall z, exists c, dget (t_cols emp) (u "id") = Some c /\ const_ok (with_rnd exE (fun _ => 2%Z)) (u "id") c (cjson (KInt z)) /\ plain_text true c (KInt z)).
    { intros z. eexists. split; [reflexivity|]. split; [|exact Logic.I]. left. now exists z. }
    assert (PA : forall z, int64 z -> exists c, dget (t_cols emp) (u "age") = Some c /\ const_ok (with_rnd exE (fun _ => 2%Z)) (u "age") c (cjson (KInt z)) /\ plain_text true c (KInt z)).
    { intros z B. eexists. split; [reflexivity|]. split; [|exact Logic.I]. left. split; [reflexivity|]. exists z. split; [reflexivity|]. split; [exact B|]. intros X. now apply NARI in X. }
    assert (PN : forall s, text_ok s -> exists c, dget (t_cols emp) (u "name") = Some c /\ const_ok (with_rnd exE (fun _ => 2%Z)) (u "name") c (cjson (KText s)) /\ plain_text true c (KText s)).
    { intros s B. eexists. split; [reflexivity|]. split; [|discriminate]. right. split; [now vm_compute; auto|]. now exists s. }
    intros k v X. cbn [In] in X. repeat (destruct X as [[= <- <-]|X]); [..|destruct X]; first [apply PI|apply PA; split; (discriminate || reflexivity)|apply PN; split; [reflexivity|right; vm_compute; discriminate]]. }
  constructor; [|constructor; [|constructor; [|constructor; [|constructor; [|constructor; [|constructor; [|constructor; [|constructor]]]]]]]].
  - apply HI; [reflexivity|cbn; lia|nodup|]. intros k v X. apply IK. cbn in X |- *. tauto.
  - apply HI; [reflexivity|cbn; lia|nodup|]. intros k v X. apply IK. cbn in X |- *. tauto.
  - exists emp. split; [reflexivity|]. split; [reflexivity|]. split; [|split].
    + split; [discriminate|]. intros c [<-|[<-|[]]]; cbn; auto.
    + apply WO. now left.
    + right. split; [reflexivity|]. eexists. split; [exact AO|reflexivity].
  - exists emp. split; [reflexivity|]. split; [discriminate|]. split; [nodup|]. split; [exact WN|]. intros k v X.
    destruct (IK k v) as (c & D & C & P); [cbn in X |- *; tauto|]. exists c. split; [exact D|]. split; [|exact P]. split; [exact C|]. intros PL.
    destruct X as [[= <- <-]|[[= <- <-]|[]]]; injection D as <-; [|discriminate PL]. split; [intros X; now apply NARI in X|]. intros [X|[X|[]]]; discriminate X.
  - exists emp. split; [reflexivity|]. split; [reflexivity|]. split; [|split; exact Logic.I]. split; [reflexivity|]. right. eexists. split; [exact AO|reflexivity].
  - exists emp. split; [reflexivity|]. apply WO. now right.
  - exists emp. split; [reflexivity|]. split; [reflexivity|]. split; [discriminate|]. split; [exact Logic.I|]. left. eexists. split; reflexivity.
  - exists emp. split; [reflexivity|]. split; [reflexivity|]. split; [reflexivity|]. split; exact Logic.I.
Qed.
(** The statements of the example are supported, and the texts that are sent for them. *)
Example C91_example :
  wf_meta is_keyword exM /\ usable_names exM /\ Forall (fun c => sup_cmd (fun _ => false) true (with_rnd exE (fun _ => 2%Z)) exM c) ex_stmts /\
  map ex_sent (skipn 1 ex_stmts) = map (fun s => Ok (u s))
    ["INSERT INTO t9f (d33, e45, b71, c02, id) VALUES ('AAAAAAAtNAAAAAAAAAAAAA==', -4, 'AAAAAABBbm4AAAAAAAAAAA==', 'AAAAAABBbm4AAAAAAAAAAA==', 2)";
     "SELECT b71, d33 FROM t9f WHERE e45 > -9 ORDER BY e45 LIMIT 5 OFFSET 0";
     "UPDATE t9f SET d33 = ""AAAAAAAzNgAAAAAAAAAAAA=="", e45 = 36, id = 7 WHERE b71 = 'AAAAAABCb2IgTydSYXkAAA=='";
     "SELECT MAX(e45) FROM t9f";
     "DELETE FROM t9f WHERE e45 > 35";
     "SELECT id, b71, d33 FROM t9f ORDER BY id DESC";
     "SELECT COUNT(*) FROM t9f"]%string.
Proof.
  split; [exact (proj1 exM_names)|]. split; [exact (proj2 exM_names)|]. split; [exact ex_supported|]. vm_compute. reflexivity.
Qed.
(** A table with a plaintext column named set. *)
Example C91_statement_word_example :
  let m := {| t_anon := u "t9f"; t_cols := [(u "set", col_plain "int")]; t_comment := None |} in
  let sent := do j <- parsed (fun _ => false) (Select (ICols [u "set"]) (u "emp") None None None);
              do '(j', _, _) <- rewrite_query exE [(u "emp", m)] j; format_sql ascii_alnum (fun _ => []) j' in
  is_keyword (u "set") = false /\ sent = Ok (u "SELECT set FROM t9f") /\ read_text 50 true true (u "SELECT set FROM t9f") = None /\
  read_text 50 true true (u "SELECT `set` FROM t9f") = Some (Select (ICols [u "set"]) (u "t9f") None None None).
Proof. vm_compute. repeat split. Qed.

(** A history of supported statements, with the SQL text of every statement between the proxy and the database, is
    answered as plaintext tables answer it; [n] is the fuel of the reader of SQL texts. *)
Theorem C92_history_text : forall ft alnum fstr bs E M h,
  prim_ok (e_P E) -> wf_meta is_keyword M -> usable_names M -> ascii_ok alnum ->
  Forall (fun rc => sup_cmd ft bs (with_rnd E (fst rc)) M (snd rc)) h ->
  exists N, forall n, (N <= n)%nat ->
    answers (fun r D c => text_proxy ft alnum fstr bs n (with_rnd E r) M D c) (empty_enc M) h =
    answers (fun _ D c => obey D (meaning c)) (empty_plain M) h.
Proof.
  intros ft alnum fstr bs E M h HP HM UN HA F. apply text_history; try assumption. now apply (empty_rel is_keyword).
Qed.
Print Assumptions C92_history_text.

Example C92_example :
  answers (fun r D c => text_proxy (fun _ => false) ascii_alnum (fun _ => []) true 60 (with_rnd exE r) exM D c) (empty_enc exM) ex_hist =
  [Ok []; Ok []; Ok [[VStr (u "Ann"); VInt (-4)]; [VStr (u "Bob O'Ray"); VInt 35]]; Ok []; Ok [[VInt 36]]; Ok [];
   Ok [[VInt 2; VStr (u "Ann"); VInt (-4)]]; Ok [[VInt 1]]].
Proof. vm_compute. reflexivity. Qed.
