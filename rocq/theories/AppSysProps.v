(** C98: the application talks SQL to the whole system, from the first CREATE TABLE on. *)
From Coq Require Import String Ascii List Arith NArith ZArith QArith Bool Lia.
From Verif Require Import Base BaseProof CryptoModel CryptoSpec FuzzyModel JsonModel RewriteModel SqlSpec EncSpec StmtSpec CreateModel CreateSpec MetaModel MetaSpec
  ExecModel ExecSpec SqlLex SqlRead FmtModel FmtSpec FmtProof FmtNameProof ScrubModel OperModel OperSpec EndSpec TextSpec EndProps RewriteExample TextProps SysSpec SysProof SysProps
  SysTextSpec SysTextProof SysTextProps LitModel LitSpec GramModel GramSpec GramCheckProof FullModel FullSpec FullProps DirectSpec DirectProof DirectProps DdlSpec DdlProps AppSysSpec AppReadProof AppSysProof.
Import ListNotations.
Open Scope Z_scope.

(** From a fresh installation: CREATE TABLE, DROP TABLE and the statements on one table are SQL texts that the proxy parses,
    what it sends are SQL texts that the database server reads, and the proxy is restarted in between; the application gets
    what it gets when the same texts go to plaintext databases.  [hw] is what the texts write. *)
Theorem C98_whole_system_from_texts : forall uname more ft alnum fstr bs E rest ty h hw,
  prim_ok (e_P E) -> ascii_ok alnum -> Forall2 (stands bs ty) h hw -> tgood_run ft alnum fstr bs E rest (fresh_install, []) hw ->
  exists N, forall n, (N <= n)%nat ->
    asys_run uname more ft alnum fstr bs E rest ty n (fresh_install, []) h = aplain_run bs n [] h.
Proof.
  intros uname more ft alnum fstr bs E rest ty h hw HP HA F G.
  apply (asys_sim uname more ft alnum fstr bs E rest ty HA HP h hw F); [apply si_fresh|exact usable_fresh|exact G].
Qed.
Print Assumptions C98_whole_system_from_texts.

(** A database reads a CREATE TABLE text as the table that the text writes for the parser of the proxy: the name, the columns
    in their order, IF NOT EXISTS. *)
Theorem C98_table_text : forall bs d text D n,
  good_def d -> app_text bs (def_lex d) text ->
  app_server n bs D text =
    if dmem D (td_name d) then (if td_guard d then Ok (D, []) else Err DbError) else new_table D (td_name d) (map cl_name (td_cols d)).
Proof. intros bs d text D n G A. apply (table_text bs d text D n G A). Qed.
Print Assumptions C98_table_text.

(** ** Example *)
Local Open Scope string_scope.
Local Open Scope list_scope.
Definition c98_def : table_def :=
  {| td_name := u "staff"; td_guard := false;
     td_cols := [DdlProps.col "id" (DdlProps.ty "int" []) []; DdlProps.col "name" (DdlProps.ty "varchar" [20]) [NotNull]; DdlProps.col "age" (DdlProps.ty "int" []) []];
     td_cons := [Primary None [u "id"]]; td_opts := [Engine (u "InnoDB")] |}.
Definition c98_ask (w : SysTextSpec.written) (text : string) : aevent * tevent :=
  (AText (fun _ => 2) (u "hr") (u text) (match w with WCreate _ => Some SysProps.ex_enc | _ => None end) ex_names (u "t77"), t_ask w).
Definition c98 : list (aevent * tevent) :=
  [c98_ask (WCreate (def_json c98_def)) "create table `staff` (id INT, name Varchar(20) NOT NULL, age int, PRIMARY KEY (id)) engine=InnoDB;";
   c98_ask (t_row 1 "Bob Ray" 44) "INSERT INTO staff (id, name, age) VALUES (1, 'Bob Ray', 44)";
   c98_ask (t_row 2 "Ann Lee" 38) "insert into `staff`(id,name,age) values(2,""Ann Lee"",38) ; ";
   (AReboot, TReboot);
   c98_ask t_query "Select name , id From staff Where age>40";
   c98_ask (WCmd (Delete (u "staff") None)) "DELETE FROM staff;";
   c98_ask (WDrop (u "staff")) " Drop Table `staff` ;"].
(** The type of a text: its first word. *)
Definition c98_type (text : pystr) : res qtype :=
  match lex true true text with
  | Some (t :: _) => if is_w "select" t then Ok QSelect else if is_w "insert" t then Ok QInsert else if is_w "update" t then Ok QUpdate
                     else if is_w "delete" t then Ok QDelete else if is_w "create" t then Ok QCreate else if is_w "drop" t then Ok QDrop else Err ValueError
  | _ => Err ValueError
  end.
Definition readb (bs : bool) (x : lexeme) (t : pystr) : bool :=
  match x with
  | LStr _ => bs || negb (memb 92 t)
  | LName v => negb (N.eqb (hd 0%N v) 36) && negb (memb 8 v)
  | LFun f => negb (N.eqb (hd 0%N f) 36)
  | LSym s => negb (seqb s (u "=="))
  | LKw _ | LNum _ => true
  end.
Lemma readb_ok bs x t : readb bs x t = true -> readable_part bs x t.
Proof.
  destruct x; cbn [readb readable_part]; rewrite ?andb_true_iff, ?orb_true_iff, ?negb_true_iff; try exact (fun _ => Logic.I).
  - intros [H1 H2]. split; [now apply N.eqb_neq|now apply memb_out; rewrite H2].
  - intros H1. now apply N.eqb_neq.
  - intros [H|H] E; [congruence|]. apply memb_out. now rewrite H.
  - intros H ->. now rewrite seqb_refl in H.
Qed.
Fixpoint readableb (bs : bool) (s : pystr) (l : list (lexeme * pystr * pystr)) : bool :=
  match l with
  | [] => false
  | [(x, t, w)] => seqb s (t ++ w) && writesb x t w && readb bs x t && blanksb w
  | (x, t, w) :: r =>
    let rest := skipn (length (t ++ w)) s in
    seqb s ((t ++ w) ++ rest) && writesb x t (w ++ rest) && readb bs x t && blanksb w && readableb bs rest r
  end.
Lemma readableb_ok bs l : forall s, readableb bs s l = true -> readable bs s (map (fun p => fst (fst p)) l).
Proof.
  induction l as [|[[x t] w] l IH]; intros s H; [discriminate H|]. destruct l as [|p l].
  - cbn [readableb] in H. rewrite !andb_true_iff in H. destruct H as (((H1 & H2) & H3) & H4). apply seqb_eq in H1. subst s. constructor; [now apply writesb_ok|now apply readb_ok|now apply blanksb_ok].
  - change (readableb bs s ((x, t, w) :: p :: l)) with (let rest := skipn (length (t ++ w)) s in
      seqb s ((t ++ w) ++ rest) && writesb x t (w ++ rest) && readb bs x t && blanksb w && readableb bs rest (p :: l))%bool in H.
    cbv zeta in H. rewrite !andb_true_iff in H. destruct H as ((((H1 & H2) & H3) & H4) & H5). apply seqb_eq in H1. rewrite <- app_assoc in H1. rewrite H1. cbn [map fst].
    constructor; [now apply writesb_ok|now apply readb_ok|now apply blanksb_ok|discriminate|]. now apply (IH (skipn (length (t ++ w)) s)).
Qed.
Lemma by_readable bs (parts : list lexeme -> Prop) ls text a s b l : parts ls -> text = u a ++ u s ++ u b -> length ls = length (FullProps.tw l) -> blanksb (u a) = true -> readableb bs (u s) (zip ls (FullProps.tw l)) = true ->
  match u b with [] => true | x :: r => N.eqb x 59 && blanksb r end = true -> app_text bs parts text.
Proof.
  intros CL -> L A S B. exists ls, (u a), (u s), (u b). split; [exact CL|]. split; [reflexivity|]. split; [now apply blanksb_ok|]. split.
  - rewrite (zip_fst ls (FullProps.tw l) L). now apply readableb_ok.
  - destruct (u b) as [|x r]; [now left|right]. apply andb_true_iff in B. destruct B as [B1 B2]. apply N.eqb_eq in B1. subst x. exists r. split; [reflexivity|now apply blanksb_ok].
Qed.
Local Ltac by_parts a s b l tac := eapply (by_shared _ _ _ _ a s b l); [tac|vm_compute; reflexivity..].
Local Ltac fw f := apply (free _ f); vm_compute; reflexivity.
Local Ltac nodup := repeat (apply NoDup_cons; [let X := fresh in intros X; vm_compute in X; intuition discriminate|]); apply NoDup_nil.
Lemma c98_good_def : good_def c98_def.
Proof.
  split; [discriminate|]. split; [|split].
  - repeat (apply Forall_cons; [split; [split; [left; split; [vm_compute; tauto|cbn; lia]|discriminate]|split; [cbn; nodup|exact Logic.I]]|]). apply Forall_nil.
  - repeat (apply Forall_cons; [cbn; repeat split; discriminate|]). apply Forall_nil.
  - cbn. nodup.
Qed.
Lemma c98_stands : Forall2 (stands true c98_type) (map fst c98) (map snd c98).
Proof.
  unfold c98, c98_ask, t_ask. cbn [map fst snd].
  repeat apply Forall2_cons; try apply Forall2_nil; try exact Logic.I; (split; [reflexivity|split; [reflexivity|split; [reflexivity|split; [reflexivity|split; [reflexivity|split; [|vm_compute; reflexivity]]]]]]); unfold text_of.
  - exists c98_def. split; [exact c98_good_def|]. split; [reflexivity|].
    eapply (by_readable _ _ _ _ "" "create table `staff` (id INT, name Varchar(20) NOT NULL, age int, PRIMARY KEY (id)) engine=InnoDB" ";"
      [("create", " "); ("table", " "); ("`staff`", " "); ("(", ""); ("id", " "); ("INT", ""); (",", " "); ("name", " "); ("Varchar", ""); ("(", ""); ("20", ""); (")", " "); ("NOT", " "); ("NULL", ""); (",", " ");
       ("age", " "); ("int", ""); (",", " "); ("PRIMARY", " "); ("KEY", " "); ("(", ""); ("id", ""); (")", ""); (")", " "); ("engine", ""); ("=", ""); ("InnoDB", "")]);
    [apply (dl_def (u "staff") false);
     [repeat apply Forall2_cons; [| | |apply Forall2_nil]; apply cl_lex;
      [apply tl_signed; fw "INT"|apply Forall2_nil|apply tl_signed; fw "Varchar"|repeat apply Forall2_cons; [apply ol_not_null|apply Forall2_nil]|apply tl_signed; fw "int"|apply Forall2_nil]
     |repeat apply Forall2_cons; [apply kl_primary|apply Forall2_nil]
     |repeat apply Forall2_cons; [apply ml_engine; fw "engine"|apply Forall2_nil]]
    |vm_compute; reflexivity..].
  - by_parts "" "INSERT INTO staff (id, name, age) VALUES (1, 'Bob Ray', 44)" ""
      [("INSERT", " "); ("INTO", " "); ("staff", " "); ("(", ""); ("id", ""); (",", " "); ("name", ""); (",", " "); ("age", ""); (")", " "); ("VALUES", " "); ("(", ""); ("1", ""); (",", " "); ("'Bob Ray'", ""); (",", " "); ("44", ""); (")", "")]
      ltac:(apply (l_insert false)).
  - by_parts "" "insert into `staff`(id,name,age) values(2,""Ann Lee"",38) " "; "
      [("insert", " "); ("into", " "); ("`staff`", ""); ("(", ""); ("id", ""); (",", ""); ("name", ""); (",", ""); ("age", ""); (")", " "); ("values", ""); ("(", ""); ("2", ""); (",", ""); ("""Ann Lee""", ""); (",", ""); ("38", ""); (")", " ")]
      ltac:(apply (l_insert false)).
  - by_parts "" "Select name , id From staff Where age>40" ""
      [("Select", " "); ("name", " "); (",", " "); ("id", " "); ("From", " "); ("staff", " "); ("Where", " "); ("age", ""); (">", ""); ("40", "")]
      ltac:(apply l_select; [apply i_cols; [discriminate|vm_compute; intuition discriminate]|eexists; split; [apply (c_bin OGt false); constructor; constructor; lia|reflexivity]]).
  - by_parts "" "DELETE FROM staff" ";" [("DELETE", " "); ("FROM", " "); ("staff", "")] ltac:(apply l_delete; reflexivity).
  - eapply (by_readable _ _ _ _ " " "Drop Table `staff` " ";" [("Drop", " "); ("Table", " "); ("`staff`", " ")]); [reflexivity|vm_compute; reflexivity..].
Qed.
Local Close Scope string_scope.
Lemma c98_good : tgood_run exft ascii_alnum (fun _ => []) true exE ex_rest (fresh_install, []) (map snd c98).
Proof.
  unfold c98, c98_ask, t_ask, t_row, t_query. cbn [map snd tgood_run]. cbn [tgood].
  repeat match goal with |- _ /\ _ => split | |- True => exact Logic.I end.
  - eapply good_create with (t := u "staff") (defs := ex_defs) (cols := map column_json (td_cols c98_def)); try reflexivity.
    + eexists _, _. repeat split.
    + repeat (constructor; [eexists; repeat split|]). constructor.
    + discriminate.
    + nodup.
    + repeat (constructor; [reflexivity|]). constructor.
    + constructor; [|constructor]. left. exists None, (JStr (u "id")), [u "id"].
      split; [discriminate|]. split; [right; eexists; split; reflexivity|reflexivity].
    + intros x [<-|[<-|[<-|[]]]]; (split; [split; [split; reflexivity|cbn; intuition discriminate]|split; [reflexivity|]]).
      * left. reflexivity.
      * right. eexists. reflexivity.
      * left. reflexivity.
    + intro a. split; [apply t_names|]. cbn. unfold ex_names. intuition discriminate.
    + cbn [q_fresh request_of]. intros a b X. apply (f_equal (@length N)) in X. cbn [ex_names length] in X. rewrite !repeat_length in X. congruence.
    + intros a. cbn [q_fresh request_of map ex_defs fst In]. unfold ex_names. intuition discriminate.
    + intros x o [<-|[<-|[<-|[]]]] X; cbn in X; try discriminate X; injection X as <-; (split; [reflexivity|]).
      * right. split; [right; left; reflexivity|reflexivity].
      * left. reflexivity.
  - intros q t m X. vm_compute in X. injection X as <- <- <-. cbn [t_anon].
    split; [repeat split; vm_compute; intuition discriminate|]. intros n Hn. vm_compute in Hn.
    repeat (destruct Hn as [<-|Hn]; [repeat split; vm_compute; intuition discriminate|]). destruct Hn.
  - t_meta. apply t_row_good; [reflexivity| |]; [split; (discriminate || reflexivity)|split; [reflexivity|right; discriminate]].
  - discriminate.
  - t_meta. apply t_row_good; [reflexivity| |]; [split; (discriminate || reflexivity)|split; [reflexivity|right; discriminate]].
  - discriminate.
  - t_meta. exists ex_staff. split; [reflexivity|]. split; [reflexivity|]. split; [|split; [exact t_older|exact Logic.I]].
    split; [discriminate|]. intros k [<-|[<-|[]]]; cbn; tauto.
  - intros _ j j' t st text X. vm_compute in X. injection X as <-. t_meta. intros Y. vm_compute in Y. injection Y as <- <- <-.
    intros Z. vm_compute in Z. injection Z as <-. split; vm_compute; reflexivity.
  - t_meta. exists ex_staff. split; [reflexivity|exact Logic.I].
  - discriminate.
  - vm_compute. discriminate.
Qed.
(** The answers of the system and of the plaintext databases to the texts. *)
Example C98_example :
  Forall2 (stands true c98_type) (map fst c98) (map snd c98) /\
  tgood_run exft ascii_alnum (fun _ => []) true exE ex_rest (fresh_install, []) (map snd c98) /\
  asys_run FullProps.no_name FullProps.no_more exft ascii_alnum (fun _ => []) true exE ex_rest c98_type 60 (fresh_install, []) (map fst c98) =
    [Ok []; Ok []; Ok []; Ok [[VStr (u "Bob Ray"); VInt 1]]; Ok []; Ok []] /\
  aplain_run true 60 [] (map fst c98) = [Ok []; Ok []; Ok []; Ok [[VStr (u "Bob Ray"); VInt 1]]; Ok []; Ok []].
Proof. split; [exact c98_stands|]. split; [exact c98_good|]. split; vm_compute; reflexivity. Qed.
