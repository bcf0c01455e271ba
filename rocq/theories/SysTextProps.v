(** C93: the whole system with the SQL text of every statement between the proxy and the database server. *)
From Coq Require Import String Ascii List Arith NArith ZArith QArith Bool Lia.
From Verif Require Import Base BaseProof CryptoModel CryptoSpec FuzzyModel JsonModel RewriteModel SqlSpec EncSpec StmtSpec CreateModel CreateSpec MetaModel MetaSpec
  ExecModel ExecSpec SqlLex SqlRead FmtModel FmtSpec FmtProof FmtNameProof ScrubModel OperModel OperSpec EndSpec TextSpec EndProps RewriteExample TextProps SysSpec SysProof SysProps
  SysTextSpec SysTextProof.
Import ListNotations.
Open Scope Z_scope.

(** From a fresh installation, a history of requests and restarts in which the database server is given SQL texts is
    answered as the plaintext databases answer it; [n] is the fuel of the reader of SQL texts. *)
Theorem C93_whole_system_text : forall ft alnum fstr bs E rest h,
  prim_ok (e_P E) -> ascii_ok alnum -> tgood_run ft alnum fstr bs E rest (fresh_install, []) h ->
  exists N, forall n, (N <= n)%nat ->
    tsys_run ft alnum fstr bs E rest n (fresh_install, []) h = tplain_run [] h.
Proof. intros ft alnum fstr bs E rest h HP HA G. apply tsys_sim; [exact HA|exact HP|apply si_fresh|exact usable_fresh|exact G]. Qed.
Print Assumptions C93_whole_system_text.

(** What the proxy and the server hold afterwards: the state that the system of C81 reaches; every table that the proxy
    knows is stored under its own name in its own database with the encryptions of the rows of the plaintext table. *)
Theorem C93_server_state_text : forall ft alnum fstr bs E rest h,
  prim_ok (e_P E) -> ascii_ok alnum -> tgood_run ft alnum fstr bs E rest (fresh_install, []) h ->
  exists d S,
    (exists N, forall n, (N <= n)%nat -> tsys_after ft alnum fstr bs E rest n (fresh_install, []) h = (d, S)) /\
    sys_after is_keyword E (wire_text alnum fstr) rest (fresh_install, []) (map (event_of ft) h) = (d, S) /\
    let P := tplain_after [] h in
    (forall db t, dget (db_of P db) t <> None <-> in_memory d db t <> None) /\
    (forall db t m, in_memory d db t = Some m -> exists pt et,
       dget (db_of P db) t = Some pt /\ dget (db_of S db) (t_anon m) = Some et /\
       tb_cols pt = dkeys (t_cols m) /\ tb_cols et = phys m /\ Forall2 (enc_row E m) (tb_rows pt) (tb_rows et)) /\
    (forall db t t' m m', in_memory d db t = Some m -> in_memory d db t' = Some m' -> t_anon m = t_anon m' -> t = t').
Proof.
  intros ft alnum fstr bs E rest h HP HA G.
  destruct (tsys_inv ft alnum fstr bs E rest HA HP h fresh_install [] [] (si_fresh is_keyword E) usable_fresh G) as (d & S & X & Y & I).
  exists d, S. split; [exact X|]. split; [exact Y|]. cbv zeta. split; [|split].
  - intros db t. split; [apply (si_known _ _ _ _ _ I)|]. intro H. destruct (in_memory d db t) as [m|] eqn:M; [|congruence].
    destruct (si_rel _ _ _ _ _ I _ _ _ M) as (pt & et & A & _). congruence.
  - intros db t m M. destruct (si_rel _ _ _ _ _ I _ _ _ M) as (pt & et & A & B & [C1 C2 C3]). exists pt, et. auto.
  - exact (si_inj _ _ _ _ _ I).
Qed.
Print Assumptions C93_server_state_text.

(** Two rows are stored, the proxy restarts, a query is asked, a row is changed, the table is dropped. *)
Definition exft (_ : pystr) := false.
Definition t_ask (w : written) : tevent := TAsk (fun _ => 2) (u "hr") w ex_enc ex_names (u "t77").
Definition t_row (i : Z) (n : string) (a : Z) : written :=
  WCmd (Insert (u "staff") [u "id"; u "name"; u "age"] [KInt i; KText (u n); KInt a]).
Definition t_query : written := WCmd (Select (ICols [u "name"; u "id"]) (u "staff") (Some (older 40)) None None).
Definition t_history : list tevent :=
  [t_ask (WCreate ex_create); t_ask (t_row 1 "Bob Ray" 44); t_ask (t_row 2 "Ann Lee" 38); TReboot; t_ask t_query;
   t_ask (WCmd (Delete (u "staff") None)); t_ask (WDrop (u "staff"))].
Definition t_wire := wire_text ascii_alnum (fun _ => []).
(** The texts sent. *)
Fixpoint t_sent (w : system) (h : list tevent) : list pystr :=
  match h with
  | [] => []
  | e :: r =>
    match event_of exft e with
    | Ask rnd q => match sent_for exE t_wire ex_rest rnd (fst w) q with Some s => [t_wire s] | None => [] end
    | Reboot => []
    end ++ t_sent (fst (sys_step is_keyword exE t_wire ex_rest w (event_of exft e))) r
  end.
Lemma t_names a : colname is_keyword (ex_names a).
Proof.
  split.
  - unfold ex_names. cbn. apply forallb_forall. intros x X. apply repeat_spec in X. subst x. reflexivity.
  - destruct a as [|[|a]]; vm_compute; reflexivity.
Qed.
Lemma t_older : where_sup exft true (with_rnd exE (fun _ => 2)) ex_staff (Some (older 40)).
Proof.
  split; [|split].
  - split; [|cbn; repeat split; eauto; first [lia|cbv; lia]]. cbn -[tree_of u]. unfold expr_of. repeat split; try (cbn; lia); try discriminate; auto; repeat constructor;
      try (eexists; reflexivity); try (eexists _, _; reflexivity).
  - cbn. auto 20.
  - cbn [mean older end_col end_int]. apply (sup_order _ _ _ _ _ (col_enc "int" "k2" [(OPEC, u "cbb"); (SYM, u "cbbb")])); [cbn; tauto| |reflexivity|split; (discriminate || reflexivity)].
    split; [reflexivity|]. split; [reflexivity|]. eexists. reflexivity.
Qed.
Lemma t_row_good i n a M : dget M (u "staff") = Some ex_staff -> int64 a -> text_ok (u n) ->
  sup_cmd exft true (with_rnd exE (fun _ => 2)) M (Insert (u "staff") [u "id"; u "name"; u "age"] [KInt i; KText (u n); KInt a]).
Proof.
  intros HM A T. exists ex_staff. split; [exact HM|]. split; [cbn; lia|]. split; [nodup|]. split; [reflexivity|].
  intros k v X. cbn [combine In] in X. destruct X as [[= <- <-]|[[= <- <-]|[[= <- <-]|[]]]].
  - eexists. split; [reflexivity|]. split; [|exact Logic.I]. left. now exists i.
  - eexists. split; [reflexivity|]. split; [|discriminate]. right. split; [unfold is_text_type; cbn; tauto|]. eexists. split; [reflexivity|exact T].
  - eexists. split; [reflexivity|]. split; [|exact Logic.I]. left. split; [reflexivity|]. exists a. split; [reflexivity|]. split; [exact A|]. cbn. intuition discriminate.
Qed.
Ltac t_meta := match goal with |- context [db_meta ?d (u "hr")] =>
  let X := fresh "X" in assert (X : db_meta d (u "hr") = [(u "staff", ex_staff)]) by (vm_compute; reflexivity); rewrite X; clear X end.
Example C93_example :
  tgood_run exft ascii_alnum (fun _ => []) true exE ex_rest (fresh_install, []) t_history /\
  map (fun i => nth i (t_sent (fresh_install, []) t_history) []) [0; 3; 4; 5]%nat = map u
    ["CREATE TABLE IF NOT EXISTS t77(id int,c varchar(44) NOT NULL ,cb VARCHAR(2000) NOT NULL ,cbb BIGINT,cbbb VARCHAR(300),PRIMARY KEY(id));";
     "SELECT c, id FROM t77 WHERE cbb > 40"; "DELETE FROM t77"; "DROP TABLE t77"]%string /\
  tsys_run exft ascii_alnum (fun _ => []) true exE ex_rest 60 (fresh_install, []) t_history =
    [Ok []; Ok []; Ok []; Ok [[VStr (u "Bob Ray"); VInt 1]]; Ok []; Ok []].
Proof.
  split; [|split; vm_compute; reflexivity]. unfold t_history, t_ask, t_row, t_query. cbn [tgood_run]. cbn [tgood].
  repeat match goal with |- _ /\ _ => split | |- True => exact Logic.I end.
  - eapply good_create with (t := u "staff") (defs := ex_defs) (cols := ex_cols); try reflexivity.
    + eexists _, _. repeat split.
    + repeat (constructor; [eexists; repeat split|]). constructor.
    + discriminate.
    + nodup.
    + repeat (constructor; [reflexivity|]). constructor.
    + constructor; [|constructor]. left. exists None, (JStr (u "id")), [u "id"].
      split; [discriminate|]. split; [right; eexists; split; reflexivity|reflexivity].
    + intros x [<-|[<-|[<-|[]]]]; (split; [split; [split; reflexivity|cbn; intuition discriminate]|split; [reflexivity|]]).
      * left. reflexivity.
      * right. eexists. reflexivity.
      * left. reflexivity.
    + intro a. split; [apply t_names|]. cbn. unfold ex_names. intuition discriminate.
    + cbn [q_fresh request_of]. intros a b X. apply (f_equal (@length N)) in X. cbn [ex_names length] in X. rewrite !repeat_length in X. congruence.
    + intros a. cbn [q_fresh request_of map ex_defs fst In]. unfold ex_names. intuition discriminate.
    + intros x o [<-|[<-|[<-|[]]]] X; cbn in X; try discriminate X; injection X as <-; (split; [reflexivity|]).
      * right. split; [right; left; reflexivity|reflexivity].
      * left. reflexivity.
  - intros q t m X. vm_compute in X. injection X as <- <- <-. cbn [t_anon].
    split; [repeat split; vm_compute; intuition discriminate|]. intros n Hn. vm_compute in Hn.
    repeat (destruct Hn as [<-|Hn]; [repeat split; vm_compute; intuition discriminate|]). destruct Hn.
  - t_meta. apply t_row_good; [reflexivity| |]; [split; (discriminate || reflexivity)|split; [reflexivity|right; discriminate]].
  - discriminate.
  - t_meta. apply t_row_good; [reflexivity| |]; [split; (discriminate || reflexivity)|split; [reflexivity|right; discriminate]].
  - discriminate.
  - t_meta. exists ex_staff. split; [reflexivity|]. split; [reflexivity|]. split; [|split; [exact t_older|exact Logic.I]].
    split; [discriminate|]. intros k [<-|[<-|[]]]; cbn; tauto.
  - intros _ j j' t st text X. vm_compute in X. injection X as <-. t_meta. intros Y. vm_compute in Y. injection Y as <- <- <-.
    intros Z. vm_compute in Z. injection Z as <-. split; vm_compute; reflexivity.
  - t_meta. exists ex_staff. split; [reflexivity|exact Logic.I].
  - discriminate.
  - vm_compute. discriminate.
Qed.
