(** The whole system (C81). *)
From Coq Require Import String Ascii List NArith ZArith QArith Bool Lia.
From Verif Require Import Base BaseProof CryptoModel CryptoSpec JsonModel RewriteModel WidthModel FuzzyModel SqlSpec EncSpec StmtSpec
  RewriteExample CreateModel CreateSpec MetaModel MetaSpec MetaProof ExecModel ExecSpec FmtModel SysSpec SysProof.
Import ListNotations.
Open Scope Z_scope.

(** ** C81 *)
(** From a fresh installation, any history of requests and restarts: the client sees what the plaintext
    databases would answer. *)
Theorem C81_whole_system : forall kw E text rest h, prim_ok (e_P E) ->
  good_run kw E text rest (fresh_install, []) h ->
  sys_run kw E text rest (fresh_install, []) h = plain_run kw [] h.
Proof. intros kw E text rest h HP G. exact (sys_sim kw E text rest HP h _ _ _ (si_fresh kw E) G). Qed.
Print Assumptions C81_whole_system.

(** What the server holds afterwards: the tables of the plaintext databases are those that the proxy knows,
    each is stored under its own physical name in its own database, and its rows are encryptions of the
    plaintext rows, in order. *)
Lemma c81_state kw E text rest h : prim_ok (e_P E) -> good_run kw E text rest (fresh_install, []) h ->
  let d := fst (sys_after kw E text rest (fresh_install, []) h) in
  let S := snd (sys_after kw E text rest (fresh_install, []) h) in
  let P := fold_left (fun P e => fst (plain_step kw P e)) h [] in
  (forall db t, dget (db_of P db) t <> None <-> in_memory d db t <> None) /\
  (forall db t m, in_memory d db t = Some m -> exists pt et,
     dget (db_of P db) t = Some pt /\ dget (db_of S db) (t_anon m) = Some et /\
     tb_cols pt = dkeys (t_cols m) /\ tb_cols et = phys m /\ Forall2 (enc_row E m) (tb_rows pt) (tb_rows et)) /\
  (forall db t t' m m', in_memory d db t = Some m -> in_memory d db t' = Some m' -> t_anon m = t_anon m' -> t = t').
Proof.
  intros HP G. pose proof (sys_inv kw E text rest HP h _ _ _ (si_fresh kw E) G) as I.
  split; [|split].
  - intros db t. split; [apply (si_known _ _ _ _ _ I)|]. intro H.
    match type of H with in_memory ?d db t <> None => destruct (in_memory d db t) as [m|] eqn:M; [|congruence] end.
    destruct (si_rel _ _ _ _ _ I _ _ _ M) as (pt & et & A & _). congruence.
  - intros db t m M. destruct (si_rel _ _ _ _ _ I _ _ _ M) as (pt & et & A & B & [C1 C2 C3]). exists pt, et. auto.
  - exact (si_inj _ _ _ _ _ I).
Qed.
Theorem C81_server_state : forall kw E text rest h, prim_ok (e_P E) -> good_run kw E text rest (fresh_install, []) h ->
  let d := fst (sys_after kw E text rest (fresh_install, []) h) in
  let S := snd (sys_after kw E text rest (fresh_install, []) h) in
  let P := fold_left (fun P e => fst (plain_step kw P e)) h [] in
  (forall db t, dget (db_of P db) t <> None <-> in_memory d db t <> None) /\
  (forall db t m, in_memory d db t = Some m -> exists pt et,
     dget (db_of P db) t = Some pt /\ dget (db_of S db) (t_anon m) = Some et /\
     tb_cols pt = dkeys (t_cols m) /\ tb_cols et = phys m /\ Forall2 (enc_row E m) (tb_rows pt) (tb_rows et)) /\
  (forall db t t' m m', in_memory d db t = Some m -> in_memory d db t' = Some m' -> t_anon m = t_anon m' -> t = t').
Proof. exact c81_state. Qed.
Print Assumptions C81_server_state.

(** A SELECT that asks for the ciphertext is answered with the rows as the server holds them. *)
Lemma c81_ciphertext kw E text rest d S rnd r j j' T st M :
  q_enc r = None -> q_parsed r = Ok j -> q_type r = Ok QSelect -> type_of j = Some QSelect -> q_ciphertext r = true ->
  dget (self_meta d) (q_db r) = Some M -> rewrite_query (with_rnd E rnd) (db_meta d (q_db r)) j = Ok (j', T, st) ->
  substrb (u " SUM(") (text (SJson j')) = false -> substrb (u " AVG(") (text (SJson j')) = false ->
  snd (sys_step kw E text rest (d, S) (Ask rnd r)) =
  Some (do '(_, l) <- server kw (db_of S (q_db r)) (SJson j'); Ok l).
Proof.
  intros QE QP QT TY QC KD R S1 S2.
  pose proof (fun x => call_stmt E text rest rnd d r j QSelect j' T st x QE QP QT TY R (fun _ => Logic.conj S1 S2)) as CS.
  unfold sys_step. cbn [fst snd]. unfold sent_for. rewrite CS. cbn [snd reports]. unfold invoke. rewrite CS.
  destruct (server kw (db_of S (q_db r)) (SJson j')) as [[D l]|e]; [|reflexivity].
  rewrite bind_ok. unfold dgetE. rewrite KD, bind_ok. destruct l as [|row l]; [reflexivity|]. rewrite QC. reflexivity.
Qed.
Theorem C81_ciphertext : forall kw E text rest d S rnd r j j' T st M,
  q_enc r = None -> q_parsed r = Ok j -> q_type r = Ok QSelect -> type_of j = Some QSelect -> q_ciphertext r = true ->
  dget (self_meta d) (q_db r) = Some M -> rewrite_query (with_rnd E rnd) (db_meta d (q_db r)) j = Ok (j', T, st) ->
  substrb (u " SUM(") (text (SJson j')) = false -> substrb (u " AVG(") (text (SJson j')) = false ->
  snd (sys_step kw E text rest (d, S) (Ask rnd r)) =
  Some (do '(_, l) <- server kw (db_of S (q_db r)) (SJson j'); Ok l).
Proof. exact c81_ciphertext. Qed.
Print Assumptions C81_ciphertext.

(** Two rows are stored, the proxy restarts, a query is asked, the table is dropped.  The writer of the
    statements is the one of C55. *)
Definition ex_text (s : sent) : pystr :=
  match s with
  | SText q => q
  | SJson j => match format_sql ascii_alnum (fun _ => []) j with Ok t => t | Err _ => [] end
  end.
Definition ex_names (i : nat) : pystr := 99%N :: repeat 98%N i.
Definition ex_opts (key : string) (fz : bool) : json :=
  JDict [(u "key", JStr (u key)); (u "fuzzy", JBool fz); (u "arithmetic", JBool false)].
Definition ex_cols : list json :=
  [JDict [(u "name", JStr (u "id")); (u "type", JDict [(u "int", JDict [])])];
   JDict [(u "name", JStr (u "name")); (u "type", JDict [(u "varchar", JInt 20)]); (u "nullable", JBool false)];
   JDict [(u "name", JStr (u "age")); (u "type", JDict [(u "int", JDict [])])]].
Definition ex_defs : list (pystr * pystr * json) :=
  [(u "id", u "int", JDict []); (u "name", u "varchar", JInt 20); (u "age", u "int", JDict [])].
Definition ex_create : json :=
  JDict [(u "create table", JDict [(u "name", JStr (u "staff")); (u "columns", JList ex_cols);
          (u "constraint", JList [primary_con None (JStr (u "id"))])])].
Definition ex_enc : dict json := [(u "name", ex_opts "k1" true); (u "age", ex_opts "k2" false)].
Definition ex_ask (ty : qtype) (enc : option (dict json)) (j : json) : event :=
  Ask (fun _ => 2) {| q_db := u "hr"; q_type := Ok ty; q_parsed := Ok j; q_enc := enc; q_ciphertext := false;
                      q_fresh := ex_names; q_anon := u "t77" |}.
Definition ex_row (i : Z) (n : string) (a : Z) : json :=
  insert_stmt (u "staff") [u "id"; u "name"; u "age"] [JInt i; lit (u n); JInt a].
Definition ex_history : list event :=
  [ex_ask QCreate (Some ex_enc) ex_create;
   ex_ask QInsert None (ex_row 1 "Bob Ray" 44);
   ex_ask QInsert None (ex_row 2 "Ann Lee" 38);
   Reboot;
   ex_ask QSelect None (select_stmt (u "staff") (JList [val (JStr (u "name")); val (JStr (u "id"))])
                          (Some (cmp "gt" "age" (JInt 40))) None None None);
   ex_ask QDrop None (JDict [(u "drop", JDict [(u "table", JStr (u "staff"))])])].
Definition ex_rest (_ : delta) (_ : sent) (_ : json) : res sent := Err NotImplementedErr.
Definition ex_staff : tmeta :=
  {| t_anon := u "t77";
     t_cols := [(u "id", col_plain "int"); (u "name", col_enc "varchar" "k1" [(SYM, u "c"); (FUZ, u "cb")]);
                (u "age", col_enc "int" "k2" [(OPEC, u "cbb"); (SYM, u "cbbb")])];
     t_comment := None |}.
Ltac step_meta n :=
  assert (HM : db_meta (fst (sys_after exkw exE ex_text ex_rest (fresh_install, []) (firstn n ex_history))) (u "hr") =
               [(u "staff", ex_staff)]) by (vm_compute; reflexivity).
Lemma ex_row_good i n a d S : db_meta d (u "hr") = [(u "staff", ex_staff)] -> int64 a -> text_ok (u n) ->
  good exkw exE ex_text d S (fun _ => 2)
    {| q_db := u "hr"; q_type := Ok QInsert; q_parsed := Ok (ex_row i n a); q_enc := None; q_ciphertext := false;
       q_fresh := ex_names; q_anon := u "t77" |}.
Proof.
  intros HM A T. eapply good_stmt with (ty := QInsert); try reflexivity; [|discriminate].
  cbn [q_db]. rewrite HM. apply frag_insert with (m := ex_staff); [reflexivity|nodup|reflexivity|].
  intros k v X. cbn [combine In] in X. destruct X as [[= <- <-]|[[= <- <-]|[[= <- <-]|[]]]].
  - eexists. split; [reflexivity|]. cbn. left. eauto.
  - eexists. split; [reflexivity|]. cbn [const_ok]. right. split; [unfold is_text_type; cbn; tauto|]. eexists. split; [reflexivity|exact T].
  - eexists. split; [reflexivity|]. left. split; [reflexivity|]. exists a. split; [reflexivity|]. split; [exact A|].
    cbn. intuition discriminate.
Qed.
Example C81_example :
  good_run exkw exE ex_text ex_rest (fresh_install, []) ex_history /\
  sys_run exkw exE ex_text ex_rest (fresh_install, []) ex_history =
    [Ok []; Ok []; Ok []; Ok [[VStr (u "Bob Ray"); VInt 1]]; Ok []].
Proof.
  split; [|vm_compute; reflexivity]. unfold ex_history. cbn [good_run].
  repeat match goal with |- _ /\ _ => split | |- True => exact I end.
  - unfold ex_ask. eapply good_create with (t := u "staff") (defs := ex_defs) (cols := ex_cols);
      try reflexivity.
    + eexists _, _. repeat split.
    + repeat (constructor; [eexists; repeat split|]). constructor.
    + discriminate.
    + nodup.
    + repeat (constructor; [reflexivity|]). constructor.
    + constructor; [|constructor]. left. exists None, (JStr (u "id")), [u "id"].
      split; [discriminate|]. split; [right; eexists; split; reflexivity|reflexivity].
    + intros x [<-|[<-|[<-|[]]]]; (split; [split; [split; reflexivity|cbn; intuition discriminate]|split; [reflexivity|]]).
      * left. reflexivity.
      * right. eexists. reflexivity.
      * left. reflexivity.
    + intro a. split.
      * split; [|reflexivity]. cbn. apply forallb_forall. intros x X. apply repeat_spec in X. subst x. reflexivity.
      * cbn. unfold ex_names. intuition discriminate.
    + cbn [q_fresh]. intros a b X. apply (f_equal (@length N)) in X. cbn [ex_names length] in X. rewrite !repeat_length in X. congruence.
    + intros a. cbn [q_fresh map ex_defs fst In]. unfold ex_names. intuition discriminate.
    + intros x o [<-|[<-|[<-|[]]]] X; cbn in X; try discriminate X; injection X as <-; (split; [reflexivity|]).
      * right. split; [right; left; reflexivity|reflexivity].
      * left. reflexivity.
  - step_meta 1%nat. apply ex_row_good; [exact HM| |].
    + unfold int64. lia.
    + split; [reflexivity|right; discriminate].
  - step_meta 2%nat. apply ex_row_good; [exact HM| |].
    + unfold int64. lia.
    + split; [reflexivity|right; discriminate].
  - step_meta 4%nat. eapply good_stmt with (ty := QSelect); try reflexivity.
    + cbn [q_db]. unfold sys_after in HM. cbn [firstn fold_left ex_history] in HM. rewrite HM.
      apply frag_select with (m := ex_staff); [reflexivity|reflexivity| | |exact I].
      * right. right. left. exists [u "name"; u "id"]. split; [|reflexivity].
        intros k [<-|[<-|[]]]; cbn; tauto.
      * right. right. right. left. exists (u "age"), (col_enc "int" "k2" [(OPEC, u "cbb"); (SYM, u "cbbb")]), 40.
        split; [reflexivity|]. split; [reflexivity|]. split; [|split; [reflexivity|split; [discriminate|reflexivity]]].
        split; [reflexivity|]. split; [reflexivity|]. eexists. reflexivity.
    + intros _ j' t st X.
      unfold sys_after in HM. cbn [firstn fold_left ex_history] in HM. cbn [q_db] in X. rewrite HM in X.
      vm_compute in X. injection X as <- <- <-. vm_compute. split; reflexivity.
  - eapply good_drop with (n := u "staff") (m := ex_staff); [reflexivity..|vm_compute; reflexivity].
Qed.
