(** Proofs about running statements (C40-C45, C71-C74). *)
From Coq Require Import String Ascii List NArith ZArith QArith Bool Lia.
From Verif Require Import Base BaseProof CryptoModel FuzzyModel EncodeModel OpeProps JsonModel RewriteModel RewriteProof SimProof SqlSpec
  CreateModel CreateProof MetaModel MetaSpec MetaProof ExecModel ExecSpec.
Import ListNotations.
Open Scope Z_scope.

(** ** C40 *)
Lemma exec_hidden E inj b o d r a x : q_type r <> Ok QSelect -> q_type r <> Ok QCreate ->
  call E inj b o d r (with_exec a x) = call E inj b o d r a.
Proof.
  intros S C. unfold call. destruct (q_type r) as [ty|]; [|reflexivity]. destruct (in_sql_types ty); cbn [negb]; [|reflexivity].
  destruct (dispatch E b o d r) as [d1 [[[q table] st]|]]; [|reflexivity].
  destruct ty; try congruence; cbn [with_exec a_cursor a_exec a_commit];
    destruct (a_cursor a); try reflexivity; destruct x, (a_exec a); reflexivity.
Qed.
Lemma create_dispatch E b o d r d1 q table st : q_enc r <> None -> dispatch E b o d r = (d1, Ok (q, table, st)) ->
  exists n m txt, d1 = fst (update_delta b o d (q_db r) n m) /\ snd (update_delta b o d (q_db r) n m) = None /\
    table = JDict [(u "table", JStr n)] /\ q = SText txt /\ st = s_empty /\
    exists j enc, q_parsed r = Ok j /\ q_enc r = Some enc /\
      rewrite_table E (q_fresh r) (q_anon r) (dget (self_meta d) (q_db r)) j enc = Ok (txt, n, m).
Proof.
  intros N H. unfold dispatch in H. destruct (q_parsed r) as [j|] eqn:P; [|discriminate H].
  destruct (q_enc r) as [enc|] eqn:Q; [|congruence].
  destruct (rewrite_table _ _ _ _ _ _) as [[[txt n] m]|] eqn:R; [|discriminate H].
  destruct (update_delta b o d (q_db r) n m) as [d' x] eqn:U. injection H as <- H. destruct x; [discriminate H|].
  injection H as <- <- <-. exists n, m, txt. rewrite U. repeat split. exists j, enc. auto.
Qed.
Lemma created_db b o d db t m : dget (self_meta (fst (update_delta b o d db t m))) db <> None.
Proof. rewrite create_self, dget_dset_same. discriminate. Qed.

Lemma create_hidden E inj o d r a e : q_type r = Ok QCreate -> q_enc r <> None ->
  snd (fst (call E inj MySQL o d r (with_exec a (Some e)))) = snd (fst (call E inj MySQL o d r (with_exec a None))) /\
  snd (call E inj MySQL o d r (with_exec a (Some e))) = snd (call E inj MySQL o d r (with_exec a None)).
Proof.
  intros T N. unfold call. rewrite T. cbn [in_sql_types negb].
  destruct (dispatch E MySQL o d r) as [d1 [[[q table] st]|]] eqn:D; [|split; reflexivity].
  destruct (create_dispatch _ _ _ _ _ _ _ _ _ N D) as (n & m & txt & -> & _ & -> & -> & -> & _).
  cbn [with_exec a_cursor a_exec a_commit]. destruct (a_cursor a); [split; reflexivity|].
  unfold forget. cbn [getitem]. change (dgetE [(u "table", JStr n)] (u "table")) with (Ok (JStr n)).
  unfold delete_delta. destruct (dget _ (q_db r)) eqn:G; [|exfalso; exact (created_db _ _ _ _ _ _ G)].
  cbn [persist]. destruct (a_commit a); split; reflexivity.
Qed.
Lemma select_visible E inj b o d r a : q_type r = Ok QSelect -> answer_ok a -> a_exec a <> None ->
  exists e, snd (fst (call E inj b o d r a)) = Err e.
Proof.
  intros T A X. destruct (A X) as (e & F). unfold call. rewrite T. cbn [in_sql_types negb].
  destruct (dispatch E b o d r) as [d1 [[[q table] st]|]]; [|eexists; reflexivity].
  destruct (match table with JDict _ => Ok q | _ => inj d1 q table end) as [q'|] ; [|eexists; reflexivity].
  destruct (a_cursor a); [eexists; reflexivity|].
  destruct (a_exec a); [|congruence]. rewrite F. eexists; reflexivity.
Qed.

(** ** C74 *)
Lemma only_rewritten E inj b o d r a s : In (Execute s) (snd (call E inj b o d r a)) ->
  exists q table st, snd (dispatch E b o d r) = Ok (q, table, st) /\
    (s = q \/ inj (fst (dispatch E b o d r)) q table = Ok s).
Proof.
  unfold call. destruct (q_type r) as [ty|]; [|intros []]. destruct (in_sql_types ty); cbn [negb]; [|intros []].
  destruct (dispatch E b o d r) as [d1 [[[q table] st]|]]; [|intros []]. cbn [fst snd].
  intro H. exists q, table, st. split; [reflexivity|].
  match type of H with context [match ?m with Ok _ => _ | Err _ => _ end] => destruct m as [q'|] eqn:Q; [|destruct H] end.
  assert (S : q' = q \/ inj d1 q table = Ok q').
  { destruct ty; try (injection Q as <-; left; reflexivity). destruct table; try (right; exact Q). injection Q as <-. left. reflexivity. }
  assert (In (Execute s) [Execute q'; Execute q'; Fetch; Commit; Close]).
  { revert H. destruct (a_cursor a); [intros []|].
    destruct (match a_exec a with Some _ => _ | None => _ end) as [d2 x2]. destruct x2; [cbn; tauto|].
    destruct ty; try (destruct (a_commit a); cbn; tauto); try (destruct (a_fetch a); cbn; tauto).
    destruct (forget b o d2 (q_db r) table) as [d3 x3]. destruct x3; cbn; tauto. }
  cbn [In] in H0. decompose [or] H0; try discriminate; try contradiction; match goal with X : Execute _ = Execute _ |- _ => injection X as <- end; destruct S as [->|S]; auto.
Qed.

(** ** C71 *)
Lemma console_rejects E inj b o d r a j : q_parsed r = Ok j -> contains j (u "create table") = Ok false ->
  exists e, console_query E inj b o d r a = (d, Err e, []).
Proof.
  intros P C. unfold console_query, invoke, call, dispatch. cbn [q_type q_parsed q_enc].
  destruct (q_type r) as [ty|e]; [|eexists; reflexivity]. destruct (in_sql_types ty); cbn [negb]; [|eexists; reflexivity].
  rewrite P. unfold rewrite_table. rewrite C. cbn [bind negb]. eexists; reflexivity.
Qed.

(** ** C41 *)
Lemma until_paren_app a r : ~ In 40%N a -> until_paren (a ++ 40%N :: r) = a.
Proof.
  induction a as [|c a IH]; cbn; intro N; [reflexivity|]. destruct (N.eqb_spec c 40); [subst; tauto|]. rewrite IH by tauto. reflexivity.
Qed.
Lemma ok_inj {A} (a b : A) : Ok a = Ok b -> a = b.
Proof. congruence. Qed.
Lemma create_text_name E fresh anon meta j enc q n m : rewrite_table E fresh anon meta j enc = Ok (q, n, m) ->
  t_anon m = anon /\ (~ In 40%N anon -> created_name q = anon).
Proof.
  intro H. unfold rewrite_table in H. invp H as b by B1. destruct (negb b); [discriminate H|].
  invp H as ct by B2. invp H as name by B3. invp H as columns by B4.
  match type of H with bind ?m _ = _ => destruct m as [[[ds kv] i]|]; [|discriminate H] end. cbn [bind] in H.
  invp H as cons by B5. invp H as cl by B6. invp H as ks by B7. invp H as en by B8. invp H as au by B9. invp H as co by B10. invp H as cm by B11.
  apply ok_inj in H. pose proof (f_equal (fun x => fst (fst x)) H) as H1. pose proof (f_equal snd H) as H2. cbn [fst snd] in H1, H2.
  split; [rewrite <- H2; reflexivity|]. intro N. rewrite <- H1. unfold created_name.
  rewrite skipn_app, skipn_all, Nat.sub_diag. cbn [skipn]. apply (until_paren_app anon). exact N.
Qed.

Lemma inner_keeps f d k j : inner f (JDict d) k = Ok j -> j = JNull \/ exists x, j = JDict (dset d k x).
Proof.
  intro H. cbn [inner] in H.
  match type of H with ?F d = _ => set (find := F) in H; assert (G : forall e, find e = Ok j -> j = JNull \/ exists x, j = JDict (dset d k x)) end; [|exact (G d H)].
  clear H. induction e as [|[k' x] e IH]; intro H; [discriminate H|]. unfold find in H. fold find in H.
  destruct (seqb k k'); [|apply IH, H].
  destruct x; try (injection H as <-; left; reflexivity).
  match type of H with bind ?m _ = _ => destruct m as [dx|]; [|discriminate H] end. cbn [bind] in H. injection H as <-.
  right. eexists; reflexivity.
Qed.
Definition no_drop (j : json) : Prop := match j with JDict d => dget d (u "drop") = None | _ => True end.
Lemma clauses_no_drop E M table source nested : forall keys j st j' st',
  clauses_rw E M table source nested keys j st = Ok (j', st') -> no_drop j -> no_drop j'.
Proof.
  induction keys as [|k r IH]; intros j st j' st' H N; cbn [clauses_rw] in H.
  - injection H as <- <-. exact N.
  - destruct j as [| | | | | |d]; try discriminate H. cbn [no_drop] in N. destruct (dget d k) as [x|] eqn:G; [|apply (IH _ _ _ _ H N)].
    assert (K : k <> u "drop") by (intros ->; congruence).
    match type of H with bind ?m _ = _ => destruct m as [o|]; [|discriminate H] end. cbn [bind] in H.
    match type of H with bind ?m _ = _ => destruct m as [[j1 st1]|] eqn:C; [|discriminate H] end. cbn [bind] in H.
    apply (IH _ _ _ _ H). destruct o as [[x' st2]|].
    + injection C as <- <-. cbn [no_drop]. rewrite dget_dset_other by exact K. exact N.
    + destruct (seqb k (u "query")) eqn:Q.
      * apply seqb_eq in Q. subst k. unfold clause_rw in C.
        repeat match type of C with (if ?b then _ else _) = _ => change b with false in C; cbv iota in C end.
        change (seqb (u "query") (u "query")) with true in C. cbv iota in C.
        destruct (inner (values_rw E M table source) (JDict d) (u "query")) as [jq|] eqn:I; [|discriminate C]. cbn [bind] in C. injection C as <- <-.
        destruct (inner_keeps _ _ _ _ I) as [->|(y & ->)]; [exact Logic.I|]. cbn [no_drop]. rewrite dget_dset_other by exact K. exact N.
      * destruct (clause_keeps _ _ _ _ _ _ _ _ _ _ Q C) as (y & ->). cbn [no_drop]. rewrite dget_dset_other by exact K. exact N.
Qed.
Lemma rewrite_no_drop E M j j' table st : rewrite_query E M j = Ok (j', table, st) -> no_drop j -> no_drop j'.
Proof.
  unfold rewrite_query. destruct j as [| | | | | |d]; try discriminate. intros H N. invp H as t by B.
  match type of H with bind ?m _ = _ => destruct m as [[j1 st1]|] eqn:C; [|discriminate H] end. cbn [bind] in H.
  injection H as <- <- <-. apply (clauses_no_drop _ _ _ _ _ _ _ _ _ _ C N).
Qed.
Lemma ddl_no_drop phys db j : no_drop j -> ddl phys db (SJson j) = phys.
Proof. destruct j; try reflexivity. cbn [no_drop ddl]. intros ->. reflexivity. Qed.

Lemma drop_rewritten E M n j' table st : rewrite_query E M (JDict [(u "drop", JDict [(u "table", JStr n)])]) = Ok (j', table, st) ->
  exists m, dget M n = Some m /\ j' = JDict [(u "drop", JDict [(u "table", JStr (t_anon m))])] /\ table = JDict [(u "table", JStr n)].
Proof.
  intro H. destruct (dget M n) as [m|] eqn:G.
  - exists m. split; [reflexivity|]. revert H. unfold rewrite_query.
    change (find_table table_key _) with (Ok (JDict [(u "table", JStr n)])). cbn [bind].
    match goal with |- context [clauses_rw E M ?T ?J ?nn clause_keys ?j s_empty] =>
      assert (X : clauses_rw E M T J nn clause_keys j s_empty = Ok (JDict [(u "drop", JDict [(u "table", JStr (t_anon m))])], s_empty)) end.
    { match goal with |- clauses_rw E M ?T ?J ?nn clause_keys ?j s_empty = _ =>
        change (clauses_rw E M T J nn (u "drop" :: skipn 11 clause_keys) j s_empty = Ok (JDict [(u "drop", JDict [(u "table", JStr (t_anon m))])], s_empty));
        change (clauses_rw E M T J nn (u "drop" :: skipn 11 clause_keys) j s_empty) with
          (bind (bind (drop_rw M T) (fun y => Ok (JDict (dset [(u "drop", T)] (u "drop") y), s_empty)))
            (fun p => match p with (j', st') => clauses_rw E M T J nn (skipn 11 clause_keys) j' st' end)) end.
      unfold drop_rw. cbn [mapM snd fst lookup]. unfold dgetE. rewrite G. reflexivity. }
    rewrite X. cbn [bind]. intros [= <- <- <-]. split; reflexivity.
  - rewrite (drop_rejected E M n G) in H. discriminate H.
Qed.

Lemma is_pair_eq db n p : is_pair db n p = true <-> p = (db, n).
Proof.
  destruct p as [a b]. unfold is_pair. cbn [fst snd]. rewrite andb_true_iff, !seqb_eq. split; [intros (-> & ->); reflexivity|intros [= -> ->]; auto].
Qed.
Record WInv (w : world) : Prop := {
  wi_agree : agree w;
  wi_nodup : forall db T, dget (self_meta (fst w)) db = Some T -> NoDup (dkeys T);
  wi_inj : forall db t1 t2 m1 m2, in_memory (fst w) db t1 = Some m1 -> in_memory (fst w) db t2 = Some m2 ->
           t_anon m1 = t_anon m2 -> t1 = t2 }.

Lemma create_nodup b o d db t m : (forall db T, dget (self_meta d) db = Some T -> NoDup (dkeys T)) ->
  forall db' T, dget (self_meta (fst (update_delta b o d db t m))) db' = Some T -> NoDup (dkeys T).
Proof.
  intros H db' T. rewrite create_self, dget_dset. destruct (seqb db' db); [|apply H].
  intros [= <-]. apply dset_NoDup. apply (or_empty_nodup _ (H db)).
Qed.
Lemma drop_nodup b o d db t : (forall db T, dget (self_meta d) db = Some T -> NoDup (dkeys T)) ->
  forall db' T, dget (self_meta (fst (delete_delta b o d db t))) db' = Some T -> NoDup (dkeys T).
Proof.
  intros H db' T. unfold delete_delta. destruct (dget (self_meta d) db) as [T0|] eqn:G; [|apply H].
  assert (P : forall d f, self_meta (fst (persist b o d f)) = self_meta d) by (intros; destruct b; reflexivity).
  rewrite P, self_mutate, dget_dset. destruct (seqb db' db); [|apply H]. intros [= <-]. apply dpop_NoDup, (H _ _ G).
Qed.
Lemma drop_memory b o d db t : (forall db T, dget (self_meta d) db = Some T -> NoDup (dkeys T)) ->
  in_memory (fst (delete_delta b o d db t)) db t = None.
Proof.
  intros H. unfold delete_delta. destruct (dget (self_meta d) db) as [T0|] eqn:G.
  - assert (P : forall d f, self_meta (fst (persist b o d f)) = self_meta d) by (intros; destruct b; reflexivity).
    unfold in_memory. rewrite P, self_mutate, dget_dset_same. apply dget_dpop_same, (H _ _ G).
  - unfold in_memory. cbn [fst]. rewrite G. reflexivity.
Qed.

Lemma db_meta_mem d db t m : dget (db_meta d db) t = Some m -> in_memory d db t = Some m.
Proof.
  unfold in_memory, db_meta. destruct (self_meta d) as [|e r]; [discriminate|].
  unfold store, dbmeta, dict in *. destruct (dget (e :: r) db); [auto|discriminate].
Qed.
Lemma mem_db_known d db t m : in_memory d db t = Some m -> dget (self_meta d) db <> None.
Proof. unfold in_memory. destruct (dget (self_meta d) db); [discriminate|discriminate]. Qed.

Lemma winv_step E inj w ra : yields_select inj -> WInv w -> accepted (snd ra) -> careful E w (fst ra) -> typed (fst ra) ->
  WInv (world_step E inj w ra).
Proof.
  intros YS I (A1 & A2 & A3) C T. destruct w as [d phys], ra as [r a]. cbn [fst snd] in *.
  unfold world_step. cbn [fst snd]. unfold call. rewrite A1, A2, A3. cbn [on_server].
  destruct (q_type r) as [ty|] eqn:QT; [|exact I]. destruct (in_sql_types ty) eqn:SQ; cbn [negb]; [|exact I].
  destruct (q_enc r) as [enc|] eqn:QE.
  - (* CREATE *)
    unfold dispatch. destruct (q_parsed r) as [j|] eqn:QP; [|exact I]. rewrite QE.
    destruct (rewrite_table E (q_fresh r) (q_anon r) (dget (self_meta d) (q_db r)) j enc) as [[[q n] m]|] eqn:R; [|exact I].
    destruct (C enc j n m q QE QP R) as (Ty & Ab & Fr & Pa). cbn [fst snd] in Ab, Fr. rewrite QT in Ty. injection Ty as ->.
    destruct (update_delta MySQL None d (q_db r) n m) as [d' x] eqn:U.
    assert (Ex : x = None) by (unfold update_delta in U; cbn [persist] in U; congruence). subst x. cbn [fold_left].
    destruct (create_text_name _ _ _ _ _ _ _ _ _ R) as (An & Nm). specialize (Nm Pa). cbn [ddl]. rewrite Nm.
    assert (Nx : existsb (is_pair (q_db r) (q_anon r)) phys = false).
    { apply not_true_is_false. intro X. apply existsb_exists in X as (p & Hp & E1). apply is_pair_eq in E1. subst p. tauto. }
    rewrite Nx. pose proof (create_memory MySQL None d (q_db r) n m) as CM. pose proof (create_nodup MySQL None d (q_db r) n m (wi_nodup _ I)) as CN. rewrite U in CM, CN. cbn [fst] in CM, CN.
    constructor; cbn [fst snd].
    + intros db x. cbn [In fst snd]. rewrite (wi_agree _ I db x). cbn [fst snd]. split.
      * intros [[= <- <-]|(t & mm & H & <-)].
        -- exists n, m. rewrite CM, same_refl. auto.
        -- exists t, mm. split; [|reflexivity]. rewrite CM. destruct (same db t (q_db r) n) eqn:S; [|exact H].
           apply same_eq in S as (-> & ->). congruence.
      * intros (t & mm & H & <-). rewrite CM in H. destruct (same db t (q_db r) n) eqn:S.
        -- apply same_eq in S as (-> & ->). injection H as <-. left. congruence.
        -- right. exists t, mm. auto.
    + exact CN.
    + intros db t1 t2 m1 m2 H1 H2 EA. rewrite CM in H1, H2.
      assert (Nn : forall t mm, in_memory d (q_db r) t = Some mm -> t_anon mm <> q_anon r).
      { intros t mm H X. apply Fr. apply (wi_agree _ I). exists t, mm. auto. }
      destruct (same db t1 (q_db r) n) eqn:S1, (same db t2 (q_db r) n) eqn:S2.
      * apply same_eq in S1 as (_ & ->). apply same_eq in S2 as (_ & ->). reflexivity.
      * apply same_eq in S1 as (-> & ->). injection H1 as <-. exfalso. apply (Nn _ _ H2). congruence.
      * apply same_eq in S2 as (-> & ->). injection H2 as <-. exfalso. apply (Nn _ _ H1). congruence.
      * apply (wi_inj _ I _ _ _ _ _ H1 H2 EA).
  - unfold dispatch. destruct (q_parsed r) as [j|] eqn:QP; [|exact I]. rewrite QE.
    destruct (rewrite_query E (db_meta d (q_db r)) j) as [[[j' table] st]|] eqn:R; [|exact I]. cbn [bind].
    destruct (T QE j QP) as (T1 & T2 & T3).
    destruct ty; try discriminate SQ; try congruence.
    all: try (destruct (T2 ltac:(congruence)) as (dd & -> & ND); pose proof (rewrite_no_drop _ _ _ _ _ _ R ND) as NJ; cbn [fold_left];
              rewrite (ddl_no_drop _ _ _ NJ); exact I).
    + (* SELECT *)
      destruct (T2 ltac:(congruence)) as (dd & -> & ND). pose proof (rewrite_no_drop _ _ _ _ _ _ R ND) as NJ.
      assert (Q : forall q', match table with JDict _ => Ok (SJson j') | _ => inj d (SJson j') table end = Ok q' -> ddl phys (q_db r) q' = phys).
      { intros q' H. assert (H2 : q' = SJson j' \/ inj d (SJson j') table = Ok q') by (destruct table; auto; injection H; auto).
        destruct H2 as [->|H2]; [apply ddl_no_drop, NJ|]. destruct (YS _ _ _ _ H2) as (e & -> & ND2). apply (ddl_no_drop _ _ (JDict e)), ND2. }
      destruct (match table with JDict _ => Ok (SJson j') | _ => inj d (SJson j') table end) as [q'|]; [|exact I].
      specialize (Q q' eq_refl). destruct (a_fetch a); cbn [fold_left]; rewrite Q; exact I.
    + (* DROP *)
      destruct (proj1 T1 QT) as (n & ->). destruct (drop_rewritten _ _ _ _ _ _ R) as (m & G & -> & ->).
      unfold forget. cbn [getitem]. change (dgetE [(u "table", JStr n)] (u "table")) with (Ok (JStr n)).
      pose proof (db_meta_mem _ _ _ _ G) as IM.
      pose proof (drop_memory MySQL None d (q_db r) n (wi_nodup _ I)) as DM. pose proof (drop_nodup MySQL None d (q_db r) n (wi_nodup _ I)) as DN.
      pose proof (drop_other MySQL None d (q_db r) n) as DO.
      destruct (delete_delta MySQL None d (q_db r) n) as [d3 x3] eqn:DD. cbn [fst] in DM, DN, DO.
      assert (x3 = None).
      { unfold delete_delta in DD. pose proof (mem_db_known _ _ _ _ IM). destruct (dget (self_meta d) (q_db r)); [|congruence]. cbn [persist] in DD. congruence. }
      subst x3. cbn [fold_left ddl]. change (dget [(u "drop", JDict [(u "table", JStr (t_anon m))])] (u "drop")) with (Some (JDict [(u "table", JStr (t_anon m))])). cbv iota.
      change (dget [(u "table", JStr (t_anon m))] (u "table")) with (Some (JStr (t_anon m))). cbv iota.
      constructor; cbn [fst snd].
      * intros db x. cbn [fst snd]. rewrite filter_In. rewrite (wi_agree _ I db x). cbn [fst snd]. split.
        -- intros ((t & mm & H & <-) & NE). exists t, mm. split; [|reflexivity].
           rewrite DO; [exact H|]. intros [= -> ->]. assert (mm = m) by congruence. subst mm.
           apply negb_true_iff in NE. rewrite (proj2 (is_pair_eq _ _ _) eq_refl) in NE. discriminate NE.
        -- intros (t & mm & H & <-).
           assert (NE : (db, t) <> (q_db r, n)) by (intros [= -> ->]; congruence). rewrite (DO _ _ NE) in H.
           split; [exists t, mm; auto|]. apply negb_true_iff, not_true_is_false. intro X. apply is_pair_eq in X. injection X as -> EA.
           apply NE. f_equal. apply (wi_inj _ I _ _ _ _ _ H IM EA).
      * exact DN.
      * intros db t1 t2 m1 m2 H1 H2 EA.
        assert (N1 : (db, t1) <> (q_db r, n)) by (intros [= -> ->]; congruence).
        assert (N2 : (db, t2) <> (q_db r, n)) by (intros [= -> ->]; congruence).
        rewrite (DO _ _ N1) in H1. rewrite (DO _ _ N2) in H2. apply (wi_inj _ I _ _ _ _ _ H1 H2 EA).
Qed.
Lemma winv_run E inj : yields_select inj -> forall h w, WInv w -> careful_run E inj w h -> WInv (world_run E inj w h).
Proof.
  intros YS. induction h as [|ra h IH]; intros w I C; [exact I|]. destruct C as (C1 & C2 & C3 & C4).
  cbn [world_run fold_left]. apply IH; [apply winv_step; assumption|exact C4].
Qed.
Lemma winv_fresh : WInv (fresh_install, []).
Proof.
  constructor.
  - intros db a. split; [intros []|]. intros (t & m & H & _). discriminate H.
  - discriminate.
  - intros db t1 t2 m1 m2 H. discriminate H.
Qed.
Lemma agree_run E inj h : yields_select inj -> careful_run E inj (fresh_install, []) h ->
  agree (world_run E inj (fresh_install, []) h).
Proof. intros YS C. apply wi_agree, winv_run; [exact YS|exact winv_fresh|exact C]. Qed.

(** Divergences. *)
Lemma drop_rejected_by_server E inj d phys r a e n m :
  q_type r = Ok QDrop -> q_enc r = None -> q_parsed r = Ok (JDict [(u "drop", JDict [(u "table", JStr n)])]) ->
  (forall db T, dget (self_meta d) db = Some T -> NoDup (dkeys T)) ->
  dget (db_meta d (q_db r)) n = Some m -> a_cursor a = None -> a_exec a = Some e ->
  exists d', world_step E inj (d, phys) (r, a) = (d', phys) /\ in_memory d' (q_db r) n = None /\
    snd (fst (call E inj MySQL None d r a)) = Ok (None, JDict [(u "table", JStr n)], s_empty).
Proof.
  intros QT QE QP ND G A1 A2. unfold world_step. cbn [fst snd]. unfold call. rewrite QT, A1, A2. cbn [in_sql_types negb on_server].
  unfold dispatch. rewrite QP, QE.
  assert (R : exists st, rewrite_query E (db_meta d (q_db r)) (JDict [(u "drop", JDict [(u "table", JStr n)])]) =
    Ok (JDict [(u "drop", JDict [(u "table", JStr (t_anon m))])], JDict [(u "table", JStr n)], st) /\ st = s_empty).
  { exists s_empty. split; [|reflexivity]. unfold rewrite_query.
    change (find_table table_key _) with (Ok (JDict [(u "table", JStr n)])). cbn [bind].
    match goal with |- context [clauses_rw E ?M ?T ?J ?nn clause_keys ?j s_empty] =>
      assert (X : clauses_rw E M T J nn clause_keys j s_empty = Ok (JDict [(u "drop", JDict [(u "table", JStr (t_anon m))])], s_empty)) end.
    { match goal with |- clauses_rw E ?M ?T ?J ?nn clause_keys ?j s_empty = _ =>
        change (bind (bind (drop_rw M T) (fun y => Ok (JDict (dset [(u "drop", T)] (u "drop") y), s_empty)))
            (fun p => match p with (j', st') => clauses_rw E M T J nn (skipn 11 clause_keys) j' st' end) =
            Ok (JDict [(u "drop", JDict [(u "table", JStr (t_anon m))])], s_empty)) end.
      unfold drop_rw. cbn [mapM snd fst lookup]. unfold dgetE. rewrite G. reflexivity. }
    rewrite X. reflexivity. }
  destruct R as (st & R & ->). rewrite R. cbn [bind]. unfold forget. cbn [getitem].
  change (dgetE [(u "table", JStr n)] (u "table")) with (Ok (JStr n)).
  pose proof (drop_memory MySQL None d (q_db r) n ND) as DM.
  destruct (delete_delta MySQL None d (q_db r) n) as [d3 x3] eqn:DD. cbn [fst] in DM.
  assert (x3 = None).
  { unfold delete_delta in DD. pose proof (mem_db_known _ _ _ _ (db_meta_mem _ _ _ _ G)). destruct (dget (self_meta d) (q_db r)); [|congruence]. cbn [persist] in DD. congruence. }
  subst x3. exists d3. split; [reflexivity|]. split; [exact DM|reflexivity].
Qed.

Section CreateOutcome.
Variables (E : env) (inj : delta -> sent -> json -> res sent) (d : delta) (phys : list (pystr * pystr)) (r : request) (a : answer).
Variables (j : json) (enc : dict json) (q n : pystr) (m : tmeta).
Hypotheses (QT : q_type r = Ok QCreate) (QE : q_enc r = Some enc) (QP : q_parsed r = Ok j).
Hypothesis R : rewrite_table E (q_fresh r) (q_anon r) (dget (self_meta d) (q_db r)) j enc = Ok (q, n, m).
Hypothesis ND : forall db T, dget (self_meta d) db = Some T -> NoDup (dkeys T).

Lemma create_rejected_by_server e : a_cursor a = None -> a_exec a = Some e -> a_commit a = None ->
  exists d', world_step E inj (d, phys) (r, a) = (d', phys) /\ in_memory d' (q_db r) n = None /\
    snd (fst (call E inj MySQL None d r a)) = Ok (None, JDict [(u "table", JStr n)], s_empty).
Proof.
  intros A1 A2 A3. unfold world_step. cbn [fst snd]. unfold call. rewrite QT, A1, A2, A3. cbn [in_sql_types negb on_server].
  unfold dispatch. rewrite QP, QE, R. pose proof (create_nodup MySQL None d (q_db r) n m ND) as CN. pose proof (created_db MySQL None d (q_db r) n m) as CD.
  destruct (update_delta MySQL None d (q_db r) n m) as [d' x] eqn:U. cbn [fst] in CN, CD.
  assert (Ex : x = None) by (unfold update_delta in U; cbn [persist] in U; congruence). subst x.
  unfold forget. cbn [getitem]. change (dgetE [(u "table", JStr n)] (u "table")) with (Ok (JStr n)).
  pose proof (drop_memory MySQL None d' (q_db r) n CN) as DM.
  destruct (delete_delta MySQL None d' (q_db r) n) as [d3 x3] eqn:DD. cbn [fst] in DM.
  assert (x3 = None).
  { unfold delete_delta in DD. destruct (dget (self_meta d') (q_db r)); [|congruence]. cbn [persist] in DD. congruence. }
  subst x3. exists d3. split; [reflexivity|]. split; [exact DM|reflexivity].
Qed.
Lemma create_without_cursor e : a_cursor a = Some e ->
  exists d', world_step E inj (d, phys) (r, a) = (d', phys) /\ in_memory d' (q_db r) n = Some m /\
    snd (fst (call E inj MySQL None d r a)) = Err e.
Proof.
  intros A1. unfold world_step. cbn [fst snd]. unfold call. rewrite QT, A1. cbn [in_sql_types negb].
  unfold dispatch. rewrite QP, QE, R. pose proof (create_memory MySQL None d (q_db r) n m) as CM.
  destruct (update_delta MySQL None d (q_db r) n m) as [d' x] eqn:U. cbn [fst] in CM.
  assert (Ex : x = None) by (unfold update_delta in U; cbn [persist] in U; congruence). subst x.
  exists d'. split; [|split; [rewrite CM, same_refl; reflexivity|reflexivity]]. unfold on_server. cbn [fold_left]. destruct (a_exec a); reflexivity.
Qed.
Lemma create_again_accepted m0 : accepted a -> ~ In 40%N (q_anon r) ->
  in_memory d (q_db r) n = Some m0 -> In (q_db r, t_anon m0) phys -> ~ In (q_db r, q_anon r) phys ->
  exists d', world_step E inj (d, phys) (r, a) = (d', (q_db r, q_anon r) :: phys) /\ in_memory d' (q_db r) n = Some m /\
    In (q_db r, t_anon m0) (snd (world_step E inj (d, phys) (r, a))).
Proof.
  intros (A1 & A2 & A3) Pa K O Fr. unfold world_step. cbn [fst snd]. unfold call. rewrite QT, A1, A2, A3. cbn [in_sql_types negb on_server].
  unfold dispatch. rewrite QP, QE, R. pose proof (create_memory MySQL None d (q_db r) n m) as CM.
  destruct (update_delta MySQL None d (q_db r) n m) as [d' x] eqn:U. cbn [fst] in CM.
  assert (Ex : x = None) by (unfold update_delta in U; cbn [persist] in U; congruence). subst x.
  cbn [fold_left ddl]. destruct (create_text_name _ _ _ _ _ _ _ _ _ R) as (An & Nm). rewrite (Nm Pa).
  assert (Nx : existsb (is_pair (q_db r) (q_anon r)) phys = false).
  { apply not_true_is_false. intro X. apply existsb_exists in X as (p & Hp & E1). apply is_pair_eq in E1. subst p. tauto. }
  rewrite Nx. exists d'. split; [reflexivity|]. split; [rewrite CM, same_refl; reflexivity|]. right. exact O.
Qed.
End CreateOutcome.

(** ** C42 *)
Lemma pools_step reach h : forall p k, dget (fold_left (fun p c => fst (connect_db reach p c)) h p) k =
  match dget p k with Some c => Some c | None => first_under reach k h end.
Proof.
  induction h as [|c h IH]; intros p k; cbn [fold_left first_under]; [destruct (dget p k); reflexivity|].
  rewrite IH. unfold connect_db. destruct (dget p (db_key c)) as [c0|] eqn:G; cbn [fst].
  - destruct (dget p k) eqn:K; [reflexivity|]. destruct (seqb (db_key c) k) eqn:S; [|reflexivity]. apply seqb_eq in S. congruence.
  - destruct (reach c) eqn:R; cbn [fst].
    + destruct (dget p k) eqn:K; [reflexivity|]. rewrite andb_false_r. reflexivity.
    + rewrite dget_dset, (seqb_sym k). destruct (seqb (db_key c) k) eqn:S; cbn [andb].
      * apply seqb_eq in S. rewrite <- S, G. reflexivity.
      * reflexivity.
Qed.
Lemma served_by reach h c : snd (connect_db reach (pools_after reach h) c) =
  match first_under reach (db_key c) h with
  | Some c' => Ok c'
  | None => match reach c with Some e => Err e | None => Ok c end
  end.
Proof.
  unfold connect_db, pools_after. rewrite pools_step. cbn [dget]. destruct (first_under reach (db_key c) h); [reflexivity|].
  destruct (reach c); reflexivity.
Qed.
Lemma first_under_key reach k h c : first_under reach k h = Some c -> In c h /\ db_key c = k /\ reach c = None.
Proof.
  induction h as [|x h IH]; [discriminate|]. cbn [first_under]. destruct (seqb (db_key x) k) eqn:S; cbn [andb].
  - apply seqb_eq in S. destruct (reach x) eqn:R; [intro H; destruct (IH H) as (A & B); split; [right; exact A|exact B]|].
    intros [= <-]. split; [left; reflexivity|auto].
  - intro H; destruct (IH H) as (A & B); split; [right; exact A|exact B].
Qed.
(** Two requests share a pool exactly when their keys agree. *)
Lemma shared_iff reach h c1 c2 : reach c1 = None -> reach c2 = None -> first_under reach (db_key c1) h = None -> first_under reach (db_key c2) h = None ->
  (snd (connect_db reach (pools_after reach (h ++ [c1])) c2) = Ok c1 <-> c1 = c2 \/ db_key c1 = db_key c2).
Proof.
  intros R1 R2 N1 N2. rewrite served_by.
  assert (A : forall k, first_under reach k (h ++ [c1]) = match first_under reach k h with Some c => Some c | None => if seqb (db_key c1) k then Some c1 else None end).
  { intro k. clear -R1. induction h as [|x h IH]; cbn [app first_under]; [rewrite R1, andb_true_r; reflexivity|]. destruct (seqb (db_key x) k && _); [reflexivity|apply IH]. }
  rewrite A, N2. destruct (seqb (db_key c1) (db_key c2)) eqn:S.
  - apply seqb_eq in S. split; auto.
  - rewrite R2. split; [intros [= ->]; auto|]. intros [->|E]; [reflexivity|]. rewrite E, seqb_refl in S. discriminate S.
Qed.
Lemma key_ignores_password host port db user p1 p2 :
  db_key {| ci_host := host; ci_port := port; ci_db := db; ci_user := user; ci_password := p1 |} =
  db_key {| ci_host := host; ci_port := port; ci_db := db; ci_user := user; ci_password := p2 |}.
Proof. reflexivity. Qed.
Lemma key_boundary host port db x user p1 p2 :
  db_key {| ci_host := host; ci_port := port; ci_db := db ++ x; ci_user := user; ci_password := p1 |} =
  db_key {| ci_host := host; ci_port := port; ci_db := db; ci_user := x ++ user; ci_password := p2 |}.
Proof. unfold db_key. cbn. rewrite <- app_assoc. reflexivity. Qed.

(** ** C43 *)
Lemma e2_step_get E ids c k : dget (e2_step E ids c) k =
  match snd (encrypt_sql2 E (e2_meta c) ids (e2_ms c) (e2_db c) (e2_parsed c)), convert E (e2_meta c) (e2_db c) (e2_parsed c) with
  | Ok _, Ok (_, table, st) => if seqb k (str_int (e2_ms c)) then Some {| p_state := st; p_db := e2_db c; p_table := table |} else dget ids k
  | _, _ => dget ids k
  end.
Proof.
  unfold e2_step, encrypt_sql2. destruct (convert _ _ _) as [[[q table] st]|]; [|reflexivity].
  destruct (dget (self_meta (e2_meta c)) (e2_db c)); [|reflexivity]. cbn [fst snd]. apply dget_dset.
Qed.
Lemma e2_outcome E c ids ids' : snd (encrypt_sql2 E (e2_meta c) ids (e2_ms c) (e2_db c) (e2_parsed c)) = snd (encrypt_sql2 E (e2_meta c) ids' (e2_ms c) (e2_db c) (e2_parsed c)).
Proof.
  unfold encrypt_sql2. destruct (convert _ _ _) as [[[q table] st]|]; [|reflexivity].
  destruct (dget (self_meta (e2_meta c)) (e2_db c)); reflexivity.
Qed.
Lemma e2_untouched E ms : forall post ids, (forall c, In c post -> answered E c -> e2_ms c <> ms) ->
  dget (e2_run E ids post) (str_int ms) = dget ids (str_int ms).
Proof.
  induction post as [|c post IH]; intros ids H; [reflexivity|]. cbn [e2_run fold_left]. change (fold_left (e2_step E) post ?x) with (e2_run E x post).
  rewrite IH by (intros; apply H; [right|]; assumption). rewrite e2_step_get.
  destruct (snd (encrypt_sql2 E (e2_meta c) ids (e2_ms c) (e2_db c) (e2_parsed c))) as [p|] eqn:S; [|reflexivity].
  destruct (convert E (e2_meta c) (e2_db c) (e2_parsed c)) as [[[q table] st]|]; [|reflexivity].
  destruct (seqb (str_int ms) (str_int (e2_ms c))) eqn:X; [|reflexivity]. apply seqb_eq, str_int_inj in X.
  exfalso. apply (H c); [left; reflexivity| |congruence]. exists p. rewrite (e2_outcome E c [] ids). exact S.
Qed.
Lemma matching_query E pre c post d rows q table st id :
  convert E (e2_meta c) (e2_db c) (e2_parsed c) = Ok (q, table, st) ->
  snd (encrypt_sql2 E (e2_meta c) (e2_run E [] pre) (e2_ms c) (e2_db c) (e2_parsed c)) = Ok (q, table, id) ->
  (forall c', In c' post -> answered E c' -> e2_ms c' <> e2_ms c) ->
  decrypt_data E d (e2_run E [] (pre ++ c :: post)) rows id = decrypt_with E d (e2_db c) table st rows.
Proof.
  intros C A L. assert (id = str_int (e2_ms c)).
  { unfold encrypt_sql2 in A. rewrite C in A. destruct (dget _ _); [|discriminate A]. cbn [snd] in A. congruence. }
  subst id. unfold e2_run. rewrite fold_left_app. cbn [fold_left].
  change (fold_left (e2_step E) post ?x) with (e2_run E x post). change (fold_left (e2_step E) pre ?x) with (e2_run E x pre).
  unfold decrypt_data, dgetE. rewrite e2_untouched by exact L. rewrite e2_step_get, A, C, seqb_refl. reflexivity.
Qed.
(** In the other case the last one answered in that millisecond wins. *)
Lemma colliding_query E pre c1 mid c2 post d rows q1 t1 st1 q2 t2 st2 id1 id2 :
  convert E (e2_meta c1) (e2_db c1) (e2_parsed c1) = Ok (q1, t1, st1) ->
  snd (encrypt_sql2 E (e2_meta c1) (e2_run E [] pre) (e2_ms c1) (e2_db c1) (e2_parsed c1)) = Ok (q1, t1, id1) ->
  convert E (e2_meta c2) (e2_db c2) (e2_parsed c2) = Ok (q2, t2, st2) ->
  snd (encrypt_sql2 E (e2_meta c2) (e2_run E [] (pre ++ c1 :: mid)) (e2_ms c2) (e2_db c2) (e2_parsed c2)) = Ok (q2, t2, id2) ->
  e2_ms c1 = e2_ms c2 ->
  (forall c', In c' post -> answered E c' -> e2_ms c' <> e2_ms c2) ->
  id1 = id2 /\ decrypt_data E d (e2_run E [] (pre ++ c1 :: mid ++ c2 :: post)) rows id1 = decrypt_with E d (e2_db c2) t2 st2 rows.
Proof.
  intros C1 A1 C2 A2 M L.
  assert (I : id1 = id2).
  { unfold encrypt_sql2 in A1, A2. rewrite C1 in A1. rewrite C2 in A2. destruct (dget _ (e2_db c1)); [|discriminate A1]. destruct (dget _ (e2_db c2)); [|discriminate A2].
    cbn [snd] in A1, A2. congruence. }
  split; [exact I|]. rewrite I. change (pre ++ c1 :: mid ++ c2 :: post) with (pre ++ (c1 :: mid) ++ c2 :: post). rewrite app_assoc.
  apply (matching_query E (pre ++ c1 :: mid) c2 post d rows q2 t2 st2 id2 C2 A2 L).
Qed.

(** ** C44 *)
Lemma endpoint1_outcome E d db text parsed : endpoint1 E d db text parsed =
  if seqb text version_query then Plain text else
  match convert E d db parsed with Err _ => Plain text | Ok (q, table, _) => Encrypted q table None end.
Proof. unfold endpoint1. destruct (seqb text version_query) eqn:S; [apply seqb_eq in S; subst|]; reflexivity. Qed.
Lemma endpoint2_outcome E d ids ms db text parsed : snd (endpoint2 E d ids ms db text parsed) =
  if seqb text version_query then Plain text else
  match convert E d db parsed, dget (self_meta d) db with
  | Ok (q, table, _), Some _ => Encrypted q table (Some (str_int ms))
  | _, _ => Plain text
  end.
Proof.
  unfold endpoint2, encrypt_sql2. destruct (seqb text version_query) eqn:S; [apply seqb_eq in S; subst; reflexivity|].
  destruct (convert E d db parsed) as [[[q table] st]|]; [|reflexivity]. destruct (dget (self_meta d) db); reflexivity.
Qed.

(** ** C72 *)
Lemma zipped_cell E M table : forall names states row i v, (i < length names)%nat -> (i < length states)%nat ->
  nth_error row i = Some v -> (forall s, v <> VStr s) -> exists e, decrypt1_row E M table names states row = Err e.
Proof.
  induction names as [|n nr IH]; intros [|s sr] [|w wr] i v L1 L2 N F; cbn [length] in *; try lia; try (destruct i; discriminate N).
  cbn [decrypt1_row]. destruct i as [|i].
  - injection N as ->. destruct v; try (exfalso; eapply F; reflexivity); cbn [bind]; eexists; reflexivity.
  - destruct (match w with VStr _ => Ok tt | _ => Err TypeError end); [|eexists; reflexivity]. cbn [bind].
    destruct (if seqb s PLAIN then Ok w else decrypt_cell E M table n s w); [|eexists; reflexivity]. cbn [bind].
    destruct (IH sr wr i v) as (e & ->); try assumption; try lia. eexists; reflexivity.
Qed.
Lemma mapM_first_err {A B} (f : A -> res B) : forall l x, In x l -> (exists e, f x = Err e) -> exists e, mapM f l = Err e.
Proof.
  induction l as [|y l IH]; intros x I (e & F); [destruct I|destruct I as [->|I]].
  - cbn [mapM]. rewrite F. eexists; reflexivity.
  - cbn [mapM]. destruct (f y); [|eexists; reflexivity]. cbn [bind]. destruct (IH x I (ex_intro _ e F)) as (e' & ->). eexists; reflexivity.
Qed.
Lemma text_row E M table : forall names states row, (forall v, In v row -> exists s, v = VStr s) ->
  decrypt1_row E M table names states row = decrypt_row E M table names states row.
Proof.
  induction names as [|n nr IH]; intros [|s sr] [|w wr] F; try reflexivity. cbn [decrypt1_row decrypt_row].
  destruct (F w (or_introl eq_refl)) as (t & ->). cbn [bind]. rewrite IH by (intros; apply F; right; assumption). reflexivity.
Qed.
Lemma decrypt1_drops_all E d ids rows id p row i v : dget ids id = Some p -> In row rows -> nth_error row i = Some v ->
  (i < length (s_cols (p_state p)))%nat -> (i < length (s_state (p_state p)))%nat -> (forall s, v <> VStr s) ->
  endpoint_decrypt E d ids rows id = None.
Proof.
  intros G IR N L1 L2 F. unfold endpoint_decrypt, decrypt_data, dgetE. rewrite G. cbn [bind].
  destruct (mapM_first_err (decrypt1_row E (db_meta d (p_db p)) (p_table p) (s_cols (p_state p)) (s_state (p_state p))) rows row IR) as (e & ->); [|reflexivity].
  apply (zipped_cell _ _ _ _ _ _ i v); assumption.
Qed.
Lemma decrypt1_texts E d ids rows id p : dget ids id = Some p -> (forall row v, In row rows -> In v row -> exists s, v = VStr s) ->
  decrypt_data E d ids rows id =
  do l <- decrypt_result E (db_meta d (p_db p)) (p_table p) (p_state p) rows; Ok (s_cols (p_state p), l).
Proof.
  intros G F. unfold decrypt_data, dgetE. rewrite G. cbn [bind]. unfold decrypt_result. f_equal.
  induction rows as [|row rows IH]; [reflexivity|]. cbn [mapM]. rewrite text_row by (intros; apply (F row); [left; reflexivity|assumption]).
  rewrite IH by (intros; apply (F row0); [right|]; assumption). reflexivity.
Qed.

(** ** C45 *)
Lemma const_text kw t : insert_const kw (value_of (literal_of t)) = Ok (VStr t).
Proof. reflexivity. Qed.
Lemma const_int kw z : insert_const kw (value_of (JInt z)) = Ok (VInt z).
Proof. reflexivity. Qed.
Lemma const_cell kw x : int_or_text x -> insert_const kw (StmtSpec.val (cell_json x)) = Ok (batch_raw x).
Proof. destruct x; intros []; reflexivity. Qed.
Lemma other_encode v ty : ty <> u "float" -> ty <> u "double" -> encode v ty = Ok v.
Proof. intros A B. unfold encode. rewrite (proj2 (seqb_neq _ _) A), (proj2 (seqb_neq _ _) B). reflexivity. Qed.
Lemma part_agrees kw E c col x enc : int_or_text x -> In enc batch_parts -> c_type c <> u "float" -> c_type c <> u "double" ->
  batch_part E c x enc = do j <- encrypt_value E c col (cell_json x) enc; do v <- insert_const kw j; Ok [v].
Proof.
  intros I P A B. unfold encrypt_value.
  assert (V : (match cell_json x with JDict d => dgetE d (u "literal") | _ => Ok (cell_json x) end) = Ok (match x with CStr s => JStr s | _ => cell_json x end)) by (destruct x; destruct I; reflexivity).
  rewrite V. cbn [bind]. rewrite other_encode by assumption. cbn [bind]. unfold batch_part.
  assert (Z : batch_int x = py_int (match x with CStr s => JStr s | _ => cell_json x end)) by (destruct x; destruct I; reflexivity).
  assert (S : batch_str E x = py_str E (match x with CStr s => JStr s | _ => cell_json x end)) by (destruct x; destruct I; reflexivity).
  rewrite Z, S. destruct P as [<-|[<-|[<-|[]]]].
  - change (seqb OPEC OPEC) with true. cbv iota. destruct (py_int _); [|reflexivity]. cbn [bind]. destruct (env_ope _ _ _); reflexivity.
  - change (seqb SYM OPEC) with false. change (seqb SYM SYM) with true. cbv iota. destruct (aes_encrypt _ _ _); reflexivity.
  - change (seqb FUZ OPEC) with false. change (seqb FUZ SYM) with false. change (seqb FUZ FUZ) with true. cbv iota. destruct (fuzzy_encrypt _ _ _ _); reflexivity.
Qed.
(** The constants never fail to print. *)
Lemma value_const kw E c col v enc j : In enc batch_parts -> encrypt_value E c col v enc = Ok j -> exists w, insert_const kw j = Ok w.
Proof.
  intros P H. unfold encrypt_value in H. destruct (match v with JDict d => _ | _ => _ end); [|discriminate H]. cbn [bind] in H.
  destruct (encode _ _); [|discriminate H]. cbn [bind] in H. destruct P as [<-|[<-|[<-|[]]]].
  - change (seqb OPEC OPEC) with true in H. cbv iota in H. destruct (py_int _); [|discriminate H]. cbn [bind] in H. destruct (env_ope _ _ _); [|discriminate H].
    injection H as <-. eexists; reflexivity.
  - change (seqb SYM OPEC) with false in H. change (seqb SYM SYM) with true in H. cbv iota in H. destruct (aes_encrypt _ _ _); [|discriminate H]. injection H as <-. eexists; reflexivity.
  - change (seqb FUZ OPEC) with false in H. change (seqb FUZ SYM) with false in H. change (seqb FUZ FUZ) with true in H. cbv iota in H. destruct (fuzzy_encrypt _ _ _ _); [|discriminate H]. injection H as <-. eexists; reflexivity.
Qed.
Definition consts kw (r : res (list json)) : res (list sqlv) := do js <- r; mapM (insert_const kw) js.
Lemma cell_agrees kw E m col x : int_or_text x -> (forall c, dget (t_cols m) col = Some c -> batch_column c) ->
  batch_cell E m col x = consts kw (values_col E m (JStr col) (StmtSpec.val (cell_json x))) /\
  (forall js, values_col E m (JStr col) (StmtSpec.val (cell_json x)) = Ok js -> exists vs, mapM (insert_const kw) js = Ok vs).
Proof.
  intros I B. unfold batch_cell, values_col. cbn [lookup]. unfold dgetE. destruct (dget (t_cols m) col) as [c|] eqn:G; [|split; [reflexivity|discriminate]].
  cbn [bind]. destruct (c_plain c) eqn:P.
  - unfold consts. cbn [bind mapM]. rewrite const_cell by exact I. split; [reflexivity|]. intros js [= <-]. cbn [mapM]. rewrite const_cell by exact I. eexists; reflexivity.
  - destruct (B c eq_refl) as [X|(K & A1 & A2)]; [congruence|]. change (getitem (StmtSpec.val (cell_json x)) (u "value")) with (Ok (cell_json x)). cbn [bind].
    revert K. induction (dkeys (c_enc c)) as [|ci cs IH]; intro K; [split; [reflexivity|intros js [= <-]; eexists; reflexivity]|].
    destruct IH as (I1 & I2); [intros; apply K; right; assumption|]. cbn [mapM].
    rewrite (part_agrees kw E c col x ci I (K ci (or_introl eq_refl)) A1 A2).
    destruct (encrypt_value E c col (cell_json x) ci) as [j|] eqn:V; [|split; [reflexivity|discriminate]]. cbn [bind].
    destruct (value_const kw _ _ _ _ _ _ (K ci (or_introl eq_refl)) V) as (w & W). rewrite W. cbn [bind].
    unfold consts in *. cbn [bind] in *.
    destruct (mapM (fun enc => encrypt_value E c col (cell_json x) enc) cs) as [js|e] eqn:Q; cbn [bind] in I1 |- *.
    + destruct (I2 js eq_refl) as (vs & VS). rewrite VS in I1. split.
      * cbn [mapM]. rewrite W. cbn [bind]. rewrite VS. cbn [bind]. destruct (mapM (batch_part E c x) cs); [|discriminate I1]. cbn [bind] in *. injection I1 as <-. reflexivity.
      * intros ? [= <-]. cbn [mapM]. rewrite W. cbn [bind]. rewrite VS. eexists; reflexivity.
    + split; [|discriminate]. destruct (mapM (batch_part E c x) cs); [discriminate I1|]. cbn [bind] in *. congruence.
Qed.
Lemma row_agrees kw E m : forall cols row, length cols = length row -> Forall int_or_text row ->
  (forall col c, In col cols -> dget (t_cols m) col = Some c -> batch_column c) ->
  batch_row E m cols row = consts kw (values_loop E m (map JStr cols) (map StmtSpec.val (map cell_json row))) /\
  (forall js, values_loop E m (map JStr cols) (map StmtSpec.val (map cell_json row)) = Ok js -> exists vs, mapM (insert_const kw) js = Ok vs).
Proof.
  induction cols as [|col cols IH]; intros [|x row] L F B; try discriminate L.
  - split; [reflexivity|]. intros js [= <-]. eexists; reflexivity.
  - inversion F as [|? ? F1 F2]; subst. cbn [map batch_row values_loop].
    destruct (cell_agrees kw E m col x F1 (fun c => B col c (or_introl eq_refl))) as (C1 & C2).
    destruct (IH row) as (R1 & R2); [cbn in L; lia|exact F2|intros; eapply B; [right|]; eassumption|].
    rewrite C1, R1. unfold consts.
    destruct (values_col E m (JStr col) (StmtSpec.val (cell_json x))) as [j1|]; [|split; [reflexivity|discriminate]]. cbn [bind].
    destruct (C2 j1 eq_refl) as (v1 & V1). rewrite V1. cbn [bind].
    destruct (values_loop E m (map JStr cols) (map StmtSpec.val (map cell_json row))) as [j2|]; [|split; [reflexivity|discriminate]]. cbn [bind].
    destruct (R2 j2 eq_refl) as (v2 & V2). rewrite V2. cbn [bind].
    split; [|intros ? [= <-]]; rewrite (mapM_app (insert_const kw) j1 j2), V1, V2; [reflexivity|eexists; reflexivity].
Qed.
Lemma columns_agree m cols : (do l <- mapM (columns_col m) (map JStr cols); Ok (concat l)) =
  do pcs <- batch_columns m cols; Ok (map JStr pcs).
Proof.
  unfold batch_columns. induction cols as [|col cols IH]; [reflexivity|]. cbn [map mapM].
  unfold columns_col at 1, batch_col at 1. cbn [lookup]. unfold dgetE. destruct (dget (t_cols m) col) as [c|]; [|reflexivity]. cbn [bind].
  assert (X : (if c_plain c then Ok [JStr col] else Ok (map JStr (dvals (c_enc c)))) = Ok (map JStr (if c_plain c then [col] else dvals (c_enc c)))) by (destruct (c_plain c); reflexivity).
  rewrite X. cbn [bind]. destruct (mapM (columns_col m) (map JStr cols)), (mapM (batch_col m) cols); cbn [bind] in *; try congruence.
  injection IH as IH. cbn [concat]. rewrite IH, map_app. reflexivity.
Qed.
Lemma assoc_combine : forall pcs vs, length pcs = length vs -> assoc_row (map JStr pcs) vs = Ok (combine pcs vs).
Proof. induction pcs as [|c pcs IH]; intros [|v vs] L; try discriminate L; [reflexivity|]. cbn. rewrite IH by (cbn in L; lia). reflexivity. Qed.
Lemma batch_part_one E c x ci vs : In ci batch_parts -> batch_part E c x ci = Ok vs -> length vs = 1%nat.
Proof.
  intros P. unfold batch_part. destruct P as [<-|[<-|[<-|[]]]].
  - change (seqb OPEC OPEC) with true. cbv iota. destruct (batch_int x); [|discriminate]. cbn [bind]. destruct (env_ope _ _ _); [|discriminate]. intros [= <-]. reflexivity.
  - change (seqb SYM OPEC) with false. change (seqb SYM SYM) with true. cbv iota. destruct (aes_encrypt _ _ _); [|discriminate]. intros [= <-]. reflexivity.
  - change (seqb FUZ OPEC) with false. change (seqb FUZ SYM) with false. change (seqb FUZ FUZ) with true. cbv iota. destruct (fuzzy_encrypt _ _ _ _); [|discriminate]. intros [= <-]. reflexivity.
Qed.
Lemma batch_part_le E c x ci vs : batch_part E c x ci = Ok vs -> (length vs <= 1)%nat /\ (~ In ci batch_parts -> vs = []).
Proof.
  unfold batch_part, batch_parts. cbn [In].
  destruct (seqb ci OPEC) eqn:A; [apply seqb_eq in A; destruct (batch_int x); [|discriminate]; cbn [bind]; destruct (env_ope _ _ _); [|discriminate]; intros [= <-]; split; [cbn; lia|intro N; exfalso; apply N; auto]|].
  destruct (seqb ci SYM) eqn:B; [apply seqb_eq in B; destruct (aes_encrypt _ _ _); [|discriminate]; intros [= <-]; split; [cbn; lia|intro N; exfalso; apply N; auto]|].
  destruct (seqb ci FUZ) eqn:C; [apply seqb_eq in C; destruct (fuzzy_encrypt _ _ _ _); [|discriminate]; intros [= <-]; split; [cbn; lia|intro N; exfalso; apply N; auto]|].
  intros [= <-]. split; [cbn; lia|reflexivity].
Qed.
Lemma parts_length E c x : forall cs l, mapM (batch_part E c x) cs = Ok l -> (length (concat l) <= length cs)%nat /\
  ((forall ci, In ci cs -> In ci batch_parts) -> length (concat l) = length cs) /\
  ((exists ci, In ci cs /\ ~ In ci batch_parts) -> (length (concat l) < length cs)%nat).
Proof.
  induction cs as [|ci cs IH]; intros l H; cbn [mapM] in H.
  - injection H as <-. split; [cbn; lia|]. split; [reflexivity|]. intros (ci & [] & _).
  - destruct (batch_part E c x ci) as [vs|] eqn:P; [|discriminate H]. cbn [bind] in H. destruct (mapM (batch_part E c x) cs) as [l'|]; [|discriminate H].
    injection H as <-. destruct (IH l' eq_refl) as (A & B & C). destruct (batch_part_le _ _ _ _ _ P) as (P1 & P2). cbn [concat length]. rewrite app_length. repeat split.
    + lia.
    + intro K. rewrite (batch_part_one _ _ _ _ _ (K ci (or_introl eq_refl)) P), B by (intros; apply K; right; assumption). reflexivity.
    + intros (k & [<-|I] & N); [rewrite (P2 N); cbn; lia|]. enough (length (concat l') < length cs)%nat by lia. apply C. exists k. auto.
Qed.
Lemma keys_vals_length {V} (d : dict V) : length (dvals d) = length (dkeys d).
Proof. unfold dvals, dkeys. rewrite !map_length. reflexivity. Qed.
Lemma row_length E m : forall cols row vs pcs, batch_columns m cols = Ok pcs -> batch_row E m cols row = Ok vs ->
  (length vs <= length pcs)%nat /\
  ((forall col c, In col cols -> dget (t_cols m) col = Some c -> c_plain c = true \/ forall ci, In ci (dkeys (c_enc c)) -> In ci batch_parts) -> length vs = length pcs) /\
  ((exists col c, In col cols /\ dget (t_cols m) col = Some c /\ odd_column c) -> (length vs < length pcs)%nat).
Proof.
  induction cols as [|col cols IH]; intros [|x row] vs pcs C R; cbn [batch_row] in R.
  1,2: injection R as <-; injection C as <-; split; [cbn; lia|]; split; [reflexivity|]; intros (? & ? & [] & _).
  1: discriminate R.
  unfold batch_columns in C. cbn [mapM] in C. unfold batch_col at 1 in C. unfold batch_cell in R.
  unfold dgetE in C, R. destruct (dget (t_cols m) col) as [c|] eqn:G; [|discriminate C]. cbn [bind] in C, R.
  destruct (mapM (batch_col m) cols) as [ls|] eqn:Q; [|discriminate C]. cbn [bind] in C. injection C as <-.
  match type of R with bind ?mm _ = _ => destruct mm as [v1|] eqn:V1; [|discriminate R] end. cbn [bind] in R.
  destruct (batch_row E m cols row) as [v2|] eqn:V2; [|discriminate R]. injection R as <-.
  destruct (IH row v2 (concat ls)) as (A & B & D); [unfold batch_columns; rewrite Q; reflexivity|exact V2|].
  cbn [concat]. rewrite !app_length.
  assert (L : (length v1 <= length (if c_plain c then [col] else dvals (c_enc c)))%nat /\
    ((c_plain c = true \/ forall ci, In ci (dkeys (c_enc c)) -> In ci batch_parts) -> length v1 = length (if c_plain c then [col] else dvals (c_enc c))) /\
    (odd_column c -> (length v1 < length (if c_plain c then [col] else dvals (c_enc c)))%nat)).
  { destruct (c_plain c) eqn:P.
    - injection V1 as <-. split; [cbn; lia|]. split; [reflexivity|]. intros (X & _). congruence.
    - destruct (mapM (batch_part E c x) (dkeys (c_enc c))) as [l|] eqn:Ml; [|discriminate V1]. injection V1 as <-.
      destruct (parts_length _ _ _ _ _ Ml) as (L1 & L2 & L3). rewrite keys_vals_length. split; [exact L1|]. split; [intros [|]; [discriminate|auto]|]. intros (_ & X). exact (L3 X). }
  destruct L as (L1 & L2 & L3). repeat split.
  - lia.
  - intro K. rewrite L2 by (apply (K col c); [left; reflexivity|exact G]). rewrite B; [reflexivity|]. intros; eapply K; [right|]; eassumption.
  - intros (k & ck & [<-|I] & Gk & O).
    + rewrite G in Gk. injection Gk as <-. specialize (L3 O). lia.
    + enough (length v2 < length (concat ls))%nat by lia. apply D. exists k, ck. auto.
Qed.

Lemma batch_is_insert kw E (M : dbmeta) t m cols row D tb :
  dget M t = Some m -> length cols = length row -> Forall int_or_text row ->
  (forall col c, In col cols -> dget (t_cols m) col = Some c -> batch_column c) ->
  dget D (t_anon m) = Some tb ->
  match rewrite_query E M (StmtSpec.insert_stmt t cols (map cell_json row)) with
  | Err e => (do pcs <- batch_columns m cols; do vs <- batch_row E m cols row; Ok (pcs, vs)) = Err e
  | Ok (j', _, _) => exists pcs vs r, batch_columns m cols = Ok pcs /\ batch_row E m cols row = Ok vs /\
      send_row (fun _ => None) pcs vs = Ok r /\
      exec kw D j' = if forallb (fun c => smem c (tb_cols tb) && is_column kw c) (dkeys r)
                     then Ok (dset D (t_anon m) (stored tb r), []) else Err DbError
  end.
Proof.
  intros G L F B HD. rewrite (rewrite_insert_eq E M t m cols (map cell_json row) G).
  pose proof (columns_agree m cols) as C. destruct (row_agrees kw E m cols row L F B) as (R1 & R2).
  destruct (mapM (columns_col m) (map JStr cols)) as [pj|] eqn:PJ; cbn [bind] in C |- *.
  - destruct (batch_columns m cols) as [pcs|] eqn:BC; [|discriminate C]. cbn [bind] in C |- *. injection C as C.
    rewrite R1. unfold consts. destruct (values_loop E m (map JStr cols) (map StmtSpec.val (map cell_json row))) as [js|]; [|reflexivity]. cbn [bind].
    destruct (R2 js eq_refl) as (vs & VS). unfold consts in R1. cbn [bind] in R1. rewrite VS in R1 |- *.
    destruct (row_length E m cols row vs pcs BC R1) as (_ & LE & _).
    assert (LL : length pcs = length vs).
    { symmetry. apply LE. intros col c I Gc. destruct (B col c I Gc) as [P|(P & _)]; auto. }
    exists pcs, vs, (combine pcs vs). split; [reflexivity|]. split; [reflexivity|]. split; [unfold send_row; rewrite LL, Nat.eqb_refl; reflexivity|].
    rewrite C, (StmtProof.exec_ins kw D (t_anon m) tb HD (map JStr pcs) js). unfold exec_insert. rewrite VS. cbn [bind]. rewrite assoc_combine by exact LL. cbn [bind].
    destruct (forallb _ _); reflexivity.
  - destruct (batch_columns m cols) as [pcs|] eqn:BC; cbn [bind] in C |- *; congruence.
Qed.

Lemma odd_batch_fails E accept (M : dbmeta) t m cols file col c : dget M t = Some m -> In col cols -> dget (t_cols m) col = Some c -> odd_column c ->
  file <> [] -> exists e, batch_insert E accept M t cols file = ([], Some e).
Proof.
  intros G I Gc O F. unfold batch_insert, dgetE. rewrite G. cbn [bind]. destruct (batch_columns m cols) as [pcs|] eqn:BC; cbn [bind]; [|eexists; reflexivity].
  destruct file as [|row file]; [congruence|]. cbn [length chunked]. destruct (N.to_nat chunk_size) as [|k] eqn:K; [exfalso; unfold chunk_size in K; lia|].
  cbn [firstn batch_chunks]. cbn [mapM]. destruct (batch_row E m cols row) as [vs|] eqn:R; [|eexists; reflexivity]. cbn [bind].
  destruct (mapM (batch_row E m cols) (firstn k file)); [|eexists; reflexivity]. cbn [bind mapM].
  destruct (row_length E m cols row vs pcs BC R) as (_ & _ & LT).
  assert ((length vs < length pcs)%nat) by (apply LT; exists col, c; auto).
  unfold send_row at 1. assert ((length pcs =? length vs)%nat = false) as -> by (apply Nat.eqb_neq; lia). eexists; reflexivity.
Qed.

Lemma encode_float_int z : encode_float (inject_Z z) = z * 10 ^ 12.
Proof. unfold encode_float, trunc, p10. cbn [Qmult inject_Z Qnum Qden]. apply Z.quot_1_r. Qed.
Lemma float_unscaled kw E m col x y c z : dget (t_cols m) col = Some c -> c_plain c = false -> c_enc c = [(OPEC, x)] -> c_type c = u "float" ->
  z <> 0 -> Z.abs z < 9223372 -> y = z * 10 ^ 12 ->
  batch_cell E m col (CInt z) = Ok [VInt z] /\
  (do js <- values_col E m (JStr col) (StmtSpec.val (cell_json (CInt z))); mapM (insert_const kw) js) = Ok [VInt y].
Proof.
  intros G P C T N A ->. unfold batch_cell, values_col. cbn [lookup]. unfold dgetE. rewrite G. cbn [bind]. rewrite P, C.
  change (getitem (StmtSpec.val (cell_json (CInt z))) (u "value")) with (Ok (JInt z)). cbn [bind dkeys map fst mapM]. split.
  - unfold batch_part. change (seqb OPEC OPEC) with true. cbv iota. cbn [batch_int bind]. unfold env_ope. rewrite c09_aux.
    assert ((- 2 ^ 63 <=? z) && (z <? 2 ^ 63) = true) as -> by lia. reflexivity.
  - unfold encrypt_value. cbn [cell_json bind]. unfold encode. rewrite T. change (seqb (u "float") (u "float")) with true. cbv iota. cbn [py_num bind].
    change (seqb OPEC OPEC) with true. cbv iota. cbn [py_int bind]. rewrite encode_float_int. unfold env_ope. rewrite c09_aux.
    assert ((- 2 ^ 63 <=? z * 10 ^ 12) && (z * 10 ^ 12 <? 2 ^ 63) = true) as -> by lia. reflexivity.
Qed.

(** ** C73 *)
Lemma chunked_concat {A} n : (0 < n)%nat -> forall fuel (l : list A), (length l <= fuel)%nat -> concat (chunked fuel n l) = l.
Proof.
  intro P. induction fuel as [|f IH]; intros l L; [destruct l; [reflexivity|cbn in L; lia]|]. cbn [chunked]. destruct l as [|x l]; [reflexivity|].
  cbn [concat]. rewrite IH; [apply firstn_skipn|]. rewrite skipn_length. cbn [length] in *. lia.
Qed.
Lemma mapM_both E accept m cols pcs : forall ch l,
  (do rows <- mapM (batch_row E m cols) ch; mapM (send_row accept pcs) rows) = Ok l <-> mapM (row_sent E accept m cols pcs) ch = Ok l.
Proof.
  induction ch as [|row ch IH]; intros l; [reflexivity|]. cbn [mapM]. unfold row_sent at 1.
  destruct (batch_row E m cols row) as [vs|] eqn:R; cbn [bind]; [|reflexivity].
  destruct (mapM (batch_row E m cols) ch) as [rs|] eqn:Q; cbn [bind mapM] in *.
  - destruct (send_row accept pcs vs); [|reflexivity]. cbn [bind].
    destruct (mapM (send_row accept pcs) rs) as [l1|] eqn:S1, (mapM (row_sent E accept m cols pcs) ch) as [l2|] eqn:S2; cbn [bind]; try reflexivity.
    + destruct (IH l1) as (I1 & _). specialize (I1 eq_refl). injection I1 as ->. reflexivity.
    + destruct (IH l1) as (I1 & _). specialize (I1 eq_refl). discriminate I1.
    + destruct (IH l2) as (_ & I1). specialize (I1 eq_refl). discriminate I1.
    + split; discriminate.
  - destruct (mapM (row_sent E accept m cols pcs) ch) as [l2|] eqn:S2; [destruct (IH l2) as (_ & I1); specialize (I1 eq_refl); discriminate I1|].
    split; [discriminate|]. destruct (send_row accept pcs vs); discriminate.
Qed.
Lemma mapM_forall2 {A B} (f : A -> res B) : forall l r, mapM f l = Ok r -> Forall2 (fun a b => f a = Ok b) l r.
Proof.
  induction l as [|a l IH]; intros r H; cbn [mapM] in H; [injection H as <-; constructor|].
  destruct (f a) eqn:F; [|discriminate H]. cbn [bind] in H. destruct (mapM f l); [|discriminate H]. injection H as <-. constructor; auto.
Qed.
Lemma skipn_skipn' {A} n : forall (l : list A) k, skipn k (skipn n l) = skipn (k + n) l.
Proof.
  induction n as [|n IH]; intros l k; [rewrite Nat.add_0_r; reflexivity|]. rewrite Nat.add_succ_r. destruct l; [rewrite !skipn_nil; reflexivity|]. cbn [skipn]. apply IH.
Qed.
Lemma chunks_prefix E accept m cols pcs n : (0 < n)%nat -> forall fuel file done x, (length file <= fuel)%nat ->
  batch_chunks E accept m cols pcs (chunked fuel n file) = (done, x) ->
  exists k, Forall2 (fun row r => row_sent E accept m cols pcs row = Ok r) (firstn (k * n) file) done /\
    match x with None => (length file <= k * n)%nat | Some _ => (k * n < length file)%nat /\ (exists row, In row (firstn n (skipn (k * n) file)) /\ exists e, row_sent E accept m cols pcs row = Err e) end.
Proof.
  intro P. induction fuel as [|f IH]; intros file done x L H.
  - destruct file; [|cbn in L; lia]. injection H as <- <-. exists 0%nat. split; [constructor|cbn; lia].
  - cbn [chunked] in H. destruct file as [|row file]; [injection H as <- <-; exists 0%nat; split; [constructor|cbn; lia]|].
    remember (row :: file) as fl. cbn [batch_chunks] in H.
    destruct (do rows <- mapM (batch_row E m cols) (firstn n fl); mapM (send_row accept pcs) rows) as [d1|e] eqn:C.
    + destruct (batch_chunks E accept m cols pcs (chunked f n (skipn n fl))) as [rest y] eqn:R. injection H as <- <-.
      destruct (IH (skipn n fl) rest y) as (k & K1 & K2); [rewrite skipn_length; subst fl; cbn [length] in *; lia|exact R|].
      exists (S k). apply mapM_both, mapM_forall2 in C. split.
      * replace (S k * n)%nat with (n + k * n)%nat by lia.
        rewrite <- (firstn_skipn n fl) at 1. rewrite firstn_app.
        assert (X : firstn (n + k * n) (firstn n fl) = firstn n fl) by (rewrite firstn_firstn; f_equal; lia). rewrite X.
        destruct (Nat.le_gt_cases (length fl) n) as [Y|Y].
        -- rewrite (skipn_all2 fl Y) in *. rewrite firstn_nil in K1. rewrite firstn_nil. apply Forall2_app; [exact C|exact K1].
        -- rewrite firstn_length, Nat.min_l by lia. replace (n + k * n - n)%nat with (k * n)%nat by lia. apply Forall2_app; [exact C|exact K1].
      * destruct y.
        -- destruct K2 as (K2 & K3). rewrite skipn_length in K2. split; [lia|]. destruct K3 as (r0 & I0 & E0). exists r0. split; [|exact E0].
           replace (S k * n)%nat with (k * n + n)%nat by lia. rewrite <- skipn_skipn'. exact I0.
        -- rewrite skipn_length in K2. lia.
    + injection H as <- <-. exists 0%nat. cbn [Nat.mul firstn skipn]. split; [constructor|]. split; [subst fl; cbn; lia|].
      assert (N : forall l, mapM (row_sent E accept m cols pcs) (firstn n fl) <> Ok l) by (intros l X; apply mapM_both in X; congruence).
      clear -N. induction (firstn n fl) as [|r l IHl]; [exfalso; apply (N []); reflexivity|].
      destruct (row_sent E accept m cols pcs r) as [v|e] eqn:V.
      * destruct IHl as (r0 & I0 & E0); [|exists r0; split; [right; exact I0|exact E0]].
        intros l1 X. apply (N (v :: l1)). cbn [mapM]. rewrite V. cbn [bind]. rewrite X. reflexivity.
      * exists r. split; [left; reflexivity|exists e; exact V].
Qed.
Lemma batch_prefix E accept (M : dbmeta) t m pcs cols file done x :
  dget M t = Some m -> batch_columns m cols = Ok pcs ->
  batch_insert E accept M t cols file = (done, x) ->
  let n := N.to_nat chunk_size in
  exists k, Forall2 (fun row r => row_sent E accept m cols pcs row = Ok r) (firstn (k * n) file) done /\
    match x with
    | None => (length file <= k * n)%nat
    | Some _ => (k * n < length file)%nat /\
                exists row, In row (firstn n (skipn (k * n) file)) /\ exists e, row_sent E accept m cols pcs row = Err e
    end.
Proof.
  intros G B H n. unfold batch_insert, dgetE in H. rewrite G in H. cbn [bind] in H. rewrite B in H. cbn [bind] in H.
  apply (chunks_prefix E accept m cols pcs n) in H; [exact H|unfold n, chunk_size; lia|lia].
Qed.

Lemma outcome_iff E inj b o d r a ty : q_type r = Ok ty -> ty <> QCreate -> ty <> QDrop ->
  ((exists x, snd (fst (call E inj b o d r a)) = Ok x) <->
   ty <> QReplace /\ a_cursor a = None /\
   (exists q table st, snd (dispatch E b o d r) = Ok (q, table, st) /\
     (ty = QSelect -> (exists t, table = JDict t) \/ exists q', inj (fst (dispatch E b o d r)) q table = Ok q')) /\
   (ty = QSelect -> exists rows, a_fetch a = Ok rows) /\ (ty <> QSelect -> a_commit a = None)).
Proof.
  intros T C D. destruct (in_sql_types ty) eqn:S.
  2:{ unfold call. rewrite T, S. cbn [negb]. split; [intros (y & H); discriminate H|]. intros (H & _). destruct ty; try discriminate S. congruence. }
  assert (RP : ty <> QReplace) by (destruct ty; discriminate).
  destruct (dispatch E b o d r) as [d1 [[[q table] st]|]] eqn:X; cbn [fst snd].
  2:{ unfold call. rewrite T, S, X. cbn [negb]. split; [intros (y & H); discriminate H|]. intros (_ & _ & (? & ? & ? & H & _) & _). discriminate H. }
  assert (W : snd (fst (call E inj b o d r a)) =
    match (match ty, table with QSelect, JDict _ => Ok q | QSelect, _ => inj d1 q table | _, _ => Ok q end), a_cursor a with
    | Err e, _ => Err e
    | _, Some e => Err e
    | Ok _, None => match ty with
                    | QSelect => do rows <- a_fetch a; Ok (Some rows, table, st)
                    | _ => match a_commit a with Some e => Err e | None => Ok (None, table, st) end
                    end
    end).
  { unfold call. rewrite T, S, X. cbn [negb].
    destruct ty; try congruence; try (destruct (a_cursor a); [reflexivity|]; destruct (a_exec a), (a_commit a); reflexivity).
    destruct (match table with JDict _ => Ok q | _ => inj d1 q table end); [|reflexivity].
    destruct (a_cursor a); [reflexivity|]. destruct (a_exec a), (a_fetch a); reflexivity. }
  rewrite W. clear W.
  assert (Z : ty = QSelect \/ (ty <> QSelect /\ forall (A : Type) (f g : A), match ty with QSelect => f | _ => g end = g)) by (destruct ty; try (left; reflexivity); right; (split; [discriminate|reflexivity])).
  destruct Z as [->|(N & Z)].
  - destruct (match table with JDict _ => Ok q | _ => inj d1 q table end) as [q'|e] eqn:Q.
    + assert (QI : (exists t, table = JDict t) \/ exists q', inj d1 q table = Ok q') by (destruct table; try (right; eexists; exact Q); left; eexists; reflexivity).
      destruct (a_cursor a); [split; [intros (y & H); discriminate H|intros (_ & H & _); discriminate H]|].
      destruct (a_fetch a) as [rows|]; cbn [bind]; split.
      * intros _. split; [exact RP|]. split; [reflexivity|]. split; [exists q, table, st; auto|]. split; [intros _; eexists; reflexivity|congruence].
      * intros _. eexists; reflexivity.
      * intros (y & H); discriminate H.
      * intros (_ & _ & _ & H & _). destruct (H eq_refl) as (rows & X2). discriminate X2.
    + split; [intros (y & H); discriminate H|]. intros (_ & _ & (q0 & t0 & s0 & [= <- <- <-] & H) & _).
      destruct (H eq_refl) as [(t & ->)|(q' & I)]; [discriminate Q|]. destruct table; congruence.
  - rewrite !Z. destruct (a_cursor a); [split; [intros (y & H); discriminate H|intros (_ & H & _); discriminate H]|].
    destruct (a_commit a); split.
    + intros (y & H); discriminate H.
    + intros (_ & _ & _ & _ & H). specialize (H N). discriminate H.
    + intros _. split; [exact RP|]. split; [reflexivity|]. split; [exists q, table, st; split; [reflexivity|intro; contradiction]|]. split; [intro; contradiction|reflexivity].
    + intros _. eexists; reflexivity.
Qed.
Lemma reused reach h c1 c2 : reach c1 = None -> db_key c1 = db_key c2 -> first_under reach (db_key c1) h = None ->
  snd (connect_db reach (pools_after reach (h ++ [c1])) c2) = Ok c1.
Proof.
  intros R K F. rewrite served_by, <- K.
  assert (first_under reach (db_key c1) (h ++ [c1]) = Some c1) as ->; [|reflexivity].
  revert F. induction h as [|x h IH]; cbn [app first_under]; [rewrite R, seqb_refl; reflexivity|]. destruct (seqb (db_key x) (db_key c1) && _); [discriminate|exact IH].
Qed.
Lemma endpoints_iff E d ids ms db text parsed :
  ((exists q table id, endpoint1 E d db text parsed = Encrypted q table id) <->
   text <> version_query /\ exists x, convert E d db parsed = Ok x) /\
  ((exists q table id, snd (endpoint2 E d ids ms db text parsed) = Encrypted q table id) <->
   text <> version_query /\ (exists x, convert E d db parsed = Ok x) /\ dget (self_meta d) db <> None).
Proof.
  rewrite endpoint1_outcome, endpoint2_outcome. destruct (seqb text version_query) eqn:S.
  - apply seqb_eq in S. split; split; try (intros (? & ? & ? & H); discriminate H); intros (N & _); contradiction.
  - assert (N : text <> version_query) by (intros ->; rewrite seqb_refl in S; discriminate S).
    destruct (convert E d db parsed) as [[[q table] st]|].
    + split; [split; [intros _; split; [exact N|eexists; reflexivity]|intros _; eexists _, _, _; reflexivity]|].
      destruct (dget (self_meta d) db); split.
      * intros _. split; [exact N|]. split; [eexists; reflexivity|discriminate].
      * intros _. eexists _, _, _. reflexivity.
      * intros (? & ? & ? & H); discriminate H.
      * intros (_ & _ & H). congruence.
    + split; split; try (intros (? & ? & ? & H); discriminate H).
      * intros (_ & ? & H). discriminate H.
      * intros (_ & (? & H) & _). discriminate H.
Qed.
Lemma failure_silent E inj b o d r a e : snd (dispatch E b o d r) = Err e ->
  snd (call E inj b o d r a) = [] /\ exists e', snd (fst (call E inj b o d r a)) = Err e'.
Proof.
  intro H. unfold call. destruct (q_type r) as [ty|]; [|split; [reflexivity|eexists; reflexivity]]. destruct (in_sql_types ty); cbn [negb]; [|split; [reflexivity|eexists; reflexivity]].
  destruct (dispatch E b o d r) as [d1 x]. cbn [snd] in H. subst x. split; [reflexivity|eexists; reflexivity].
Qed.
