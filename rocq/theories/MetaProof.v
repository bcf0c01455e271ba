(** Proofs about the metadata (C35-C39). *)
From Coq Require Import String Ascii List NArith ZArith Bool Lia.
From Verif Require Import Base BaseProof JsonModel RewriteModel RewriteProof MetaModel MetaSpec.
Import ListNotations.

Definition mem (M : store) (db t : pystr) : option tmeta :=
  match dget M db with Some T => dget T t | None => None end.
Definition same (db t db' t' : pystr) : bool := seqb db db' && seqb t t'.
Lemma same_refl db t : same db t db t = true.
Proof. unfold same. rewrite !seqb_refl. reflexivity. Qed.
Lemma same_eq db t db' t' : same db t db' t' = true -> db = db' /\ t = t'.
Proof. unfold same. intro H. apply andb_true_iff in H as (A & B). split; apply seqb_eq; assumption. Qed.
Lemma same_neq db t db' t' : (db, t) <> (db', t') -> same db t db' t' = false.
Proof. intro N. destruct (same db t db' t') eqn:S; [|reflexivity]. apply same_eq in S as (-> & ->). congruence. Qed.

Lemma mem_put M db t m T : T = match dget M db with Some T => T | None => [] end ->
  forall db' t', mem (dset M db (dset T t m)) db' t' = if same db' t' db t then Some m else mem M db' t'.
Proof.
  intros HT db' t'. unfold mem, same. rewrite dget_dset. destruct (seqb db' db) eqn:S; cbn [andb].
  - apply seqb_eq in S. subst db'. rewrite dget_dset. destruct (seqb t' t); [reflexivity|].
    subst T. unfold store, dbmeta, dict in *. destruct (dget M db); reflexivity.
  - reflexivity.
Qed.

(** Creating. *)
Lemma self_mutate d M : self_meta (mutate d M) = M.
Proof. unfold mutate, self_meta. destruct (d_inst d); reflexivity. Qed.
Lemma rows_mutate d M : d_rows (mutate d M) = d_rows d.
Proof. unfold mutate. destruct (d_inst d); reflexivity. Qed.

Lemma create_self b o d db t m : self_meta (fst (update_delta b o d db t m)) =
  dset (self_meta d) db (dset match dget (self_meta d) db with Some T => T | None => [] end t m).
Proof.
  assert (P : forall d f, self_meta (fst (persist b o d f)) = self_meta d) by (intros; destruct b; reflexivity).
  unfold update_delta. rewrite P. destruct (self_meta d) as [|e r]; [reflexivity|]. rewrite self_mutate.
  unfold store, dbmeta, dict in *. destruct (dget (e :: r) db); reflexivity.
Qed.
Lemma create_memory b o d db t m : forall db' t',
  in_memory (fst (update_delta b o d db t m)) db' t' = if same db' t' db t then Some m else in_memory d db' t'.
Proof.
  intros db' t'. unfold in_memory. rewrite create_self. apply (mem_put (self_meta d) db t m _ eq_refl).
Qed.
Lemma create_rows o d db t m : d_rows (fst (update_delta MySQL o d db t m)) = d_rows d ++ table_rows db t m.
Proof.
  unfold update_delta. cbn [persist fst d_rows]. destruct (self_meta d); [reflexivity|]. rewrite rows_mutate. reflexivity.
Qed.

(** Dropping. *)
Lemma drop_other b o d db t db' t' : (db', t') <> (db, t) ->
  in_memory (fst (delete_delta b o d db t)) db' t' = in_memory d db' t'.
Proof.
  intro N. unfold delete_delta.
  assert (P : forall d f, self_meta (fst (persist b o d f)) = self_meta d) by (intros; destruct b; reflexivity).
  destruct (dget (self_meta d) db) as [T|] eqn:G; [|reflexivity]. unfold in_memory. rewrite P, self_mutate, dget_dset.
  destruct (seqb db' db) eqn:S; [|reflexivity]. apply seqb_eq in S. subst db'. rewrite G.
  apply dget_dpop_other. congruence.
Qed.
Lemma drop_rows o d db t : d_rows (fst (delete_delta MySQL o d db t)) =
  match dget (self_meta d) db with
  | None => d_rows d
  | Some _ => filter (fun r => negb (same (r_db r) (r_table r) db t)) (d_rows d)
  end.
Proof.
  unfold delete_delta. destruct (dget (self_meta d) db); [|reflexivity]. cbn [persist fst d_rows]. rewrite rows_mutate. reflexivity.
Qed.

(** Loading. *)
Definition absorb (o : option tmeta) (r : mrow) : tmeta :=
  let m := match o with Some m => m | None => {| t_anon := r_anon r; t_cols := []; t_comment := None |} end in
  {| t_anon := t_anon m; t_cols := dset (t_cols m) (r_name r) (r_col r); t_comment := t_comment m |}.
Definition here (db t : pystr) (r : mrow) : bool := same (r_db r) (r_table r) db t.

Lemma load_row_mem M r db t :
  mem (load_row M r) db t = if here db t r then Some (absorb (mem M db t) r) else mem M db t.
Proof.
  unfold load_row. rewrite (mem_put M (r_db r) (r_table r) _ _ eq_refl).
  unfold here. replace (same db t (r_db r) (r_table r)) with (same (r_db r) (r_table r) db t)
    by (unfold same; rewrite (seqb_sym db), (seqb_sym t); reflexivity).
  destruct (same (r_db r) (r_table r) db t) eqn:S; [|reflexivity].
  apply same_eq in S as (<- & <-). unfold absorb, mem. f_equal.
  destruct (dget M (r_db r)); reflexivity.
Qed.
Lemma load_mem rows db t : forall M,
  mem (fold_left load_row rows M) db t = fold_left (fun o r => Some (absorb o r)) (filter (here db t) rows) (mem M db t).
Proof.
  induction rows as [|r rows IH]; intro M; [reflexivity|]. cbn [fold_left filter]. rewrite IH, load_row_mem.
  destruct (here db t r); reflexivity.
Qed.
Lemma restart_mem d db t : after_restart d db t =
  fold_left (fun o r => Some (absorb o r)) (filter (here db t) (d_rows d)) None.
Proof. unfold after_restart, in_memory, restart, self_meta. cbn [d_inst d_class]. apply (load_mem (d_rows d) db t []). Qed.

Lemma absorb_rows db t m : forall cols m0,
  fold_left (fun o r => Some (absorb o r))
    (map (fun kc => {| r_db := db; r_table := t; r_anon := t_anon m; r_name := fst kc; r_col := snd kc |}) cols) (Some m0) =
  Some {| t_anon := t_anon m0; t_cols := dupdate (t_cols m0) cols; t_comment := t_comment m0 |}.
Proof.
  induction cols as [|[k c] r IH]; intro m0; cbn [map fold_left].
  - destruct m0. reflexivity.
  - rewrite IH. reflexivity.
Qed.
Lemma absorb_new db t m : t_cols m <> [] ->
  fold_left (fun o r => Some (absorb o r)) (table_rows db t m) None =
  Some {| t_anon := t_anon m; t_cols := dupdate [] (t_cols m); t_comment := None |}.
Proof.
  intro N. unfold table_rows. destruct (t_cols m) as [|[k c] r] eqn:C; [congruence|]. cbn [map fold_left]. rewrite absorb_rows. reflexivity.
Qed.
Lemma dset_last {V} (d : dict V) k v : ~ In k (dkeys d) -> dset d k v = d ++ [(k, v)].
Proof.
  induction d as [|[k' v'] r IH]; cbn; intro N; [reflexivity|].
  destruct (seqb k k') eqn:S; [apply seqb_eq in S; subst; tauto|]. rewrite IH by tauto. reflexivity.
Qed.
Lemma dupdate_new {V} : forall (e d : dict V), NoDup (dkeys d ++ dkeys e) -> dupdate d e = d ++ e.
Proof.
  induction e as [|[k v] r IH]; intros d N; cbn; [rewrite app_nil_r; reflexivity|]. cbn [dkeys map fst] in N.
  fold (dupdate (dset d k v) r). rewrite dset_last.
  - rewrite IH; [rewrite <- app_assoc; reflexivity|]. unfold dkeys in *. rewrite map_app, <- app_assoc. exact N.
  - intro X. apply NoDup_remove_2 in N. apply N, in_or_app. left. exact X.
Qed.

Lemma filter_table_rows db t db' t' m : filter (here db' t') (table_rows db t m) =
  if same db t db' t' then table_rows db t m else [].
Proof.
  unfold table_rows. generalize (t_cols m) as l. intro l. unfold here.
  induction l as [|kc l IH]; cbn [map filter r_db r_table]; [destruct (same db t db' t'); reflexivity|].
  rewrite IH. destruct (same db t db' t'); reflexivity.
Qed.
Lemma filter_filter_drop db t db' t' rows : (db', t') <> (db, t) ->
  filter (here db' t') (filter (fun r => negb (same (r_db r) (r_table r) db t)) rows) = filter (here db' t') rows.
Proof.
  intro N. induction rows as [|r rows IH]; [reflexivity|]. cbn [filter].
  destruct (same (r_db r) (r_table r) db t) eqn:S; cbn [negb].
  - rewrite IH. unfold here at 2. apply same_eq in S as (-> & ->). rewrite (same_neq db t db' t') by congruence. reflexivity.
  - cbn [filter]. rewrite IH. reflexivity.
Qed.
Lemma filter_filter_gone db t rows :
  filter (here db t) (filter (fun r => negb (same (r_db r) (r_table r) db t)) rows) = [].
Proof.
  induction rows as [|r rows IH]; [reflexivity|]. cbn [filter].
  destruct (same (r_db r) (r_table r) db t) eqn:S; cbn [negb filter]; [exact IH|]. unfold here at 1. rewrite S. exact IH.
Qed.

(** The invariant of histories that create tables only when absent. *)
Record Inv (d : delta) : Prop := {
  inv_nodup : forall db T, dget (self_meta d) db = Some T -> NoDup (dkeys T);
  inv_rows : forall db t, filter (here db t) (d_rows d) =
    match in_memory d db t with Some m => table_rows db t m | None => [] end;
  inv_cols : forall db t m, in_memory d db t = Some m -> t_cols m <> [] /\ NoDup (dkeys (t_cols m)) }.

Lemma inv_restart d : Inv d -> forall db t, after_restart d db t = option_map persisted (in_memory d db t).
Proof.
  intros I db t. rewrite restart_mem, (inv_rows d I). destruct (in_memory d db t) as [m|] eqn:E; [|reflexivity].
  destruct (inv_cols d I db t m E) as (N & U). rewrite (absorb_new db t m N), (dupdate_new (t_cols m) []) by exact U. reflexivity.
Qed.

Lemma or_empty_nodup (x : option dbmeta) : (forall T, x = Some T -> NoDup (dkeys T)) ->
  NoDup (dkeys match x with Some T => T | None => [] end).
Proof. intro H. destruct x; [apply H; reflexivity|constructor]. Qed.
Lemma load_nodup rows : forall M, (forall db T, dget M db = Some T -> NoDup (dkeys T)) ->
  forall db T, dget (fold_left load_row rows M) db = Some T -> NoDup (dkeys T).
Proof.
  induction rows as [|r rows IH]; intros M H; [exact H|]. cbn [fold_left]. apply IH.
  intros db T. unfold load_row. rewrite dget_dset. destruct (seqb db (r_db r)).
  - intros [= <-]. apply dset_NoDup. apply (or_empty_nodup _ (H (r_db r))).
  - apply H.
Qed.

Lemma inv_step d op : Inv d ->
  match op with
  | Create db t m => in_memory d db t = None /\ t_cols m <> [] /\ NoDup (dkeys (t_cols m))
  | _ => True
  end -> Inv (meta_step d op).
Proof.
  intros I H. destruct op as [db t m|db t|]; cbn [meta_step].
  - destruct H as (A & N & U). constructor.
    + intros db' T. rewrite create_self, dget_dset. destruct (seqb db' db); [|apply (inv_nodup d I)].
      intros [= <-]. apply dset_NoDup. apply (or_empty_nodup _ (inv_nodup d I db)).
    + intros db' t'. rewrite create_memory, create_rows, filter_app, (inv_rows d I), filter_table_rows.
      destruct (same db' t' db t) eqn:S.
      * apply same_eq in S as (-> & ->). rewrite A, same_refl. reflexivity.
      * replace (same db t db' t') with false; [apply app_nil_r|].
        symmetry. destruct (same db t db' t') eqn:S2; [|reflexivity]. apply same_eq in S2 as (-> & ->). rewrite same_refl in S. discriminate.
    + intros db' t' m'. rewrite create_memory. destruct (same db' t' db t); [intros [= <-]; auto|]. apply (inv_cols d I).
  - unfold delete_delta. destruct (dget (self_meta d) db) as [T|] eqn:G; [|exact I].
    set (d' := fst (persist MySQL None _ _)).
    assert (M' : self_meta d' = dset (self_meta d) db (dpop T t)).
    { unfold d'. cbn [persist fst]. unfold self_meta at 1. cbn [d_inst d_class]. apply (self_mutate d). }
    assert (Mem : forall db' t', in_memory d' db' t' = if same db' t' db t then None else in_memory d db' t').
    { intros db' t'. unfold in_memory. rewrite M', dget_dset. unfold same. destruct (seqb db' db) eqn:S; cbn [andb]; [|reflexivity].
      apply seqb_eq in S. subst db'. rewrite G. destruct (seqb t' t) eqn:S2.
      - apply seqb_eq in S2. subst t'. apply dget_dpop_same, (inv_nodup d I _ _ G).
      - apply dget_dpop_other. intros ->. rewrite seqb_refl in S2. discriminate. }
    assert (Rows : d_rows d' = filter (fun r => negb (same (r_db r) (r_table r) db t)) (d_rows d)).
    { pose proof (drop_rows None d db t) as R. unfold delete_delta in R. rewrite G in R. exact R. }
    constructor.
    + intros db' T'. rewrite M', dget_dset. destruct (seqb db' db); [intros [= <-]; apply dpop_NoDup, (inv_nodup d I _ _ G)|apply (inv_nodup d I)].
    + intros db' t'. rewrite Mem, Rows. destruct (same db' t' db t) eqn:S.
      * apply same_eq in S as (-> & ->). apply filter_filter_gone.
      * rewrite filter_filter_drop; [apply (inv_rows d I)|]. intros [= -> ->]. rewrite same_refl in S. discriminate.
    + intros db' t' m'. rewrite Mem. destruct (same db' t' db t); [discriminate|apply (inv_cols d I)].
  - assert (R : forall db t, in_memory (restart d) db t = option_map persisted (in_memory d db t)) by (apply inv_restart, I).
    constructor.
    + unfold self_meta, restart. cbn [d_inst d_class]. apply load_nodup. discriminate.
    + intros db t. rewrite R. cbn [restart d_rows]. rewrite (inv_rows d I). destruct (in_memory d db t); reflexivity.
    + intros db t m. rewrite R. destruct (in_memory d db t) as [m'|] eqn:E; [|discriminate]. intros [= <-]. apply (inv_cols d I _ _ _ E).
Qed.
Lemma inv_run : forall ops d, Inv d -> created_when_absent d ops -> Inv (meta_run d ops).
Proof.
  induction ops as [|op r IH]; intros d I C; [exact I|]. cbn [created_when_absent] in C. destruct C as (C1 & C2).
  cbn [meta_run fold_left]. apply IH; [apply inv_step; assumption|exact C2].
Qed.
Lemma inv_fresh : Inv fresh_install.
Proof. constructor; [discriminate|reflexivity|discriminate]. Qed.

(** C35 *)
Lemma restart_same ops db t : created_when_absent fresh_install ops ->
  after_restart (meta_run fresh_install ops) db t = option_map persisted (in_memory (meta_run fresh_install ops) db t).
Proof. intro C. apply inv_restart, inv_run; [exact inv_fresh|exact C]. Qed.

(** C36 *)
Lemma created_twice ops db t m1 m2 : created_when_absent fresh_install ops ->
  in_memory (meta_run fresh_install ops) db t = Some m1 ->
  let d := meta_step (meta_run fresh_install ops) (Create db t m2) in
  in_memory d db t = Some m2 /\
  after_restart d db t = Some {| t_anon := t_anon m1; t_cols := dupdate (t_cols m1) (t_cols m2); t_comment := None |}.
Proof.
  intros C H d. pose proof (inv_run ops fresh_install inv_fresh C) as I. set (d0 := meta_run fresh_install ops) in *. split.
  - unfold d. cbn [meta_step]. rewrite create_memory, same_refl. reflexivity.
  - rewrite restart_mem. unfold d. cbn [meta_step]. rewrite create_rows, filter_app, fold_left_app, filter_table_rows, same_refl.
    pose proof (inv_restart d0 I db t) as R. rewrite restart_mem, H in R. cbn [option_map] in R. rewrite R.
    unfold table_rows. rewrite absorb_rows. reflexivity.
Qed.

(** C37 *)
Lemma create_other b o d db t m db' t' : (db', t') <> (db, t) ->
  in_memory (fst (update_delta b o d db t m)) db' t' = in_memory d db' t'.
Proof. intro N. rewrite create_memory, (same_neq _ _ _ _ N). reflexivity. Qed.
Lemma create_other_restart d db t m db' t' : (db', t') <> (db, t) ->
  after_restart (meta_step d (Create db t m)) db' t' = after_restart d db' t'.
Proof.
  intro N. rewrite !restart_mem. cbn [meta_step]. rewrite create_rows, filter_app, filter_table_rows.
  rewrite (same_neq db t db' t') by congruence. rewrite app_nil_r. reflexivity.
Qed.
Lemma drop_other_restart d db t db' t' : (db', t') <> (db, t) ->
  after_restart (meta_step d (Drop db t)) db' t' = after_restart d db' t'.
Proof.
  intro N. rewrite !restart_mem. cbn [meta_step]. rewrite drop_rows.
  destruct (dget (self_meta d) db); [|reflexivity]. rewrite filter_filter_drop by exact N. reflexivity.
Qed.
Lemma others_untouched d op db t db' t' : (exists m, op = Create db t m) \/ op = Drop db t -> (db', t') <> (db, t) ->
  in_memory (meta_step d op) db' t' = in_memory d db' t' /\
  after_restart (meta_step d op) db' t' = after_restart d db' t'.
Proof.
  intros [(m & ->) | ->] N; split.
  - apply create_other, N.
  - apply create_other_restart, N.
  - apply drop_other, N.
  - apply drop_other_restart, N.
Qed.

(** C38 *)
Lemma dropped ops db t : created_when_absent fresh_install ops ->
  snd (delete_delta MySQL None (meta_run fresh_install ops) db t) = None ->
  let d := meta_step (meta_run fresh_install ops) (Drop db t) in
  in_memory d db t = None /\ after_restart d db t = None.
Proof.
  intros C H. pose proof (inv_run ops fresh_install inv_fresh C) as I. set (d0 := meta_run fresh_install ops) in *.
  intro d. unfold delete_delta in H. destruct (dget (self_meta d0) db) as [T|] eqn:G; [|discriminate H].
  assert (I2 : Inv d) by (apply inv_step; [exact I|exact Logic.I]).
  assert (A : in_memory d db t = None).
  { unfold d. cbn [meta_step]. unfold delete_delta. rewrite G. unfold in_memory. cbn [persist fst]. unfold self_meta at 1. cbn [d_inst d_class].
    change (match dget (self_meta (mutate d0 (dset (self_meta d0) db (dpop T t)))) db with Some T0 => dget T0 t | None => None end = None).
    rewrite self_mutate, dget_dset_same. apply dget_dpop_same, (inv_nodup d0 I _ _ G). }
  split; [exact A|]. rewrite (inv_restart d I2), A. reflexivity.
Qed.

(** C39 *)
Lemma class_stays_empty : forall ops d, d_class d = [] -> (forall op, In op ops -> op <> Restart) ->
  d_class (meta_run d ops) = [].
Proof.
  induction ops as [|op r IH]; intros d H N; [exact H|]. cbn [meta_run fold_left]. apply IH; [|intros o Ho; apply N; right; exact Ho].
  destruct op as [db t m|db t|]; cbn [meta_step].
  - unfold update_delta. cbn [persist fst d_class]. destruct (self_meta d) as [|e s] eqn:S; [exact H|].
    unfold mutate. unfold self_meta in S. destruct (d_inst d); [exact H|]. rewrite H in S. discriminate.
  - unfold delete_delta. destruct (dget (self_meta d) db) eqn:G; [|exact H]. cbn [persist fst d_class].
    unfold mutate. unfold self_meta in G. destruct (d_inst d); [exact H|]. rewrite H in G. discriminate.
  - exfalso. apply (N Restart); [left; reflexivity|reflexivity].
Qed.
Lemma first_tables ops db t : (forall op, In op ops -> op <> Restart) ->
  class_columns (meta_run fresh_install ops) db t = Err KeyError.
Proof. intro N. unfold class_columns. rewrite class_stays_empty; [reflexivity|reflexivity|exact N]. Qed.
Lemma class_after_restart ops db t m : created_when_absent fresh_install ops ->
  in_memory (meta_run fresh_install ops) db t = Some m ->
  class_columns (restart (meta_run fresh_install ops)) db t = Ok (t_cols m).
Proof.
  intros C H. pose proof (restart_same ops db t C) as R. rewrite H in R. unfold after_restart, in_memory in R.
  unfold self_meta in R. cbn [restart d_inst d_class] in R. unfold class_columns. cbn [restart d_class].
  unfold dgetE. destruct (dget (load_delta (d_rows (meta_run fresh_install ops))) db) as [T|]; [|discriminate R].
  cbn [bind]. rewrite R. reflexivity.
Qed.

(** C69 *)
Lemma sqlite_rows o d db t m : d_rows (fst (update_delta SQLite o d db t m)) = d_rows d /\
  d_rows (fst (delete_delta SQLite o d db t)) = d_rows d.
Proof.
  split.
  - unfold update_delta. cbn [persist fst]. destruct (self_meta d); [reflexivity|apply rows_mutate].
  - unfold delete_delta. destruct (dget (self_meta d) db); [|reflexivity]. cbn [persist fst]. apply rows_mutate.
Qed.

(** Statements on an absent table (C38). *)
Lemma db_meta_absent d db t : in_memory d db t = None -> dget (db_meta d db) t = None.
Proof.
  unfold in_memory, db_meta. destruct (self_meta d) as [|e r]; [reflexivity|].
  unfold store, dbmeta, dict in *. destruct (dget (e :: r) db); auto.
Qed.
Lemma clause_keeps E M table source k d x st j' st' : seqb k (u "query") = false ->
  clause_rw E M table source k d x st = Ok (j', st') -> exists y, j' = JDict (dset d k y).
Proof.
  intros Q H. unfold clause_rw in H. rewrite Q in H.
  repeat match type of H with (if ?b then _ else _) = _ => destruct b end;
    match type of H with bind ?m _ = _ => destruct m as [y|]; [|discriminate H] end; cbn [bind] in H;
    try (destruct y as [y s]); injection H as <- <-; eexists; reflexivity.
Qed.
Lemma clauses_absent E M source nested t k : In k [u "insert"; u "delete"; u "update"; u "from"] -> dget M t = None ->
  (forall st, k = u "from" -> match nested (JStr t) st with Ok (Some _) => False | _ => True end) ->
  forall pre d r st, ~ In k pre -> ~ In (u "query") pre -> ~ In (u "from") pre -> dget d k = Some (JStr t) ->
  exists e, clauses_rw E M (JStr t) source nested (pre ++ k :: r) (JDict d) st = Err e.
Proof.
  intros Hk HM HN. induction pre as [|p pre IH]; intros d r st N1 N2 N3 H; cbn [app clauses_rw].
  - rewrite H. cbn [In] in Hk. destruct Hk as [<-|[<-|[<-|[<-|[]]]]].
    1-3: change (seqb _ (u "from")) with false; cbn [bind]; unfold clause_rw;
      match goal with |- context [smem ?a ?b] => change (smem a b) with true end; cbn [bind];
      unfold anonymous_rw, lookup, dgetE; rewrite HM; eexists; reflexivity.
    specialize (HN st eq_refl). change (seqb (u "from") (u "from")) with true. cbv iota.
    destruct (nested (JStr t) st) as [[p|]|e]; [destruct HN| |eexists; reflexivity]. cbn [bind].
    unfold clause_rw. change (smem (u "from") _) with false. cbv iota.
    change (smem (u "from") [u "select"; u "select_distinct"]) with false. change (seqb (u "from") (u "from")) with true. cbv iota.
    unfold from_rw, dgetE. rewrite HM. eexists; reflexivity.
  - cbn [In] in N1, N2, N3. destruct (dget d p) as [x|] eqn:G; [|apply IH; tauto].
    rewrite (proj2 (seqb_neq p (u "from"))) by (intro X; apply N3; left; exact X). cbn [bind].
    destruct (clause_rw E M (JStr t) source p d x st) as [[j' st']|e] eqn:C; [|eexists; reflexivity]. cbn [bind].
    apply clause_keeps in C; [|apply seqb_neq; intro X; apply N2; left; exact X]. destruct C as (y & ->).
    apply IH; try tauto. rewrite dget_dset_other; [exact H|]. intro X. apply N1. left. exact X.
Qed.
Lemma nested_absent rc t st : match nested_value rc (JStr t) st with Ok (Some _) => False | _ => True end.
Proof. unfold nested_value. cbn [contains bind]. destruct (substrb (u "value") t); exact I. Qed.
Lemma absent_rejected E M d k t : In k [u "insert"; u "delete"; u "update"; u "from"] ->
  find_table table_key d = Ok (JStr t) -> dget d k = Some (JStr t) -> dget M t = None ->
  exists e, rewrite_query E M (JDict d) = Err e.
Proof.
  intros Hk F H HM. unfold rewrite_query. rewrite F. cbn [bind].
  match goal with |- context [clauses_rw E M (JStr t) (JDict d) ?n clause_keys (JDict d) s_empty] =>
    assert (X : exists e, clauses_rw E M (JStr t) (JDict d) n clause_keys (JDict d) s_empty = Err e) end.
  { unfold clause_keys. pose proof Hk as Hk'. cbn [In] in Hk'. destruct Hk' as [<-|[<-|[<-|[<-|[]]]]].
    - refine (clauses_absent E M (JDict d) _ t _ Hk HM _ [] d _ s_empty _ _ _ H); try (cbn; tauto). intros st _. apply nested_absent.
    - refine (clauses_absent E M (JDict d) _ t _ Hk HM _ [u "insert"] d _ s_empty _ _ _ H);
        try (intro X; apply smem_In in X; discriminate X). intros st _. apply nested_absent.
    - refine (clauses_absent E M (JDict d) _ t _ Hk HM _ [u "insert"; u "delete"] d _ s_empty _ _ _ H);
        try (intro X; apply smem_In in X; discriminate X). intros st _. apply nested_absent.
    - refine (clauses_absent E M (JDict d) _ t _ Hk HM _ [u "insert"; u "delete"; u "update"; u "select"; u "select_distinct"] d _ s_empty _ _ _ H);
        try (intro X; apply smem_In in X; discriminate X). intros st _. apply nested_absent. }
  destruct X as (e & X). rewrite X. eexists; reflexivity.
Qed.
Lemma drop_rejected E M t : dget M t = None ->
  rewrite_query E M (JDict [(u "drop", JDict [(u "table", JStr t)])]) = Err KeyError.
Proof.
  intro HM. unfold rewrite_query. change (find_table table_key _) with (Ok (JDict [(u "table", JStr t)])). cbn [bind].
  match goal with |- context [clauses_rw E M ?T ?J ?n clause_keys ?j s_empty] =>
    assert (X : clauses_rw E M T J n clause_keys j s_empty = Err KeyError) end.
  { match goal with |- clauses_rw E M ?T ?J ?n clause_keys ?j s_empty = _ =>
      change (clauses_rw E M T J n (u "drop" :: skipn 11 clause_keys) j s_empty = Err KeyError) end.
    apply clause_err with (JDict [(u "table", JStr t)]); [reflexivity|reflexivity|].
    change (bind (drop_rw M (JDict [(u "table", JStr t)])) (fun y => Ok (JDict (dset [(u "drop", JDict [(u "table", JStr t)])] (u "drop") y), s_empty)) = Err KeyError).
    unfold drop_rw. cbn [mapM snd lookup]. unfold dgetE. rewrite HM. reflexivity. }
  rewrite X. reflexivity.
Qed.
