(** The metadata: restarts, noninterference, drops (C35-C39, C69). *)
From Coq Require Import String Ascii List NArith ZArith QArith Bool.
From Verif Require Import Base BaseProof JsonModel RewriteModel StmtSpec RewriteExample MetaModel MetaSpec MetaProof.
Import ListNotations.

(** A history used in the examples: staff is emp under another physical name. *)
Definition ex_meta_ops : list mop :=
  [Create (u "hr") (u "emp") emp; Create (u "hr") (u "dep") dep; Create (u "crm") (u "emp") dep;
   Drop (u "hr") (u "dep"); Restart; Create (u "hr") (u "dep") emp; Drop (u "nodb") (u "x")].

(** ** C35 *)
Theorem C35_metadata_survives_restart : forall ops db t, created_when_absent fresh_install ops ->
  after_restart (meta_run fresh_install ops) db t = option_map persisted (in_memory (meta_run fresh_install ops) db t).
Proof. exact restart_same. Qed.
Print Assumptions C35_metadata_survives_restart.

Example C35_example :
  created_when_absent fresh_install ex_meta_ops /\
  after_restart (meta_run fresh_install ex_meta_ops) (u "hr") (u "dep") = Some emp /\
  after_restart (meta_run fresh_install ex_meta_ops) (u "crm") (u "emp") = Some dep /\
  after_restart (meta_run fresh_install ex_meta_ops) (u "crm") (u "dep") = None.
Proof.
  split; [|vm_compute; repeat split]. cbn [created_when_absent ex_meta_ops].
  repeat split; try (vm_compute; reflexivity); try discriminate; nodup.
Qed.

(** ** C36 *)
Theorem C36_created_twice_refuted : forall ops db t m1 m2, created_when_absent fresh_install ops ->
  in_memory (meta_run fresh_install ops) db t = Some m1 ->
  let d := meta_step (meta_run fresh_install ops) (Create db t m2) in
  in_memory d db t = Some m2 /\
  after_restart d db t = Some {| t_anon := t_anon m1; t_cols := dupdate (t_cols m1) (t_cols m2); t_comment := None |}.
Proof. exact created_twice. Qed.
Print Assumptions C36_created_twice_refuted.

Example C36_example :
  let d := meta_run fresh_install [Create (u "hr") (u "emp") emp; Create (u "hr") (u "emp") dep] in
  option_map t_anon (in_memory d (u "hr") (u "emp")) = Some (u "q04") /\
  option_map t_anon (after_restart d (u "hr") (u "emp")) = Some (u "t9f") /\
  option_map (fun m => dkeys (t_cols m)) (after_restart d (u "hr") (u "emp")) =
    Some [u "id"; u "name"; u "age"; u "boss"; u "other"].
Proof. vm_compute. repeat split. Qed.

(** ** C37 *)
(** In every state, whether or not tables were created twice. *)
Theorem C37_no_interference : forall d op db t db' t',
  (exists m, op = Create db t m) \/ op = Drop db t -> (db', t') <> (db, t) ->
  in_memory (meta_step d op) db' t' = in_memory d db' t' /\
  after_restart (meta_step d op) db' t' = after_restart d db' t'.
Proof. exact others_untouched. Qed.
Print Assumptions C37_no_interference.

Example C37_example :
  let d := meta_run fresh_install [Create (u "hr") (u "emp") emp; Create (u "crm") (u "emp") dep] in
  in_memory (meta_step d (Drop (u "hr") (u "emp"))) (u "crm") (u "emp") = Some dep /\
  after_restart (meta_step d (Drop (u "hr") (u "emp"))) (u "crm") (u "emp") = Some dep /\
  in_memory (meta_step d (Drop (u "hr") (u "emp"))) (u "hr") (u "emp") = None.
Proof. vm_compute. repeat split. Qed.

(** ** C38 *)
Theorem C38_drop_forgets : forall ops db t, created_when_absent fresh_install ops ->
  snd (delete_delta MySQL None (meta_run fresh_install ops) db t) = None ->
  let d := meta_step (meta_run fresh_install ops) (Drop db t) in
  in_memory d db t = None /\ after_restart d db t = None.
Proof. exact dropped. Qed.
Print Assumptions C38_drop_forgets.

Theorem C38_absent_table_rejected : forall E dl db d k t, in_memory dl db t = None ->
  In k [u "insert"; u "delete"; u "update"; u "from"] ->
  find_table table_key d = Ok (JStr t) -> dget d k = Some (JStr t) ->
  exists e, rewrite_query E (db_meta dl db) (JDict d) = Err e.
Proof.
  intros E dl db d k t A Hk F H. apply (absent_rejected E _ d k t Hk F H). apply db_meta_absent, A.
Qed.
Print Assumptions C38_absent_table_rejected.

Theorem C38_drop_absent_rejected : forall E dl db t, in_memory dl db t = None ->
  rewrite_query E (db_meta dl db) (JDict [(u "drop", JDict [(u "table", JStr t)])]) = Err KeyError.
Proof. intros E dl db t A. apply drop_rejected, db_meta_absent, A. Qed.
Print Assumptions C38_drop_absent_rejected.

Example C38_example :
  let d0 := meta_run fresh_install [Create (u "hr") (u "emp") emp; Create (u "hr") (u "dep") dep] in
  let d := meta_step d0 (Drop (u "hr") (u "emp")) in
  let sel := select_stmt (u "emp") (JStr (u "*")) None None None None in
  snd (delete_delta MySQL None d0 (u "hr") (u "emp")) = None /\
  (exists r, rewrite_query exE (db_meta d0 (u "hr")) sel = Ok r) /\
  rewrite_query exE (db_meta d (u "hr")) sel = Err KeyError /\
  rewrite_query exE (db_meta (restart d) (u "hr")) sel = Err KeyError.
Proof. vm_compute. split; [reflexivity|]. split; [eexists; reflexivity|]. split; reflexivity. Qed.

(** ** C39 *)
(** On an empty installation all statements of the process see the tables, but the class attribute,
    which the procedures for SUM and AVG read, stays empty until the process is restarted. *)
Theorem C39_first_tables_partly_visible : forall ops db t, (forall op, In op ops -> op <> Restart) ->
  class_columns (meta_run fresh_install ops) db t = Err KeyError.
Proof. exact first_tables. Qed.
Print Assumptions C39_first_tables_partly_visible.

Theorem C39_visible_after_restart : forall ops db t m, created_when_absent fresh_install ops ->
  in_memory (meta_run fresh_install ops) db t = Some m ->
  class_columns (restart (meta_run fresh_install ops)) db t = Ok (t_cols m).
Proof. exact class_after_restart. Qed.
Print Assumptions C39_visible_after_restart.

(** The rewriters see every created table at once. *)
Theorem C39_visible_to_rewriting : forall d db t m,
  dget (db_meta (meta_step d (Create db t m)) db) t = Some m.
Proof.
  intros d db t m. pose proof (create_memory MySQL None d db t m db t) as H. rewrite same_refl in H.
  unfold in_memory in H. cbn [meta_step]. unfold db_meta.
  destruct (self_meta (fst (update_delta MySQL None d db t m))) as [|e r]; [discriminate H|].
  unfold store, dbmeta, dict in *. destruct (dget (e :: r) db); [exact H|discriminate H].
Qed.
Print Assumptions C39_visible_to_rewriting.

Example C39_example :
  let d := meta_run fresh_install [Create (u "hr") (u "emp") emp; Create (u "hr") (u "dep") dep] in
  dkeys (db_meta d (u "hr")) = [u "emp"; u "dep"] /\
  class_columns d (u "hr") (u "emp") = Err KeyError /\
  class_columns (restart d) (u "hr") (u "emp") = Ok (t_cols emp) /\
  class_columns (meta_step (restart d) (Create (u "crm") (u "x") dep)) (u "crm") (u "x") = Ok (t_cols dep).
Proof. vm_compute. repeat split. Qed.

(** ** C69 *)
(** [o]: the outcome of the MySQL connection that is opened instead. *)
Theorem C69_sqlite_not_persisted_refuted : forall o d db t m,
  d_rows (fst (update_delta SQLite o d db t m)) = d_rows d /\
  (forall db' t', after_restart (fst (update_delta SQLite o d db t m)) db' t' = after_restart d db' t') /\
  (forall db' t', after_restart (fst (delete_delta SQLite o d db t)) db' t' = after_restart d db' t').
Proof.
  intros o d db t m. destruct (sqlite_rows o d db t m) as (A & B). split; [exact A|].
  split; intros db' t'; rewrite !restart_mem; [rewrite A|rewrite B]; reflexivity.
Qed.
Print Assumptions C69_sqlite_not_persisted_refuted.

Example C69_example :
  let d := fst (update_delta SQLite None fresh_install (u "hr") (u "emp") emp) in
  in_memory d (u "hr") (u "emp") = Some emp /\ after_restart d (u "hr") (u "emp") = None.
Proof. vm_compute. split; reflexivity. Qed.
