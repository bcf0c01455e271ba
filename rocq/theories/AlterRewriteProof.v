(** Proofs about the rewriting of ALTER TABLE ... ADD/DROP of keys and indexes. *)
From Coq Require Import String Ascii List Arith NArith ZArith Bool Lia.
From Verif Require Import Base BaseProof JsonModel RewriteModel AlterModel AlterSpec AlterProof.
Import ListNotations.
Open Scope N_scope.

Section Loop.
Variables (E : env) (M : dbmeta) (table source : json) (nested : json -> sstate -> res (option (json * sstate))).
Local Notation loop := (clauses_rw E M table source nested).
Lemma loop_skip l r d st : Forall (fun k => dget d k = None) l -> loop (l ++ r) (JDict d) st = loop r (JDict d) st.
Proof. induction 1 as [|k l H F IH]; [reflexivity|]. cbn [app clauses_rw]. now rewrite H. Qed.
Lemma loop_step k r d x st : dget d k = Some x -> seqb k (u "from") = false ->
  loop (k :: r) (JDict d) st = (do '(j, st') <- clause_rw E M table source k d x st; loop r j st').
Proof. intros H F. cbn [clauses_rw]. rewrite H, F. reflexivity. Qed.
Lemma table_step k d x st : smem k [u "alter"; u "reference_table"] = true ->
  clause_rw E M table source k d x st = (do y <- anonymous_rw M table; Ok (JDict (dset d k y), st)).
Proof.
  intros H. unfold clause_rw. assert (S : smem k [u "insert"; u "delete"; u "update"; u "alter"; u "reference_table"] = true).
  { unfold smem in *. cbn [existsb] in *. destruct (seqb k (u "alter")), (seqb k (u "reference_table")); cbn in *; try discriminate; now rewrite !orb_true_r. }
  rewrite S. now destruct (anonymous_rw M table).
Qed.
Lemma key_step k d x st : In k [u "add primary key"; u "add foreign key"; u "reference_feature"] ->
  clause_rw E M table source k d x st = (do '(y, _) <- select_rw M table SYM x s_empty; Ok (JDict (dset d k y), st)).
Proof. intros [<-|[<-|[<-|[]]]]; reflexivity. Qed.
End Loop.

Definition before : list pystr := firstn 12 clause_keys.
Lemma query_alter E M t x : rewrite_query E M (JDict (change_dict t x)) =
  (do a <- anonymous_rw M (JStr t);
   do '(j, st) <- clauses_rw E M (JStr t) (JDict (change_dict t x)) (fun v st => match v with
                     | JList l => do '(l', st') <- nested_list E M (JStr t) (rewrite_clause (S (jdepth (JDict (change_dict t x)))) E M) 0 l st;
                                  Ok (Some (JList l', st'))
                     | _ => nested_value (rewrite_clause (S (jdepth (JDict (change_dict t x)))) E M) v st
                     end) (skipn 13 clause_keys) (JDict (dset (change_dict t x) (u "alter") a)) s_empty;
   Ok (j, JStr t, st)).
Proof.
  unfold rewrite_query. assert (F : find_table table_key (change_dict t x) = Ok (JStr t)) by (destruct x; reflexivity). rewrite F. cbn [bind].
  change clause_keys with (before ++ u "alter" :: skipn 13 clause_keys) at 1. rewrite loop_skip.
  2: { destruct x; repeat (constructor; [reflexivity|]); constructor. }
  rewrite (loop_step _ _ _ _ _ (u "alter") _ _ (JStr t)); [|destruct x; reflexivity|reflexivity].
  rewrite table_step by reflexivity. destruct (anonymous_rw M (JStr t)) as [a|e]; reflexivity.
Qed.
Lemma anonymous_known M t m : dget M t = Some m -> anonymous_rw M (JStr t) = Ok (JStr (t_anon m)).
Proof. intros H. unfold anonymous_rw, lookup, dgetE. now rewrite H. Qed.
Lemma anonymous_unknown M t : dget M t = None -> anonymous_rw M (JStr t) = Err KeyError.
Proof. intros H. unfold anonymous_rw, lookup, dgetE. now rewrite H. Qed.
Lemma changed t a x : dset (change_dict t x) (u "alter") (JStr a) = change_dict a x.
Proof. destruct x; reflexivity. Qed.
Lemma unknown_table E M t x : dget M t = None -> rewrite_alter E M (change_dict t x) = Err KeyError.
Proof. intros H. unfold rewrite_alter. now rewrite query_alter, anonymous_unknown. Qed.
(** Statements whose other parts are not rewritten. *)
Definition only_table (x : change) : bool := match x with AddPrimary _ | AddForeign _ _ _ _ => false | _ => true end.
Lemma table_only E M t m x : dget M t = Some m -> only_table x = true ->
  rewrite_alter E M (change_dict t x) = format_alter_key (change_dict (t_anon m) x).
Proof.
  intros H O. unfold rewrite_alter. rewrite query_alter, (anonymous_known M t m H). cbn [bind]. rewrite changed.
  rewrite <- (app_nil_r (skipn 13 clause_keys)), loop_skip; [reflexivity|]. destruct x; try discriminate O; repeat (constructor; [reflexivity|]); constructor.
Qed.
(** A key: a column is put where a dict with a value is read. *)
Definition no_dict (j : json) : bool := match j with JDict _ => false | _ => true end.
Lemma select_one M tb c st : select_rw M tb SYM (column_list c) st = (do '(j, st1) <- select_str M tb SYM c st; Ok (JList [j], st1)).
Proof.
  unfold column_list. cbn [select_rw]. change (seqb (u "value") (u "value")) with true. cbv iota. now destruct (select_str M tb SYM c st) as [[j st1]|e].
Qed.
Lemma select_str_no_dict M tb ci s st j st' : select_str M tb ci s st = Ok (j, st') -> no_dict j = true.
Proof.
  unfold select_str. destruct (seqb s (u "*")).
  - unfold select_star. intros H. repeat match type of H with
      | bind ?r _ = _ => destruct r as [?|?]; cbn [bind] in H; [|discriminate H]
      | (let '(_, _) := ?p in _) = _ => destruct p
      end; try (injection H as <- _; reflexivity).
  - unfold select_name. intros H. destruct tb; repeat match type of H with
      | bind ?r _ = _ => destruct r as [?|?]; cbn [bind] in H; [|discriminate H]
      | (let '(_, _) := ?p in _) = _ => destruct p
      | (if ?b then _ else _) = _ => destruct b
      end; injection H as <- _; reflexivity.
Qed.
Lemma select_one_shape M tb c st y st' : select_rw M tb SYM (column_list c) st = Ok (y, st') -> exists j, y = JList [j] /\ no_dict j = true.
Proof.
  rewrite select_one. destruct (select_str M tb SYM c st) as [[j st1]|e] eqn:E; [|discriminate]. cbn [bind]. intros H. injection H as <- _. exists j. split; [reflexivity|].
  eapply select_str_no_dict, E.
Qed.
Lemma value_no_dict j : no_dict j = true -> join_values (Some (JList [j])) = Err TypeError.
Proof. destruct j; try discriminate; reflexivity. Qed.
Lemma add_primary_rw E M t c : rewrite_alter E M (change_dict t (AddPrimary c)) =
  (do _ <- anonymous_rw M (JStr t); do _ <- select_rw M (JStr t) SYM (column_list c) s_empty; Err TypeError).
Proof.
  unfold rewrite_alter. rewrite query_alter. destruct (anonymous_rw M (JStr t)) as [a|e] eqn:EA; [|reflexivity]. cbn [bind].
  assert (AS : exists a', a = JStr a') by (unfold anonymous_rw in EA; destruct (lookup M (JStr t)); [|discriminate EA]; injection EA as <-; eexists; reflexivity). destruct AS as [a' ->].
  change (skipn 13 clause_keys) with ([u "reference_table"] ++ u "add primary key" :: [u "add foreign key"; u "reference_feature"]).
  rewrite loop_skip by (repeat (constructor; [reflexivity|]); constructor). rewrite (loop_step _ _ _ _ _ (u "add primary key") _ _ (column_list c)) by reflexivity.
  rewrite key_step by (cbn [In]; tauto). destruct (select_rw M (JStr t) SYM (column_list c) s_empty) as [[y st']|e] eqn:ES; [|reflexivity]. cbn [bind].
  apply select_one_shape in ES. destruct ES as (j & -> & J). destruct j; try discriminate J; reflexivity.
Qed.
Lemma add_foreign_rw E M t n c rt rc : rewrite_alter E M (change_dict t (AddForeign n c rt rc)) =
  (do _ <- anonymous_rw M (JStr t); do _ <- select_rw M (JStr t) SYM (column_list c) s_empty; do _ <- select_rw M (JStr t) SYM (column_list rc) s_empty; Err TypeError).
Proof.
  unfold rewrite_alter. rewrite query_alter. destruct (anonymous_rw M (JStr t)) as [a|e] eqn:EA; [|reflexivity]. cbn [bind].
  assert (AS : exists a', a = JStr a') by (unfold anonymous_rw in EA; destruct (lookup M (JStr t)); [|discriminate EA]; injection EA as <-; eexists; reflexivity). destruct AS as [a' ->].
  change (skipn 13 clause_keys) with (u "reference_table" :: [u "add primary key"] ++ u "add foreign key" :: [u "reference_feature"]).
  rewrite (loop_step _ _ _ _ _ (u "reference_table") _ _ (JStr rt)) by reflexivity. rewrite table_step by reflexivity. rewrite EA. cbn [bind].
  rewrite loop_skip by (repeat (constructor; [reflexivity|]); constructor). rewrite (loop_step _ _ _ _ _ (u "add foreign key") _ _ (column_list c)) by reflexivity.
  rewrite key_step by (cbn [In]; tauto). destruct (select_rw M (JStr t) SYM (column_list c) s_empty) as [[y st']|e] eqn:ES; [|reflexivity]. cbn [bind].
  rewrite (loop_step _ _ _ _ _ (u "reference_feature") _ _ (column_list rc)) by reflexivity.
  rewrite key_step by (cbn [In]; tauto). destruct (select_rw M (JStr t) SYM (column_list rc) s_empty) as [[y2 st2]|e] eqn:ES2; [|reflexivity]. cbn [bind].
  apply select_one_shape in ES. destruct ES as (j & -> & J). destruct j; try discriminate J; reflexivity.
Qed.
(** A column that is known can be selected. *)
Lemma select_known M t m c cm : dget M t = Some m -> dget (t_cols m) c = Some cm -> (c_plain cm = true \/ exists n, dget (c_enc cm) SYM = Some n) -> has_char DOT c = false -> c <> u "*" ->
  exists y, select_rw M (JStr t) SYM (column_list c) s_empty = Ok y.
Proof.
  intros HM HC K D S. rewrite select_one. unfold select_str, select_name, split_dot, lookup, dgetE. rewrite D. destruct (seqb c (u "*")) eqn:E; [apply seqb_eq in E; contradiction|].
  cbn [bind]. rewrite HM. cbn [bind]. rewrite HC. cbn [bind]. destruct K as [->|[n ->]]; [eexists; reflexivity|]. destruct (c_plain cm); eexists; reflexivity.
Qed.
Lemma add_key_never E M t x : only_table x = false -> exists e, rewrite_alter E M (change_dict t x) = Err e.
Proof.
  destruct x; try discriminate; intros _; [rewrite add_primary_rw|rewrite add_foreign_rw];
    repeat match goal with |- context [bind ?r _] => destruct r as [?|?]; cbn [bind]; [|eexists; reflexivity] end; eexists; reflexivity.
Qed.
Lemma add_primary_known E M t m c cm : dget M t = Some m -> dget (t_cols m) c = Some cm -> (c_plain cm = true \/ exists n, dget (c_enc cm) SYM = Some n) -> has_char DOT c = false -> c <> u "*" ->
  rewrite_alter E M (change_dict t (AddPrimary c)) = Err TypeError.
Proof.
  intros HM HC K D S. rewrite add_primary_rw, (anonymous_known M t m HM). cbn [bind]. destruct (select_known M t m c cm HM HC K D S) as [y ->]. reflexivity.
Qed.
