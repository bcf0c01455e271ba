(** One statement run through the proxy does to the encrypted database what the original statement
    does to the plaintext database. *)
From Coq Require Import String Ascii List NArith ZArith QArith Bool Lia ZifyBool ZifyNat ZifyN.
From Verif Require Import Base BaseProof CryptoModel CryptoSpec CryptoProof CryptoProps FuzzyModel OpeModel
  OpeProps PaillierModel JsonModel RewriteModel SqlSpec EncSpec JsonProof WhereProof StmtSpec SimProof.
Import ListNotations.
Open Scope Z_scope.

Lemma lookup_table (M : dbmeta) t m : dget M t = Some m -> lookup M (JStr t) = Ok m.
Proof. intros H. cbn [lookup]. unfold dgetE. rewrite H. reflexivity. Qed.
Lemma anonymous_ok (M : dbmeta) t m : dget M t = Some m -> anonymous_rw M (JStr t) = Ok (JStr (t_anon m)).
Proof. intros H. unfold anonymous_rw. rewrite (lookup_table _ _ _ H). reflexivity. Qed.

(** One step of the loop over the clauses. *)
Lemma clause_skip E M table source nested k r d st : dget d k = None ->
  clauses_rw E M table source nested (k :: r) (JDict d) st = clauses_rw E M table source nested r (JDict d) st.
Proof. intros H. cbn [clauses_rw]. rewrite H. reflexivity. Qed.
Lemma clause_do E M table source nested k r d x j' st st' :
  dget d k = Some x -> seqb k (u "from") = false -> clause_rw E M table source k d x st = Ok (j', st') ->
  clauses_rw E M table source nested (k :: r) (JDict d) st = clauses_rw E M table source nested r j' st'.
Proof. intros H F C. cbn [clauses_rw]. rewrite H, F. cbn [bind]. rewrite C. reflexivity. Qed.

Lemma clause_from E M table source nested r d x j' st st' :
  dget d (u "from") = Some x -> nested x st = Ok None ->
  clause_rw E M table source (u "from") d x st = Ok (j', st') ->
  clauses_rw E M table source nested (u "from" :: r) (JDict d) st = clauses_rw E M table source nested r j' st'.
Proof.
  intros H F C. cbn [clauses_rw]. rewrite H. change (seqb (u "from") (u "from")) with true. cbv iota.
  rewrite F. cbn [bind]. rewrite C. reflexivity.
Qed.

Section Clauses.
  Context (E : env) (M : dbmeta) (table source : json) (d : dict json) (x : json) (st : sstate).
  Notation put k r := (do y <- r; Ok (JDict (dset d k y), st)).
  Lemma cl_insert : clause_rw E M table source (u "insert") d x st = put (u "insert") (anonymous_rw M table).
  Proof. reflexivity. Qed.
  Lemma cl_delete : clause_rw E M table source (u "delete") d x st = put (u "delete") (anonymous_rw M table).
  Proof. reflexivity. Qed.
  Lemma cl_update : clause_rw E M table source (u "update") d x st = put (u "update") (anonymous_rw M table).
  Proof. reflexivity. Qed.
  Lemma cl_select : clause_rw E M table source (u "select") d x st =
    do '(y, st') <- select_rw M table SYM x st; Ok (JDict (dset d (u "select") y), st').
  Proof. reflexivity. Qed.
  Lemma cl_from : clause_rw E M table source (u "from") d x st = put (u "from") (from_rw E M table).
  Proof. reflexivity. Qed.
  Lemma cl_where : clause_rw E M table source (u "where") d x st = put (u "where") (where_rw E M table SYM [] x).
  Proof. reflexivity. Qed.
  Lemma cl_set : clause_rw E M table source (u "set") d x st = put (u "set") (set_rw E M table x).
  Proof. reflexivity. Qed.
  Lemma cl_orderby : clause_rw E M table source (u "orderby") d x st = put (u "orderby") (orderby_rw M table x).
  Proof. reflexivity. Qed.
  Lemma cl_columns : clause_rw E M table source (u "columns") d x st = put (u "columns") (columns_rw M table x).
  Proof. reflexivity. Qed.
  Lemma cl_query : clause_rw E M table source (u "query") d x st =
    do j <- inner (values_rw E M table source) (JDict d) (u "query"); Ok (j, st).
  Proof. reflexivity. Qed.
End Clauses.

Ltac skip := rewrite clause_skip by reflexivity.
Ltac step cl H := erewrite clause_do; [|reflexivity|reflexivity|rewrite cl, H; cbn [bind]; reflexivity].

Lemma rewrite_insert E (M : dbmeta) t m cj vl c' v' : dget M t = Some m ->
  let j := JDict [(u "insert", JStr t); (u "columns", cj); (u "query", JDict [(u "select", JList vl)])] in
  columns_rw M (JStr t) cj = Ok c' ->
  values_rw E M (JStr t) j (JList vl) = Ok v' ->
  rewrite_query E M j =
  Ok (JDict [(u "insert", JStr (t_anon m)); (u "columns", c'); (u "query", JDict [(u "select", v')])],
      JStr t, s_empty).
Proof.
  intros H j H1 H2. apply anonymous_ok in H.
  unfold rewrite_query. unfold j at 1.
  change (find_table table_key [(u "insert", JStr t); (u "columns", cj); (u "query", JDict [(u "select", JList vl)])])
    with (Ok (JStr t)). cbn [bind]. unfold clause_keys. generalize (S (jdepth j)) as fuel. intros fuel.
  match goal with |- context [clauses_rw _ _ _ _ ?n _ _ _] => generalize n as nested end. intros nested.
  unfold j at 2.
  step cl_insert H. do 8 skip. step cl_columns H1. skip.
  assert (H3 : inner (values_rw E M (JStr t) j)
     (JDict (dset (dset [(u "insert", JStr t); (u "columns", cj); (u "query", JDict [(u "select", JList vl)])]
        (u "insert") (JStr (t_anon m))) (u "columns") c')) (u "query") =
     do y <- values_rw E M (JStr t) j (JList vl);
     Ok (JDict [(u "insert", JStr (t_anon m)); (u "columns", c'); (u "query", JDict [(u "select", y)])])).
  { generalize (values_rw E M (JStr t) j) as f. intros f. change (inner f
      (JDict [(u "insert", JStr (t_anon m)); (u "columns", c'); (u "query", JDict [(u "select", JList vl)])]) (u "query") =
      do y <- f (JList vl);
     Ok (JDict [(u "insert", JStr (t_anon m)); (u "columns", c'); (u "query", JDict [(u "select", y)])])).
    cbn [inner].
    change (seqb (u "query") (u "insert")) with false. change (seqb (u "query") (u "columns")) with false.
    change (seqb (u "query") (u "query")) with true. change (seqb (u "select") (u "select")) with true. cbv iota.
    destruct (f (JList vl)); reflexivity. }
  rewrite H2 in H3. cbn [bind] in H3.
  erewrite clause_do; [|reflexivity|reflexivity|rewrite cl_query, H3; cbn [bind]; reflexivity].
  do 5 skip. reflexivity.
Qed.

Definition optM {A B} (f : A -> res B) (o : option A) : res (option B) :=
  match o with None => Ok None | Some x => do y <- f x; Ok (Some y) end.

Lemma optM_some {A B} (f : A -> res B) x o : optM f (Some x) = Ok o -> exists y, f x = Ok y /\ o = Some y.
Proof. cbn [optM]. destruct (f x) as [y|]; [|discriminate]. cbn [bind]. intros [= <-]. eauto. Qed.
Lemma optM_none {A B} (f : A -> res B) o : optM f None = Ok o -> o = None.
Proof. intros [= <-]. reflexivity. Qed.
Ltac inv_opt H := first [apply optM_none in H; subst | apply optM_some in H; destruct H as (? & H & ->)].

Lemma rewrite_update E (M : dbmeta) t m sets sets' w w' : dget M t = Some m ->
  set_rw E M (JStr t) (JDict sets) = Ok (JDict sets') ->
  optM (where_rw E M (JStr t) SYM []) w = Ok w' ->
  rewrite_query E M (update_stmt t sets w) = Ok (update_stmt (t_anon m) sets' w', JStr t, s_empty).
Proof.
  intros H H1 H2. apply anonymous_ok in H.
  assert (F : rewrite_query E M (update_stmt t sets w) =
    do '(j', st) <- clauses_rw E M (JStr t) (update_stmt t sets w)
        (fun x st => match x with
                     | JList l => do '(l', st') <- nested_list E M (JStr t) (rewrite_clause (S (jdepth (update_stmt t sets w))) E M) 0 l st;
                                  Ok (Some (JList l', st'))
                     | _ => nested_value (rewrite_clause (S (jdepth (update_stmt t sets w))) E M) x st
                     end) clause_keys (update_stmt t sets w) s_empty; Ok (j', JStr t, st)).
  { destruct w; reflexivity. }
  rewrite F. clear F.
  match goal with |- context [clauses_rw _ _ _ _ ?n _ _ _] => generalize n as nested end. intros nested.
  generalize (update_stmt t sets w) at 1 as source. intros source.
  unfold clause_keys, update_stmt, opt.
  destruct w as [w|]; inv_opt H2; cbn [app].
  - do 2 skip. step cl_update H. do 3 skip. step cl_where H2. step cl_set H1. do 9 skip. reflexivity.
  - do 2 skip. step cl_update H. do 4 skip. step cl_set H1. do 9 skip. reflexivity.
Qed.

Lemma rewrite_delete E (M : dbmeta) t m w w' : dget M t = Some m ->
  optM (where_rw E M (JStr t) SYM []) w = Ok w' ->
  rewrite_query E M (delete_stmt t w) = Ok (delete_stmt (t_anon m) w', JStr t, s_empty).
Proof.
  intros H H2. apply anonymous_ok in H.
  assert (F : rewrite_query E M (delete_stmt t w) =
    do '(j', st) <- clauses_rw E M (JStr t) (delete_stmt t w)
        (fun x st => match x with
                     | JList l => do '(l', st') <- nested_list E M (JStr t) (rewrite_clause (S (jdepth (delete_stmt t w))) E M) 0 l st;
                                  Ok (Some (JList l', st'))
                     | _ => nested_value (rewrite_clause (S (jdepth (delete_stmt t w))) E M) x st
                     end) clause_keys (delete_stmt t w) s_empty; Ok (j', JStr t, st)).
  { destruct w; reflexivity. }
  rewrite F. clear F.
  match goal with |- context [clauses_rw _ _ _ _ ?n _ _ _] => generalize n as nested end. intros nested.
  generalize (delete_stmt t w) at 1 as source. intros source.
  unfold clause_keys, delete_stmt, opt.
  destruct w as [w|]; inv_opt H2; cbn [app].
  - skip. step cl_delete H. do 4 skip. step cl_where H2. do 10 skip. reflexivity.
  - skip. step cl_delete H. do 15 skip. reflexivity.
Qed.

Lemma rewrite_select E (M : dbmeta) t m sel sel' st w w' o o' l off : dget M t = Some m ->
  substrb (u "value") t = false ->
  select_rw M (JStr t) SYM sel s_empty = Ok (sel', st) ->
  optM (where_rw E M (JStr t) SYM []) w = Ok w' ->
  optM (orderby_rw M (JStr t)) o = Ok o' ->
  rewrite_query E M (select_stmt t sel w o l off) = Ok (select_stmt (t_anon m) sel' w' o' l off, JStr t, st).
Proof.
  intros H Hv H1 H2 H3.
  assert (Hf : from_rw E M (JStr t) = Ok (JStr (t_anon m))).
  { cbn [from_rw]. unfold dgetE. rewrite H. reflexivity. }
  assert (F : rewrite_query E M (select_stmt t sel w o l off) =
    do '(j', st) <- clauses_rw E M (JStr t) (select_stmt t sel w o l off)
        (fun x st => match x with
                     | JList l' => do '(l', st') <- nested_list E M (JStr t) (rewrite_clause (S (jdepth (select_stmt t sel w o l off))) E M) 0 l' st;
                                  Ok (Some (JList l', st'))
                     | _ => nested_value (rewrite_clause (S (jdepth (select_stmt t sel w o l off))) E M) x st
                     end) clause_keys (select_stmt t sel w o l off) s_empty; Ok (j', JStr t, st)).
  { destruct w, o, l, off; reflexivity. }
  rewrite F. clear F.
  match goal with |- context [clauses_rw _ _ _ _ ?n _ _ _] => set (nested := n) end.
  assert (Hn : forall st, nested (JStr t) st = Ok None).
  { intros st0. unfold nested, nested_value. cbn [contains]. rewrite Hv. reflexivity. }
  generalize nested, Hn. clear nested Hn. intros nested Hn.
  generalize (select_stmt t sel w o l off) at 1 as source. intros source.
  unfold clause_keys, select_stmt, opt.
  destruct w as [w|]; inv_opt H2; destruct o as [o|]; inv_opt H3; destruct l as [l|]; destruct off as [off|]; cbn [app];
  do 3 skip; step cl_select H1; skip;
  (erewrite clause_from; [|reflexivity|apply Hn|rewrite cl_from, Hf; cbn [bind]; reflexivity]);
  lazymatch goal with
  | H : where_rw _ _ _ _ _ _ = _ |- _ => step cl_where H
  | _ => skip
  end; skip;
  lazymatch goal with
  | H : orderby_rw _ _ _ = _ |- _ => step cl_orderby H
  | _ => skip
  end; do 8 skip; reflexivity.
Qed.

(** ** The engine on the statement shapes *)
Section Exec.
  Context (kw : pystr -> bool) (D : db) (n : pystr) (tb : tbl) (Ht : dget D n = Some tb).
  Lemma exec_ins cols vals :
    exec kw D (JDict [(u "insert", JStr n); (u "columns", JList cols); (u "query", JDict [(u "select", JList vals)])]) =
    do tb' <- exec_insert kw tb cols vals; Ok (dset D n tb', []).
  Proof.
    transitivity ((do '(n, tb) <- the_table D (JStr n); do tb' <- exec_insert kw tb cols vals; Ok (dset D n tb', [])) : res (db * list (list sqlv))).
    - reflexivity.
    - cbn [the_table]. rewrite Ht. reflexivity.
  Qed.
  Lemma exec_upd sets w : exec kw D (update_stmt n sets w) =
    do tb' <- exec_update kw tb sets w; Ok (dset D n tb', []).
  Proof.
    transitivity ((do '(n, tb) <- the_table D (JStr n); do tb' <- exec_update kw tb sets w; Ok (dset D n tb', [])) : res (db * list (list sqlv))).
    - destruct w; reflexivity.
    - cbn [the_table]. rewrite Ht. reflexivity.
  Qed.
  Lemma exec_del w : exec kw D (delete_stmt n w) = do tb' <- exec_delete kw tb w; Ok (dset D n tb', []).
  Proof.
    transitivity ((do '(n, tb) <- the_table D (JStr n); do tb' <- exec_delete kw tb w; Ok (dset D n tb', [])) : res (db * list (list sqlv))).
    - destruct w; reflexivity.
    - cbn [the_table]. rewrite Ht. reflexivity.
  Qed.
  Lemma exec_sel sel w o l off : exec kw D (select_stmt n sel w o l off) =
    do rs <- exec_select kw tb sel w o l off; Ok (D, rs).
  Proof.
    transitivity ((do '(n, tb) <- the_table D (JStr n); do rs <- exec_select kw tb sel w o l off; Ok (D, rs)) : res (db * list (list sqlv))).
    - destruct w, o, l, off; reflexivity.
    - cbn [the_table]. rewrite Ht. reflexivity.
  Qed.
End Exec.

(** ** INSERT *)
Lemma combine_map_r {A B C} (f : B -> C) (l : list A) (l' : list B) :
  combine l (map f l') = map (fun xy => (fst xy, f (snd xy))) (combine l l').
Proof.
  revert l'; induction l as [|x l IH]; intros [|y l']; try reflexivity. cbn [map combine fst snd]. f_equal. apply IH.
Qed.

Lemma insert_sim kw E M t m cs vs pt et :
  prim_ok (e_P E) -> wf_meta kw M -> dget M t = Some m -> NoDup cs -> length cs = length vs ->
  (forall k v, In (k, v) (combine cs vs) -> exists c, dget (t_cols m) k = Some c /\ const_ok E k c v) ->
  tab_rel E m pt et ->
  exists cols' vals' pt' et',
    rewrite_query E M (insert_stmt t cs vs) =
      Ok (JDict [(u "insert", JStr (t_anon m)); (u "columns", JList cols');
                 (u "query", JDict [(u "select", JList vals')])], JStr t, s_empty) /\
    exec_insert kw pt (map JStr cs) (map val vs) = Ok pt' /\
    exec_insert kw et cols' vals' = Ok et' /\ tab_rel E m pt' et'.
Proof.
  intros HP HM Hm ND L H [T1 T2 T3].
  pose proof (wm_table kw M HM t m Hm) as W.
  destruct (values_loop_ok kw E m cs vs HP (fun k c => wm_supp kw M HM t m k c Hm) L H)
    as (js & ws & pcs & chs & H1 & H2 & H3 & H4 & H5 & H6 & H7).
  assert (Kc : map fst (combine cs vs) = cs) by (apply combine_keys, L).
  exists (concat pcs), js.
  exists {| tb_cols := tb_cols pt; tb_rows := tb_rows pt ++
            [map (fun c => (c, cell (map (fun kv => (fst kv, const_sql (snd kv))) (combine cs vs)) c)) (tb_cols pt)] |}.
  exists {| tb_cols := tb_cols et; tb_rows := tb_rows et ++
            [map (fun c => (c, cell (concat chs) c)) (tb_cols et)] |}.
  split; [|split; [|split]].
  - apply rewrite_insert; [exact Hm| |].
    + unfold columns_rw. rewrite (lookup_table _ _ _ Hm). cbn [bind iter]. rewrite H3. reflexivity.
    + unfold values_rw. rewrite (lookup_table _ _ _ Hm). cbn [bind].
      change (getitem _ (u "columns")) with (Ok (JList (map JStr cs))). cbn [bind iter]. rewrite H1. reflexivity.
  - unfold exec_insert.
    assert (mapM (insert_const kw) (map val vs) = Ok (map const_sql vs)) as ->.
    { assert (G : forall v, In v vs -> constant v).
      { intros v Hv. apply In_nth_error in Hv as [i Hi].
        assert (exists k, nth_error cs i = Some k) as [k Hk].
        { destruct (nth_error cs i) eqn:X; [eauto|]. apply nth_error_None in X.
          assert (nth_error vs i <> None) by congruence. apply nth_error_Some in H0. lia. }
        destruct (H k v) as (c & _ & Hc).
        - clear -Hi Hk. revert cs vs Hi Hk. induction i as [|i IH]; intros [|a cs] [|b vs] Hi Hk; try discriminate.
          + injection Hi as ->. injection Hk as ->. left. reflexivity.
          + right. apply IH; assumption.
        - apply const_ok_constant with E k c, Hc. }
      clear -G. induction vs as [|v vs IH]; [reflexivity|]. cbn [map mapM].
      rewrite insert_const_val by (apply G; left; reflexivity). cbn [bind].
      rewrite IH by (intros x Hx; apply G; right; exact Hx). reflexivity. }
    cbn [bind]. rewrite assoc_row_ok by (rewrite map_length; exact L). cbn [bind].
    rewrite combine_map_r.
    match goal with |- (if ?b then _ else _) = _ => assert (b = true) as -> end; [|reflexivity].
    apply forallb_forall. intros k Hk. unfold dkeys in Hk. rewrite map_map in Hk. cbn [fst] in Hk.
    change (map (fun x : pystr * json => fst x) (combine cs vs)) with (map fst (combine cs vs)) in Hk.
    apply in_map_iff in Hk as ((k0 & v) & E0 & Hk). cbn [fst] in E0. subst k0.
    destruct (H k v Hk) as (c & Hc & _). rewrite T1.
    assert (In k (dkeys (t_cols m))) by (apply dget_Some_key with c, Hc).
    apply andb_true_iff. split; [apply smem_In; assumption|]. apply colname_column, (wf_names kw m W). assumption.
  - unfold exec_insert. rewrite H2. cbn [bind]. rewrite H4, assoc_row_ok by congruence. cbn [bind].
    rewrite <- H5.
    match goal with |- (if ?b then _ else _) = _ => assert (b = true) as -> end; [|reflexivity].
    apply forallb_forall. intros n Hn. rewrite dkeys_concat in Hn.
    apply in_concat in Hn as (l & Hl & Xn). apply in_map_iff in Hl as (ch & <- & Hch).
    destruct (Forall2_In_r _ _ _ _ H7 Hch) as (kv & Hkv & c & Hc & _ & K1 & _).
    rewrite K1 in Xn. rewrite T2.
    assert (In n (phys m)).
    { unfold phys. apply in_concat. exists (phys_of (fst kv) c). split; [|exact Xn].
      apply in_map_iff. exists (fst kv, c). split; [reflexivity|]. apply dget_In, Hc. }
    apply andb_true_iff. split; [apply smem_In; assumption|]. apply colname_column, (wf_pnames kw m W). assumption.
  - constructor; cbn [tb_cols tb_rows]; [exact T1|exact T2|].
    apply Forall2_app_one; [exact T3|]. rewrite T1, T2. apply insert_row with kw; [exact W| |exact H7].
    rewrite Kc. exact ND.
Qed.
