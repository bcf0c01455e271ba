(** Proofs about INSERT ... VALUES. *)
From Coq Require FinFun.
From Coq Require Import String Ascii List NArith ZArith Bool Lia.
From Verif Require Import Base BaseProof JsonModel ScrubModel ScrubProof RewriteModel StmtSpec StmtProof RewriteProof FmtModel OperSpec ValuesModel ValuesSpec.
Import ListNotations.

Lemma mapM_ok {A B} (f : A -> res B) (g : A -> B) l : (forall x, In x l -> f x = Ok (g x)) -> mapM f l = Ok (map g l).
Proof.
  induction l as [|x l IH]; intros H; [reflexivity|]. cbn [mapM map]. rewrite (H x (or_introl eq_refl)). cbn [bind].
  rewrite IH by (intros y I; apply H; now right). reflexivity.
Qed.

(** ** Rows *)
Definition row_pv (r : list cell) : pv :=
  match r with
  | [c] => PDict [(u "select", PDict [(u "value", group_of (token c))])]
  | _ => PDict [(u "select", PList (map (fun c => PDict [(u "value", token c)]) r))]
  end.
Lemma to_row_ok r : r <> [] -> to_row (map token r) = Ok (row_pv r).
Proof.
  intros NE. destruct r as [|c [|c2 r]]; [contradiction|reflexivity|]. cbn [map to_row row_pv]. now rewrite map_map.
Qed.
Lemma rows_ok rows : Forall (fun r => r <> []) rows -> mapM to_row (map (map token) rows) = Ok (map row_pv rows).
Proof.
  induction 1 as [|r rows H F IH]; [reflexivity|]. cbn [map mapM]. rewrite (to_row_ok r H). cbn [bind]. rewrite IH. reflexivity.
Qed.
(** What get_literal gives. *)
Definition lit (c : cell) : option pv := match c with Num z => Some (PNum z) | Text s => Some (PText s) | _ => None end.
Lemma literal_ok c : cell_ok c -> get_literal (token c) = Ok (lit c).
Proof. destruct c as [z|s| |s|op a k|d]; cbn; intros H; try reflexivity; now rewrite H. Qed.
Lemma lit_true c : py_true (lit c) = counts c.
Proof. destruct c as [z|[|x s]| |s|op a k|d]; reflexivity. Qed.
Definition row_lits (r : list cell) : list (option pv) := match r with [_] => [None] | _ => map lit r end.
Lemma row_lits_ok r : r <> [] -> Forall cell_ok r ->
  bind (item (row_pv r) (u "select")) (fun sel => mapM (fun s => do v <- item s (u "value"); get_literal v) (listwrap sel)) = Ok (row_lits r).
Proof.
  intros NE F. destruct r as [|c [|c2 r]]; [contradiction|reflexivity|].
  cbn [row_pv row_lits].
  change (item (PDict [(u "select", PList (map (fun c => PDict [(u "value", token c)]) (c :: c2 :: r)))]) (u "select"))
    with (Ok (PList (map (fun c => PDict [(u "value", token c)]) (c :: c2 :: r)))).
  cbn [bind listwrap]. revert F. generalize (c :: c2 :: r). intros l F.
  induction F as [|x l H F IH]; [reflexivity|]. cbn [map mapM].
  change (item (PDict [(u "value", token x)]) (u "value")) with (Ok (token x)). cbn [bind]. rewrite (literal_ok x H). cbn [bind]. rewrite IH. reflexivity.
Qed.
Lemma values_ok rows : Forall (fun r => r <> [] /\ Forall cell_ok r) rows ->
  mapM (fun row => do sel <- item row (u "select"); mapM (fun s => do v <- item s (u "value"); get_literal v) (listwrap sel)) (map row_pv rows)
  = Ok (map row_lits rows).
Proof.
  induction 1 as [|r rows [H1 H2] F IH]; [reflexivity|]. cbn [map mapM]. rewrite (row_lits_ok r H1 H2). cbn [bind]. rewrite IH. reflexivity.
Qed.
Lemma lits_true rows : Forall (fun r => r <> []) rows -> forallb py_true (concat (map row_lits rows)) = plain_rows rows.
Proof.
  induction 1 as [|r rows H F IH]; [reflexivity|]. cbn [map concat plain_rows forallb]. fold (plain_rows rows). rewrite forallb_app, IH.
  destruct r as [|c [|c2 r]]; [contradiction|reflexivity|]. f_equal. cbn [row_lits]. generalize (c :: c2 :: r). intros l.
  induction l as [|x l IHl]; [reflexivity|]. cbn [map forallb]. rewrite IHl, lit_true. reflexivity.
Qed.
Definition data (rows : list (list cell)) : list pv := map (fun r => PList (map plain_of (row_lits r))) rows.
Lemma to_values_several rows : (2 <= length rows)%nat -> Forall (fun r => r <> [] /\ Forall cell_ok r) rows ->
  to_values (map row_pv rows) =
  Ok (if plain_rows rows then PDict [(u "from", PDict [(u "literal", PList (data rows))])] else PDict [(u "union_all", PList (map row_pv rows))]).
Proof.
  intros L F. destruct rows as [|r1 [|r2 rows]]; cbn [length] in L; try lia. cbn [map to_values]. change (row_pv r1 :: row_pv r2 :: map row_pv rows) with (map row_pv (r1 :: r2 :: rows)).
  rewrite (values_ok _ F). cbn [bind]. rewrite lits_true by (eapply Forall_impl; [|exact F]; intros a H; apply H).
  destruct (plain_rows (r1 :: r2 :: rows)); [|reflexivity]. unfold data. now rewrite map_map.
Qed.

(** ** The call *)
Lemma call_plain t cols x l : to_insert_call t cols [] (PDict [(u "from", PDict [(u "literal", PList (x :: l))])]) =
  PCall (u "insert") (PList [PText t]) [(u "values", PList (match cols with [] => x :: l | _ => map (row_dict cols) (x :: l) end))].
Proof. destruct cols; reflexivity. Qed.
Lemma call_union t cols l : to_insert_call t cols [] (PDict [(u "union_all", PList l)]) =
  PCall (u "insert") (PList [PText t]) [(u "columns", columns_of cols); (u "query", PDict [(u "union_all", PList l)])].
Proof. reflexivity. Qed.
Lemma call_select t cols x : to_insert_call t cols [] (PDict [(u "select", x)]) =
  PCall (u "insert") (PList [PText t]) [(u "columns", columns_of cols); (u "query", PDict [(u "select", x)])].
Proof. reflexivity. Qed.

(** ** Scrubbing *)
Lemma scrub_call op args kw : scrub (PCall op args kw) = simple_op op (scrub args) (drop_null (map (fun kv => (fst kv, scrub (snd kv))) kw)).
Proof. reflexivity. Qed.
Lemma scrub_dict d : scrub (PDict d) = ODict (drop_null (map (fun kv => (fst kv, scrub (snd kv))) d)).
Proof. reflexivity. Qed.
Lemma drop_some k o d : o <> ONone -> drop_null ((k, o) :: d) = (k, o) :: drop_null d.
Proof. intros H. unfold drop_null. cbn [filter snd]. destruct o; (contradiction || reflexivity). Qed.
Lemma drop_none k d : drop_null ((k, ONone) :: d) = drop_null d.
Proof. reflexivity. Qed.
Definition cols_out (cols : list pystr) : out := match cols with [] => ONone | [c] => OText c | _ => OList (map OText cols) end.
Lemma scrub_texts l : map v_out (map sem (map PText l)) = map OText l.
Proof. induction l; cbn; congruence. Qed.
Lemma scrub_columns cols : scrub (columns_of cols) = cols_out cols.
Proof.
  destruct cols as [|c [|c2 cols]]; [reflexivity|reflexivity|]. cbn [columns_of]. rewrite scrub_res.
  change (ScrubModel.truthy (PRes [] false false (map PText (c :: c2 :: cols)))) with true. cbn match.
  assert (E : forall l acc, fold_left (fun acc t => match t with PRes n g _ _ => if named n then ScrubSpec.push acc (n, [t]) else if g then acc else fold_left ScrubSpec.push (ScrubSpec.entries t) acc | _ => acc end) (map PText l) acc = acc).
  { induction l as [|x l IH]; intros acc; [reflexivity|]. cbn [map fold_left]. apply IH. }
  change (ScrubSpec.entries (PRes [] false false (map PText (c :: c2 :: cols)))) with (fold_left (fun acc t => match t with PRes n g _ _ => if named n then ScrubSpec.push acc (n, [t]) else if g then acc else fold_left ScrubSpec.push (ScrubSpec.entries t) acc | _ => acc end) (map PText (c :: c2 :: cols)) []).
  rewrite E. cbn [map drop_null filter].
  assert (E2 : forall l, ScrubSpec.elements (PRes [] false false (map PText l)) = map PText l).
  { induction l as [|x l IH]; [reflexivity|]. cbn [map]. cbn [ScrubSpec.elements flat_map app] in *. now rewrite IH. }
  change (PText c :: PText c2 :: map PText cols) with (map PText (c :: c2 :: cols)). rewrite E2. rewrite scrub_list, map_map. reflexivity.
Qed.
Lemma token_some c : scrub (token c) <> ONone.
Proof. destruct c as [z|s| |s|op a k|d]; cbn; discriminate. Qed.
Lemma scrub_cell c : scrub (PDict [(u "value", token c)]) = ODict [(u "value", scrub (token c))].
Proof. rewrite scrub_dict. cbn [map fst snd]. rewrite drop_some by apply token_some. reflexivity. Qed.
Definition row_out (r : list cell) : out :=
  match r with
  | [c] => ODict [(u "select", ODict [(u "value", scrub (token c))])]
  | _ => ODict [(u "select", OList (map (fun c => ODict [(u "value", scrub (token c))]) r))]
  end.
Lemma scrub_group c : scrub (group_of (token c)) = scrub (token c).
Proof.
  unfold group_of. rewrite scrub_res.
  assert (T : ScrubModel.truthy (PRes [] true false [PRes [] false false [token c]]) = true) by (destruct c; reflexivity). rewrite T.
  assert (X : ScrubSpec.entries (PRes [] true false [PRes [] false false [token c]]) = []) by (destruct c; reflexivity). rewrite X. cbn [map drop_null filter].
  assert (Y : ScrubSpec.elements (PRes [] true false [PRes [] false false [token c]]) = [token c]) by (destruct c; reflexivity). rewrite Y, scrub_list. reflexivity.
Qed.
Lemma scrub_row r : r <> [] -> scrub (row_pv r) = row_out r.
Proof.
  intros NE. destruct r as [|c [|c2 r]]; [contradiction| |].
  - cbn [row_pv row_out]. rewrite scrub_dict. cbn [map fst snd]. rewrite drop_some; [|rewrite scrub_dict; discriminate]. rewrite scrub_dict. cbn [map fst snd].
    rewrite scrub_group, drop_some by apply token_some. reflexivity.
  - cbn [row_pv row_out]. rewrite scrub_dict. cbn [map fst snd]. 
    assert (E : scrub (PList (map (fun c0 : cell => PDict [(u "value", token c0)]) (c :: c2 :: r))) = OList (map (fun c0 => ODict [(u "value", scrub (token c0))]) (c :: c2 :: r))).
    { rewrite list_kept by (cbn [map length]; lia). f_equal. rewrite map_map. apply map_ext. exact scrub_cell. }
    cbn [map] in E |- *. rewrite E. reflexivity.
Qed.

(** ** One row *)
Lemma one_row t cols r : (2 <= length r)%nat -> parse_insert t cols [] [map token r] =
  Ok (ODict (drop_null [(u "columns", cols_out cols)] ++ [(u "query", row_out r); (u "insert", OText t)])).
Proof.
  intros L. unfold parse_insert. cbn [mapM]. rewrite (to_row_ok r) by (intros ->; cbn in L; lia). cbn [bind to_values].
  assert (R : exists x, row_pv r = PDict [(u "select", x)]) by (destruct r as [|c [|c2 r]]; eexists; reflexivity). destruct R as [x R]. rewrite R, call_select, <- R.
  rewrite scrub_call. cbn [map fst snd]. rewrite scrub_columns, scrub_row by (intros ->; cbn in L; lia). f_equal.
  destruct r as [|c [|c2 r]]; cbn [length] in L; try lia. destruct cols as [|a [|b cols]]; reflexivity.
Qed.
Lemma one_value t cols c : parse_insert t cols [] [[token c]] =
  Ok (ODict (drop_null [(u "columns", cols_out cols)] ++ [(u "query", row_out [c]); (u "insert", OText t)])).
Proof.
  unfold parse_insert. cbn [mapM to_row bind to_values]. rewrite call_select.
  change (PDict [(u "select", PDict [(u "value", group_of (token c))])]) with (row_pv [c]).
  rewrite scrub_call. cbn [map fst snd]. rewrite scrub_columns, scrub_row by discriminate. destruct cols as [|a [|b cols]]; reflexivity.
Qed.

(** ** Several rows *)
Lemma several_union t cols rows : (2 <= length rows)%nat -> Forall (fun r => r <> [] /\ Forall cell_ok r) rows -> plain_rows rows = false ->
  parse_insert t cols [] (map (map token) rows) =
  Ok (ODict (drop_null [(u "columns", cols_out cols)] ++ [(u "query", ODict [(u "union_all", OList (map row_out rows))]); (u "insert", OText t)])).
Proof.
  intros L F P. unfold parse_insert. assert (F1 : Forall (fun r => r <> []) rows) by (eapply Forall_impl; [|exact F]; intros a H; apply H).
  rewrite (rows_ok rows F1). cbn [bind]. rewrite (to_values_several rows L F), P. cbn [bind]. rewrite call_union, scrub_call. cbn [map fst snd].
  rewrite scrub_columns, scrub_dict. cbn [map fst snd]. rewrite (list_kept (map row_pv rows)) by (rewrite map_length; lia).
  assert (E : map scrub (map row_pv rows) = map row_out rows).
  { clear -F1. induction F1 as [|r rows H F IH]; [reflexivity|]. cbn [map]. rewrite IH, (scrub_row r H). reflexivity. }
  rewrite E. destruct cols as [|a [|b cols]]; reflexivity.
Qed.
Lemma lits_values r : (2 <= length r)%nat -> forallb counts r = true -> map scrub (map plain_of (row_lits r)) = map value r.
Proof.
  intros L C. assert (E : row_lits r = map lit r) by (destruct r as [|c [|c2 r]]; cbn [length] in L; try lia; reflexivity). rewrite E. clear E L.
  induction r as [|c r IH]; [reflexivity|]. cbn [forallb] in C. apply andb_true_iff in C. destruct C as [C1 C2]. cbn [map]. rewrite (IH C2). f_equal.
  destruct c as [z|s| |s|op a k|d]; try discriminate; reflexivity.
Qed.
Lemma dset_fresh {V} (d : dict V) k v : ~ In k (dkeys d) -> dset d k v = d ++ [(k, v)].
Proof.
  induction d as [|[k' v'] d IH]; intros H; [reflexivity|]. cbn [dset]. destruct (seqb k k') eqn:E.
  - apply seqb_eq in E. subst. exfalso. apply H. now left.
  - cbn [app]. rewrite IH; [reflexivity|]. intros J. apply H. now right.
Qed.
Lemma fold_dset {V} (l : list (pystr * V)) : NoDup (map fst l) -> forall acc, (forall k, In k (map fst l) -> ~ In k (dkeys acc)) ->
  fold_left (fun d kv => dset d (fst kv) (snd kv)) l acc = acc ++ l.
Proof.
  induction l as [|[k v] l IH]; intros N acc H; [now rewrite app_nil_r|]. cbn [map fst] in N. inversion N as [|? ? N1 N2]; subst. cbn [fold_left fst snd].
  rewrite dset_fresh by (apply H; now left). rewrite IH; [now rewrite <- app_assoc|exact N2|]. intros k' I J. unfold dkeys in J. rewrite map_app in J. apply in_app_iff in J.
  destruct J as [J|[J|[]]]; [apply (H k'); [now right|exact J]|]. cbn in J. subst. contradiction.
Qed.
Lemma combine_keys {A B} (a : list A) (b : list B) : NoDup a -> NoDup (map fst (combine a b)).
Proof.
  intros N. revert b. induction N as [|x a H N IH]; intros b; [constructor|]. destruct b as [|y b]; [constructor|]. cbn [combine map fst]. constructor; [|apply IH].
  intros I. apply H. apply in_map_iff in I. destruct I as ([p q] & <- & I). now apply in_combine_l in I.
Qed.
Lemma combine_map {A B C} (f : B -> C) (a : list A) (b : list B) : map (fun kv => (fst kv, f (snd kv))) (combine a b) = combine a (map f b).
Proof. revert b. induction a as [|x a IH]; intros [|y b]; [reflexivity..|]. cbn. now rewrite IH. Qed.
Lemma drop_keep l : Forall (fun kv : pystr * out => snd kv <> ONone) l -> drop_null l = l.
Proof. induction 1 as [|[k o] l H F IH]; [reflexivity|]. rewrite drop_some by exact H. now rewrite IH. Qed.
Lemma combine_some cols r : forallb counts r = true -> Forall (fun kv : pystr * out => snd kv <> ONone) (combine cols (map value r)).
Proof.
  revert cols. induction r as [|c r IH]; intros [|k cols] C; [constructor..|]. cbn [forallb] in C. apply andb_true_iff in C. destruct C as [C1 C2].
  cbn [map combine]. constructor; [|now apply IH]. destruct c as [z|s| |s|op a k0|d]; try discriminate; cbn; discriminate.
Qed.
Lemma row_dict_out cols r : (2 <= length cols)%nat -> NoDup cols -> (2 <= length r)%nat -> forallb counts r = true ->
  scrub (row_dict cols (PList (map plain_of (row_lits r)))) = ODict (combine cols (map value r)).
Proof.
  intros LC N L C. unfold row_dict. assert (I : iter_columns cols = cols) by (destruct cols as [|a [|b cols]]; cbn [length] in LC; try lia; reflexivity). rewrite I.
  rewrite fold_dset by (try (intros k _ []); now apply combine_keys). cbn [app]. rewrite scrub_dict, combine_map, (lits_values r L C). rewrite drop_keep by now apply combine_some. reflexivity.
Qed.
Lemma row_list_out r : (2 <= length r)%nat -> forallb counts r = true -> scrub (PList (map plain_of (row_lits r))) = OList (map value r).
Proof.
  intros L C. rewrite scrub_list, (lits_values r L C). destruct r as [|c [|c2 r]]; cbn [length] in L; try lia. reflexivity.
Qed.
Definition rows_out (cols : list pystr) (rows : list (list cell)) : list out :=
  match cols with [] => map (fun r => OList (map value r)) rows | _ => map (fun r => ODict (combine cols (map value r))) rows end.
Lemma plain_row rows : plain_rows rows = true -> Forall (fun r => (2 <= length r)%nat /\ forallb counts r = true) rows.
Proof.
  unfold plain_rows. intros P. rewrite forallb_forall in P. apply Forall_forall. intros r I. specialize (P r I). destruct r as [|c [|c2 r]]; try discriminate.
  split; [cbn [length]; lia|exact P].
Qed.
Lemma several_call t cols rows : (2 <= length rows)%nat -> Forall (fun r => r <> [] /\ Forall cell_ok r) rows -> plain_rows rows = true ->
  parse_insert t cols [] (map (map token) rows) =
  Ok (scrub (PCall (u "insert") (PList [PText t]) [(u "values", PList (match cols with [] => data rows | _ => map (row_dict cols) (data rows) end))])).
Proof.
  intros L F P. unfold parse_insert. assert (F1 : Forall (fun r => r <> []) rows) by (eapply Forall_impl; [|exact F]; intros a H; apply H).
  rewrite (rows_ok rows F1). cbn [bind]. rewrite (to_values_several rows L F), P. cbn [bind].
  destruct rows as [|r rows]; [cbn in L; lia|]. cbn [data map]. rewrite call_plain. reflexivity.
Qed.
Lemma several_plain t cols rows : (2 <= length rows)%nat -> Forall (fun r => r <> [] /\ Forall cell_ok r) rows -> plain_rows rows = true ->
  length cols <> 1%nat -> NoDup cols ->
  parse_insert t cols [] (map (map token) rows) = Ok (ODict [(u "values", OList (rows_out cols rows)); (u "insert", OText t)]).
Proof.
  intros L F P LC N. rewrite (several_call t cols rows L F P). f_equal. rewrite scrub_call. cbn [map fst snd].
  pose proof (plain_row rows P) as Q.
  assert (E : scrub (PList (match cols with [] => data rows | _ => map (row_dict cols) (data rows) end)) = OList (rows_out cols rows)).
  { rewrite list_kept by (unfold data; destruct cols; rewrite ?map_length; lia). f_equal. unfold data, rows_out. destruct cols as [|a cols].
    - rewrite map_map. clear -Q. induction Q as [|r rows [H1 H2] Q IH]; [reflexivity|]. cbn [map]. now rewrite IH, row_list_out.
    - rewrite !map_map. assert (LC2 : (2 <= length (a :: cols))%nat) by (cbn [length] in *; lia). clear -Q N LC2.
      induction Q as [|r rows [H1 H2] Q IH]; [reflexivity|]. cbn [map]. rewrite IH. f_equal. now apply row_dict_out. }
  rewrite E. reflexivity.
Qed.

(** One column only: its name is iterated over its characters. *)
Lemma one_column t c rows : (2 <= length rows)%nat -> Forall (fun r => r <> [] /\ Forall cell_ok r) rows -> plain_rows rows = true -> NoDup c ->
  parse_insert t [c] [] (map (map token) rows) =
  Ok (ODict [(u "values", OList (map (fun r => ODict (combine (map (fun x => [x]) c) (map value r))) rows)); (u "insert", OText t)]).
Proof.
  intros L F P N. rewrite (several_call t [c] rows L F P). f_equal. rewrite scrub_call. cbn [map fst snd].
  pose proof (plain_row rows P) as Q.
  assert (E : scrub (PList (map (row_dict [c]) (data rows))) = OList (map (fun r => ODict (combine (map (fun x => [x]) c) (map value r))) rows)).
  { rewrite list_kept by (unfold data; rewrite ?map_length; lia). f_equal. unfold data. rewrite !map_map. clear -Q N.
    induction Q as [|r rows [H1 H2] Q IH]; [reflexivity|]. cbn [map]. rewrite IH. f_equal. unfold row_dict. cbn [iter_columns].
    rewrite fold_dset.
    - cbn [app]. rewrite scrub_dict, combine_map, (lits_values r H1 H2). rewrite drop_keep by now apply combine_some. reflexivity.
    - apply combine_keys. apply FinFun.Injective_map_NoDup; [|exact N]. intros x y E. now injection E.
    - intros k _ []. }
  rewrite E. reflexivity.
Qed.

(** ** Rewriting *)
Lemma rewrite_values E (M : dbmeta) t m rows : dget M t = Some m ->
  rewrite_query E M (JDict [(u "values", rows); (u "insert", JStr t)]) =
  Ok (JDict [(u "values", rows); (u "insert", JStr (t_anon m))], JStr t, s_empty).
Proof.
  intros Hm. apply anonymous_ok in Hm. unfold rewrite_query.
  change (find_table table_key _) with (Ok (JStr t)). cbn [bind].
  match goal with |- context [clauses_rw _ _ _ _ ?n _ _ _] => generalize n as nested end. intros nested.
  match goal with |- context [clauses_rw _ _ _ ?s _ _ _ _] => generalize s at 1 as source end. intros source.
  unfold clause_keys. step cl_insert Hm. do 16 skip. reflexivity.
Qed.
Lemma mapM_err {A B} (f : A -> res B) e l : (forall x, In x l -> (exists y, f x = Ok y) \/ f x = Err e) -> (exists ys, mapM f l = Ok ys) \/ mapM f l = Err e.
Proof.
  induction l as [|x l IH]; intros H; [left; eexists; reflexivity|]. cbn [mapM]. destruct (H x (or_introl eq_refl)) as [[y ->]| ->]; [|right; reflexivity].
  cbn [bind]. destruct IH as [[ys ->]| ->]; [intros z I; apply H; now right|left; eexists; reflexivity|right; reflexivity].
Qed.
Lemma columns_key (M : dbmeta) t m cols : dget M t = Some m -> cols <> [] ->
  (exists y, columns_rw M (JStr t) (json_of (cols_out cols)) = Ok y) \/ columns_rw M (JStr t) (json_of (cols_out cols)) = Err KeyError.
Proof.
  intros H NE. unfold columns_rw. rewrite (lookup_table _ _ _ H). cbn [bind].
  assert (I : exists l, iter (json_of (cols_out cols)) = Ok (map JStr l)).
  { destruct cols as [|a [|b cols]]; [contradiction| |].
    - exists (map (fun x => [x]) a). cbn. now rewrite map_map.
    - exists (a :: b :: cols). cbn [cols_out json_of iter]. now rewrite map_map. }
  destruct I as [l ->]. cbn [bind].
  destruct (mapM_err (columns_col m) KeyError (map JStr l)) as [[y ->]| ->]; [|left; eexists; reflexivity|right; reflexivity].
  intros x J. apply in_map_iff in J. destruct J as (s & <- & _). unfold columns_col. cbn [lookup]. unfold dgetE. destruct (dget (t_cols m) s) as [c|]; [|right; reflexivity].
  cbn [bind]. destruct (c_plain c); left; eexists; reflexivity.
Qed.
Lemma rewrite_bad E (M : dbmeta) t m cols q : dget M t = Some m ->
  (forall f y, inner f (JDict [(u "query", json_of q); (u "insert", y)]) (u "query") = Err KeyError) ->
  (forall f x y, inner f (JDict [(u "columns", x); (u "query", json_of q); (u "insert", y)]) (u "query") = Err KeyError) ->
  rewrite_query E M (json_of (ODict (drop_null [(u "columns", cols_out cols)] ++ [(u "query", q); (u "insert", OText t)]))) = Err KeyError.
Proof.
  intros Hm Q1 Q2. pose proof (columns_key M t m cols Hm) as C. apply anonymous_ok in Hm.
  destruct cols as [|a cols].
  - cbn [cols_out drop_null filter snd not_null app json_of map fst]. unfold rewrite_query.
    change (find_table table_key _) with (Ok (JStr t)). cbn [bind].
    match goal with |- context [clauses_rw _ _ _ _ ?n _ _ _] => generalize n as nested end. intros nested.
    match goal with |- context [clauses_rw _ _ _ ?s _ _ _ _] => generalize s at 1 as source end. intros source.
    unfold clause_keys. step cl_insert Hm. do 10 skip.
    erewrite clause_err; [reflexivity|reflexivity|reflexivity|]. rewrite cl_query. 
    change (dset [(u "query", json_of q); (u "insert", JStr t)] (u "insert") (JStr (t_anon m))) with [(u "query", json_of q); (u "insert", JStr (t_anon m))]. rewrite Q1. reflexivity.
  - specialize (C ltac:(discriminate)).
    assert (D : drop_null [(u "columns", cols_out (a :: cols))] = [(u "columns", cols_out (a :: cols))]) by (destruct cols; reflexivity). rewrite D. clear D.
    cbn [app json_of map fst snd]. set (cj := json_of (cols_out (a :: cols))) in *. unfold rewrite_query.
    change (find_table table_key _) with (Ok (JStr t)). cbn [bind].
    match goal with |- context [clauses_rw _ _ _ _ ?n _ _ _] => generalize n as nested end. intros nested.
    match goal with |- context [clauses_rw _ _ _ ?s _ _ _ _] => generalize s at 1 as source end. intros source.
    unfold clause_keys. step cl_insert Hm. do 8 skip. destruct C as [[y C]|C].
    + step cl_columns C. skip. erewrite clause_err; [reflexivity|reflexivity|reflexivity|]. rewrite cl_query. 
      change (dset (dset [(u "columns", cj); (u "query", json_of q); (u "insert", JStr t)] (u "insert") (JStr (t_anon m))) (u "columns") y)
        with [(u "columns", y); (u "query", json_of q); (u "insert", JStr (t_anon m))]. rewrite Q2. reflexivity.
    + erewrite clause_err; [reflexivity|reflexivity|reflexivity|]. rewrite cl_columns, C. reflexivity.
Qed.
Lemma rewrite_union E (M : dbmeta) t m cols l : dget M t = Some m ->
  rewrite_query E M (json_of (ODict (drop_null [(u "columns", cols_out cols)] ++ [(u "query", ODict [(u "union_all", OList l)]); (u "insert", OText t)]))) = Err KeyError.
Proof. intros H. apply (rewrite_bad E M t m cols _ H); reflexivity. Qed.
Lemma rewrite_one_value E (M : dbmeta) t m cols c : dget M t = Some m ->
  rewrite_query E M (json_of (ODict (drop_null [(u "columns", cols_out cols)] ++ [(u "query", row_out [c]); (u "insert", OText t)]))) = Err KeyError.
Proof. intros H. apply (rewrite_bad E M t m cols _ H); reflexivity. Qed.

(** ** The values of the parsed rows *)
Lemma cell_json_ok c : json_of (scrub (token c)) = cell_json c.
Proof. destruct c; reflexivity. Qed.
Lemma row_json_ok cols r : Forall (fun c => counts c = true) r ->
  json_of (match cols with [] => OList (map value r) | _ => ODict (combine cols (map value r)) end) = row_json cols r.
Proof.
  intros F. assert (E : map json_of (map value r) = map plain_json r).
  { induction F as [|c r H F IH]; [reflexivity|]. cbn [map]. rewrite IH. destruct c; reflexivity || discriminate. }
  destruct cols as [|a cols]; cbn [json_of row_json]; [now rewrite E|]. rewrite <- E. f_equal. generalize (a :: cols). clear. intros l. revert l.
  induction r as [|c r IH]; intros [|x l]; [reflexivity..|]. cbn. now rewrite IH.
Qed.
Lemma rows_json_ok cols rows : plain_rows rows = true -> map json_of (rows_out cols rows) = map (row_json cols) rows.
Proof.
  intros P. assert (Q : Forall (fun r => Forall (fun c => counts c = true) r) rows).
  { eapply Forall_impl; [|exact (plain_row rows P)]. intros r [_ H]. apply Forall_forall. now apply forallb_forall. }
  unfold rows_out. pose proof (row_json_ok cols) as R.
  destruct cols as [|a cols]; rewrite map_map; apply map_ext_in; intros r I; apply (R r); rewrite Forall_forall in Q; now apply Q.
Qed.

(** ** The text of the rewritten statement *)
Lemma occurs_join sep l s : In s l -> occurs s (join sep l).
Proof.
  induction l as [|x l IH]; intros I; [destruct I|]. destruct l as [|y l].
  - destruct I as [->|[]]. exists [], []. now rewrite app_nil_r.
  - change (join sep (x :: y :: l)) with (x ++ sep ++ join sep (y :: l)). destruct I as [->|I].
    + exists [], (sep ++ join sep (y :: l)). reflexivity.
    + destruct (IH I) as (a & b & ->). exists (x ++ sep ++ a), b. now rewrite <- !app_assoc.
Qed.
Lemma occurs_trans a b c : occurs a b -> occurs b c -> occurs a c.
Proof. intros (p & q & ->) (p' & q' & ->). exists (p' ++ p), (q ++ q'). now rewrite <- !app_assoc. Qed.
Lemma insert_sorted_in x y l : In y (insert_sorted x l) <-> y = x \/ In y l.
Proof.
  induction l as [|z l IH]; cbn [insert_sorted]; [cbn; intuition|]. destruct (seqb x z) eqn:E; [apply seqb_eq in E; subst; cbn; intuition; subst; auto|].
  destruct (str_le x z); cbn [In]; [intuition|]. rewrite IH. intuition.
Qed.
Lemma sort_keys_in y l : In y (sort_keys l) <-> In y l.
Proof. induction l as [|x l IH]; [reflexivity|]. cbn [sort_keys fold_right]. fold (sort_keys l). rewrite insert_sorted_in, IH. cbn. intuition. Qed.
Lemma mapM_in {A B} (f : A -> res B) l ys x : mapM f l = Ok ys -> In x l -> exists y, f x = Ok y /\ In y ys.
Proof.
  revert ys. induction l as [|z l IH]; intros ys H I; [destruct I|]. cbn [mapM] in H. destruct (f z) as [y|e] eqn:F; [|discriminate]. cbn [bind] in H.
  destruct (mapM f l) as [ys'|e] eqn:Q; [|discriminate]. cbn in H. injection H as <-. destruct I as [->|I]; [exists y; split; [exact F|now left]|].
  destruct (IH ys' eq_refl I) as (y' & E & J). exists y'. split; [exact E|now right].
Qed.
Lemma dget_in {V} (d : dict V) k v : NoDup (dkeys d) -> In (k, v) d -> dget d k = Some v.
Proof.
  induction d as [|[k' v'] d IH]; intros N I; [destruct I|]. cbn [dkeys map fst] in N. inversion N as [|? ? N1 N2]; subst. cbn [dget]. destruct I as [I|I].
  - injection I as -> ->. now rewrite (proj2 (seqb_eq k k) eq_refl).
  - destruct (seqb k k') eqn:E; [|now apply IH]. apply seqb_eq in E. subst. exfalso. apply N1. apply in_map_iff. exists (k', v). auto.
Qed.
Lemma values_text alnum fstr t cols rows text : cols <> [] -> NoDup cols ->
  format_sql alnum fstr (JDict [(u "values", JList (map (row_json cols) rows)); (u "insert", JStr t)]) = Ok text ->
  forall r k s, In r rows -> In (k, Text s) (combine cols r) -> occurs (quote_str s) text.
Proof.
  intros NE N H r k s IR IC. destruct cols as [|a cols]; [contradiction|]. set (C := a :: cols) in *.
  assert (RJ : forall r', row_json C r' = JDict (combine C (map plain_json r'))) by reflexivity.
  unfold format_sql in H. match type of H with dispatch _ _ _ (?n + 3) _ _ = _ => replace (n + 3)%nat with (S (n + 2)) in H by lia; generalize dependent (n + 2)%nat end. intros n H.
  cbn [dispatch] in H. set (D := dispatch alnum fstr true n) in *. set (J := JList (map (row_json C) rows)) in *.
  change (dispatch_step alnum fstr true D (JDict [(u "values", J); (u "insert", JStr t)]) max_prec) with (fmt_insert fstr D [(u "values", J); (u "insert", JStr t)]) in H.
  unfold fmt_insert in H. change (dgetE [(u "values", J); (u "insert", JStr t)] (u "insert")) with (Ok (JStr t)) in H. cbn [bind CreateModel.as_str] in H.
  change (dget [(u "values", J); (u "insert", JStr t)] (u "columns")) with (@None json) in H.
  change (dget [(u "values", J); (u "insert", JStr t)] (u "values")) with (Some J) in H. cbn match in H. cbn [bind] in H. unfold J in H. cbn [iter bind] in H.
  assert (FD : forallb is_dict (map (row_json C) rows) = true).
  { apply forallb_forall. intros x I. apply in_map_iff in I. destruct I as (r' & <- & _). rewrite RJ. reflexivity. }
  rewrite FD in H. set (names := sort_keys (concat (map dict_keys (map (row_json C) rows)))) in *.
  destruct (sql_list D (map JStr names) (prec_of (u "from") - 4)) as [cs|e]; [|discriminate]. cbn [bind] in H.
  match type of H with context [mapM ?f ?l] => destruct (mapM f l) as [rs|e] eqn:Q; [|discriminate] end. cbn [bind] in H.
  match type of H with Ok ?x = Ok ?y => assert (HX : text = x) by congruence end. clear H.
  destruct (mapM_in _ _ _ (row_json C r) Q) as (rt & R1 & R2); [apply in_map_iff; exists r; auto|].
  match type of R1 with context [mapM ?f ?l] => destruct (mapM f l) as [cells|e] eqn:Q2; [|discriminate] end. cbn [bind] in R1.
  assert (IK : In (k, JStr s) (combine C (map plain_json r))).
  { revert IC. generalize C. clear. induction r as [|c r IH]; intros [|x l] I; try destruct I as [I|I]; try (destruct I; fail).
    - injection I as -> ->. now left.
    - right. now apply IH. }
  destruct (mapM_in _ _ _ k Q2) as (ct & E1 & E2).
  { apply sort_keys_in, in_concat. exists (dkeys (combine C (map plain_json r))). split.
    - apply in_map_iff. exists (row_json C r). split; [now rewrite RJ|]. apply in_map_iff. exists r. auto.
    - apply in_map_iff. exists (k, JStr s). auto. }
  rewrite RJ in E1. cbn [getitem] in E1. unfold dgetE in E1. rewrite (dget_in _ k (JStr s)) in E1; [|now apply combine_keys|exact IK]. cbn [bind] in E1. cbn in E1.
  assert (CT : ct = quote_str s) by congruence. subst ct.
  apply (occurs_trans _ rt); [|apply (occurs_trans _ (join (u "," ++ [10%N]) rs))].
  - assert (RT : rt = paren (join (u ", ") cells)) by congruence. subst rt. apply (occurs_trans _ (join (u ", ") cells)); [now apply occurs_join|].
    exists (u "("), (u ")"). reflexivity.
  - now apply occurs_join.
  - rewrite HX. apply occurs_join. rewrite app_nil_l. apply in_app_iff. right. apply in_app_iff. right. apply in_app_iff. right. right. now left.
Qed.

(** ** More values than columns *)
Lemma combine_cut {A B} (a : list A) (b : list B) : combine a (firstn (length a) b) = combine a b.
Proof. revert b. induction a as [|x a IH]; intros [|y b]; [reflexivity..|]. cbn. now rewrite IH. Qed.
Lemma forallb_cut {A} (f : A -> bool) n l : forallb f l = true -> forallb f (firstn n l) = true.
Proof. revert n. induction l as [|x l IH]; intros [|n] H; [reflexivity..|]. cbn [forallb firstn] in *. apply andb_true_iff in H. destruct H as [-> H]. now apply IH. Qed.
Lemma cut_plain n rows : (2 <= n)%nat -> plain_rows rows = true -> plain_rows (map (firstn n) rows) = true.
Proof.
  intros L P. unfold plain_rows in *. rewrite forallb_forall in *. intros x I. apply in_map_iff in I. destruct I as (r & <- & I). specialize (P r I).
  destruct n as [|[|n]]; try lia. destruct r as [|c [|c2 r]]; try discriminate. apply (forallb_cut counts (S (S n)) (c :: c2 :: r)). exact P.
Qed.
Lemma cut_ok n (rows : list (list cell)) : (1 <= n)%nat -> Forall (fun r => r <> [] /\ Forall cell_ok r) rows -> Forall (fun r => r <> [] /\ Forall cell_ok r) (map (firstn n) rows).
Proof.
  intros L F. apply Forall_forall. intros x I. apply in_map_iff in I. destruct I as (r & <- & I). rewrite Forall_forall in F. destruct (F r I) as [H1 H2].
  split; [destruct n; [lia|]; destruct r; [contradiction|discriminate]|]. apply Forall_forall. intros y J. rewrite Forall_forall in H2. apply H2.
  rewrite <- (firstn_skipn n r). apply in_app_iff. now left.
Qed.
Lemma extra_values t cols rows : (2 <= length rows)%nat -> Forall (fun r => r <> [] /\ Forall cell_ok r) rows -> plain_rows rows = true ->
  (2 <= length cols)%nat -> NoDup cols ->
  parse_insert t cols [] (map (map token) rows) = parse_insert t cols [] (map (map token) (map (firstn (length cols)) rows)).
Proof.
  intros L F P LC N. rewrite (several_plain t cols rows L F P) by (lia || exact N).
  rewrite (several_plain t cols (map (firstn (length cols)) rows)); [|now rewrite map_length|apply cut_ok; [lia|exact F]|now apply cut_plain|lia|exact N].
  assert (E : rows_out cols rows = rows_out cols (map (firstn (length cols)) rows)); [|now rewrite E].
  unfold rows_out. destruct cols as [|a cols]; [cbn in LC; lia|]. rewrite map_map. apply map_ext. intros r.
  rewrite <- firstn_map, combine_cut. reflexivity.
Qed.
