(** C87: what becomes of the rows of INSERT ... VALUES. *)
From Coq Require Import String Ascii List NArith ZArith QArith Bool Lia.
From Verif Require Import Base JsonModel ScrubModel RewriteModel StmtSpec FmtModel OperSpec ValuesModel ValuesSpec ValuesProof RewriteExample.
Import ListNotations.
Open Scope nat_scope.

(** One row with at least two values for at least two columns: the statement that the rewriting is made for (C08, C81). *)
Theorem C87_one_row : forall t cols r, 2 <= length cols -> 2 <= length r ->
  exists o, parse_insert t cols [] [map token r] = Ok o /\ same_dict (json_of o) (insert_stmt t cols (map cell_json r)).
Proof.
  intros t cols r LC L. eexists. split; [exact (one_row t cols r L)|].
  destruct cols as [|a [|b cols]]; cbn [length] in LC; try lia. destruct r as [|c [|c2 r]]; cbn [length] in L; try lia.
  assert (E1 : json_of (cols_out (a :: b :: cols)) = JList (map JStr (a :: b :: cols))) by (cbn [cols_out json_of]; now rewrite map_map).
  assert (E2 : json_of (row_out (c :: c2 :: r)) = JDict [(u "select", JList (map val (map cell_json (c :: c2 :: r))))]).
  { change (json_of (row_out (c :: c2 :: r))) with (JDict [(u "select", JList (map json_of (map (fun c0 => ODict [(u "value", scrub (token c0))]) (c :: c2 :: r))))]).
    assert (E : map json_of (map (fun c0 => ODict [(u "value", scrub (token c0))]) (c :: c2 :: r)) = map val (map cell_json (c :: c2 :: r))).
    { rewrite !map_map. apply map_ext. intros x. unfold val. rewrite <- cell_json_ok. reflexivity. }
    rewrite E. reflexivity. }
  assert (D : drop_null [(u "columns", cols_out (a :: b :: cols))] = [(u "columns", cols_out (a :: b :: cols))]) by reflexivity. rewrite D. clear D.
  cbn [app json_of map fst snd same_dict insert_stmt] in *. rewrite E1, E2. set (x := JList _). set (y := JDict _). intros k.
  destruct (seqb k (u "insert")) eqn:K1; [apply BaseProof.seqb_eq in K1; subst k; reflexivity|].
  destruct (seqb k (u "columns")) eqn:K2; [apply BaseProof.seqb_eq in K2; subst k; reflexivity|].
  destruct (seqb k (u "query")) eqn:K3; [apply BaseProof.seqb_eq in K3; subst k; reflexivity|].
  cbn [dget]. now rewrite K1, K2, K3.
Qed.
Print Assumptions C87_one_row.

(** Refuted for one value: the statement cannot be rewritten, whatever the columns are. *)
Theorem C87_one_value_refuted : forall E (M : dbmeta) t m cols c, dget M t = Some m ->
  exists o, parse_insert t cols [] [[token c]] = Ok o /\ rewrite_query E M (json_of o) = Err KeyError.
Proof. intros E M t m cols c H. eexists. split; [exact (one_value t cols c)|now apply (rewrite_one_value E M t m)]. Qed.
Print Assumptions C87_one_value_refuted.

(** Refuted for several rows: none of them is ever encrypted.  If some row has one value only, or some value is 0, the
    empty text, NULL, a column or an expression, the rewriting raises KeyError. *)
Theorem C87_several_rows_refuted : forall E (M : dbmeta) t m cols rows, dget M t = Some m ->
  2 <= length rows -> Forall (fun r => r <> [] /\ Forall cell_ok r) rows -> plain_rows rows = false ->
  exists o, parse_insert t cols [] (map (map token) rows) = Ok o /\ rewrite_query E M (json_of o) = Err KeyError.
Proof. intros E M t m cols rows H L F P. eexists. split; [exact (several_union t cols rows L F P)|now apply (rewrite_union E M t m)]. Qed.
Print Assumptions C87_several_rows_refuted.

(** Otherwise the rows stay as they are, with the names of their columns; only the name of the table is replaced.  If the
    statement can be written, the text sent to the database contains each text value as a literal, for any table and any keys. *)
Theorem C87_clear_rows_refuted : forall E (M : dbmeta) t m cols rows, dget M t = Some m ->
  2 <= length rows -> Forall (fun r => r <> [] /\ Forall cell_ok r) rows -> plain_rows rows = true -> length cols <> 1 -> NoDup cols ->
  exists o q, parse_insert t cols [] (map (map token) rows) = Ok o /\
    rewrite_query E M (json_of o) = Ok (q, JStr t, s_empty) /\
    q = JDict [(u "values", JList (map (row_json cols) rows)); (u "insert", JStr (t_anon m))] /\
    (cols <> [] -> forall alnum fstr text, format_sql alnum fstr q = Ok text ->
     forall r k s, In r rows -> In (k, Text s) (combine cols r) -> occurs (quote_str s) text).
Proof.
  intros E M t m cols rows H L F P LC N. do 2 eexists. split; [exact (several_plain t cols rows L F P LC N)|].
  split; [|split; [reflexivity|]].
  - rewrite <- (rows_json_ok cols rows P). exact (rewrite_values E M t m _ H).
  - intros NE alnum fstr text. now apply values_text.
Qed.
Print Assumptions C87_clear_rows_refuted.

(** Values beyond the last column are dropped without an error, where the database would refuse the statement. *)
Theorem C87_extra_values_refuted : forall t cols rows, 2 <= length rows -> Forall (fun r => r <> [] /\ Forall cell_ok r) rows -> plain_rows rows = true ->
  2 <= length cols -> NoDup cols ->
  parse_insert t cols [] (map (map token) rows) = parse_insert t cols [] (map (map token) (map (firstn (length cols)) rows)).
Proof. exact extra_values. Qed.
Print Assumptions C87_extra_values_refuted.

(** Refuted for one column: where the database would refuse two values for one column, the name is taken apart, and each of its letters becomes the
    name of a column. *)
Theorem C87_one_column_refuted : forall t c rows, 2 <= length rows -> Forall (fun r => r <> [] /\ Forall cell_ok r) rows -> plain_rows rows = true -> NoDup c ->
  exists o, parse_insert t [c] [] (map (map token) rows) = Ok o /\
    json_of o = JDict [(u "values", JList (map (fun r => JDict (combine (map (fun x => [x]) c) (map plain_json r))) rows)); (u "insert", JStr t)].
Proof.
  intros t c rows L F P N. eexists. split; [exact (one_column t c rows L F P N)|].
  cbn [json_of map fst snd]. do 2 f_equal. apply f_equal. rewrite map_map. pose proof (plain_row rows P) as Q. clear -Q. apply f_equal.
  induction Q as [|r rows [_ H] Q IH]; [reflexivity|]. cbn [map]. rewrite IH. f_equal. cbn [json_of]. rewrite combine_map, map_map. f_equal. f_equal.
  clear -H. induction r as [|x r IH]; [reflexivity|]. cbn [forallb] in H. apply andb_true_iff in H. destruct H as [H1 H2]. cbn [map]. rewrite (IH H2). f_equal.
  destruct x as [z|s| |s|op a k|d]; try discriminate; reflexivity.
Qed.
Print Assumptions C87_one_column_refuted.

(** Refuted for columns whose name contains the word literal: as a value in one of several rows, TypeError; with one row
    they are read. *)
Theorem C87_literal_name_refuted : forall t cols s r r' rows, substrb (u "literal") s = true -> 1 <= length r ->
  Forall (fun r => r <> []) (r' :: rows) ->
  parse_insert t cols [] (map (map token) ((Column s :: r) :: r' :: rows)) = Err TypeError /\
  (exists o, parse_insert t cols [] [map token (Column s :: r)] = Ok o).
Proof.
  intros t cols s r r' rows S L F. split.
  - unfold parse_insert. rewrite rows_ok by (constructor; [discriminate|exact F]). cbn [bind map to_values mapM].
    destruct r as [|c r]; [cbn in L; lia|]. cbn [row_pv].
    match goal with |- context [item (PDict [(u "select", ?x)]) (u "select")] => change (item (PDict [(u "select", x)]) (u "select")) with (Ok x) end.
    cbn [bind listwrap map mapM]. change (item (PDict [(u "value", token (Column s))]) (u "value")) with (Ok (token (Column s))). cbn [bind token get_literal].
    rewrite S. reflexivity.
  - eexists. apply one_row. cbn [length]. lia.
Qed.
Print Assumptions C87_literal_name_refuted.

(** Example: INSERT INTO emp (id, name, age) VALUES (1, 'ann', 30), (2, 'bob', 41), where name and age are encrypted. *)
Definition emp_cols : list pystr := [u "id"; u "name"; u "age"].
Definition two_rows : list (list cell) := [[Num 1; Text (u "ann"); Num 30]; [Num 2; Text (u "bob"); Num 41]].
Example C87_example :
  parse_insert (u "emp") emp_cols [] (map (map token) two_rows) =
    Ok (ODict [(u "values", OList [ODict [(u "id", ONum 1); (u "name", OText (u "ann")); (u "age", ONum 30)];
                                   ODict [(u "id", ONum 2); (u "name", OText (u "bob")); (u "age", ONum 41)]]); (u "insert", OText (u "emp"))]) /\
  bind (parse_insert (u "emp") emp_cols [] (map (map token) two_rows))
       (fun o => do r <- rewrite_query exE exM (json_of o); format_sql (e_alnum exE) (fun _ => []) (fst (fst r))) =
    Ok (u "INSERT INTO t9f (age, id, name) VALUES (30, 1, 'ann')," ++ [10%N] ++ u "(41, 2, 'bob')") /\
  bind (parse_insert (u "emp") emp_cols [] (map (map token) [[Num 1; Text (u "ann"); Num 0]; [Num 2; Text (u "bob"); Num 41]]))
       (fun o => rewrite_query exE exM (json_of o)) = Err KeyError /\
  parse_insert (u "emp") emp_cols [] [map token [Num 1; Text (u "ann"); Num 30]] =
    Ok (ODict [(u "columns", OList (map OText emp_cols));
               (u "query", ODict [(u "select", OList [ODict [(u "value", ONum 1)]; ODict [(u "value", ODict [(u "literal", OText (u "ann"))])]; ODict [(u "value", ONum 30)]])]);
               (u "insert", OText (u "emp"))]) /\
  parse_insert (u "emp") [u "ab"] [] (map (map token) [[Num 1; Num 2]; [Num 3; Text (u "x")]]) =
    Ok (ODict [(u "values", OList [ODict [(u "a", ONum 1); (u "b", ONum 2)]; ODict [(u "a", ONum 3); (u "b", OText (u "x"))]]); (u "insert", OText (u "emp"))]).
Proof. repeat split; reflexivity. Qed.
