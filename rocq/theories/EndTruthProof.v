(** The truth value of a parsed condition is that of the expression it stands for. *)
From Coq Require Import String Ascii List Arith NArith ZArith QArith Bool Lia.
From Verif Require Import Base BaseProof JsonModel JsonProof CreateModel DotsModel DotsSpec DotsProof LikeSpec SqlSpec SqlLex SqlRead FmtModel FmtSpec
  FmtExprProof ScrubModel OperSpec OperProof EndSpec EndParseProof.
Import ListNotations.

(** ** Names of one part *)
Lemma escdot_back : forall f, free BEL (replace_escdot BEL f) -> replace_escdot BEL f = f.
Proof.
  apply (pystr_two_ind (fun f => free BEL (replace_escdot BEL f) -> replace_escdot BEL f = f)); [reflexivity|reflexivity|].
  intros c d r _ IH H. cbn [replace_escdot] in H |- *. destruct (N.eqb c BSL && N.eqb d DOT) eqn:E.
  - exfalso. apply H. now left.
  - f_equal. apply IH. intros X. apply H. now right.
Qed.
Lemma lstrip_le s : (length (lstrip_dots s) <= length s)%nat.
Proof. induction s as [|c s IH]; [reflexivity|]. cbn [lstrip_dots]. destruct (N.eqb c DOT); cbn; lia. Qed.
Lemma rep1_In a t x s : In a s -> In x t -> In x (replace1 a t s).
Proof.
  intros A X. unfold replace1. apply in_flat_map. exists a. split; [exact A|]. now rewrite N.eqb_refl.
Qed.
Lemma names_single f p : split_names f = [p] -> ~ In DOT p -> p = f /\ ~ In DOT f /\ ~ In BS f.
Proof.
  unfold split_names. set (g := replace_escdot BEL f). set (x := replace1 BS [BSL; DOT] g). intros H D.
  pose proof (BaseProof.join_split DOT x) as J. pose proof (split_free x) as SF.
  destruct (split DOT x) as [|y [|]]; try discriminate H. cbn [join] in J. subst y. cbn [map] in H. injection H as H.
  inversion SF as [|? ? DX _]; subst.
  assert (BX : free BEL x) by (intros Y; apply D; apply rep1_In; cbn; auto).
  assert (BG : free BS g) by (intros Y; apply DX; apply rep1_In; cbn; auto).
  assert (E : x = g) by now apply rep1_free. rewrite E in *.
  assert (F : g = f) by now apply escdot_back. rewrite F in *.
  rewrite rep1_free by exact BX. auto.
Qed.
Lemma field_single s p : split_field s = [Name p] -> ~ In DOT p -> s = p.
Proof.
  unfold split_field. destruct (seqb s [DOT]); [discriminate|]. destruct (has_char DOT s || has_char BS s) eqn:B.
  2:{ intros H _. now injection H. }
  assert (G : map Name (split_names s) = [Name p] -> ~ In DOT p -> s = p).
  { intros H D. destruct (split_names s) as [|y [|]] eqn:E; try discriminate H. injection H as ->. symmetry. now apply names_single. }
  destruct s as [|c [|d r]]; try exact G. destruct (N.eqb c DOT && N.eqb d DOT) eqn:K; [|exact G].
  intros H _. exfalso. apply andb_true_iff in K as [K1 K2].
  assert (L : (1 <= length (c :: d :: r) - length (lstrip_dots (c :: d :: r)) - 1)%nat).
  { cbn [lstrip_dots]. rewrite K1, K2. pose proof (lstrip_le r). cbn [length]. lia. }
  cbv zeta in H. destruct (length (c :: d :: r) - length (lstrip_dots (c :: d :: r)) - 1)%nat; [lia|]. discriminate H.
Qed.
Lemma col_single s p : col_of s = Some (ECol [p]) -> ~ In DOT p -> s = p.
Proof.
  unfold col_of. destruct (seqb s (u "*")); [discriminate|]. intros H D.
  apply field_single; [|exact D]. destruct (split_field s) as [|x [|y l]]; try discriminate H.
  - destruct x; [discriminate H|]. now injection H as ->.
  - cbn in H. destruct x; [discriminate H|]. destruct y; [discriminate H|]. destruct (mapO _ l); discriminate H.
Qed.

(** ** Comparison operators *)
Lemma holds_sat o c : In o [OEq; ONeq; OLt; OGt; OLte; OGte] -> exists b, sat o c = Ok b /\ holds (bname o) c = Some b.
Proof. intros H. cbn in H. repeat (destruct H as [<-|H]; [destruct c; (eexists; split; reflexivity)|]). destruct H. Qed.
Lemma compare_holds o a b : In o [OEq; ONeq; OLt; OGt; OLte; OGte] ->
  compare_vals o a b = do c <- vcmp a b; Ok (match c with Some c => holds (bname o) c | None => None end).
Proof.
  intros H. assert (E : compare_vals o a b = do c <- vcmp a b; match c with Some c => do x <- sat o c; Ok (Some x) | None => Ok None end).
  { cbn in H. repeat (destruct H as [<-|H]; [reflexivity|]). destruct H. }
  rewrite E. destruct (vcmp a b) as [[c|]|]; try reflexivity. cbn [bind].
  destruct (holds_sat o c H) as (x & -> & ->). reflexivity.
Qed.

Section View.
Variable kw : pystr -> bool.
Variable al : N -> bool.

(** Quoted names are texts to a database for which double quotes delimit texts. *)
Definition vleaf (t : tree) : tree := match t with ECol [p] => if should_quote al p then EStr p else t | _ => t end.
Fixpoint view (t : tree) : tree :=
  match t with
  | EBin o a b => EBin o (view a) (view b)
  | ENot a => ENot (view a)
  | EIn n m l => EIn n (vleaf m) (map vleaf l)
  | EBetween n a b c => EBetween n (vleaf a) (vleaf b) (vleaf c)
  | EIs n a => EIs n (vleaf a)
  | _ => vleaf t
  end.
Lemma view_leaf t : value_tree t = true -> view t = vleaf t.
Proof. destruct t; try discriminate; reflexivity. Qed.

Definition clear_col (l : list pystr) : Prop := exists p, l = [p] /\ ~ In DOT p /\ name_ok p /\
  (is_column kw p = true /\ should_quote al p = false \/ is_column kw p = false /\ should_quote al p = true /\ ~ In 92%N p).
Definition clear (t : tree) : Prop := forall l, In l (tcols t) -> clear_col l.

Lemma fold_bin o q : forall a b, exists x y, fold_left (EBin o) q (EBin o a b) = EBin o x y.
Proof. induction q as [|c q IH]; intros a b; cbn [fold_left]; [eauto|]. apply IH. Qed.

Lemma int_val r z : tval r (vleaf (int_of z)) = Ok (VInt z).
Proof. unfold int_of. destruct (Z.ltb_spec z 0); cbn [vleaf tval]; [|reflexivity]. now rewrite Z.opp_involutive. Qed.
Lemma leaf_operand r j t : canon j = true -> tree_of j = Some t -> value_tree t = true -> clear t ->
  operand kw r j = tval r (vleaf t).
Proof.
  intros C T V CL. destruct j as [|b|z|q|s|l|d]; try discriminate T.
  - injection T as <-. reflexivity.
  - injection T as <-. now rewrite int_val.
  - cbn [tree_of] in T. destruct t as [l| | | | | | | | | | | |]; try discriminate V;
      try (exfalso; unfold col_of in T; destruct (seqb s (u "*")); [discriminate|]; destruct (names_of _) as [[|]|]; discriminate).
    destruct (CL l) as (p & -> & D & _ & Q); [cbn; auto|]. apply col_single in T; [|exact D]. subst s.
    cbn [operand vleaf]. destruct Q as [[-> ->]|[-> [-> _]]]; reflexivity.
  - destruct d as [|[k v] [|]]; try discriminate T. cbn [tree_of] in T.
    destruct (find _ binops) as [[k' o]|] eqn:F.
    { exfalso. destruct v as [| | | | |l|d]; try discriminate T.
      - destruct (mapO tree_of l) as [[|a [|b q]]|]; try discriminate T. injection T as <-. cbn [fold_left] in V.
        destruct (fold_bin o q a b) as (x & y & E). rewrite E in V. discriminate V.
      - destruct d as [|[c w] [|]]; try discriminate T. destruct (col_of c), (lit_of w); try discriminate T. injection T as <-. discriminate V. }
    destruct (keyed "null" k) eqn:K1.
    { unfold keyed in K1. apply seqb_eq in K1. subst k. injection T as <-. reflexivity. }
    destruct (keyed "literal" k) eqn:K2.
    { unfold keyed in K2. apply seqb_eq in K2. subst k. cbn [canon] in C. change (seqb (u "literal") (u "literal")) with true in C. cbn match in C.
      destruct v; try discriminate C; try discriminate T. injection T as <-. reflexivity. }
    exfalso. repeat match type of T with
    | (if ?b then _ else _) = _ => destruct b
    | match ?x with _ => _ end = _ => destruct x
    end; try discriminate T; injection T as <-; discriminate V.
Qed.
Lemma leaf_operands r l ts : forallb canon l = true -> mapO tree_of l = Some ts -> forallb value_tree ts = true -> (forall t, In t ts -> clear t) ->
  mapM (operand kw r) l = mapM (tval r) (map vleaf ts).
Proof.
  revert ts. induction l as [|j l IH]; intros ts C T V CL; cbn [mapO] in T; [injection T as <-; reflexivity|].
  destruct (tree_of j) as [t|] eqn:E; [|discriminate]. destruct (mapO tree_of l) as [q|]; [|discriminate]. injection T as <-.
  cbn [forallb] in C, V. apply andb_true_iff in C as [C1 C2], V as [V1 V2]. cbn [map mapM].
  rewrite (leaf_operand r j t C1 E V1 (CL t (or_introl eq_refl))). rewrite (IH q C2 eq_refl V2); [reflexivity|].
  intros x X. apply CL. now right.
Qed.
Lemma lit_val r j t : const_json j = true -> lit_of j = Some t -> operand kw r (JDict [(u "literal", j)]) = tval r (vleaf t).
Proof.
  intros C L. destruct j; try discriminate C; injection L as <-; [now rewrite int_val|reflexivity].
Qed.
Lemma in_members r j ts : canon j = true -> OperProof.in_set j = Some ts -> forallb value_tree ts = true -> (forall t, In t ts -> clear t) ->
  SqlSpec.in_set kw r j = mapM (tval r) (map vleaf ts).
Proof.
  intros C T V CL. destruct j as [|b|z|q|s|l|d]; try discriminate T.
  - cbn [OperProof.in_set] in T. destruct (no_literal l); [|discriminate]. now apply leaf_operands.
  - destruct d as [|[k w] [|]]; try discriminate T. cbn [OperProof.in_set] in T. destruct (keyed "literal" k) eqn:K; [|discriminate].
    unfold keyed in K. apply seqb_eq in K. subst k. cbn [canon] in C. change (seqb (u "literal") (u "literal")) with true in C. cbn match in C.
    destruct w as [| | | |s|l|]; try discriminate C.
    + injection T as <-. reflexivity.
    + change (SqlSpec.in_set kw r (JDict [(u "literal", JList l)])) with (mapM (fun x => operand kw r (JDict [(u "literal", x)])) l).
      cbn [lit_json] in C. clear V CL. revert ts T. induction l as [|j l IH]; intros ts T; cbn [mapO] in T; [injection T as <-; reflexivity|].
      destruct (lit_of j) as [t|] eqn:E; [|discriminate]. destruct (mapO lit_of l) as [q|]; [|discriminate]. injection T as <-.
      cbn [forallb] in C. apply andb_true_iff in C as [C1 C2]. cbn [map mapM]. now rewrite (lit_val r j t C1 E), (IH C2 q eq_refl).
Qed.


(** ** Chains of AND and OR *)
Lemma fold_cond_inv o : forall q a b, condition (fold_left (EBin o) (b :: q) a) ->
  (comparison o = true /\ q = [] /\ value_tree a = true /\ value_tree b = true) \/
  ((o = OAnd \/ o = OOr) /\ condition a /\ condition b /\ Forall condition q).
Proof.
  induction q as [|c q IH]; intros a b H.
  - cbn [fold_left] in H. inversion H; subst; auto 10.
  - change (condition (fold_left (EBin o) (c :: q) (EBin o a b))) in H. destruct (IH _ _ H) as [(_ & _ & V & _)|(O & A & B & F)]; [discriminate V|].
    right. split; [exact O|]. inversion A; subst; try (destruct O; subst; discriminate); auto.
Qed.
Definition tv_op (o : binop) : tv -> tv -> tv := match o with OAnd => tv_and | _ => tv_or end.
Lemma truth_fold r o : (o = OAnd \/ o = OOr) -> forall q a, truth r (fold_left (EBin o) q a) =
  do va <- truth r a; do vs <- mapM (truth r) q; Ok (fold_left (tv_op o) vs va).
Proof.
  intros O. induction q as [|b q IH]; intros a; cbn [fold_left mapM].
  - now destruct (truth r a).
  - rewrite IH. assert (E : truth r (EBin o a b) = do x <- truth r a; do y <- truth r b; Ok (tv_op o x y)) by (destruct O; subst; reflexivity).
    rewrite E. destruct (truth r a); [|reflexivity]. cbn [bind]. destruct (truth r b); [|reflexivity]. cbn [bind].
    destruct (mapM (truth r) q); reflexivity.
Qed.
Lemma view_fold o : forall q a, view (fold_left (EBin o) q a) = fold_left (EBin o) (map view q) (view a).
Proof. induction q as [|b q IH]; intros a; [reflexivity|]. cbn [fold_left map]. now rewrite IH. Qed.
Lemma tcols_fold o l : forall q a, In l (tcols (fold_left (EBin o) q a)) <-> In l (tcols a) \/ exists t, In t q /\ In l (tcols t).
Proof.
  induction q as [|b q IH]; intros a; cbn [fold_left].
  - split; [auto|intros [H|(t & [] & _)]; exact H].
  - rewrite IH. cbn [tcols]. rewrite in_app_iff. split.
    + intros [[H|H]|(t & H1 & H2)]; [auto|right; exists b; cbn; auto|right; exists t; cbn; auto].
    + intros [H|(t & [->|H1] & H2)]; [auto|auto|right; exists t; auto].
Qed.
Lemma find_bname k k' o : find (fun p => seqb (fst p) k) binops = Some (k', o) -> k = bname o.
Proof. intros H. apply find_bin in H. subst k. destruct o; reflexivity. Qed.
Lemma find_of_bname o : find (fun p => seqb (fst p) (bname o)) binops = Some (bname o, o).
Proof. destruct o; reflexivity. Qed.


Lemma operand_err r j e : operand kw r j = Err e -> e = DbError.
Proof.
  destruct j as [|b|z|q|s|l|d]; cbn [operand]; try discriminate.
  - destruct (is_column kw s); [|discriminate]. destruct (dget r s); [discriminate|]. congruence.
  - congruence.
  - destruct d as [|[k x] [|]]; try congruence. destruct (seqb k (u "literal")); [destruct x; congruence|]. destruct (seqb k (u "null")); congruence.
Qed.
Lemma cond_cmp_tree r o a b : comparison o = true ->
  cond kw r (JDict [(bname o, JList [a; b])]) = do x <- operand kw r a; do y <- operand kw r b; compare_vals o x y.
Proof.
  intros C.
  assert (H : In o [OEq; ONeq; OLt; OGt; OLte; OGte] \/ In o [OLike; ONotLike] \/ In o [ORlike; ONotRlike]) by (destruct o; try discriminate C; cbn; auto 10).
  destruct H as [H|[H|H]].
  - transitivity (do x <- operand kw r a; do y <- operand kw r b; do c <- vcmp x y; Ok (match c with Some c => holds (bname o) c | None => None end)).
    + cbn in H. repeat (destruct H as [<-|H]; [reflexivity|]). destruct H.
    + destruct (operand kw r a); [|reflexivity]. cbn [bind]. destruct (operand kw r b); [|reflexivity]. cbn [bind]. now rewrite compare_holds.
  - cbn in H. destruct H as [<-|[<-|[]]]; cbn [bname].
    + change (cond kw r (JDict [(u "like", JList [a; b])])) with
        (do x <- operand kw r a; do y <- operand kw r b; do t <- like_vals x y; Ok (negated false t)).
      destruct (operand kw r a) as [x|]; [|reflexivity]. cbn [bind]. destruct (operand kw r b) as [y|]; [|reflexivity]. cbn [bind compare_vals].
      destruct (like_vals x y); reflexivity.
    + reflexivity.
  - cbn in H. destruct H as [<-|[<-|[]]]; cbn [bname].
    + change (cond kw r (JDict [(u "rlike", JList [a; b])])) with (@Err tv DbError).
      destruct (operand kw r a) as [x|] eqn:A; [|apply operand_err in A; now subst]. cbn [bind].
      destruct (operand kw r b) as [y|] eqn:B; [|apply operand_err in B; now subst]. reflexivity.
    + change (cond kw r (JDict [(u "not_rlike", JList [a; b])])) with (@Err tv DbError).
      destruct (operand kw r a) as [x|] eqn:A; [|apply operand_err in A; now subst]. cbn [bind].
      destruct (operand kw r b) as [y|] eqn:B; [|apply operand_err in B; now subst]. reflexivity.
Qed.
Lemma cond_in r (n : bool) a b : cond kw r (JDict [(u (if n then "nin" else "in"), JList [a; b])]) =
  do x <- operand kw r a; do l <- SqlSpec.in_set kw r b; do t <- member x l; Ok (negated n t).
Proof. destruct n; reflexivity. Qed.
Lemma cond_between r (n : bool) a b c : cond kw r (JDict [(u (if n then "not_between" else "between"), JList [a; b; c])]) =
  do x <- operand kw r a; do y <- operand kw r b; do z <- operand kw r c; do t <- range x y z; Ok (negated n t).
Proof. destruct n; reflexivity. Qed.
Lemma cond_is r (n : bool) a : cond kw r (JDict [(u (if n then "exists" else "missing"), a)]) =
  do x <- operand kw r a; Ok (Some (match x with VNull => negb n | _ => n end)).
Proof. destruct n; reflexivity. Qed.
Lemma cond_not r a : cond kw r (JDict [(u "not", a)]) = do x <- cond kw r a; Ok (tv_not x).
Proof. reflexivity. Qed.
Lemma cond_logic r o l : o = OAnd \/ o = OOr -> cond kw r (JDict [(bname o, JList l)]) =
  do ts <- mapM (cond kw r) l; Ok (fold_left (tv_op o) ts (match o with OAnd => Some true | _ => Some false end)).
Proof. intros [->| ->]; reflexivity. Qed.
Lemma truth_cmp r o a b : comparison o = true -> truth r (EBin o a b) = do x <- tval r a; do y <- tval r b; compare_vals o x y.
Proof. destruct o; try discriminate; reflexivity. Qed.

(** Keys of parsed conditions. *)
Lemma tree_key k v t : tree_of (JDict [(k, v)]) = Some t -> condition t -> canon (JDict [(k, v)]) = true ->
  (exists o l a b q, k = bname o /\ v = JList l /\ mapO tree_of l = Some (a :: b :: q) /\ t = fold_left (EBin o) (b :: q) a) \/
  (exists n m s a ts, k = u (if n : bool then "nin" else "in") /\ v = JList [m; s] /\ tree_of m = Some a /\ OperProof.in_set s = Some ts /\ t = EIn n a ts) \/
  (exists n x y z a b c, k = u (if n : bool then "not_between" else "between") /\ v = JList [x; y; z] /\ tree_of x = Some a /\ tree_of y = Some b /\
     tree_of z = Some c /\ t = EBetween n a b c) \/
  (exists n a, k = u (if n : bool then "exists" else "missing") /\ tree_of v = Some a /\ t = EIs n a) \/
  (exists a, k = u "not" /\ tree_of v = Some a /\ t = ENot a).
Proof.
  intros T C CN. cbn [tree_of] in T. destruct (find _ binops) as [[k' o]|] eqn:F.
  { apply find_bname in F. left. cbn [canon] in CN. assert (L : seqb k (u "literal") = false) by (subst k; destruct o; reflexivity).
    rewrite L in CN. assert (B : is_binop k = true) by (subst k; destruct o; reflexivity). rewrite B in CN.
    destruct v as [| | | | |l|]; try discriminate CN. destruct (mapO tree_of l) as [[|a [|b q]]|] eqn:M; try discriminate T. injection T as <-.
    exists o, l, a, b, q. auto. }
  destruct (keyed "null" k). { injection T as <-. inversion C. }
  destruct (keyed "literal" k). { exfalso. destruct v; try discriminate T; injection T as <-; try (unfold int_of in C; destruct (Z.ltb _ 0)); inversion C. }
  destruct (keyed "in" k || keyed "nin" k) eqn:K.
  { right. left. destruct v as [| | | | |[|m [|s [|]]]|]; try discriminate T. destruct (tree_of m) as [a|] eqn:M; [|discriminate T].
    change (match OperProof.in_set s with Some l => Some (EIn (keyed "nin" k) a l) | None => None end = Some t) in T.
    destruct (OperProof.in_set s) as [ts|] eqn:S; [|discriminate T]. injection T as <-. exists (keyed "nin" k), m, s, a, ts.
    split; [|auto]. destruct (keyed "nin" k) eqn:N; [unfold keyed in N; now apply seqb_eq in N|].
    rewrite orb_false_r in K. unfold keyed in K. now apply seqb_eq in K. }
  destruct (keyed "between" k || keyed "not_between" k) eqn:K2.
  { right. right. left. destruct v as [| | | | |l|]; try discriminate T. destruct (mapO tree_of l) as [[|a [|b [|c [|]]]]|] eqn:M; try discriminate T. injection T as <-.
    destruct l as [|x [|y [|z [|w l]]]].
    5:{ apply mapO_len in M. discriminate M. }
    all: cbn [mapO] in M.
    4:{ destruct (tree_of x) as [a'|] eqn:X; [|discriminate M]. destruct (tree_of y) as [b'|] eqn:Y; [|discriminate M].
        destruct (tree_of z) as [c'|] eqn:Z; [|discriminate M]. injection M as -> -> ->.
        exists (keyed "not_between" k), x, y, z, a, b, c.
        split; [|auto 10]. destruct (keyed "not_between" k) eqn:N; [unfold keyed in N; now apply seqb_eq in N|].
        rewrite orb_false_r in K2. unfold keyed in K2. now apply seqb_eq in K2. }
    all: exfalso; repeat match type of M with context [tree_of ?x] => destruct (tree_of x) end; discriminate M. }
  destruct (keyed "missing" k || keyed "exists" k) eqn:K3.
  { right. right. right. left. destruct (tree_of v) as [a|]; [|discriminate T]. injection T as <-. exists (keyed "exists" k), a.
    split; [|auto]. destruct (keyed "exists" k) eqn:N; [unfold keyed in N; now apply seqb_eq in N|].
    rewrite orb_false_r in K3. unfold keyed in K3. now apply seqb_eq in K3. }
  destruct (keyed "binary_not" k). { exfalso. destruct (tree_of v); [|discriminate T]. injection T as <-. inversion C. }
  destruct (keyed "not" k) eqn:K4.
  { do 4 right. unfold keyed in K4. apply seqb_eq in K4. assert (E : match tree_of v with Some a => Some (ENot a) | None => None end = Some t).
    { destruct v as [| | | | | |[|? ?]]; try discriminate T; exact T. }
    destruct (tree_of v) as [a|]; [|discriminate E]. injection E as <-. exists a. auto. }
  exfalso. destruct (fun_name k); [|discriminate T].
  assert (X : exists f l, t = ECall f l).
  { destruct v as [| | | | |l|[|? ?]]; try discriminate T; try (injection T as <-; eauto);
      try (destruct (mapO tree_of l); [|discriminate T]; injection T as <-; eauto);
      match type of T with match ?x with _ => _ end = _ => destruct x end; try discriminate T; injection T as <-; eauto. }
  destruct X as (f & l & ->). inversion C.
Qed.

Lemma cond_truth r : forall j t, canon j = true -> tree_of j = Some t -> condition t -> clear t -> cond kw r j = truth r (view t).
Proof.
  induction j as [j IH] using json_size_ind. intros t CN T C CL.
  destruct j as [|b|z|q|s|l|d]; try discriminate T.
  - injection T as <-. inversion C.
  - injection T as <-. unfold int_of in C. destruct (Z.ltb z 0); inversion C.
  - cbn [tree_of] in T. unfold col_of in T. destruct (seqb s (u "*")); [injection T as <-; inversion C|].
    destruct (names_of _) as [[|]|]; try discriminate T. injection T as <-. inversion C.
  - destruct d as [|[k v] [|]]; try discriminate T.
    assert (SZ : (jsize v < jsize (JDict [(k, v)]))%nat) by (apply (jsize_dict k); now left).
    destruct (tree_key k v t T C CN) as [(o & l & a & b & q & K & V & M & E)|[(n & m & s & a & ts & K & V & M & S & E)|
      [(n & x & y & z & a & b & c & K & V & X & Y & Z & E)|[(n & a & K & V & E)|(a & K & V & E)]]]].
    + subst k v t. clear T.
      assert (CNl : forallb canon l = true).
      { cbn [canon] in CN. replace (seqb (bname o) (u "literal")) with false in CN by now destruct o. now apply andb_true_iff in CN. }
      destruct (fold_cond_inv o q a b C) as [(CO & -> & VA & VB)|(O & CA & CB & CQ)].
      * destruct l as [|x [|y [|w l]]].
        4:{ apply mapO_len in M. discriminate M. }
        all: cbn [mapO] in M.
        { discriminate M. }
        { destruct (tree_of x); discriminate M. }
        destruct (tree_of x) as [a'|] eqn:X; [|discriminate M]. destruct (tree_of y) as [b'|] eqn:Y; [|discriminate M]. injection M as -> ->.
        cbn [forallb] in CNl. apply andb_true_iff in CNl as [C1 CNl]. apply andb_true_iff in CNl as [C2 _].
        cbn [fold_left view] in *. rewrite cond_cmp_tree, truth_cmp by exact CO. rewrite !view_leaf by assumption.
        rewrite (leaf_operand r x a C1 X VA) by (intros p P; apply CL; cbn [tcols]; apply in_or_app; auto).
        rewrite (leaf_operand r y b C2 Y VB) by (intros p P; apply CL; cbn [tcols]; apply in_or_app; auto). reflexivity.
      * rewrite cond_logic by exact O. rewrite view_fold, truth_fold by exact O.
        assert (G : mapM (cond kw r) l = mapM (truth r) (map view (a :: b :: q))).
        { assert (CC : Forall condition (a :: b :: q)) by (constructor; [exact CA|constructor; assumption]).
          assert (CLS : forall t, In t (a :: b :: q) -> clear t).
          { intros t' I' p P. apply CL. apply (tcols_fold o p (b :: q) a). destruct I' as [<-|I']; [auto|right; exists t'; auto]. }
          assert (IH' : forall j, In j l -> forall t, canon j = true -> tree_of j = Some t -> condition t -> clear t -> cond kw r j = truth r (view t)).
          { intros j J. apply IH. pose proof (jsize_list j l J). lia. }
          revert M CC CLS. generalize (a :: b :: q). clear - IH' CNl. induction l as [|x l IHl]; intros ts M CC CLS; cbn [mapO] in M.
          - injection M as <-. reflexivity.
          - destruct (tree_of x) as [t|] eqn:X; [|discriminate M]. destruct (mapO tree_of l) as [ts'|] eqn:ML; [|discriminate M]. injection M as <-.
            cbn [forallb] in CNl. apply andb_true_iff in CNl as [C1 C2]. inversion CC; subst. cbn [map mapM].
            rewrite (IH' x (or_introl eq_refl) t) by (auto; apply CLS; now left).
            rewrite (IHl C2 (fun j J => IH' j (or_intror J)) ts' eq_refl); [reflexivity|assumption|]. intros t' I'. apply CLS. now right. }
        rewrite G. cbn [map mapM]. destruct (truth r (view a)) as [va|]; [|reflexivity]. cbn [bind].
        destruct (truth r (view b)) as [vb|]; [|reflexivity]. cbn [bind].
        destruct (mapM (truth r) (map view q)) as [vs|]; [|reflexivity]. cbn [bind fold_left]. do 2 f_equal.
        destruct O; subst o; destruct va as [[]|]; reflexivity.
    + subst k v t. clear T. inversion C as [|? ? ? VM VL| | | | |]; subst.
      assert (CN' : canon m = true /\ canon s = true).
      { cbn [canon] in CN. replace (seqb (u (if n then "nin" else "in")) (u "literal")) with false in CN by now destruct n.
        replace (is_binop (u (if n then "nin" else "in"))) with false in CN by now destruct n. cbn [forallb andb] in CN.
        apply andb_true_iff in CN as [C1 CN]. apply andb_true_iff in CN as [C2 _]. auto. }
      rewrite cond_in. cbn [view truth].
      rewrite (leaf_operand r m a (proj1 CN') M VM) by (intros p P; apply CL; cbn [tcols]; apply in_or_app; auto).
      rewrite (in_members r s ts (proj2 CN') S VL); [reflexivity|]. intros t' I' p P. apply CL. cbn [tcols]. apply in_or_app. right.
      apply in_concat. exists (tcols t'). split; [now apply in_map|exact P].
    + subst k v t. clear T. inversion C as [| |? ? ? ? VA VB VC| | | |]; subst.
      assert (CN' : canon x = true /\ canon y = true /\ canon z = true).
      { cbn [canon] in CN. replace (seqb (u (if n then "not_between" else "between")) (u "literal")) with false in CN by now destruct n.
        replace (is_binop (u (if n then "not_between" else "between"))) with false in CN by now destruct n. cbn [forallb andb] in CN.
        apply andb_true_iff in CN as [C1 CN]. apply andb_true_iff in CN as [C2 CN]. apply andb_true_iff in CN as [C3 _]. auto. }
      destruct CN' as (C1 & C2 & C3). rewrite cond_between. cbn [view truth].
      rewrite (leaf_operand r x a C1 X VA) by (intros p P; apply CL; cbn [tcols]; rewrite !in_app_iff; auto).
      rewrite (leaf_operand r y b C2 Y VB) by (intros p P; apply CL; cbn [tcols]; rewrite !in_app_iff; auto).
      rewrite (leaf_operand r z c C3 Z VC) by (intros p P; apply CL; cbn [tcols]; rewrite !in_app_iff; auto). reflexivity.
    + subst k t. clear T. inversion C as [| | |? ? VT| | |]; subst.
      assert (CN' : canon v = true).
      { cbn [canon] in CN. replace (seqb (u (if n then "exists" else "missing")) (u "literal")) with false in CN by now destruct n.
        replace (is_binop (u (if n then "exists" else "missing"))) with false in CN by now destruct n. exact CN. }
      rewrite cond_is. cbn [view truth]. rewrite (leaf_operand r v a CN' V VT); [reflexivity|exact CL].
    + subst k t. clear T. inversion C as [| | | |? CT| |]; subst. rewrite cond_not. cbn [view truth].
      rewrite (IH v SZ a); [reflexivity| |exact V|exact CT|exact CL].
      cbn [canon] in CN. exact CN.
Qed.
End View.
