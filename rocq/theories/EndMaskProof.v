(** The rewritten form of a supported condition. *)
From Coq Require Import String Ascii List Arith NArith ZArith QArith Bool Lia ZifyBool ZifyNat ZifyN.
From Verif Require Import Base BaseProof CryptoModel CryptoSpec CryptoProof FuzzyModel JsonModel JsonProof CreateModel DotsModel DotsSpec DotsProof RewriteModel LikeSpec SqlSpec
  EncSpec RewriteSpec WhereProof SqlLex SqlRead FmtModel FmtSpec FmtLexProof FmtExprProof FmtNameProof ScrubModel OperSpec OperProof EndSpec EndParseProof EndTruthProof EndAssocProof.
Import ListNotations.

(** ** Names *)
Lemma ident_plain alnum s : ascii_ok alnum -> valid_name s = true -> valid alnum s = true.
Proof.
  intros HA. destruct s as [|c r]; [discriminate|]. cbn [valid_name valid]. intros H. apply andb_true_iff in H as [C R].
  replace (ascii_letter c || N.eqb c 95) with true by (symmetry; rewrite letter_eq; unfold ident_start in C; unfold letter; lia). cbn [andb].
  induction r as [|d r IH]; [reflexivity|]. cbn [forallb] in R. apply andb_true_iff in R as [D R].
  assert (W : wordc alnum d = true).
  { unfold wordc. destruct (N.eqb_spec d 95) as [->|Q]; [apply orb_true_r|]. rewrite orb_false_r. rewrite HA; unfold ident_char, ident_start in D; unfold letter, digit; lia. }
  destruct r as [|e r]; [cbn [valid_tail]; now rewrite W|]. change (wordc alnum d && valid_tail alnum (e :: r) = true). now rewrite W, (IH R).
Qed.
Lemma ident_In s c : valid_name s = true -> In c s -> (ident_char c = true)%N.
Proof.
  destruct s as [|d r]; [discriminate|]. cbn [valid_name]. intros H. apply andb_true_iff in H as [C R]. intros [<-|I].
  - unfold ident_char. now rewrite C.
  - rewrite forallb_forall in R. now apply R.
Qed.
Lemma last_In (s : pystr) : s <> [] -> In (last s 0%N) s.
Proof. induction s as [|c [|d s] IH]; [congruence|now left|]. intros _. right. now apply IH. Qed.
Lemma colname_facts s alnum : ascii_ok alnum -> colname is_keyword s ->
  ~ In DOT s /\ ~ In BS s /\ ~ In 92%N s /\ name_ok s /\ is_column is_keyword s = true /\ should_quote alnum s = false.
Proof.
  intros HA [V K]. assert (G : forall c, In c s -> ident_char c = true) by (intros c; now apply ident_In).
  assert (X : forall c, ident_char c = false -> ~ In c s) by (intros c F I; apply G in I; congruence).
  assert (D : ~ In DOT s) by now apply X.
  split; [exact D|]. split; [now apply X|]. split; [now apply X|]. split; [|split].
  - split; [intros ->; discriminate V|]. intros E. assert (N0 : s <> []) by (intros ->; discriminate V). apply last_In in N0. rewrite E in N0. now apply (X 10%N).
  - unfold is_column. rewrite split_nochar. { cbn [forallb]. now rewrite V, K. } destruct (has_char DOT s) eqn:H; [|reflexivity]. apply has_char_In in H. contradiction.
  - unfold should_quote. rewrite (ident_plain alnum s HA V), K. apply andb_false_r.
Qed.
Lemma col_of_name s : s <> u "*" -> ~ In DOT s -> ~ In BS s -> col_of s = Some (ECol [s]).
Proof.
  intros A D B. unfold col_of. apply seqb_neq in A. rewrite A. unfold split_field.
  assert (E : seqb s [DOT] = false) by (apply seqb_neq; intros ->; apply D; now left). rewrite E.
  assert (H1 : has_char DOT s = false). { destruct (has_char DOT s) eqn:H; [|reflexivity]. apply has_char_In in H. contradiction. }
  assert (H2 : has_char BS s = false). { destruct (has_char BS s) eqn:H; [|reflexivity]. apply has_char_In in H. contradiction. }
  now rewrite H1, H2.
Qed.

(** ** Columns of parsed conditions *)
Definition cols_ok (t : tree) : Prop := forall l, In l (tcols t) -> exists p, l = [p] /\ ~ In DOT p /\ is_column is_keyword p = true.
Notation refs := (refs is_keyword).
Notation sing := (fun c : pystr => [c]).
Lemma refs_dict k v : refs (JDict [(k, v)]) = if smem k [u "literal"; u "null"] then [] else refs v.
Proof. cbn [EncSpec.refs]. apply app_nil_r. Qed.
Lemma leaf_refs j t : canon j = true -> tree_of j = Some t -> value_tree t = true -> cols_ok t -> map sing (refs j) = tcols t.
Proof.
  intros C T V CL. destruct j as [|b|z|q|s|l|d]; try discriminate T.
  - injection T as <-. reflexivity.
  - injection T as <-. unfold int_of. now destruct (Z.ltb z 0).
  - cbn [tree_of] in T. destruct t as [l| | | | | | | | | | | |]; try discriminate V;
      try (exfalso; unfold col_of in T; destruct (seqb s (u "*")); [discriminate|]; destruct (names_of _) as [[|]|]; discriminate).
    destruct (CL l) as (p & -> & D & Q); [cbn; auto|]. apply col_single in T; [|exact D]. subst s. cbn [EncSpec.refs]. now rewrite Q.
  - destruct d as [|[k v] [|]]; try discriminate T. cbn [tree_of] in T.
    destruct (find _ binops) as [[k' o]|] eqn:F.
    { exfalso. destruct v as [| | | | |l|d]; try discriminate T.
      - destruct (mapO tree_of l) as [[|a [|b q]]|]; try discriminate T. injection T as <-. cbn [fold_left] in V.
        destruct (fold_bin o q a b) as (x & y & E). rewrite E in V. discriminate V.
      - destruct d as [|[c w] [|]]; try discriminate T. destruct (col_of c), (lit_of w); try discriminate T. injection T as <-. discriminate V. }
    destruct (keyed "null" k) eqn:K1.
    { unfold keyed in K1. apply seqb_eq in K1. subst k. injection T as <-. reflexivity. }
    destruct (keyed "literal" k) eqn:K2.
    { unfold keyed in K2. apply seqb_eq in K2. subst k. cbn [canon] in C. change (seqb (u "literal") (u "literal")) with true in C. cbn match in C.
      destruct v; try discriminate C; try discriminate T. injection T as <-. reflexivity. }
    exfalso. repeat match type of T with
    | (if ?b then _ else _) = _ => destruct b
    | match ?x with _ => _ end = _ => destruct x
    end; try discriminate T; injection T as <-; discriminate V.
Qed.
Lemma map_concat {A B} (f : A -> B) l : map f (concat l) = concat (map (map f) l).
Proof. induction l as [|x l IH]; [reflexivity|]. cbn [concat map]. now rewrite map_app, IH. Qed.
Lemma list_refs l : forall ts, (forall j t, In j l -> tree_of j = Some t -> In t ts -> map sing (refs j) = tcols t) -> mapO tree_of l = Some ts ->
  map sing (refs (JList l)) = concat (map tcols ts).
Proof.
  induction l as [|j l IH]; intros ts H T; cbn [mapO] in T; [injection T as <-; reflexivity|].
  destruct (tree_of j) as [t|] eqn:E; [|discriminate]. destruct (mapO tree_of l) as [q|]; [|discriminate]. injection T as <-.
  change (refs (JList (j :: l))) with (refs j ++ refs (JList l)). rewrite map_app. cbn [map concat].
  rewrite (H j t) by (cbn; auto). f_equal. apply IH; [|reflexivity]. intros j' t' I1 I2 I3. apply H; cbn; auto.
Qed.
Lemma in_set_refs j ts : canon j = true -> OperProof.in_set j = Some ts -> forallb value_tree ts = true -> (forall t, In t ts -> cols_ok t) ->
  map sing (refs j) = concat (map tcols ts).
Proof.
  intros C T V CL. destruct j as [|b|z|q|s|l|d]; try discriminate T.
  - cbn [OperProof.in_set] in T. destruct (no_literal l); [|discriminate]. cbn [canon] in C. apply list_refs; [|exact T].
    intros j t I1 I2 I3. rewrite forallb_forall in C, V. apply leaf_refs; auto.
  - destruct d as [|[k w] [|]]; try discriminate T. cbn [OperProof.in_set] in T. destruct (keyed "literal" k) eqn:K; [|discriminate].
    unfold keyed in K. apply seqb_eq in K. subst k. rewrite refs_dict. change (smem (u "literal") [u "literal"; u "null"]) with true. cbn match.
    assert (G : forall l ts, mapO lit_of l = Some ts -> concat (map tcols ts) = []).
    { clear. induction l as [|j l IH]; intros ts T; cbn [mapO] in T; [injection T as <-; reflexivity|].
      destruct (lit_of j) as [t|] eqn:E; [|discriminate]. destruct (mapO lit_of l) as [q|]; [|discriminate]. injection T as <-. cbn [map concat].
      rewrite (IH q eq_refl), app_nil_r. destruct j; try discriminate E; injection E as <-; [|reflexivity]. unfold int_of. now destruct (Z.ltb z 0). }
    symmetry. destruct w; try (apply (G _ _ T)).
Qed.
Lemma fold_tcols o : forall q a, tcols (fold_left (EBin o) q a) = tcols a ++ concat (map tcols q).
Proof.
  induction q as [|b q IH]; intros a; cbn [fold_left map concat]; [now rewrite app_nil_r|]. rewrite IH. cbn [tcols]. now rewrite app_assoc.
Qed.
Lemma cols_sub t t' : cols_ok t -> incl (tcols t') (tcols t) -> cols_ok t'.
Proof. intros H I l L. now apply H, I. Qed.
Lemma key_bin o : smem (bname o) [u "literal"; u "null"] = false.
Proof. destruct o; reflexivity. Qed.
Lemma canon_bin o l : canon (JDict [(bname o, JList l)]) = true -> forallb canon l = true.
Proof. cbn [canon]. intros CN. replace (seqb (bname o) (u "literal")) with false in CN by now destruct o. now apply andb_true_iff in CN. Qed.
Lemma canon_key k v : seqb k (u "literal") = false -> is_binop k = false -> canon (JDict [(k, v)]) = canon v.
Proof. intros A B. cbn [canon]. now rewrite A, B. Qed.

Lemma cond_refs : forall j t, canon j = true -> tree_of j = Some t -> condition t -> cols_ok t -> map sing (refs j) = tcols t.
Proof.
  induction j as [j IH] using json_size_ind. intros t CN T C CL.
  destruct j as [|b|z|q|s|l|d]; try discriminate T.
  - injection T as <-. inversion C.
  - injection T as <-. unfold int_of in C. destruct (Z.ltb z 0); inversion C.
  - cbn [tree_of] in T. unfold col_of in T. destruct (seqb s (u "*")); [injection T as <-; inversion C|].
    destruct (names_of _) as [[|]|]; try discriminate T. injection T as <-. inversion C.
  - destruct d as [|[k v] [|]]; try discriminate T.
    assert (SZ : (jsize v < jsize (JDict [(k, v)]))%nat) by (apply (jsize_dict k); now left).
    destruct (tree_key k v t T C CN) as [(o & l & a & b & q & K & V & M & E)|[(n & m & s & a & ts & K & V & M & S & E)|
      [(n & x & y & z & a & b & c & K & V & X & Y & Z & E)|[(n & a & K & V & E)|(a & K & V & E)]]]].
    + subst k v t. clear T. pose proof (canon_bin o l CN) as CNl. rewrite forallb_forall in CNl. rewrite refs_dict, key_bin.
      assert (TC : tcols (fold_left (EBin o) (b :: q) a) = concat (map tcols (a :: b :: q))) by (rewrite fold_tcols; reflexivity).
      assert (CLS : forall t, In t (a :: b :: q) -> cols_ok t).
      { intros t' I'. apply (cols_sub _ _ CL). intros x X. rewrite TC. apply in_concat. exists (tcols t'). split; [now apply in_map|exact X]. }
      rewrite TC. apply list_refs; [|exact M]. intros j t J E I'.
      destruct (fold_cond_inv o q a b C) as [(CO & -> & VA & VB)|(O & CA & CB & CQ)].
      * apply leaf_refs; auto. cbn in I'. intuition (subst; assumption).
      * apply IH; auto. { pose proof (jsize_list j l J). lia. } cbn in I'. rewrite Forall_forall in CQ. intuition (subst; auto).
    + subst k v t. clear T. inversion C as [|? ? ? VM VL| | | | |]; subst.
      rewrite canon_key in CN by now destruct n. cbn [canon forallb] in CN. apply andb_true_iff in CN as [C1 CN]. apply andb_true_iff in CN as [C2 _].
      rewrite refs_dict. replace (smem (u (if n then "nin" else "in")) [u "literal"; u "null"]) with false by now destruct n.
      cbn [EncSpec.refs map concat]. rewrite app_nil_r, map_app. cbn [tcols]. f_equal.
      * apply leaf_refs; auto. apply (cols_sub _ _ CL). cbn [tcols]. apply incl_appl, incl_refl.
      * apply in_set_refs; auto. intros t' I'. apply (cols_sub _ _ CL). cbn [tcols]. apply incl_appr. intros x X. apply in_concat. exists (tcols t'). split; [now apply in_map|exact X].
    + subst k v t. clear T. inversion C as [| |? ? ? ? VA VB VC| | | |]; subst.
      rewrite canon_key in CN by now destruct n. cbn [canon forallb] in CN. apply andb_true_iff in CN as [C1 CN]. apply andb_true_iff in CN as [C2 CN]. apply andb_true_iff in CN as [C3 _].
      rewrite refs_dict. replace (smem (u (if n then "not_between" else "between")) [u "literal"; u "null"]) with false by now destruct n.
      cbn [EncSpec.refs map concat]. rewrite app_nil_r, !map_app. cbn [tcols].
      f_equal; [|f_equal]; apply leaf_refs; auto; apply (cols_sub _ _ CL); cbn [tcols]; intros w W; rewrite !in_app_iff; auto.
    + subst k t. clear T. inversion C as [| | |? ? VT| | |]; subst. rewrite canon_key in CN by now destruct n.
      rewrite refs_dict. replace (smem (u (if n then "exists" else "missing")) [u "literal"; u "null"]) with false by now destruct n.
      cbn [tcols]. now apply leaf_refs.
    + subst k t. clear T. inversion C as [| | | |? CT| |]; subst. rewrite canon_key in CN by reflexivity. rewrite refs_dict.
      change (smem (u "not") [u "literal"; u "null"]) with false. cbn match. cbn [tcols]. now apply IH.
Qed.

(** ** Supported conditions, parsed *)
Lemma col_json j c : canon j = true -> tree_of j = Some (ECol [c]) -> ~ In DOT c -> j = JStr c.
Proof.
  intros C T D. destruct j as [|b|z|q|s|l|d]; try discriminate T.
  - cbn [tree_of] in T. unfold int_of in T. destruct (Z.ltb z 0); discriminate T.
  - cbn [tree_of] in T. apply col_single in T; [|exact D]. now subst.
  - exfalso. destruct d as [|[k v] [|]]; try discriminate T. cbn [tree_of] in T.
    destruct (find _ binops) as [[k' o]|] eqn:F.
    { destruct v as [| | | | |l|d]; try discriminate T.
      - destruct (mapO tree_of l) as [[|a [|b q]]|]; try discriminate T. cbn [fold_left] in T.
        destruct (fold_bin o q a b) as (x & y & E). rewrite E in T. discriminate T.
      - destruct d as [|[c' w] [|]]; try discriminate T. destruct (col_of c'), (lit_of w); discriminate T. }
    destruct (keyed "null" k); [discriminate T|].
    destruct (keyed "literal" k). { destruct v as [| |z| | | |]; try discriminate T. unfold lit_of, int_of in T. destruct (Z.ltb z 0); discriminate T. }
    repeat match type of T with
    | (if ?b then _ else _) = _ => destruct b
    | match ?x with _ => _ end = _ => destruct x
    end; discriminate T.
Qed.
Lemma const_json_of j t : canon j = true -> tree_of j = Some t ->
  (forall s, t = EStr s -> j = lit s) /\ (forall z, t = int_of z -> j = JInt z).
Proof.
  intros C T.
  assert (IZ : forall z z', int_of z = int_of z' -> z = z').
  { intros z z'. unfold int_of. destruct (Z.ltb_spec z 0), (Z.ltb_spec z' 0); intros E; try discriminate E; injection E; lia. }
  assert (NS : forall z s, int_of z <> EStr s) by (intros z s; unfold int_of; now destruct (Z.ltb z 0)).
  assert (NC : forall z l, int_of z <> ECol l) by (intros z l; unfold int_of; now destruct (Z.ltb z 0)).
  destruct j as [|b|z|q|s|l|d]; try discriminate T.
  - injection T as <-. split; [discriminate|]. intros z. unfold int_of. destruct (Z.ltb z 0); discriminate.
  - injection T as <-. split; [intros s E; now apply NS in E|]. intros z' E. apply IZ in E. now subst.
  - cbn [tree_of] in T. unfold col_of in T. destruct (seqb s (u "*")).
    + injection T as <-. split; [discriminate|]. intros z. unfold int_of. destruct (Z.ltb z 0); discriminate.
    + destruct (names_of _) as [[|]|]; try discriminate T. injection T as <-. split; [discriminate|]. intros z E. symmetry in E. now apply NC in E.
  - destruct d as [|[k v] [|]]; try discriminate T. cbn [tree_of] in T.
    destruct (find _ binops) as [[k' o]|] eqn:F.
    { assert (E : exists x y, t = EBin o x y).
      { destruct v as [| | | | |l|d]; try discriminate T.
        - destruct (mapO tree_of l) as [[|a [|b q]]|]; try discriminate T. injection T as <-. apply fold_bin.
        - destruct d as [|[c w] [|]]; try discriminate T. destruct (col_of c), (lit_of w); try discriminate T. injection T as <-. eauto. }
      destruct E as (x & y & ->). split; [discriminate|]. intros z. unfold int_of. destruct (Z.ltb z 0); discriminate. }
    destruct (keyed "null" k) eqn:K1. { injection T as <-. split; [discriminate|]. intros z. unfold int_of. destruct (Z.ltb z 0); discriminate. }
    destruct (keyed "literal" k) eqn:K2.
    { unfold keyed in K2. apply seqb_eq in K2. subst k. cbn [canon] in C. change (seqb (u "literal") (u "literal")) with true in C. cbn match in C.
      destruct v; try discriminate C; try discriminate T. injection T as <-. split; [intros s' E; injection E as ->; reflexivity|].
      intros z E. symmetry in E. now apply NS in E. }
    assert (E : (forall s, t <> EStr s) /\ (forall z, t <> int_of z)).
    { repeat match type of T with
      | (if ?b then _ else _) = _ => destruct b
      | match ?x with _ => _ end = _ => destruct x
      end; try discriminate T; injection T as <-; (split; [discriminate|]); intros zz; unfold int_of; destruct (Z.ltb zz 0); discriminate. }
    destruct E as [E1 E2]. split; [intros s E; now apply E1 in E|intros z E; now apply E2 in E].
Qed.

Section Masked.
Variable al alnum : N -> bool.
Variable bs : bool.
Variable m : tmeta.
Hypothesis HA : ascii_ok alnum.
Hypothesis WF : wf_table is_keyword m.
Notation supported := (supported al bs m).

Lemma plain_name c : plain_col m c -> colname is_keyword c.
Proof. intros (cm & D & _). apply (wf_names _ _ WF). now apply dget_Some_key in D. Qed.
Lemma enc_name c cm ci : enc_col m c cm ci -> colname is_keyword c.
Proof. intros (D & _). apply (wf_names _ _ WF). now apply dget_Some_key in D. Qed.
Lemma int_cols z : tcols (int_of z) = [].
Proof. unfold int_of. now destruct (Z.ltb z 0). Qed.
Lemma supported_cols t : supported t -> forall l, In l (tcols t) -> exists c, l = [c] /\ colname is_keyword c.
Proof.
  induction 1 as [a b _ IHA _ IHB|a b _ IHA _ IHB|t _ _ _ _ C _|c cm s E|c cm z E|o c cm z I E|c cm ps E]; intros l L; cbn [tcols] in L.
  - apply in_app_or in L as [L|L]; auto.
  - apply in_app_or in L as [L|L]; auto.
  - destruct (C l L) as (c & -> & P). exists c. split; [reflexivity|now apply plain_name].
  - cbn in L. destruct L as [<-|[]]. exists c. split; [reflexivity|now apply enc_name in E].
  - rewrite int_cols in L. cbn in L. destruct L as [<-|[]]. exists c. split; [reflexivity|now apply enc_name in E].
  - rewrite int_cols in L. cbn in L. destruct L as [<-|[]]. exists c. split; [reflexivity|now apply enc_name in E].
  - cbn in L. destruct L as [<-|[]]. exists c. split; [reflexivity|now apply enc_name in E].
Qed.
Lemma supported_ok t : supported t -> cols_ok t.
Proof.
  intros S l L. destruct (supported_cols t S l L) as (c & -> & N0). destruct (colname_facts c alnum HA N0) as (D & _ & _ & _ & C & _). eauto.
Qed.
Lemma supported_clear t : supported t -> clear is_keyword alnum t.
Proof.
  intros S l L. destruct (supported_cols t S l L) as (c & -> & N0). destruct (colname_facts c alnum HA N0) as (D & _ & _ & NO & C & Q).
  exists c. auto 10.
Qed.
Lemma fold_supported o : (o = OAnd \/ o = OOr) -> forall q a b, supported (fold_left (EBin o) (b :: q) a) -> Forall supported (a :: b :: q).
Proof.
  intros O. assert (B2 : forall a b, supported (EBin o a b) -> supported a /\ supported b).
  { intros a b H. inversion H as [? ? X Y|? ? X Y|? S X Y|? ? ? ?|? ? ? ?|? ? ? ? I|? ? ? ?]; subst; auto.
    - exfalso. destruct O; subst; [now apply X|now apply Y].
    - destruct O; discriminate.
    - destruct O; discriminate.
    - cbn in I. destruct O; subst; intuition discriminate.
    - destruct O; discriminate. }
  induction q as [|c q IH]; intros a b H.
  - apply B2 in H as [A B]. auto.
  - change (supported (fold_left (EBin o) (c :: q) (EBin o a b))) in H. apply IH in H. inversion H as [|? ? H1 H2]; subst. apply B2 in H1 as [A B].
    inversion H2; subst. auto.
Qed.
Lemma enc_not_plain c cm ci : enc_col m c cm ci -> ~ plain_col m c.
Proof. intros (D & P & _) (cm' & D' & P'). congruence. Qed.

Lemma supported_frag : forall j t, canon j = true -> tree_of j = Some t -> condition t -> supported t -> frag_cond is_keyword al m j.
Proof.
  induction j as [j IH] using json_size_ind. intros t CN T C S.
  destruct j as [|b|z|q|s|l|d]; try discriminate T.
  - injection T as <-. inversion C.
  - injection T as <-. unfold int_of in C. destruct (Z.ltb z 0); inversion C.
  - cbn [tree_of] in T. unfold col_of in T. destruct (seqb s (u "*")); [injection T as <-; inversion C|].
    destruct (names_of _) as [[|]|]; try discriminate T. injection T as <-. inversion C.
  - destruct d as [|[k v] [|]]; try discriminate T.
    assert (SZ : (jsize v < jsize (JDict [(k, v)]))%nat) by (apply (jsize_dict k); now left).
    assert (PL : (forall l, In l (tcols t) -> exists c, l = [c] /\ plain_col m c) -> smem k [u "and"; u "or"; u "literal"] = false ->
      (smem k [u "eq"; u "gt"; u "lt"; u "gte"; u "lte"; u "like"] = true -> exists c rest, v = JList (JStr c :: rest) /\ plain_col m c) ->
      leaf_ok is_keyword al m k v).
    { intros P K L. left. split; [exact K|]. split; [|exact L]. intros s' I'.
      pose proof (cond_refs _ _ CN T C (supported_ok t S)) as R. destruct (P [s']) as (c & E & Q).
      - rewrite <- R. apply in_map_iff. eauto.
      - injection E as ->. exact Q. }
    assert (OTH : smem k [u "and"; u "or"; u "literal"] = false -> smem k [u "eq"; u "gt"; u "lt"; u "gte"; u "lte"; u "like"] = false ->
      top_op t = None -> frag_cond is_keyword al m (JDict [(k, v)])).
    { intros K1 K2 TO. cbn [frag_cond]. assert (K3 : smem k [u "and"; u "or"] = false).
      { cbn [smem existsb] in K1 |- *. rewrite !orb_false_iff in *. tauto. }
      rewrite K3. apply PL; [|exact K1|congruence].
      inversion S; subst; try discriminate TO. assumption. }
    destruct (tree_key k v t T C CN) as [(o & l & a & b & q & K & V & M & E)|[(n & x & s & a & ts & K & V & M & S' & E)|
      [(n & x & y & z & a & b & c & K & V & X & Y & Z & E)|[(n & a & K & V & E)|(a & K & V & E)]]]].
    + subst k v. pose proof (canon_bin o l CN) as CNl. subst t. destruct (fold_cond_inv o q a b C) as [(CO & -> & VA & VB)|(O & CA & CB & CQ)].
      * assert (L2 : exists x y, l = [x; y] /\ tree_of x = Some a /\ tree_of y = Some b).
        { destruct l as [|x [|y [|w l]]].
          4:{ apply mapO_len in M. discriminate M. }
          all: cbn [mapO] in M.
          { discriminate M. }
          { destruct (tree_of x); discriminate M. }
          destruct (tree_of x) as [a'|] eqn:X; [|discriminate M]. destruct (tree_of y) as [b'|] eqn:Y; [|discriminate M]. injection M as -> ->. eauto. }
        destruct L2 as (x & y & -> & X & Y). cbn [forallb] in CNl. apply andb_true_iff in CNl as [C1 CNl]. apply andb_true_iff in CNl as [C2 _].
        cbn [frag_cond]. replace (smem (bname o) [u "and"; u "or"]) with false by (destruct o; try discriminate CO; reflexivity).
        cbn [fold_left] in *.
        assert (COL : forall c, a = ECol [c] -> colname is_keyword c -> x = JStr c).
        { intros c -> N0. apply (col_json x c C1 X). now apply (colname_facts c alnum HA N0). }
        destruct (const_json_of y b C2 Y) as [CS CI].
        inversion S as [? ? X' Y'|? ? X' Y'|? S' X' Y' G' P' L'|c cm s0 EC TT TX|c cm z EC TT TX|o' c cm z I EC TT TX|c cm ps EC TT TX]; subst; try discriminate CO.
        -- apply PL; [exact P'|destruct o; try discriminate CO; reflexivity|]. intros K.
           assert (IO : In o [OEq; OLt; OLte; OGt; OGte; OLike]) by (destruct o; try discriminate CO; try discriminate K; cbn; auto 10).
           destruct (L' o a b eq_refl IO) as (c & ->). exists c, [y].
           assert (P : plain_col m c). { destruct (P' [c]) as (c' & E & P); [cbn [tcols]; now left|]. now injection E as <-. }
           split; [|exact P]. rewrite (COL c eq_refl); [reflexivity|now apply plain_name].
        -- right. left. exists c, cm, s0. rewrite (COL c eq_refl) by now apply enc_name in EC. rewrite (CS s0 eq_refl). auto 10.
        -- right. right. left. exists c, cm, z. rewrite (COL c eq_refl) by now apply enc_name in EC. rewrite (CI z eq_refl). auto 10.
        -- right. right. right. left. exists c, cm, z. rewrite (COL c eq_refl) by now apply enc_name in EC. rewrite (CI z eq_refl).
           split; [cbn in I; intuition (subst; reflexivity)|auto 10].
        -- do 4 right. exists c, cm, ps. rewrite (COL c eq_refl) by now apply enc_name in EC. rewrite (CS _ eq_refl). auto 10.
      * assert (FS : Forall supported (a :: b :: q)) by now apply (fold_supported o O).
        rewrite frag_and_or by (destruct O; subst; reflexivity). intros j J.
        assert (G : exists t', tree_of j = Some t' /\ In t' (a :: b :: q)).
        { apply mapO_F2 in M. clear - M J. induction M as [|x t l ts H F IHF]; [destruct J|]. destruct J as [->|J]; [exists t; cbn; auto|].
          destruct (IHF J) as (t' & A & B). exists t'. cbn; auto. }
        destruct G as (t' & G1 & G2). rewrite forallb_forall in CNl. rewrite Forall_forall in FS, CQ. apply (IH j) with t'; auto.
        { pose proof (jsize_list j l J). lia. }
        cbn in G2. intuition (subst; auto).
    + subst. apply OTH; [now destruct n|now destruct n|reflexivity].
    + subst. apply OTH; [now destruct n|now destruct n|reflexivity].
    + subst. apply OTH; [now destruct n|now destruct n|reflexivity].
    + subst. apply OTH; reflexivity.
Qed.
Lemma plain_leaves t : supported t -> (forall l, In l (tcols t) -> exists c, l = [c] /\ plain_col m c) -> good_leaves bs t.
Proof.
  assert (EP : forall c cm ci ts, enc_col m c cm ci -> (forall l, In l ([c] :: ts) -> exists c, l = [c] /\ plain_col m c) -> False).
  { intros c cm ci ts E P. destruct (P [c] (or_introl eq_refl)) as (c' & Q & P'). injection Q as <-. now apply (enc_not_plain c cm ci E). }
  induction 1 as [a b _ IHA _ IHB|a b _ IHA _ IHB|t _ _ _ G _ _|c cm s E|c cm z E|o c cm z I E|c cm ps E]; intros P; cbn [tcols] in P.
  - split; [apply IHA|apply IHB]; intros l L; apply P; apply in_or_app; auto.
  - split; [apply IHA|apply IHB]; intros l L; apply P; apply in_or_app; auto.
  - exact G.
  - exfalso. now apply (EP c cm SYM []).
  - exfalso. now apply (EP c cm SYM _ E P).
  - exfalso. now apply (EP c cm OPEC _ E P).
  - exfalso. now apply (EP c cm FUZ _ E P).
Qed.

(** ** Rewritten conditions *)
Lemma fold_cond_top o : (o = OAnd \/ o = OOr) -> forall q a b, condition (fold_left (EBin o) (b :: q) a) ->
  condition a /\ Forall (fun t => condition t /\ top_op t <> Some o) (b :: q).
Proof.
  intros O. assert (B2 : forall a b, condition (EBin o a b) -> condition a /\ condition b /\ top_op b <> Some o).
  { intros a b H. inversion H; subst; auto. destruct O; subst; discriminate. }
  induction q as [|c q IH]; intros a b H.
  - apply B2 in H as (A & B & C). auto.
  - change (condition (fold_left (EBin o) (c :: q) (EBin o a b))) in H. apply IH in H as [H1 H2]. apply B2 in H1 as (A & B & C). auto.
Qed.
Lemma fold_cond_back o : (o = OAnd \/ o = OOr) -> forall q a, condition a -> Forall (fun t => condition t /\ top_op t <> Some o) q ->
  condition (fold_left (EBin o) q a).
Proof.
  intros O. induction q as [|b q IH]; intros a A Q; [exact A|]. inversion Q as [|? ? [B1 B2] Q']; subst. cbn [fold_left]. apply IH; [|exact Q'].
  destruct O; subst; [now apply C_and|now apply C_or].
Qed.
Lemma fold_leaves o : forall q a, good_leaves bs (fold_left (EBin o) q a) <-> good_leaves bs a /\ Forall (good_leaves bs) q.
Proof.
  induction q as [|b q IH]; intros a; cbn [fold_left]; [split; [auto|tauto]|]. rewrite IH. cbn [good_leaves]. split.
  - intros [[A B] C]. auto.
  - intros [A B]. inversion B; subst. auto.
Qed.
Lemma fold_top o : forall q a b, top_op (fold_left (EBin o) (b :: q) a) = Some o.
Proof. induction q as [|c q IH]; intros a b; [reflexivity|]. apply IH. Qed.
Lemma fuzzy_no_bsl E key p t : prim_ok (e_P E) -> fuzzy_pattern (e_alnum E) (e_P E) key p = Ok t -> ~ In 92%N t.
Proof.
  intros HP. unfold fuzzy_pattern. destruct (mapM _ _) as [l|] eqn:M; [|discriminate]. intros [= <-] I.
  assert (AE : forall w c, aes_encrypt (e_P E) key w = Ok c -> ~ In 92%N c).
  { intros w c A J. apply (proj1 (aes_shape (e_P E) HP key w c A)) in J. unfold b64_alphabet in J. lia. }
  assert (MC : forall ws l, mapM (aes_encrypt (e_P E) key) ws = Ok l -> ~ In 92%N (concat l)).
  { induction ws as [|w ws IH]; intros l' M'; cbn [mapM] in M'; [injection M' as <-; auto|].
    destruct (aes_encrypt (e_P E) key w) as [c|] eqn:A; [|discriminate]. destruct (mapM _ ws) as [cs|]; [|discriminate]. injection M' as <-.
    cbn [concat]. intros J. apply in_app_or in J as [J|J]; [now apply (AE w c A)|now apply (IH cs eq_refl)]. }
  assert (FE : forall w c, fuzzy_part (e_alnum E) (e_P E) key w = Ok c -> ~ In 92%N c).
  { intros w c. unfold fuzzy_part. destruct w as [|x w]; [intros [= <-] []|]. destruct (Nat.ltb _ _); [discriminate|]. unfold fuzzy_encrypt.
    destruct (isalnum _ _); (destruct (Nat.ltb _ _); [apply AE|]);
      match goal with |- context [mapM ?f ?l] => destruct (mapM f l) as [cs|] eqn:M' end; try discriminate; cbn [bind]; intros Q; injection Q as <-; now apply (MC _ _ M'). }
  assert (L : forall ws l, mapM (fuzzy_part (e_alnum E) (e_P E) key) ws = Ok l -> forall c, In c l -> ~ In 92%N c).
  { clear - FE. induction ws as [|w ws IH]; intros l M; cbn [mapM] in M; [injection M as <-; intros c []|].
    destruct (fuzzy_part _ _ key w) as [c|] eqn:A; [|discriminate]. destruct (mapM _ ws) as [cs|]; [|discriminate]. injection M as <-.
    intros x [<-|X]; [now apply (FE w c A)|now apply (IH cs eq_refl)]. }
  specialize (L _ _ M).
  clear M. revert I L. clear. induction l as [|c [|d l] IH]; intros I L; [destruct I|now apply (L c (or_introl eq_refl))|].
  change (In 92%N (c ++ [PCT] ++ join [PCT] (d :: l))) in I. apply in_app_or in I as [I|I]; [now apply (L c (or_introl eq_refl))|].
  cbn [app] in I. destruct I as [I|I]; [discriminate I|]. apply IH; [exact I|]. intros x X. apply L. now right.
Qed.

Definition good_out (t t' : tree) (j' : json) : Prop :=
  tree_of j' = Some t' /\ condition t' /\ top_op t' = top_op t /\ clear is_keyword alnum t' /\ good_leaves bs t' /\ canon j' = true.

Lemma phys_name c cm ci n : dget (t_cols m) c = Some cm -> c_plain cm = false -> dget (c_enc cm) ci = Some n -> colname is_keyword n.
Proof.
  intros D P E. apply (wf_pnames _ _ WF). unfold phys. apply in_concat. exists (phys_of c cm). split.
  - apply in_map_iff. exists (c, cm). split; [reflexivity|now apply dget_In].
  - unfold phys_of. rewrite P. apply dget_In in E. unfold dvals. apply in_map_iff. exists (ci, n). auto.
Qed.
Lemma out_cmp o n j b t : comparison o = true -> colname is_keyword n -> tree_of j = Some b -> canon j = true -> value_tree b = true -> top_op t = Some o ->
  (forall l, In l (tcols b) -> clear_col is_keyword alnum l) -> good_leaves bs b ->
  exists t', good_out t t' (JDict [(bname o, JList [JStr n; j])]).
Proof.
  intros CO N0 T CN VB TO CB GB. destruct (colname_facts n alnum HA N0) as (D & B & BSL' & NO & C & Q).
  exists (EBin o (ECol [n]) b). unfold good_out.
  assert (TN : tree_of (JStr n) = Some (ECol [n])) by (cbn [tree_of]; apply col_of_name; [apply NO|exact D|exact B]).
  split; [|split; [|split; [|split; [|split]]]].
  - cbn [tree_of]. rewrite find_of_bname. cbn [mapO]. rewrite TN, T. reflexivity.
  - now apply C_cmp.
  - symmetry. exact TO.
  - intros l L. cbn [tcols app] in L. destruct L as [<-|L]; [|now apply CB]. exists n. auto 10.
  - cbn [good_leaves]. auto.
  - cbn [canon]. replace (seqb (bname o) (u "literal")) with false by now destruct o. cbn [is_jlist forallb andb canon]. rewrite CN. now destruct (is_binop (bname o)).
Qed.

Lemma masked_out E : prim_ok (e_P E) -> forall j t, canon j = true -> tree_of j = Some t -> condition t -> supported t ->
  forall j', masked is_keyword E m j j' -> exists t', good_out t t' j'.
Proof.
  intros HP. induction j as [j IH] using json_size_ind. intros t CN T C S j' MK.
  inversion MK as [k x P|c cm n s ct D PL DE A|c cm n z ct D PL DE A|k c cm n z e K D PL DE A|c cm n p ct D PL DE A|k l l' K F]; subst.
  - exists t. unfold good_out. split; [exact T|]. split; [exact C|]. split; [reflexivity|]. split; [now apply supported_clear|]. split; [|exact CN].
    apply plain_leaves; [exact S|]. intros l L. destruct (supported_cols t S l L) as (c & -> & _). exists c. split; [reflexivity|]. apply P.
    rewrite <- (cond_refs _ _ CN T C (supported_ok t S)) in L. apply in_map_iff in L as (c' & E' & I'). injection E' as ->. exact I'.
  - change (u "eq") with (bname OEq). apply (out_cmp OEq n (lit ct) (EStr ct)); try reflexivity.
    + now apply (phys_name c cm SYM).
    + cbn [tree_of] in T. change (find (fun p => seqb (fst p) (u "eq")) binops) with (Some (u "eq", OEq)) in T.
      destruct (mapO tree_of _) as [[|a [|b q]]|]; try discriminate T. injection T as <-. apply (fold_top OEq q a b).
    + intros l [].
    + intros _ I. apply (proj1 (aes_shape (e_P E) HP _ _ _ A)) in I. unfold b64_alphabet in I. lia.
  - change (u "eq") with (bname OEq).
    assert (TT : t = EBin OEq (ECol [c]) (int_of z)).
    { pose proof (wf_names _ _ WF c (dget_Some_key _ _ _ D)) as N0. destruct (colname_facts c alnum HA N0) as (D1 & D2 & _ & NO & _).
      cbn [tree_of] in T. change (find (fun p => seqb (fst p) (u "eq")) binops) with (Some (u "eq", OEq)) in T. cbn [mapO] in T.
      change (tree_of (JInt z)) with (Some (int_of z)) in T. change (tree_of (JStr c)) with (col_of c) in T. rewrite (col_of_name c (proj1 NO) D1 D2) in T. now injection T as <-. }
    assert (L32 : (length (str_int z) <= 32)%nat).
    { subst t. inversion S as [| |? _ _ _ _ P' _|c' cm' s0 EC TT TX E1|c' cm' z' EC TT TX E1|o' c' cm' z' I EC TT TX E1|]; subst.
      - exfalso. destruct (P' [c]) as (c' & E' & (cm' & D' & PL')); [now left|]. injection E' as <-. congruence.
      - exfalso. unfold int_of in *. destruct (Z.ltb z 0); congruence.
      - assert (z' = z); [|now subst]. unfold int_of in *. destruct (Z.ltb_spec z' 0), (Z.ltb_spec z 0); try congruence; repeat match goal with H : ENeg _ = ENeg _ |- _ => injection H as H | H : EInt _ = EInt _ |- _ => injection H as H end; lia.
      - cbn in I. intuition discriminate. }
    destruct (int_comparand (e_P E) HP alnum _ _ _ HA A L32) as (B64 & Q & _).
    assert (NX : forall x, (x = DOT \/ x = BS \/ x = 92 \/ x = 10 \/ x = 42)%N -> ~ In x ct).
    { intros x X I. apply B64 in I. unfold b64_alphabet, DOT, BS in *. lia. }
    assert (NST : ct <> u "*") by (intros ->; apply (NX 42%N); [auto 10|now left]).
    apply (out_cmp OEq n (JStr ct) (ECol [ct])); try reflexivity.
    + now apply (phys_name c cm SYM).
    + cbn [tree_of]. apply col_of_name; [exact NST|apply NX; auto|apply NX; auto].
    + now rewrite TT.
    + intros l [<-|[]]. exists ct. split; [reflexivity|]. split; [apply NX; auto|]. split.
      { split; [exact NST|]. intros E'. destruct ct as [|x ct].
        - discriminate E'.
        - assert (I : In (last (x :: ct) 0%N) (x :: ct)) by (apply last_In; discriminate). rewrite E' in I. revert I. apply NX. auto 10. }
      right. split; [|split; [exact Q|apply NX; auto 10]].
      apply (aes_short_quoted is_keyword (e_P E) HP _ _ _ A). rewrite nbytes_ascii by apply str_int_ascii.
      pose proof (str_int_nonempty z). destruct (str_int z); [congruence|]. cbn [length] in *. lia.
    + constructor; [|constructor]. split; [exact NST|]. intros E'. destruct ct as [|x ct]; [discriminate E'|].
      assert (I : In (last (x :: ct) 0%N) (x :: ct)) by (apply last_In; discriminate). rewrite E' in I. revert I. apply NX. auto 10.
  - assert (KO : exists o, k = bname o /\ comparison o = true).
    { cbn [smem existsb] in K. rewrite !orb_true_iff in K. destruct K as [K|[K|[K|[K|K]]]]; try discriminate K; apply seqb_eq in K; subst k;
        [exists OGt|exists OLt|exists OGte|exists OLte]; split; reflexivity. }
    destruct KO as (o & -> & CO). apply (out_cmp o n (JInt e) (int_of e)); try reflexivity; try exact CO.
    + now apply (phys_name c cm OPEC).
    + unfold int_of. now destruct (Z.ltb e 0).
    + cbn [tree_of] in T. rewrite find_of_bname in T. destruct (mapO tree_of _) as [[|a [|b q]]|]; try discriminate T. injection T as <-. apply (fold_top o q a b).
    + rewrite int_cols. intros l [].
    + unfold int_of. now destruct (Z.ltb e 0).
  - change (u "like") with (bname OLike). apply (out_cmp OLike n (lit ct) (EStr ct)); try reflexivity.
    + now apply (phys_name c cm FUZ).
    + cbn [tree_of] in T. change (find (fun p => seqb (fst p) (u "like")) binops) with (Some (u "like", OLike)) in T.
      destruct (mapO tree_of _) as [[|a [|b q]]|]; try discriminate T. injection T as <-. apply (fold_top OLike q a b).
    + intros l [].
    + intros _. now apply (fuzzy_no_bsl E (c_key cm) p).
  - assert (KO : exists o, k = bname o /\ (o = OAnd \/ o = OOr)).
    { cbn [smem existsb] in K. rewrite !orb_true_iff in K. destruct K as [K|[K|K]]; try discriminate K; apply seqb_eq in K; subst k;
        [exists OAnd|exists OOr]; split; auto. }
    destruct KO as (o & -> & O). cbn [tree_of] in T. rewrite find_of_bname in T.
    destruct (mapO tree_of l) as [[|a [|b q]]|] eqn:M; try discriminate T. injection T as <-.
    change (fold_left (EBin o) q (EBin o a b)) with (fold_left (EBin o) (b :: q) a) in *.
    pose proof (fold_supported o O q a b S) as FS. destruct (fold_cond_top o O q a b C) as [CA CQ]. pose proof (canon_bin o l CN) as CNl.
    assert (CC : Forall condition (a :: b :: q)). { constructor; [exact CA|]. eapply Forall_impl; [|exact CQ]. now intros t [H _]. }
    assert (G : exists ts', mapO tree_of l' = Some ts' /\ Forall2 (fun t t' => condition t' /\ top_op t' = top_op t /\ clear is_keyword alnum t' /\ good_leaves bs t') (a :: b :: q) ts' /\ forallb canon l' = true).
    { assert (IH' : forall j, In j l -> forall t, canon j = true -> tree_of j = Some t -> condition t -> supported t -> forall j', masked is_keyword E m j j' -> exists t', good_out t t' j').
      { intros j J. apply IH. pose proof (jsize_list j l J). pose proof (jsize_dict (bname o) (JList l) [(bname o, JList l)] (or_introl eq_refl)). lia. }
      revert M FS CC CNl IH'. generalize (a :: b :: q). clear - F. induction F as [|x x' l l' MX F IHF]; intros ts M FS CC CNl IH'; cbn [mapO] in M.
      - injection M as <-. exists []. repeat split; constructor.
      - destruct (tree_of x) as [t|] eqn:X; [|discriminate M]. destruct (mapO tree_of l) as [ts0|] eqn:ML; [|discriminate M]. injection M as <-.
        cbn [forallb] in CNl. apply andb_true_iff in CNl as [C1 C2]. inversion FS; subst. inversion CC; subst.
        destruct (IH' x (or_introl eq_refl) t C1 X ltac:(assumption) ltac:(assumption) x' MX) as (t' & T1 & T2 & T3 & T4 & T5 & T6).
        destruct (IHF ts0 eq_refl ltac:(assumption) ltac:(assumption) C2 (fun j J => IH' j (or_intror J))) as (ts' & U1 & U2 & U3).
        exists (t' :: ts'). cbn [mapO forallb]. rewrite T1, U1, T6, U3. split; [reflexivity|]. split; [constructor; auto|reflexivity]. }
    destruct G as (ts' & M' & F2 & CN').
    inversion F2 as [|? a' ? r' (A1 & A2 & A3 & A4) F3]; subst. inversion F3 as [|? b' ? q' B1 F4]; subst.
    exists (fold_left (EBin o) (b' :: q') a'). unfold good_out.
    assert (Q' : Forall (fun t => condition t /\ top_op t <> Some o) (b' :: q')).
    { clear - F3 CQ. revert CQ. induction F3 as [|t t' l l' (X1 & X2 & _) F IHF]; intros CQ; [constructor|]. inversion CQ as [|? ? [_ Y] CQ']; subst.
      constructor; [split; [exact X1|congruence]|now apply IHF]. }
    split; [cbn [tree_of]; rewrite find_of_bname, M'; reflexivity|]. split; [now apply fold_cond_back|].
    split; [now rewrite !fold_top|]. split; [|split].
    + intros x X. apply tcols_fold in X as [X|(t' & I' & X)]; [now apply A3|].
      revert I' X. clear - F3. induction F3 as [|t0 t1 l l' (_ & _ & Y & _) F IHF]; intros I' X; [destruct I'|]. destruct I' as [<-|I']; [now apply Y|now apply IHF].
    + apply fold_leaves. split; [exact A4|]. clear - F3. induction F3 as [|t0 t1 l l' (_ & _ & _ & Y) F IHF]; constructor; auto.
    + cbn [canon is_jlist]. replace (seqb (bname o) (u "literal")) with false by now destruct o. rewrite CN'. now destruct (is_binop (bname o)).
Qed.
End Masked.
