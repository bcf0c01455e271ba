(** Regrouping AND and OR keeps the truth value of a condition and whether it is supported. *)
From Coq Require Import String Ascii List Arith NArith ZArith QArith Bool Lia.
From Verif Require Import Base CryptoModel FuzzyModel JsonModel RewriteModel LikeSpec SqlSpec EncSpec SqlLex SqlRead FmtSpec ScrubModel OperSpec OperCondProof EndSpec.
Import ListNotations.

Lemma assoc_value t t' : assoc_eq t t' -> value_tree t = true \/ value_tree t' = true -> t = t'.
Proof.
  induction 1 as [t|t t' A IH|t t' t'' A IHA B IHB|o a b c O|t t' A IH|t t' A IH|o a a' b b' A IHA B IHB|n m m' l A IH|n a a' b b' c c' A IHA B IHB C IHC|n t t' A IH];
    intros V; cbn [value_tree] in V; try (destruct V; discriminate).
  - reflexivity.
  - symmetry. apply IH. tauto.
  - destruct V as [V|V].
    + rewrite IHA in V by auto. rewrite IHA by (right; exact V). apply IHB. auto.
    + rewrite <- IHB in V by auto. rewrite IHA by (right; exact V). apply IHB. auto.
Qed.
Lemma assoc_search t t' : assoc_eq t t' -> search t <-> search t'.
Proof.
  induction 1 as [t|t t' A IH|t t' t'' A IHA B IHB|o a b c O|t t' A IH|t t' A IH|o a a' b b' A IHA B IHB|n m m' l A IH|n a a' b b' c c' A IHA B IHB C IHC|n t t' A IH].
  - tauto.
  - tauto.
  - tauto.
  - destruct o; try discriminate O; split; intros H; inversion H; subst; try discriminate.
    all: match goal with K : search (EBin _ _ _) |- _ => inversion K; subst; try discriminate end; repeat constructor; assumption.
  - split; intros H; inversion H.
  - split; intros H; inversion H; subst; constructor; tauto.
  - split; intros H; inversion H; subst.
    + rewrite <- (assoc_value a a' A) by auto. rewrite <- (assoc_value b b' B) by auto. exact H.
    + apply S_and; tauto.
    + apply S_or; tauto.
    + rewrite (assoc_value a a' A) by auto. rewrite (assoc_value b b' B) by auto. exact H.
    + apply S_and; tauto.
    + apply S_or; tauto.
  - split; intros H; inversion H; subst; rewrite (assoc_value m m' A) in * by auto; exact H.
  - split; intros H; inversion H; subst; rewrite (assoc_value a a' A), (assoc_value b b' B), (assoc_value c c' C) in * by auto; exact H.
  - split; intros H; inversion H; subst; rewrite (assoc_value t t' A) in * by auto; exact H.
Qed.
Lemma assoc_cols t t' : assoc_eq t t' -> forall l, In l (tcols t) <-> In l (tcols t').
Proof.
  induction 1 as [t|t t' A IH|t t' t'' A IHA B IHB|o a b c O|t t' A IH|t t' A IH|o a a' b b' A IHA B IHB|n m m' l A IH|n a a' b b' c c' A IHA B IHB C IHC|n t t' A IH];
    intros x; cbn [tcols]; rewrite ?in_app_iff; try specialize (IH x); try specialize (IHA x); try specialize (IHB x); try specialize (IHC x); tauto.
Qed.
Lemma assoc_top t t' : assoc_eq t t' -> top_op t = top_op t'.
Proof. induction 1; cbn [top_op]; congruence. Qed.

Lemma assoc_supported al bs m t t' : assoc_eq t t' -> supported al bs m t <-> supported al bs m t'.
Proof.
  intros H. induction H as [t|t t' A IH|t t' t'' A IHA B IHB|o a b c O|t t' A IH|t t' A IH|o a a' b b' A IHA B IHB|n x x' l A IH|n a a' b b' c c' A IHA B IHB C IHC|n t t' A IH].
  - tauto.
  - tauto.
  - tauto.
  - assert (O2 : o = OAnd \/ o = OOr \/ o = OAdd \/ o = OMul) by (destruct o; try discriminate O; auto). clear O.
    destruct O2 as [->|[->|O2]].
    + split; intros H; inversion H as [? ? X Y|? ? X Y|? _ T|? ? ? ?|? ? ? ?|? ? ? ? I|? ? ? ?]; subst;
        try (exfalso; apply T; reflexivity); try (cbn in I; intuition discriminate).
      * inversion Y as [? ? X' Y'|? ? X' Y'|? _ T|? ? ? ?|? ? ? ?|? ? ? ? I|? ? ? ?]; subst; try (exfalso; apply T; reflexivity); try (cbn in I; intuition discriminate).
        repeat apply sup_and; assumption.
      * inversion X as [? ? X' Y'|? ? X' Y'|? _ T|? ? ? ?|? ? ? ?|? ? ? ? I|? ? ? ?]; subst; try (exfalso; apply T; reflexivity); try (cbn in I; intuition discriminate).
        repeat apply sup_and; assumption.
    + split; intros H; inversion H as [? ? X Y|? ? X Y|? _ _ T|? ? ? ?|? ? ? ?|? ? ? ? I|? ? ? ?]; subst;
        try (exfalso; apply T; reflexivity); try (cbn in I; intuition discriminate).
      * inversion Y as [? ? X' Y'|? ? X' Y'|? _ _ T|? ? ? ?|? ? ? ?|? ? ? ? I|? ? ? ?]; subst; try (exfalso; apply T; reflexivity); try (cbn in I; intuition discriminate).
        repeat apply sup_or; assumption.
      * inversion X as [? ? X' Y'|? ? X' Y'|? _ _ T|? ? ? ?|? ? ? ?|? ? ? ? I|? ? ? ?]; subst; try (exfalso; apply T; reflexivity); try (cbn in I; intuition discriminate).
        repeat apply sup_or; assumption.
    + split; intros H; inversion H as [? ? X Y|? ? X Y|? S _ T|? ? ? ?|? ? ? ?|? ? ? ? I|? ? ? ?]; subst; try (destruct O2; discriminate);
        try (exfalso; inversion S; subst; destruct O2; discriminate); destruct O2; subst; cbn in I; intuition discriminate.
  - split; intros H; inversion H as [| |? S| | | |]; subst; inversion S.
  - split; intros H; inversion H as [| |? S _ _ G C _| | | |]; subst; inversion S; subst.
    + constructor; [constructor; now rewrite <- (assoc_search t t' A)|discriminate|discriminate|now apply (assoc_leaves bs t t' A)| |discriminate].
      intros l L. apply C. now apply (assoc_cols t t' A).
    + constructor; [constructor; now rewrite (assoc_search t t' A)|discriminate|discriminate|now apply (assoc_leaves bs t t' A)| |discriminate].
      intros l L. apply C. now apply (assoc_cols t t' A).
  - assert (V : (value_tree a = true /\ value_tree b = true) \/ (value_tree a' = true /\ value_tree b' = true) ->
      supported al bs m (EBin o a b) <-> supported al bs m (EBin o a' b')).
    { intros V. rewrite (assoc_value a a' A), (assoc_value b b' B) by tauto. tauto. }
    assert (I2 : forall z, value_tree (int_of z) = true) by (intros z; unfold int_of; now destruct (Z.ltb z 0)).
    split; intros H; inversion H as [? ? X Y|? ? X Y|? S X Y|? ? ? ?|? ? ? ?|? ? ? ? I|? ? ? ?]; subst; try (apply sup_and; tauto); try (apply sup_or; tauto);
      try (first [refine (proj1 (V _) H)|refine (proj2 (V _) H)]; cbn [value_tree]; rewrite ?I2; auto; fail).
    + inversion S; subst; [|exfalso; now apply X|exfalso; now apply Y]. refine (proj1 (V _) H); auto.
    + inversion S; subst; [|exfalso; now apply X|exfalso; now apply Y]. refine (proj2 (V _) H); auto.
  - split; intros H; inversion H as [| |? S| | | |]; subst; inversion S; subst; rewrite (assoc_value x x' A) in * by auto; exact H.
  - split; intros H; inversion H as [| |? S| | | |]; subst; inversion S; subst;
      rewrite (assoc_value a a' A), (assoc_value b b' B), (assoc_value c c' C) in * by auto; exact H.
  - split; intros H; inversion H as [| |? S| | | |]; subst; inversion S; subst; rewrite (assoc_value t t' A) in * by auto; exact H.
Qed.

Lemma tval_err r t e : tval r t = Err e -> e = DbError.
Proof.
  destruct t as [l| | | | |t| | | | | | |]; cbn [tval]; try congruence.
  - destruct l as [|c [|]]; try congruence. destruct (dget r c); congruence.
  - destruct t; congruence.
Qed.
Lemma tv_and_assoc a b c : tv_and a (tv_and b c) = tv_and (tv_and a b) c.
Proof. destruct a as [[]|], b as [[]|], c as [[]|]; reflexivity. Qed.
Lemma tv_or_assoc a b c : tv_or a (tv_or b c) = tv_or (tv_or a b) c.
Proof. destruct a as [[]|], b as [[]|], c as [[]|]; reflexivity. Qed.
Lemma truth_other r o a b : assoc_op o = true -> o <> OAnd -> o <> OOr -> truth r (EBin o a b) = Err DbError.
Proof.
  intros O X Y. assert (E : truth r (EBin o a b) = do x <- tval r a; do y <- tval r b; Err DbError) by (destruct o; try discriminate O; try congruence; reflexivity).
  rewrite E. destruct (tval r a) as [x|] eqn:A; [|apply tval_err in A; now subst]. cbn [bind].
  destruct (tval r b) as [y|] eqn:B; [|apply tval_err in B; now subst]. reflexivity.
Qed.
Lemma assoc_tval r t t' : assoc_eq t t' -> tval r t = tval r t'.
Proof. induction 1; cbn [tval]; congruence. Qed.
Lemma assoc_truth r t t' : assoc_eq t t' -> truth r t = truth r t'.
Proof.
  induction 1 as [t|t t' A IH|t t' t'' A IHA B IHB|o a b c O|t t' A IH|t t' A IH|o a a' b b' A IHA B IHB|n m m' l A IH|n a a' b b' c c' A IHA B IHB C IHC|n t t' A IH].
  - reflexivity.
  - congruence.
  - congruence.
  - destruct o; try discriminate O; try (rewrite !truth_other by (reflexivity || discriminate); reflexivity); cbn [truth];
      (destruct (truth r a) as [x|]; [|reflexivity]); cbn [bind]; (destruct (truth r b) as [y|]; [|reflexivity]); cbn [bind];
      (destruct (truth r c) as [z|]; [|reflexivity]); cbn [bind]; f_equal; [apply tv_and_assoc|apply tv_or_assoc].
  - reflexivity.
  - cbn [truth]. now rewrite IH.
  - pose proof (assoc_tval r a a' A) as TA. pose proof (assoc_tval r b b' B) as TB.
    destruct o; cbn [truth]; rewrite ?IHA, ?IHB, ?TA, ?TB; reflexivity.
  - cbn [truth]. now rewrite (assoc_tval r m m' A).
  - cbn [truth]. now rewrite (assoc_tval r a a' A), (assoc_tval r b b' B), (assoc_tval r c c' C).
  - cbn [truth]. now rewrite (assoc_tval r t t' A).
Qed.

Lemma supported_search al bs m t : supported al bs m t -> search t.
Proof.
  assert (I2 : forall z, value_tree (int_of z) = true) by (intros z; unfold int_of; now destruct (Z.ltb z 0)).
  induction 1 as [a b _ IHA _ IHB|a b _ IHA _ IHB|t S|c cm s|c cm z|o c cm z I|c cm ps].
  - now apply S_and.
  - now apply S_or.
  - exact S.
  - now apply S_cmp.
  - apply S_cmp; auto.
  - apply S_cmp; auto. cbn in I. intuition (subst; reflexivity).
  - now apply S_cmp.
Qed.
