(** Reading the text of a condition where double quotes delimit texts. *)
From Coq Require Import String Ascii List Arith NArith ZArith QArith Bool Lia ZifyBool ZifyNat ZifyN.
From Verif Require Import Base BaseProof JsonModel JsonProof CreateModel DotsModel SqlSpec SqlLex SqlRead FmtModel FmtSpec FmtLexProof FmtExprProof FmtReadProof FmtProof
  EndSpec EndTruthProof.
Import ListNotations.
Open Scope Z_scope.

Section Texts.
Variable bs : bool.
Variable alnum : N -> bool.
Hypothesis HA : ascii_ok alnum.
Notation Lw := (Lw bs true).
Notation Lf := (Lf bs true).
Notation vleaf := (vleaf alnum).
Notation view := (view alnum).
Notation clear := (clear is_keyword alnum).

Let off : false = true -> true = false.
Proof. discriminate. Qed.

Lemma Lw_dstr s : (bs = true -> ~ In 92%N s) -> Lw (34%N :: double_char 34 s ++ [34%N]) [TStr s].
Proof.
  intros B rest ts' S H. cbn [app]. pose proof (sep_head _ S) as HR.
  apply Lx_tok with (r := rest); [reflexivity| |rewrite !app_length; cbn; lia|exact H].
  unfold read_token. change (34 =? 39)%N with false. change (34 =? 34)%N with true. cbv iota.
  rewrite <- app_assoc. cbn [app]. rewrite read_quoted_rest; [reflexivity| |discriminate|].
  - intros E. apply B. now destruct bs.
  - destruct rest as [|d r]; [easy|]. apply HR.
Qed.
Lemma leaf_show t c : value_tree t = true -> wf t -> good_leaves bs t -> clear t -> Lw (show alnum true t c) (toks alnum (vleaf t) c).
Proof.
  intros V W G CL. destruct t as [l| |s| | |t| | | | | | |]; try discriminate V.
  - destruct (CL l) as (p & -> & D & NO & Q); [now left|]. cbn [vleaf].
    change (show alnum true (ECol [p]) c) with (esc alnum true p). unfold esc.
    destruct Q as [[_ Q]|(_ & Q & B)]; rewrite Q.
    + change (toks alnum (ECol [p]) c) with [part_tok alnum p]. unfold part_tok. rewrite Q.
      unfold should_quote in Q. destruct NO as [NS NL]. assert (S : seqb p (u "*") = false) by (now apply seqb_neq).
      rewrite S in Q. cbn [negb andb] in Q. apply orb_false_iff in Q as [Q _]. apply negb_false_iff in Q.
      destruct (valid_word alnum HA _ Q NL) as (x & w & -> & C & W'). now apply Lw_word.
    + change (toks alnum (EStr p) c) with [TStr p]. unfold quote_char. apply Lw_dstr. intros _. exact B.
  - cbn [vleaf show toks]. apply (Lw_wrap bs true false off). now apply Lw_str.
  - cbn [vleaf show toks]. apply (Lw_wrap bs true false off). now apply (Lw_int bs true false off).
  - cbn [vleaf show toks]. apply (Lw_wrap bs true false off). apply Lw_word; reflexivity.
  - cbn [vleaf show toks]. apply (Lw_wrap bs true false off). cbn [wf] in W. destruct t; try contradiction. now apply (Lw_neg bs true false off).
Qed.
Lemma rank_view t : rank (view t) = rank t.
Proof. destruct t as [[|p [|]]| | | | | | | | | | | |]; try reflexivity. cbn [view EndTruthProof.view EndTruthProof.vleaf]. now destruct (should_quote alnum p). Qed.
Lemma bare_view c t : bare c (view t) = bare c t.
Proof. unfold bare. now rewrite rank_view. Qed.

Lemma cond_show t : condition t -> wf t -> good_leaves bs t -> clear t -> forall c, Lw (show alnum true t c) (toks alnum (view t) c).
Proof.
  intros C. assert (SUB : forall t t', clear t -> incl (tcols t') (tcols t) -> clear t') by (intros t0 t1 H I l L; now apply H, I).
  induction C as [o a b CO VA VB|n m l VM VL|n a b c VA VB VC|n t V|t C IH|a b A IHA B IHB _|a b A IHA B IHB _]; intros W G CL c0.
  - cbn [EndTruthProof.view]. rewrite !view_leaf by assumption. cbn [show toks].
    assert (BV : bare c0 (EBin o (vleaf a) (vleaf b)) = bare c0 (EBin o a b)) by reflexivity. rewrite BV. apply (Lw_wrap bs true false off).
    destruct W, G. apply Lw_app; [apply leaf_show; auto; apply (SUB _ _ CL), incl_appl, incl_refl| |destruct o; reflexivity].
    apply Lf_Lw_app; [apply (Lf_op bs true false off)|apply leaf_show; auto; apply (SUB _ _ CL), incl_appr, incl_refl].
  - cbn [EndTruthProof.view show toks]. assert (BV : bare c0 (EIn n (vleaf m) (map vleaf l)) = bare c0 (EIn n m l)) by reflexivity. rewrite BV. apply (Lw_wrap bs true false off).
    destruct W as [W1 W2], G as [G1 G2]. rewrite fold_and in W2, G2.
    apply Lw_app; [apply leaf_show; auto; apply (SUB _ _ CL), incl_appl, incl_refl| |destruct n; reflexivity].
    match goal with |- FmtLexProof.Lw _ _ _ (_ ++ TWord (u "IN") :: ?r) => change (TWord (u "IN") :: r) with ([TWord (u "IN")] ++ r) end.
    rewrite app_assoc. apply Lf_Lw_app; [apply (Lf_in bs true false off)|]. apply Lf_Lw, (Lf_wrap bs true false off). rewrite map_map. apply (Lw_join bs true false off).
    apply Forall_forall. intros t I. rewrite Forall_forall in W2, G2. rewrite forallb_forall in VL. apply leaf_show; auto.
    apply (SUB _ _ CL). cbn [tcols]. apply incl_appr. intros x X. apply in_concat. exists (tcols t). split; [now apply in_map|exact X].
  - cbn [EndTruthProof.view show toks]. assert (BV : bare c0 (EBetween n (vleaf a) (vleaf b) (vleaf c)) = bare c0 (EBetween n a b c)) by reflexivity. rewrite BV. apply (Lw_wrap bs true false off).
    destruct W as (W1 & W2 & W3), G as (G1 & G2 & G3).
    apply Lw_app; [apply leaf_show; auto; apply (SUB _ _ CL); cbn [tcols]; apply incl_appl, incl_refl| |destruct n; reflexivity].
    change (TWord (u "BETWEEN") :: toks alnum (vleaf b) 32 ++ TWord (u "AND") :: toks alnum (vleaf c) 32) with
      ([TWord (u "BETWEEN")] ++ toks alnum (vleaf b) 32 ++ [TWord (u "AND")] ++ toks alnum (vleaf c) 32).
    rewrite (app_assoc (not_toks n)). apply Lf_Lw_app; [apply (Lf_between bs true false off)|].
    apply Lw_app; [apply leaf_show; auto; apply (SUB _ _ CL); cbn [tcols]; apply incl_appr, incl_appl, incl_refl| |reflexivity].
    apply Lf_Lw_app; [apply (Lf_and bs true false off)|apply leaf_show; auto; apply (SUB _ _ CL); cbn [tcols]; apply incl_appr, incl_appr, incl_refl].
  - cbn [EndTruthProof.view show toks]. assert (BV : bare c0 (EIs n (vleaf t)) = bare c0 (EIs n t)) by reflexivity. rewrite BV. apply (Lw_wrap bs true false off).
    apply Lw_app; [apply leaf_show; auto|apply (Lw_is bs true false off)|destruct n; reflexivity].
  - cbn [EndTruthProof.view show toks]. assert (BV : bare c0 (ENot (view t)) = bare c0 (ENot t)) by reflexivity. rewrite BV. apply (Lw_wrap bs true false off).
    apply (Lw_app bs true (u "NOT") [TWord (u "NOT")]); [apply Lw_word; reflexivity| |reflexivity]. apply Lf_Lw, (Lf_wrap bs true false off). now apply IH.
  - cbn [EndTruthProof.view show toks]. assert (BV : bare c0 (EBin OAnd (view a) (view b)) = bare c0 (EBin OAnd a b)) by reflexivity. rewrite BV. apply (Lw_wrap bs true false off).
    destruct W, G. apply Lw_app; [apply IHA; auto; apply (SUB _ _ CL), incl_appl, incl_refl| |reflexivity].
    apply Lf_Lw_app; [apply (Lf_op bs true false off OAnd)|apply IHB; auto; apply (SUB _ _ CL), incl_appr, incl_refl].
  - cbn [EndTruthProof.view show toks]. assert (BV : bare c0 (EBin OOr (view a) (view b)) = bare c0 (EBin OOr a b)) by reflexivity. rewrite BV. apply (Lw_wrap bs true false off).
    destruct W, G. apply Lw_app; [apply IHA; auto; apply (SUB _ _ CL), incl_appl, incl_refl| |reflexivity].
    apply Lf_Lw_app; [apply (Lf_op bs true false off OOr)|apply IHB; auto; apply (SUB _ _ CL), incl_appr, incl_refl].
Qed.

Lemma vleaf_value t : value_tree t = true -> value_tree (vleaf t) = true.
Proof. destruct t as [[|p [|]]| | | | | | | | | | | |]; try discriminate; try reflexivity. intros _. cbn [EndTruthProof.vleaf]. now destruct (should_quote alnum p). Qed.
Lemma view_condition t : condition t -> condition (view t).
Proof.
  assert (TOP : forall t, top_op (view t) = top_op t).
  { intros [[|p [|]]| | | | | | | | | | | |]; try reflexivity. cbn [EndTruthProof.view EndTruthProof.vleaf]. now destruct (should_quote alnum p). }
  induction 1; cbn [EndTruthProof.view].
  - rewrite !view_leaf by assumption. constructor; auto using vleaf_value.
  - constructor; [now apply vleaf_value|]. rewrite forallb_forall in *. intros x X. apply in_map_iff in X as (y & <- & Y). apply vleaf_value; auto.
  - constructor; auto using vleaf_value.
  - constructor; auto using vleaf_value.
  - now constructor.
  - apply C_and; auto. now rewrite TOP.
  - apply C_or; auto. now rewrite TOP.
Qed.
Lemma vleaf_wf t : wf t -> wf (vleaf t).
Proof. destruct t as [[|p [|]]| | | | | | | | | | | |]; cbn [EndTruthProof.vleaf]; auto. destruct (should_quote alnum p); [intros _; exact I|auto]. Qed.
Lemma view_wf t : condition t -> wf t -> wf (view t).
Proof.
  induction 1; cbn [EndTruthProof.view]; intros W.
  - rewrite !view_leaf by assumption. destruct W. split; now apply vleaf_wf.
  - destruct W as [A B]. split; [now apply vleaf_wf|]. rewrite fold_and in *. rewrite Forall_forall in *. intros x X. apply in_map_iff in X as (y & <- & Y). now apply vleaf_wf, B.
  - destruct W as (A & B & C). repeat split; now apply vleaf_wf.
  - now apply vleaf_wf.
  - now apply IHcondition.
  - destruct W. split; auto.
  - destruct W. split; auto.
Qed.
Lemma vleaf_good t : clear t -> good_leaves bs t -> good_leaves bs (vleaf t).
Proof.
  destruct t as [[|p [|]]| | | | | | | | | | | |]; cbn [EndTruthProof.vleaf]; auto. intros CL G. destruct (should_quote alnum p) eqn:Q; [|exact G].
  destruct (CL [p]) as (p' & E & _ & _ & X); [now left|]. injection E as <-. destruct X as [[_ X]|(_ & _ & X)]; [congruence|]. intros _. exact X.
Qed.
Lemma view_good t : condition t -> clear t -> good_leaves bs t -> good_leaves bs (view t).
Proof.
  assert (SUB : forall t t', clear t -> incl (tcols t') (tcols t) -> clear t') by (intros t0 t1 H I l L; now apply H, I).
  induction 1; cbn [EndTruthProof.view]; intros CL W.
  - rewrite !view_leaf by assumption. destruct W. split; apply vleaf_good; auto; apply (SUB _ _ CL); [apply incl_appl|apply incl_appr]; apply incl_refl.
  - destruct W as [A B]. split; [apply vleaf_good; auto; apply (SUB _ _ CL), incl_appl, incl_refl|].
    rewrite fold_and in *. rewrite Forall_forall in *. intros x X. apply in_map_iff in X as (y & <- & Y). apply vleaf_good; auto.
    apply (SUB _ _ CL). cbn [tcols]. apply incl_appr. intros x X. apply in_concat. exists (tcols y). split; [now apply in_map|exact X].
  - destruct W as (A & B & C). repeat split; apply vleaf_good; auto; apply (SUB _ _ CL); intros x X; cbn [tcols]; rewrite !in_app_iff; auto.
  - now apply vleaf_good.
  - now apply IHcondition.
  - destruct W. split; [apply IHcondition1|apply IHcondition2]; auto; apply (SUB _ _ CL); [apply incl_appl|apply incl_appr]; apply incl_refl.
  - destruct W. split; [apply IHcondition1|apply IHcondition2]; auto; apply (SUB _ _ CL); [apply incl_appl|apply incl_appr]; apply incl_refl.
Qed.

Lemma cond_reads fstr j t : tree_of j = Some t -> condition t -> clear t -> good_leaves bs t ->
  exists s, format_sql alnum fstr j = Ok s /\ reads bs true mysql_lev 14 s (view t).
Proof.
  intros T C CL G. exists (show alnum true t max_prec). split.
  - unfold format_sql. apply show_ok; [lia|cbv; split; congruence|exact T].
  - assert (W : wf t) by (apply (tree_wf (S (jdepth j)) j t); [lia|exact T]).
    pose proof (proj2 mysql_std) as ML.
    exists (toks alnum (view t) max_prec).
    destruct (read_tree mysql_lev 14 ML alnum bs (view t)) as [_ Q].
    { now apply view_wf. } { now apply view_good. } { apply condition_ranked; [apply mysql_std|now apply view_condition]. }
    destruct (Q 14%nat [] (view t, [])) as [N0 HN].
    + now apply level_top.
    + split; exact I.
    + apply loop_stop. split; exact I.
    + rewrite app_nil_r in HN. exists N0. split; [|exact HN]. apply Lw_lex. now apply cond_show.
Qed.
End Texts.
