(** Search conditions through the parse actions and the SQL writer. *)
From Coq Require Import String Ascii List Arith NArith ZArith Bool Lia.
From Verif Require Import Base BaseProof JsonModel DotsModel SqlLex SqlRead FmtModel FmtSpec ScrubModel InfixModel InfixSpec InfixProof
  OperModel OperSpec OperProof FmtProps.
Import ListNotations.

Lemma assoc_leaves bs t t' : assoc_eq t t' -> (good_leaves bs t <-> good_leaves bs t').
Proof. induction 1; cbn [good_leaves] in *; tauto. Qed.

Definition logic (o : binop) : Prop := o = OAnd \/ o = OOr.
Definition parts_ok (o : binop) (x : pv) (t : tree) : Prop :=
  exists a r, mapO expr_of (operands_of (bname o) x) = Some (a :: r) /\ fold_left (EBin o) r a = t /\
    Forall (fun t => condition t /\ top_op t <> Some o) (a :: r).
Definition shaped (x : pv) (t0 t : tree) : Prop :=
  (value_tree t0 = true -> t = t0) /\ (search t0 -> condition t /\ forall o, logic o -> parts_ok o x t).

Lemma fold_condition o r : logic o -> Forall (fun t => condition t /\ top_op t <> Some o) r -> forall a, condition a -> condition (fold_left (EBin o) r a).
Proof.
  intros L F. induction F as [|b r [C T] F IH]; intros a A; cbn [fold_left]; [exact A|]. apply IH.
  destruct L as [->| ->]; now constructor.
Qed.
Lemma single_parts o x t : operands_of (bname o) x = [x] -> expr_of x = Some t -> condition t -> top_op t <> Some o -> parts_ok o x t.
Proof.
  intros O E C T. exists t, []. rewrite O. cbn [mapO]. rewrite E. repeat split; auto.
Qed.
Lemma parts_group o x t : parts_ok o x t -> parts_ok o (group x) t.
Proof. intros H. exact H. Qed.
Lemma other_call op l o t : op <> bname o -> expr_of (call op l) = Some t -> condition t -> top_op t <> Some o -> parts_ok o (group (call op l)) t.
Proof.
  intros N E C T. apply parts_group. apply single_parts; try assumption. unfold operands_of, call. cbn [unwrap].
  destruct (seqb op (bname o)) eqn:Q; [|reflexivity]. apply seqb_eq in Q. contradiction.
Qed.

Lemma binary_call o w a b : canonical w = bname o -> (o = OEq \/ o = ONeq -> is_null_tok a = false /\ is_null_tok b = false) ->
  binary a w b = call (bname o) (if assoc_op o then operands_of (bname o) a ++ operands_of (bname o) b else [a; b]).
Proof.
  intros W NN. unfold binary. rewrite W.
  assert (Z : (if seqb (bname o) (u "eq") || seqb (bname o) (u "eq!")
      then if is_null_tok b then Some (PCall (u "missing") a []) else if is_null_tok a then Some (PCall (u "missing") b []) else None
      else if seqb (bname o) (u "neq") || seqb (bname o) (u "ne!")
      then if is_null_tok b then Some (PCall (u "exists") a []) else if is_null_tok a then Some (PCall (u "exists") b []) else None
      else None) = @None pv).
  { destruct o; try reflexivity; cbn [bname]; destruct (NN ltac:(auto)) as [-> ->]; reflexivity. }
  cbv zeta. match goal with |- context [match ?X with Some c => c | None => _ end] => replace X with (@None pv) by (symmetry; exact Z) end.
  rewrite <- assoc_spec. now destruct (assoc_op o).
Qed.
Lemma search_value t : search t -> value_tree t = true -> False.
Proof. destruct 1; discriminate. Qed.
Lemma cmp_logic o o' : comparison o = true -> logic o' -> bname o <> bname o'.
Proof. intros C [->| ->] E; apply bname_inj in E; subst; discriminate. Qed.
Lemma logic_assoc o : logic o -> assoc_op o = true.
Proof. intros [->| ->]; reflexivity. Qed.

Section Main.
Variable float_text : pystr -> bool.
Notation act := (act_json float_text).
Notation val s := (value act (code float_text s)).

Lemma value_shaped s : source float_text s -> plain s -> exists x t, val s = Ok (TVal x) /\ nice x /\ scrub x <> ONone /\
  is_null_tok x = bare_null s /\ expr_of x = Some t /\ assoc_eq t (mean s) /\ shaped x (mean s) t.
Proof.
  induction s as [x t| |s IH|z|s IH|s IH|o alt a IHa b IHb|n m IH l|n a IHa b IHb c IHc|n s IH]; intros H P;
    destruct (value_good float_text _ H) as (y & VY & (NY & SY & ty & EY & AY & _) & QY); exists y, ty;
    refine (Logic.conj VY (Logic.conj NY (Logic.conj SY (Logic.conj QY (Logic.conj EY (Logic.conj AY _)))))); cbn [mean source plain code value] in *.
  - injection VY as <-. destruct H as (E & _). split; [congruence|]. intros S. exfalso. eapply search_value; eassumption.
  - injection VY as <-. split; [intros _; now injection EY as <-|]. intros S. inversion S.
  - destruct H as [R H]. destruct (IH H P) as (x & t & V & NX & _ & _ & E & _ & F).
    unfold read_tokens in VY. rewrite (make_tree_ok act sql_levels sql_levels_ok _ R), V in VY. injection VY as <-.
    change (expr_of (group x) = Some ty) in EY. rewrite expr_group in EY by exact NX. rewrite E in EY. injection EY as <-. exact F.
  - split; [|intros S; inversion S]. intros _. injection VY as <-. unfold expr_of in EY. cbn in EY. unfold int_of in EY.
    destruct (Z.ltb_spec (- z) 0); [|lia]. rewrite Z.opp_involutive in EY. now injection EY as <-.
  - split; [discriminate|intros S; inversion S].
  - split; [discriminate|]. intros S. inversion S as [| | | |? S'| |]; subst. destruct (IH H P) as (x & t & V & NX & SX & _ & E & _ & F).
    rewrite V in VY. unfold word in VY. rewrite act2 in VY by (try discriminate; cbv; lia). injection VY as <-.
    destruct F as [_ F]. destruct (F S') as [C _].
    assert (E2 : expr_of (call (u "not") [x]) = Some (ENot t)).
    { pose proof (expr_json x t E SX) as [J NJ]. unfold expr_of. rewrite scrub_call1 by (change (scrub (PList [x])) with (scrub x); exact SX).
      change (scrub (PList [x])) with (scrub x). cbn [json_of map fst snd]. apply (tree_unary "not" ENot); cbn; auto. }
    change (expr_of (group (call (u "not") [x])) = Some ty) in EY.
    rewrite expr_group in EY by exact I. rewrite E2 in EY. injection EY as <-. split; [now constructor|].
    intros o L. refine (other_call (u "not") [x] o _ _ E2 _ _); [destruct L as [->| ->]; discriminate|now constructor|discriminate].
  - split; [discriminate|]. intros S. destruct H as (NN & HA & HB), P as [PA PB].
    destruct (IHa HA PA) as (x & t & V & NX & SX & QX & E & _ & F), (IHb HB PB) as (x' & t' & V' & NX' & SX' & QX' & E' & _ & F').
    destruct (bin_tok_ok o alt) as (tk & T & W). rewrite V, V', T in VY. rewrite act3 in VY by apply bin_level. injection VY as <-.
    rewrite (binary_call o) in * by (try exact W; intros O; rewrite QX, QX'; auto).
    rewrite expr_group in EY by exact I.
    assert (LC : logic o /\ search (mean a) /\ search (mean b) \/ comparison o = true /\ value_tree (mean a) = true /\ value_tree (mean b) = true).
    { inversion S; subst; unfold logic; auto. }
    clear S. destruct LC as [(L & SA & SB)|(C & VA & VB)].
    + rewrite (logic_assoc o L) in *.
      destruct F as [_ F], F' as [_ F']. destruct (F SA) as [CA FA], (F' SB) as [CB FB].
      destruct (FA o L) as (h & r & M & FO & FF), (FB o L) as (h' & r' & M' & FO' & FF').
      pose proof (mapO_app _ _ _ _ _ M M') as MM. rewrite <- app_comm_cons in MM.
      set (l := operands_of (bname o) x ++ operands_of (bname o) x') in *.
      assert (LL : exists z q, r ++ h' :: r' = z :: q) by (destruct r; cbn; eauto). destruct LL as (z & q & LL).
      rewrite (expr_call o l h z q) in EY by (rewrite <- LL; exact MM). rewrite <- LL in EY. injection EY as <-.
      assert (CD : condition (fold_left (EBin o) (r ++ h' :: r') h)).
      { inversion FF; subst. apply fold_condition; [exact L| |tauto]. apply Forall_app. split; assumption. }
      split; [exact CD|]. intros o' L'. destruct (binop_dec o o') as [->|NE].
      * apply parts_group. exists h, (r ++ h' :: r'). rewrite operands_call. split; [exact MM|]. split; [reflexivity|].
        change (h :: r ++ h' :: r') with ((h :: r) ++ h' :: r'). apply Forall_app. now split.
      * apply other_call; [intros Q; now apply bname_inj in Q| |exact CD|].
        -- rewrite (expr_call o l h z q) by (rewrite <- LL; exact MM). now rewrite <- LL.
        -- rewrite LL. clear - NE. revert z h. induction q as [|z' q IH]; intros z h; cbn [fold_left]; [cbn; congruence|]. apply (IH z' (EBin o h z)).
    + assert (AO : assoc_op o = false) by (destruct o; try discriminate C; reflexivity). rewrite AO in *.
      assert (E2 : expr_of (call (bname o) [x; x']) = Some (EBin o t t')).
      { rewrite (expr_call o [x; x'] t t' []); [reflexivity|]. cbn [mapO]. now rewrite E, E'. }
      rewrite E2 in EY. injection EY as <-. destruct F as [F _], F' as [F' _]. rewrite (F VA), (F' VB) in *.
      assert (CD : condition (EBin o (mean a) (mean b))) by now constructor.
      split; [exact CD|]. intros o' L'. apply other_call; [now apply cmp_logic|exact E2|exact CD|].
      intros Q. injection Q as <-. destruct L' as [->| ->]; discriminate.
  - split; [discriminate|]. intros S. inversion S as [|? ? ? VM VL| | | | |]; subst. destruct H as (HM & LL & FL).
    destruct (IH HM P) as (x & t & V & NX & SX & QX & E & _ & F). destruct F as [F _]. pose proof (F VM) as TM. subst t.
    destruct (set_good l FL LL) as [SG NS].
    assert (X : forall neg : bool, expr_of (call (u (if neg then "nin" else "in")) [x; to_tuple_call (map fst l)]) = Some (EIn neg (mean m) (map snd l))).
    { intros neg. unfold expr_of. rewrite scrub_call by (cbn; lia). cbn [json_of map fst snd]. rewrite tree_in.
      unfold expr_of in E. now rewrite E, SG. }
    assert (CD : forall neg, condition (EIn neg (mean m) (map snd l))) by now constructor.
    destruct n; cbn [value] in VY; rewrite V in VY; unfold word, words in VY; rewrite act3 in VY by (cbv; lia); injection VY as <-;
      [pose proof (X true) as E2|pose proof (X false) as E2]; cbn match in E2.
    + change (expr_of (group (call (u "nin") [x; to_tuple_call (map fst l)])) = Some ty) in EY. rewrite expr_group in EY by exact I.
      rewrite E2 in EY. injection EY as <-. split; [apply CD|]. intros o L.
      refine (other_call (u "nin") [x; to_tuple_call (map fst l)] o _ _ E2 (CD _) _); [destruct L as [->| ->]; discriminate|discriminate].
    + change (expr_of (group (call (u "in") [x; to_tuple_call (map fst l)])) = Some ty) in EY. rewrite expr_group in EY by exact I.
      rewrite E2 in EY. injection EY as <-. split; [apply CD|]. intros o L.
      refine (other_call (u "in") [x; to_tuple_call (map fst l)] o _ _ E2 (CD _) _); [destruct L as [->| ->]; discriminate|discriminate].
  - split; [discriminate|]. intros S. inversion S as [| |? ? ? ? VA VB VC| | | |]; subst. destruct H as (HA & HB & HC), P as (PA & PB & PC).
    destruct (IHa HA PA) as (x & t & V & NX & SX & QX & E & _ & F), (IHb HB PB) as (x' & t' & V' & NX' & SX' & QX' & E' & _ & F'),
      (IHc HC PC) as (x2 & t2 & V2 & NX2 & SX2 & QX2 & E'' & _ & F2).
    destruct F as [F _], F' as [F' _], F2 as [F2 _]. pose proof (F VA). pose proof (F' VB). pose proof (F2 VC). subst t t' t2.
    assert (X : forall neg : bool, expr_of (call (u (if neg then "not_between" else "between")) [x; x'; x2]) = Some (EBetween neg (mean a) (mean b) (mean c))).
    { intros neg. unfold expr_of. rewrite scrub_call by (cbn; lia). cbn [json_of map fst snd].
      assert (T : forall l, tree_of (JDict [(u (if neg then "not_between" else "between"), JList l)]) =
        match mapO tree_of l with Some [a; b; c] => Some (EBetween neg a b c) | _ => None end) by (destruct neg; reflexivity).
      rewrite T. cbn [mapO]. unfold expr_of in E, E', E''. now rewrite E, E', E''. }
    assert (CD : forall neg, condition (EBetween neg (mean a) (mean b) (mean c))) by now constructor.
    destruct n; cbn [value] in VY; rewrite V, V', V2 in VY; unfold word, words in VY; rewrite act5 in VY by (cbv; lia); injection VY as <-;
      [pose proof (X true) as E2|pose proof (X false) as E2]; cbn match in E2.
    + change (expr_of (group (call (u "not_between") [x; x'; x2])) = Some ty) in EY. rewrite expr_group in EY by exact I.
      rewrite E2 in EY. injection EY as <-. split; [apply CD|]. intros o L.
      refine (other_call (u "not_between") [x; x'; x2] o _ _ E2 (CD _) _); [destruct L as [->| ->]; discriminate|discriminate].
    + change (expr_of (group (call (u "between") [x; x'; x2])) = Some ty) in EY. rewrite expr_group in EY by exact I.
      rewrite E2 in EY. injection EY as <-. split; [apply CD|]. intros o L.
      refine (other_call (u "between") [x; x'; x2] o _ _ E2 (CD _) _); [destruct L as [->| ->]; discriminate|discriminate].
  - split; [discriminate|]. intros S. inversion S as [| | |? ? VT| | |]; subst. destruct (IH H P) as (x & t & V & NX & SX & _ & E & _ & F).
    destruct F as [F _]. pose proof (F VT). subst t.
    assert (X : forall neg : bool, expr_of (PCall (u (if neg then "exists" else "missing")) x []) = Some (EIs neg (mean s))).
    { intros neg. pose proof (expr_json x _ E SX) as [J NJ]. unfold expr_of. rewrite scrub_one by exact SX. cbn [json_of map fst snd].
      apply tree_unary; [|exact J|exact NJ]. destruct neg; cbn; auto. }
    assert (Y : forall neg : bool, expr_of (group (PCall (u (if neg then "exists" else "missing")) x [])) = Some ty ->
      condition ty /\ forall o, logic o -> parts_ok o (group (PCall (u (if neg then "exists" else "missing")) x [])) ty).
    { intros neg EN. rewrite expr_group in EN by exact I. rewrite X in EN. injection EN as <-.
      assert (CD : condition (EIs neg (mean s))) by now constructor. split; [exact CD|]. intros o L. apply parts_group.
      apply single_parts; [|apply X|exact CD|discriminate]. unfold operands_of. cbn [unwrap]. destruct x; try reflexivity.
      destruct (seqb _ (bname o)) eqn:Q; [|reflexivity]. apply seqb_eq in Q. destruct neg, L as [->| ->]; discriminate. }
    destruct n; cbn [value] in VY; rewrite V in VY; unfold word, words in VY; rewrite act3 in VY by (cbv; lia); injection VY as <-.
    + exact (Y true EY).
    + exact (Y false EY).
Qed.

Lemma read_condition s : grouped float_text s -> plain s -> search (mean s) -> exists x t, read_tokens float_text (tokens_of float_text s) = Ok (TVal x) /\
  expr_of x = Some t /\ assoc_eq t (mean s) /\ condition t.
Proof.
  intros (S & R) P C. destruct (value_shaped s S P) as (x & t & V & _ & _ & _ & E & A & _ & F). exists x, t.
  split; [|repeat split; auto; now apply F].
  unfold read_tokens, tokens_of. rewrite (make_tree_ok act sql_levels sql_levels_ok _ R), V. reflexivity.
Qed.
End Main.
