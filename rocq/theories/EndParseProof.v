(** The parsed form of a condition. *)
From Coq Require Import String Ascii List Arith NArith ZArith Bool Lia.
From Verif Require Import Base BaseProof JsonModel DotsModel SqlLex SqlRead FmtModel FmtSpec ScrubModel InfixModel InfixSpec InfixProof
  OperModel OperSpec OperProof OperCondProof EndSpec.
Import ListNotations.

(** Parsed values as the parser gives them: operators have lists, literals are texts or lists of constants. *)
Definition const_json (j : json) : bool := match j with JStr _ | JInt _ => true | _ => false end.
Definition lit_json (j : json) : bool := match j with JStr _ => true | JList l => forallb const_json l | _ => false end.
Definition is_jlist (j : json) : bool := match j with JList _ => true | _ => false end.
Definition is_binop (k : pystr) : bool := match find (fun p => seqb (fst p) k) binops with Some _ => true | None => false end.
Fixpoint canon (j : json) : bool :=
  match j with
  | JList l => forallb canon l
  | JDict [(k, v)] => if seqb k (u "literal") then lit_json v else (if is_binop k then is_jlist v else true) && canon v
  | _ => true
  end.
Definition cv (x : pv) : bool := canon (json_of (scrub x)).
Definition fine (x : pv) : Prop := cv x = true /\ forall o, assoc_op o = true -> forallb cv (operands_of (bname o) x) = true.

Lemma cv_group x : nice x -> cv (group x) = cv x.
Proof. intros N. unfold cv. now rewrite scrub_group. Qed.
Lemma fine_group x : nice x -> fine x -> fine (group x).
Proof. intros N [A B]. split; [now rewrite cv_group|exact B]. Qed.
Lemma cv_call op l : (2 <= length l)%nat -> op <> u "literal" -> cv (call op l) = forallb cv l.
Proof.
  intros L N. unfold cv. rewrite scrub_call by exact L. cbn [json_of map fst snd canon is_jlist].
  apply seqb_neq in N. rewrite N. rewrite map_map. replace (if is_binop op then true else true) with true by now destruct (is_binop op).
  cbn [andb]. clear L N. induction l as [|x l IH]; [reflexivity|]. cbn [map forallb]. now rewrite IH.
Qed.
Lemma cv_one op x : scrub x <> ONone -> op <> u "literal" -> is_binop op = false -> cv (PCall op x []) = cv x.
Proof.
  intros S N B. unfold cv. rewrite scrub_one by exact S. cbn [json_of map fst snd canon]. apply seqb_neq in N. now rewrite N, B.
Qed.
Lemma cv_call1 op x : scrub x <> ONone -> op <> u "literal" -> is_binop op = false -> cv (call op [x]) = cv x.
Proof.
  intros S N B. unfold cv. rewrite scrub_call1 by exact S. cbn [json_of map fst snd canon]. apply seqb_neq in N. now rewrite N, B.
Qed.
Lemma fine_single x : cv x = true -> (forall o, assoc_op o = true -> operands_of (bname o) x = [x]) -> fine x.
Proof. intros C H. split; [exact C|]. intros o O. rewrite (H o O). cbn. now rewrite C. Qed.
Lemma fine_other op l : cv (call op l) = true -> (forall o, assoc_op o = true -> op <> bname o) -> fine (group (call op l)).
Proof.
  intros C H. apply fine_group; [exact I|]. apply fine_single; [exact C|]. intros o O. unfold operands_of, call. cbn [unwrap].
  destruct (seqb op (bname o)) eqn:Q; [|reflexivity]. apply seqb_eq in Q. now apply H in Q.
Qed.
Lemma not_literal o : bname o <> u "literal".
Proof. destruct o; discriminate. Qed.
Lemma cv_set l : Forall member_ok l -> (2 <= length l)%nat -> cv (to_tuple_call (map fst l)) = true.
Proof.
  intros H L.
  assert (M : forallb cv (map fst l) = true).
  { clear L. induction H as [|p l H _ IH]; [reflexivity|]. cbn [map forallb]. rewrite IH, andb_true_r. clear - H. destruct p as [x t].
    unfold member_ok in H. cbn [fst snd] in *. destruct x as [| |s|z| | |d| |]; try contradiction; try reflexivity.
    destruct d as [|[k v] [|]]; try contradiction; destruct v; try contradiction. destruct H as [-> _]. reflexivity. }
  assert (P : cv (group (PList (map fst l))) = true).
  { rewrite cv_group by exact I. unfold cv. rewrite scrub_list by (rewrite map_length; exact L). cbn [json_of canon].
    rewrite map_map. clear - M. induction (map fst l) as [|x q IH]; [reflexivity|]. cbn [map forallb] in *.
    apply andb_true_iff in M as [M1 M2]. fold (cv x). now rewrite M1, (IH M2). }
  clear M. unfold to_tuple_call. destruct l as [|p [|q l]]; cbn in L; try lia. cbn [map]. cbn [map] in P.
  destruct (forallb is_num _); [exact P|].
  match goal with |- context [if ?b then _ else _] => destruct b eqn:F end; [|exact P]. clear P.
  set (l0 := p :: q :: l) in *. change (fst p :: fst q :: map fst l) with (map fst l0) in *.
  set (l' := map (fun x => match literal_of x with Some y => y | None => x end) (map fst l0)) in *.
  rewrite cv_group by exact I. unfold cv. match goal with |- context [PList ?q] => change q with l' end.
  assert (L' : (2 <= length l')%nat) by (unfold l'; rewrite !map_length; cbn; lia).
  change (scrub (PDict [(u "literal", PList l')])) with (ODict (drop_null [(u "literal", scrub (PList l'))])).
  rewrite scrub_list by exact L'. change (drop_null [(u "literal", OList (map scrub l'))]) with [(u "literal", OList (map scrub l'))].
  cbn [json_of map fst snd canon]. change (seqb (u "literal") (u "literal")) with true. cbn [lit_json]. unfold l'. clear L L' l'.
  induction H as [|x r H _ IH]; [reflexivity|]. cbn [map forallb] in F |- *. apply andb_true_iff in F as [F1 F2].
  rewrite IH by exact F2. rewrite andb_true_r. destruct (literal_of (fst x)) as [y|] eqn:Y; [|discriminate].
  clear - H Y. destruct x as [x t]. unfold member_ok in H. cbn [fst snd] in *.
  destruct x as [| |s|z| | |d| |]; try contradiction; try discriminate Y.
  - injection Y as <-. reflexivity.
  - destruct d as [|[k v] [|]]; try contradiction; destruct v; try contradiction. destruct H as [-> _].
    cbn in Y. injection Y as <-. reflexivity.
Qed.

Lemma operands_nonempty x t o : good x t -> assoc_op o = true -> operands_of (bname o) x <> [].
Proof. intros (_ & _ & t' & _ & _ & F) O E. destruct (F o O) as (a & r & M & _). rewrite E in M. discriminate M. Qed.

Section Main.
Variable float_text : pystr -> bool.
Notation act := (act_json float_text).
Notation val s := (value act (code float_text s)).

Lemma value_fine s : source float_text s -> simple_atoms s -> exists x, val s = Ok (TVal x) /\ good x (mean s) /\ is_null_tok x = bare_null s /\ fine x.
Proof.
  induction s as [x t| |s IH|z|s IH|s IH|o alt a IHa b IHb|n m IH l|n a IHa b IHb c IHc|n s IH]; intros H P;
    destruct (value_good float_text _ H) as (y & VY & GY & QY); exists y;
    refine (Logic.conj VY (Logic.conj GY (Logic.conj QY _))); cbn [mean source simple_atoms code value] in *.
  - injection VY as <-. destruct x as [| |s|z| | |d| |]; try contradiction.
    + apply fine_single; reflexivity.
    + apply fine_single; reflexivity.
    + destruct d as [|[k v] [|]]; try contradiction; destruct v; try contradiction. destruct P as [-> _]. apply fine_single; [reflexivity|].
      intros o O. destruct o; try discriminate O; reflexivity.
  - injection VY as <-. apply fine_single; reflexivity.
  - destruct H as [R H]. destruct (IH H P) as (x & V & G & _ & F).
    unfold read_tokens in VY. rewrite (make_tree_ok act sql_levels sql_levels_ok _ R), V in VY. injection VY as <-.
    apply (fine_group x); [apply G|exact F].
  - injection VY as <-. apply (fine_group (PNum (- z))); [exact I|]. apply fine_single; reflexivity.
  - destruct (IH H P) as (x & V & G & _ & F). rewrite V in VY. rewrite act2 in VY by (try discriminate; cbv; lia). injection VY as <-.
    apply (fine_other (u "binary_not") [x]).
    + rewrite cv_call1; [apply F|apply G|discriminate|reflexivity].
    + intros o O. destruct o; discriminate.
  - destruct (IH H P) as (x & V & G & _ & F). rewrite V in VY. unfold word in VY. rewrite act2 in VY by (try discriminate; cbv; lia). injection VY as <-.
    apply (fine_other (u "not") [x]).
    + rewrite cv_call1; [apply F|apply G|discriminate|reflexivity].
    + intros o O. destruct o; discriminate.
  - destruct H as (NN & HA & HB), P as [PA PB].
    destruct (IHa HA PA) as (x & V & G & QX & F), (IHb HB PB) as (x' & V' & G' & QX' & F').
    destruct (bin_tok_ok o alt) as (tk & T & W). rewrite V, V', T in VY. rewrite act3 in VY by apply bin_level. injection VY as <-.
    destruct (assoc_op o) eqn:O.
    + rewrite (binary_call o) by (try exact W; intros OO; rewrite QX, QX'; auto). rewrite O.
      destruct F as [CA FA], F' as [CB FB].
      pose proof (operands_nonempty x (mean a) o G O) as N1. pose proof (operands_nonempty x' (mean b) o G' O) as N2.
      assert (L : (2 <= length (operands_of (bname o) x ++ operands_of (bname o) x'))%nat).
      { rewrite app_length. destruct (operands_of (bname o) x); [easy|]. destruct (operands_of (bname o) x'); [easy|]. cbn. lia. }
      assert (C : forallb cv (operands_of (bname o) x ++ operands_of (bname o) x') = true) by (rewrite forallb_app, (FA o O), (FB o O); reflexivity).
      apply fine_group; [exact I|]. split; [rewrite cv_call by (try exact L; apply not_literal); exact C|].
      intros o' O'. destruct (binop_dec o o') as [->|N].
      * rewrite operands_call. exact C.
      * rewrite operands_other by (intros X; now apply bname_inj in X). cbn [forallb]. rewrite cv_call by (try exact L; apply not_literal).
        now rewrite C.
    + rewrite (binary_call o) by (try exact W; intros OO; rewrite QX, QX'; auto). rewrite O. apply fine_other.
      * rewrite cv_call by (try (cbn; lia); apply not_literal). destruct F as [CA _], F' as [CB _]. cbn. now rewrite CA, CB.
      * intros o' O' E. apply bname_inj in E. congruence.
  - destruct H as (HM & LL & FL). destruct (IH HM P) as (x & V & G & QX & F). pose proof (cv_set l FL LL) as CS.
    destruct n; cbn [value] in VY; rewrite V in VY; unfold word, words in VY; rewrite act3 in VY by (cbv; lia); injection VY as <-.
    + apply (fine_other (u "nin") [x; to_tuple_call (map fst l)]).
      * rewrite cv_call by (try discriminate; cbn; lia). cbn. now rewrite CS, (proj1 F).
      * intros o O. destruct o; discriminate.
    + apply (fine_other (u "in") [x; to_tuple_call (map fst l)]).
      * rewrite cv_call by (try discriminate; cbn; lia). cbn. now rewrite CS, (proj1 F).
      * intros o O. destruct o; discriminate.
  - destruct H as (HA & HB & HC), P as (PA & PB & PC).
    destruct (IHa HA PA) as (x & V & G & _ & F), (IHb HB PB) as (x' & V' & G' & _ & F'), (IHc HC PC) as (x2 & V2 & G2 & _ & F2).
    destruct n; cbn [value] in VY; rewrite V, V', V2 in VY; unfold word, words in VY; rewrite act5 in VY by (cbv; lia); injection VY as <-.
    + apply (fine_other (u "not_between") [x; x'; x2]).
      * rewrite cv_call by (try discriminate; cbn; lia). cbn. now rewrite (proj1 F), (proj1 F'), (proj1 F2).
      * intros o O. destruct o; discriminate.
    + apply (fine_other (u "between") [x; x'; x2]).
      * rewrite cv_call by (try discriminate; cbn; lia). cbn. now rewrite (proj1 F), (proj1 F'), (proj1 F2).
      * intros o O. destruct o; discriminate.
  - destruct (IH H P) as (x & V & G & _ & F).
    assert (X : forall neg : bool, fine (group (PCall (u (if neg then "exists" else "missing")) x []))).
    { intros neg. apply fine_group; [exact I|]. apply fine_single.
      - rewrite cv_one; [apply F|apply G|destruct neg; discriminate|destruct neg; reflexivity].
      - intros o O. unfold operands_of. cbn [unwrap]. destruct x; try reflexivity.
        destruct (seqb _ (bname o)) eqn:Q; [|reflexivity]. apply seqb_eq in Q. destruct neg, o; discriminate. }
    destruct n; cbn [value] in VY; rewrite V in VY; unfold word, words in VY; rewrite act3 in VY by (cbv; lia); injection VY as <-.
    + exact (X true).
    + exact (X false).
Qed.

Lemma simple_plain s : simple_atoms s -> plain s.
Proof.
  induction s; cbn; try tauto.
  destruct x as [| |s|z| | |d| |]; try contradiction; try (intros ->); try reflexivity.
  - unfold int_of. now destruct (Z.ltb z 0).
  - destruct d as [|[k v] [|]]; try contradiction; destruct v; try contradiction. intros [_ ->]. reflexivity.
Qed.

Lemma read_canon s : grouped float_text s -> simple_atoms s -> search (mean s) -> exists x t, read_tokens float_text (tokens_of float_text s) = Ok (TVal x) /\
  expr_of x = Some t /\ assoc_eq t (mean s) /\ condition t /\ cv x = true.
Proof.
  intros G P C. destruct (read_condition float_text s G (simple_plain s P) C) as (x & t & R & E & A & D).
  exists x, t. repeat split; auto. destruct G as (S & G). destruct (value_fine s S P) as (y & V & _ & _ & F).
  unfold read_tokens, tokens_of in R. rewrite (make_tree_ok act sql_levels sql_levels_ok _ G), V in R. injection R as ->. apply F.
Qed.
End Main.
