(** Proofs about the type of a text (C99): the blanks and the words it begins with. *)
From Coq Require Import String Ascii List Arith NArith ZArith Bool Lia ZifyBool ZifyNat ZifyN.
From Verif Require Import Base BaseProof ExecModel ClassifyModel ClassifySpec ClassifyProof TypeModel TypeLexProof.
Import ListNotations.
Open Scope N_scope.

Section Words.
Set Default Proof Using "Type".
Variables (uword uspace udigit ulet : N -> bool).
Notation ms := (ms uword).
Notation wordc := (wordc uword). Notation spacec := (spacec uspace). Notation digitc := (digitc udigit). Notation letterc := (letterc ulet).
Notation rules := (rules uword uspace udigit ulet). Notation sp := (sp uspace). Notation name_re := (name_re uword ulet).

Lemma skip_rule f t l s : f s = [] -> first_rule ((f, t) :: l) s = first_rule l s.
Proof. intros H. cbn [first_rule]. now rewrite H. Qed.
Lemma take_rule f t l s e r : f s = e :: r -> first_rule ((f, t) :: l) s = ((length (snd s) - length (snd e))%nat, t).
Proof. intros H. cbn [first_rule]. now rewrite H. Qed.
Lemma nil_in {A} (l : list A) : (forall e, ~ In e l) -> l = [].
Proof. destruct l as [|a l]; [reflexivity|]. intros H. contradiction (H a). now left. Qed.

(** Blanks. *)
Lemma blank_rule p c s : blankb c = true -> exists k t, first_rule rules (p, c :: s) = (k, t) /\ spaces_type t = true.
Proof.
  intros B. assert (X : In c [32; 9; 10; 13]) by (unfold blankb in B; cbn; lia). clear B.
  assert (S1 : forall r, ms (Sq dashes r) (p, c :: s) = []).
  { intros r. apply nil_in. intros e H. apply sq_in in H. destruct H as (m & A & _). apply alt_in in A. destruct A as [A|A]; apply lit_in in A; [change (u "--") with [45; 45] in A|change (u "# ") with [35; 32] in A]; cbn [snd app] in A; injection A as -> _; cbn in X; intuition discriminate. }
  assert (S2 : forall w r, hd 0 (u w) = 47 -> ms (Sq (lit w) r) (p, c :: s) = []).
  { intros w r Hw. apply nil_in. intros e H. apply sq_in in H. destruct H as (m & A & _). apply lit_in in A. cbn [snd] in A. destruct (u w) as [|d v]; [discriminate|]. cbn [hd app] in Hw, A. subst d. injection A as -> _. cbn in X; intuition discriminate. }
  unfold TypeModel.rules. do 4 (rewrite skip_rule; [|first [apply S1|apply S2; reflexivity]]).
  assert (L : (exists e r, ms line_end (p, c :: s) = e :: r) \/ (ms line_end (p, c :: s) = [] /\ spacec c = true)).
  { cbn [In] in X. destruct X as [<-|[<-|[<-|[<-|[]]]]]; [right; split; reflexivity..| |].
    - left. eexists _, _. reflexivity.
    - left. assert (Y : In (Some 13, s) (ms line_end (p, 13 :: s))). { apply in_app_iff. right. now left. }
      destruct (ms line_end (p, 13 :: s)) as [|e r]; [contradiction|]. now exists e, r. }
  destruct L as [(e & r & E)|[E S]].
  - rewrite (take_rule _ _ _ _ e r E). eexists _, _. split; reflexivity.
  - rewrite skip_rule by exact E.
    assert (Y : exists r, ms (Sq (Cls spacec) (Rep false (Cls spacec))) (p, c :: s) = (Some c, s) :: r).
    { cbn [TypeModel.ms snd]. rewrite S. cbn [flat_map]. cbn [snd]. rewrite app_nil_r. destruct (length s); eexists; reflexivity. }
    destruct Y as (r & Y). rewrite (take_rule _ _ _ _ _ r Y). eexists _, _. split; reflexivity.
Qed.

(** Words. *)
Lemma greedy_all f x y : forall n p, Forall (fun c => f c = true) x -> match y with c :: _ => f c = false | [] => True end -> (length x <= n)%nat ->
  exists q r, rep (ms (Cls f)) true n (p, x ++ y) = (q, y) :: r.
Proof. clear uspace ulet udigit.
  induction x as [|c x IH]; intros n p F Y L; cbn [app length] in *.
  - destruct n as [|n]; [eexists _, _; reflexivity|]. rewrite rep_S. destruct y as [|d y]; cbn [TypeModel.ms snd]; [eexists _, _; reflexivity|]. rewrite Y. eexists _, _. reflexivity.
  - destruct n as [|n]; [lia|]. inversion F; subst. rewrite rep_S.
    assert (M : ms (Cls f) (p, c :: x ++ y) = [(Some c, x ++ y)]) by (cbn [TypeModel.ms snd]; now rewrite H1). rewrite M. cbn [flat_map].
    destruct (IH n (Some c) H2 Y ltac:(lia)) as (q & r & E). rewrite E. eexists _, _. reflexivity.
Qed.
Definition word_rule : re := Sq (Cls (fun c => ((48 <=? c) && (c <=? 57)) || name_char ulet c)) (Rep true (Cls (fun c => (c =? 36) || (c =? 35) || wordc c))).
Lemma word_match p c x y : (((48 <=? c) && (c <=? 57)) || name_char ulet c) = true -> Forall (fun c => wordc c = true) x ->
  match y with c :: _ => (c =? 36) || (c =? 35) || wordc c = false | [] => True end -> exists q r, ms word_rule (p, (c :: x) ++ y) = (q, y) :: r.
Proof. clear uspace udigit.
  intros C F Y. unfold word_rule. cbn [TypeModel.ms snd app]. rewrite C. cbn [flat_map]. rewrite app_nil_r. cbn [snd].
  apply (greedy_all (fun c => (c =? 36) || (c =? 35) || wordc c)); [|exact Y|rewrite app_length; lia].
  eapply Forall_impl; [|exact F]. cbn. intros d ->. apply orb_true_r.
Qed.
Lemma letter_nonQ c : letterc c = true -> nonQ c = true.
Proof. clear uword uspace udigit. unfold TypeModel.letterc, nonQ. cbn [existsb]. destruct (c <? 128) eqn:E; lia. Qed.
Lemma word_nonQ c : wordc c = true -> nonQ c = true.
Proof. clear uspace ulet udigit. unfold TypeModel.wordc, nonQ. cbn [existsb]. destruct (c <? 128) eqn:E; lia. Qed.
Lemma name_in s e : In e (ms name_re s) -> exists x, snd s = x ++ snd e /\ Forall (fun c => nonQ c = true) x /\ x <> [].
Proof. intros H. apply ms_took in H. destruct H as (x & E & F & G). exists x. split; [exact E|]. split; [now apply F|now apply G]. Qed.
Lemma no_dotted p s l : Ck s l -> ms (Sq name_re (Look true (Sq (Rep true (Cls spacec)) (chr 46)))) (p, s) = [].
Proof.
  intros C. apply nil_in. intros e H. apply sq_in in H. destruct H as (m & A & B). apply name_in in A. destruct A as (x & E & F & _). cbn [snd] in E.
  cbn [TypeModel.ms] in B. match type of B with In _ (match ?L with [] => _ | _ => _ end) => destruct L as [|d L'] eqn:EL; [contradiction|] end.
  assert (D : In d (ms (Sq (Rep true (Cls spacec)) (chr 46)) m)). { cbn [TypeModel.ms]. rewrite EL. now left. }
  apply sq_in in D. destruct D as (m' & D1 & D2). apply rep_cls in D1. destruct D1 as (y & E' & F'). apply chr_in in D2. rewrite E, E', D2 in C.
  apply Ck_skip in C; [|exact F]. apply Ck_spaces with (uspace := uspace) in C; [|exact F']. apply plain_first in C; [discriminate|reflexivity].
Qed.
Lemma prefix_word (x t : pystr) r z : Forall (fun c => wordc c = true) t -> t ++ r = x ++ 40 :: z -> ~ In 40 x -> Forall (fun c => nonQ c = true) x ->
  (forall d q, r = d :: q -> wordc d = false /\ letterc d = false) -> (forall c, In c x -> wordc c = true \/ letterc c = true) -> x = t.
Proof.
  revert x. induction t as [|c t IH]; intros x F E NI FX NR WX.
  - destruct x as [|d x]; [reflexivity|]. cbn in E. destruct (NR d (x ++ 40 :: z) E) as [N1 N2]. destruct (WX d (or_introl eq_refl)); congruence.
  - inversion F; subst. destruct x as [|d x]; cbn in E.
    + injection E as -> _. exfalso. discriminate H1.
    + injection E as <- E. f_equal. inversion FX; subst. apply IH; auto. intros I. apply NI. now right. intros e I. apply WX. now right.
Qed.
Lemma name_chars s e : In e (ms name_re s) -> exists x, snd s = x ++ snd e /\ (forall c, In c x -> wordc c = true \/ letterc c = true).
Proof.
  intros H. apply sq_in in H. destruct H as (m & A & B). apply cls_in in A. destruct A as (c & A & E). apply rep_cls in B. destruct B as (x & E' & F).
  exists (c :: x). rewrite E, E'. split; [reflexivity|]. intros d [<-|I]; [now right|]. left. rewrite Forall_forall in F. auto.
Qed.
(** The character behind a word. *)
Lemma behind_word d q l : Ck (d :: q) l -> wordb d = false -> wordc d = false /\ letterc d = false /\ (d =? 36) || (d =? 35) = false.
Proof. clear uspace udigit.
  intros C W. apply Ck_inv in C. destruct C as [(P & _)|[(-> & _)|[(-> & _)|[(-> & _)|(-> & _)]]]]; [|repeat split; reflexivity..].
  assert (L : d < 128). { clear -P. unfold plainb, wordb, blankb, symb in P. cbn [existsb] in P. lia. }
  unfold TypeModel.wordc, TypeModel.letterc. apply N.ltb_lt in L. rewrite L. unfold wordb in W. unfold plainb, wordb, blankb, symb in P. cbn [existsb] in P. lia.
Qed.
Lemma call_rule p t r l : Ck (t ++ r) l -> Forall (fun c => wordc c = true) t -> (forall d q, r = d :: q -> wordc d = false /\ letterc d = false) ->
  ms (Sq name_re (Look true (chr 40))) (p, t ++ r) = [] \/ exists e q, ms (Sq name_re (Look true (chr 40))) (p, t ++ r) = e :: q /\ snd e = r.
Proof.
  intros C F NR. destruct (ms (Sq name_re (Look true (chr 40))) (p, t ++ r)) as [|e q] eqn:E; [now left|]. right. exists e, q. split; [reflexivity|].
  apply head_in in E. apply sq_in in E. destruct E as (m & A & B).
  assert (X : e = m /\ exists z, snd m = 40 :: z).
  { cbn [TypeModel.ms] in B. match type of B with In _ (match ?L with [] => _ | _ => _ end) => destruct L as [|d L'] eqn:EL; [contradiction|] end.
    split; [cbn in B; destruct B as [B|[]]; congruence|]. assert (D : In d (ms (chr 40) m)) by (rewrite EL; now left). apply chr_in in D. eauto. }
  destruct X as [-> (z & Z)]. pose proof (name_in _ _ A) as (x & EX & FX & _). pose proof (name_chars _ _ A) as (x' & EX' & WX). cbn [snd] in EX, EX'.
  assert (x' = x) as ->. { rewrite EX in EX'. now apply app_inv_tail in EX'. }
  assert (x = t). { apply (prefix_word x t r z); auto; [now rewrite <- Z|]. intros I. rewrite Forall_forall in FX. specialize (FX _ I). discriminate FX. }
  subst x. now apply app_inv_head in EX.
Qed.

(** The first word. *)
Definition at_start (p : option N) : Prop := p = None \/ exists c, p = Some c /\ blankb c = true.
Lemma start_cases p (P : option N -> Prop) : at_start p -> P None -> (forall c, blankb c = true -> P (Some c)) -> P p.
Proof. intros [->|(c & -> & B)] H1 H2; auto. Qed.
Definition first_words : list pystr := map u ["select"; "insert"; "update"; "delete"; "drop"; "table"]%string.
Lemma start_five p : at_start p -> In p [None; Some 32; Some 9; Some 10; Some 13].
Proof. clear uword uspace ulet udigit. intros [->|(c & -> & B)]; [now left|]. unfold blankb in B. assert (c = 32 \/ c = 9 \/ c = 10 \/ c = 13) as [->|[->|[->| ->]]] by lia; cbn; auto 6. Qed.
Definition word_kind (t : ttype) : Prop := t = TOther \/ t = TWord \/ t = TDdl.
Lemma len_sub (t r : pystr) : (length (t ++ r) - length r)%nat = length t.
Proof. rewrite app_length. lia. Qed.
Lemma word_first p t r l : In t first_words -> at_start p -> Ck (t ++ r) l -> wordb (hd 0 r) = false ->
  exists ty, first_rule rules (p, t ++ r) = (length t, ty) /\ word_kind ty.
Proof.
  intros I S C W. apply start_five in S.
  assert (FW : Forall (fun c => wordc c = true) t /\ Forall (fun c => nonQ c = true) t /\ exists c x, t = c :: x /\ ((48 <=? c) && (c <=? 57)) || name_char ulet c = true /\ Forall (fun c => wordc c = true) x).
  { unfold first_words in I. cbn [map In] in I. destruct I as [<-|[<-|[<-|[<-|[<-|[<-|[]]]]]]]; (split; [repeat constructor|split; [repeat constructor|eexists _, _; split; [reflexivity|split; [reflexivity|repeat constructor]]]]). }
  destruct FW as (FW & FQ & c0 & x0 & T0 & C0 & F0).
  assert (NR : forall d q, r = d :: q -> wordc d = false /\ letterc d = false /\ (d =? 36) || (d =? 35) = false).
  { intros d q ->. apply Ck_skip in C; [|exact FQ]. now apply (behind_word d q l). }
  assert (CALL := call_rule p t r l C FW ltac:(intros d q E; destruct (NR d q E) as (A & B & _); auto)).
  assert (DOT := no_dotted p (t ++ r) l C).
  assert (WM : exists q r', ms word_rule (p, t ++ r) = (q, r) :: r').
  { rewrite T0. apply word_match; [exact C0|exact F0|]. destruct r as [|d q]; [exact Logic.I|]. destruct (NR d q eq_refl) as (A & _ & B). now rewrite B, A. }
  unfold TypeModel.rules.
  do 19 (rewrite skip_rule; [|cbn [In map first_words] in I, S; destruct I as [<-|[<-|[<-|[<-|[<-|[<-|[]]]]]]]; destruct S as [<-|[<-|[<-|[<-|[<-|[]]]]]]; reflexivity]).
  rewrite skip_rule by exact DOT.
  rewrite skip_rule; [|cbn [In map first_words] in I, S; destruct I as [<-|[<-|[<-|[<-|[<-|[<-|[]]]]]]]; destruct S as [<-|[<-|[<-|[<-|[<-|[]]]]]]; reflexivity].
  destruct CALL as [CALL|(e & q & CALL & SE)]; [|rewrite (take_rule _ _ _ _ e q CALL); cbn [snd]; rewrite SE, len_sub; eexists; split; [reflexivity|now left]].
  rewrite skip_rule by exact CALL.
  do 21 (rewrite skip_rule; [|cbn [In map first_words] in I, S; destruct I as [<-|[<-|[<-|[<-|[<-|[<-|[]]]]]]]; destruct S as [<-|[<-|[<-|[<-|[<-|[]]]]]]; reflexivity]).
  destruct WM as (q & r' & WM). rewrite (take_rule _ _ _ _ (q, r) r' WM). cbn [snd]. rewrite len_sub. eexists. split; [reflexivity|]. right. now left.
Qed.
Lemma blank_space c : blankb c = true -> spacec c = true.
Proof. clear uword ulet udigit. unfold blankb, TypeModel.spacec. intros H. destruct (c <? 128) eqn:E; lia. Qed.
Lemma span_same (x w : pystr) c d y z : Forall (fun c => spacec c = true) x -> Forall (fun c => spacec c = true) w -> spacec c = false -> spacec d = false ->
  x ++ c :: y = w ++ d :: z -> c = d.
Proof.
  revert w. induction x as [|a x IH]; intros [|b w] FX FW Hc Hd E; cbn in E.
  - now injection E.
  - injection E as -> _. inversion FW; congruence.
  - injection E as -> _. inversion FX; congruence.
  - injection E as _ E. inversion FX; inversion FW; subst. now apply (IH w).
Qed.
Lemma create_first p w r l : at_start p -> Ck (u "create" ++ w ++ u "table" ++ r) l -> Forall (fun c => blankb c = true) w -> w <> [] ->
  exists ty, first_rule rules (p, u "create" ++ w ++ u "table" ++ r) = (6%nat, ty) /\ word_kind ty.
Proof.
  intros S C FB NW. apply start_five in S. set (y := w ++ u "table" ++ r) in *.
  assert (FW : Forall (fun c => wordc c = true) (u "create")) by repeat constructor.
  assert (HY : exists d q, y = d :: q /\ blankb d = true). { destruct w as [|d w]; [congruence|]. inversion FB; subst. exists d, (w ++ u "table" ++ r). split; [reflexivity|assumption]. }
  destruct HY as (d & q & EY & BD).
  assert (WD : wordc d = false /\ letterc d = false).
  { unfold TypeModel.wordc, TypeModel.letterc. clear -BD. unfold blankb in BD. assert (d < 128) by lia. apply N.ltb_lt in H. rewrite H. lia. }
  assert (CALL := call_rule p (u "create") y l C FW ltac:(intros d' q' E; rewrite EY in E; injection E as <- _; exact WD)).
  assert (DOT := no_dotted p _ l C).
  assert (OR : ms (Sq sp (words uspace "or" "replace")) (Some 101, y) = []).
  { apply nil_in. intros e H. apply sq_in in H. destruct H as (m & A & B). apply plus_cls in A. destruct A as (x & E & F & _). apply sq_in in B. destruct B as (m' & B & _). apply lit_in in B.
    cbn [snd] in E. rewrite B in E. unfold y in E.
    assert (X : 111 = 116). { apply (span_same x w 111 116 (114 :: snd m') (u "able" ++ r)); [exact F| |reflexivity|reflexivity|symmetry; exact E]. eapply Forall_impl; [|exact FB]. intros c0. apply blank_space. }
    discriminate X. }
  assert (CM : ms (Sq (lit "create") (Sq (opt (Sq sp (words uspace "or" "replace"))) Bnd)) (p, u "create" ++ y) = [(Some 101, y)]).
  { change (ms (Sq (lit "create") (Sq (opt (Sq sp (words uspace "or" "replace"))) Bnd)) (p, u "create" ++ y)) with (ms (Sq (opt (Sq sp (words uspace "or" "replace"))) Bnd) (Some 101, y) ++ []).
    rewrite app_nil_r. change (ms (Sq (opt (Sq sp (words uspace "or" "replace"))) Bnd) (Some 101, y)) with (flat_map (ms Bnd) (ms (Sq sp (words uspace "or" "replace")) (Some 101, y) ++ [(Some 101, y)])).
    rewrite OR. cbn [app flat_map TypeModel.ms fst snd]. rewrite EY. destruct WD as [WD _]. rewrite WD. reflexivity. }
  unfold TypeModel.rules.
  do 19 (rewrite skip_rule; [|cbn [In] in S; destruct S as [<-|[<-|[<-|[<-|[<-|[]]]]]]; reflexivity]).
  rewrite skip_rule by exact DOT.
  rewrite skip_rule; [|cbn [In] in S; destruct S as [<-|[<-|[<-|[<-|[<-|[]]]]]]; reflexivity].
  destruct CALL as [CALL|(e & q' & CALL & SE)]; [|rewrite (take_rule _ _ _ _ e q' CALL); cbn [snd]; rewrite SE, len_sub; eexists; split; [reflexivity|now left]].
  rewrite skip_rule by exact CALL.
  do 13 (rewrite skip_rule; [|cbn [In] in S; destruct S as [<-|[<-|[<-|[<-|[<-|[]]]]]]; reflexivity]).
  rewrite (take_rule _ _ _ _ _ _ CM). cbn [snd]. rewrite len_sub. eexists. split; [reflexivity|]. right. now right.
Qed.
End Words.
