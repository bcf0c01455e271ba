(** From a written text to its parts: what [rstrip] takes away at the end of a text. *)
From Coq Require Import String Ascii List Arith NArith ZArith Bool Lia ZifyBool ZifyNat ZifyN.
From Verif Require Import Base BaseProof SqlRead ScrubModel OperModel OperSpec LitModel LitSpec LitProof GramModel GramSpec GramNumProof GramSimProof.
Import ListNotations.

Definition loose (c : N) : bool := py_space c || N.eqb 59 c.
Lemma loose_keyword c : keyword_char c = true -> loose c = false.
Proof. unfold keyword_char, loose, py_space, is_digit. lia. Qed.
Lemma symbols_loose : forallb (fun s => match s with [] => false | _ => forallb (fun c => negb (loose c)) s end) symbols = true.
Proof. vm_compute. reflexivity. Qed.
(** No part begins or ends with a character that is taken away. *)
Lemma word_ends t : t <> [] -> forallb keyword_char t = true -> (forall c r, t = c :: r -> loose c = false) /\ (forall a c, t = a ++ [c] -> loose c = false).
Proof.
  intros N0 F. rewrite forallb_forall in F. split.
  - intros c r ->. apply loose_keyword, F. now left.
  - intros a c ->. apply loose_keyword, F. apply in_or_app. right. now left.
Qed.
Lemma quoted_ends q m : loose q = false -> (forall c r, q :: m ++ [q] = c :: r -> loose c = false) /\ (forall a c, q :: m ++ [q] = a ++ [c] -> loose c = false).
Proof.
  intros Q. split.
  - intros c r E. now injection E as <- _.
  - intros a c E. change (q :: m ++ [q]) with ((q :: m) ++ [q]) in E. apply app_inj_tail in E. now destruct E as [_ <-].
Qed.
Lemma part_ends x t next : writes x t next -> (forall c r, t = c :: r -> loose c = false) /\ (forall a c, t = a ++ [c] -> loose c = false).
Proof.
  intros H. destruct H as [w t next IN E NX|v next P NX|v next P NX|v next P NX|z t next P NX|l next P NX|v next P1 P2 P3 NX|s next IN NX].
  - destruct (kw_text w t IN E). now apply word_ends.
  - apply word_ends; apply P.
  - now apply (quoted_ends 96).
  - apply word_ends; apply P.
  - apply numeral_iff in P. destruct P as (N0 & D & _). apply word_ends; [exact N0|]. rewrite forallb_forall in *. intros c C. specialize (D c C). unfold keyword_char. now rewrite D.
  - now apply (quoted_ends 39).
  - now apply (quoted_ends 34).
  - pose proof (proj1 (forallb_forall _ _) symbols_loose s IN) as X. cbn beta in X. destruct s as [|c0 s]; [discriminate|]. rewrite forallb_forall in X. split.
    + intros c r E. rewrite E in X. specialize (X c (or_introl eq_refl)). cbn beta in X. destruct (loose c); [discriminate|reflexivity].
    + intros a c E. rewrite E in X. specialize (X c). cbn beta in X. destruct (loose c); [|reflexivity]. rewrite in_app_iff in X. cbn in X. discriminate X. tauto.
Qed.
(** A shorter continuation. *)
Lemma writes_shorter x t next r : writes x t (next ++ r) -> writes x t next.
Proof.
  assert (Q : forall (Pr : N -> Prop), (forall c s, next ++ r = c :: s -> Pr c) -> forall c s, next = c :: s -> Pr c).
  { intros Pr H c s ->. apply (H c (s ++ r)). reflexivity. }
  intros H. remember (next ++ r) as full eqn:F. destruct H as [w t full IN E NX|v full P NX|v full P NX|v full P NX|z t full P NX|l full P NX|v full P1 P2 P3 NX|s full IN NX]; subst full.
  - constructor; [exact IN|exact E|exact (Q _ NX)].
  - constructor; [exact P|exact (Q _ NX)].
  - constructor; [exact P|exact (Q _ NX)].
  - constructor; [exact P|exact (Q _ NX)].
  - constructor; [exact P|exact (Q _ NX)].
  - constructor; [exact P|exact (Q _ NX)].
  - constructor; [exact P1|exact P2|exact P3|exact (Q _ NX)].
  - constructor; [exact IN|]. intros l L (z & Z). apply NX; [exact L|]. exists (z ++ r). rewrite (app_assoc l z r), <- Z, <- app_assoc. reflexivity.
Qed.
Lemma app_split {A} (a b c d : list A) : a ++ b = c ++ d -> exists l, (a = c ++ l /\ d = l ++ b) \/ (c = a ++ l /\ b = l ++ d).
Proof.
  revert c. induction a as [|x a IH]; intros c E.
  - exists c. right. auto.
  - destruct c as [|y c]; [exists (x :: a); left; auto|]. injection E as -> E. destruct (IH c E) as (l & [[-> ->]|[-> ->]]); exists l; auto.
Qed.
Lemma trail_shorter w r : trail (w ++ r) -> forallb loose r = true -> trail w.
Proof.
  intros (b & c & E & B & C) R. destruct (app_split w r b c E) as (l & [[-> ->]|[-> ->]]).
  - exists b, l. split; [reflexivity|]. split; [exact B|]. destruct C as [C|(m & d & C & M & D)].
    + left. now destruct l.
    + destruct (app_split l r m d C) as (e & [[-> ->]|[-> ->]]).
      * right. exists m, e. split; [reflexivity|]. split; [exact M|]. intros X. apply D. apply in_or_app. now left.
      * rewrite forallb_app in R. apply andb_true_iff in R. destruct R as [R _]. destruct e as [|y e].
        -- rewrite app_nil_r in M. right. exists l, []. split; [now rewrite app_nil_r|]. split; [exact M|now intros []].
        -- exfalso. cbn [forallb] in R. apply andb_true_iff in R. destruct R as [R _].
           assert (Y : y = 45%N \/ y = 35%N). { destruct M as [M|M]; destruct l as [|a [|a' [|]]]; cbn in M; injection M as ? ?; subst; auto; discriminate. }
           destruct Y; subst y; discriminate.
  - exists w, []. split; [now rewrite app_nil_r|]. split; [|now left]. unfold blanks in *. apply Forall_app in B. apply B.
Qed.
(** What is left of a written text. *)
Lemma spelled_head s ls : spelled s ls -> ls <> [] -> exists c r, s = c :: r /\ loose c = false.
Proof.
  intros H NE. destruct ls as [|x ls]; [congruence|]. destruct (spelled_inv s x ls H) as (t & next & -> & W & _). destruct (writes_head x t next W) as (c & r & -> & _).
  exists c, (r ++ next). split; [reflexivity|]. now apply (proj1 (part_ends x _ next W) c r).
Qed.
Lemma spelled_shorter s ls : spelled s ls -> ls <> [] -> forall s' r, s = s' ++ r -> forallb loose r = true -> spelled s' ls.
Proof.
  induction 1 as [|x t w W T|x t w rest ls W B NE R IH]; intros NE' s' r E L; [congruence| |].
  - destruct (app_split t w s' r E) as (l & [[-> ->]|[-> ->]]).
    + destruct l as [|c l] using rev_ind.
      * rewrite app_nil_r in W. cbn [app] in *. replace s' with (s' ++ []) by apply app_nil_r. apply sp_last; [now apply (writes_shorter x s' [] w)|].
        exists [], []. split; [reflexivity|]. split; [constructor|now left].
      * exfalso. rewrite !forallb_app in L. cbn [forallb] in L. rewrite (proj2 (part_ends _ _ _ W) (s' ++ l) c) in L; [|apply app_assoc].
        rewrite andb_false_r in L. discriminate.
    + apply sp_last; [now apply (writes_shorter x t l r)|now apply (trail_shorter l r)].
  - rewrite app_assoc in E. destruct (app_split (t ++ w) rest s' r E) as (l & [[E1 ->]|[-> ->]]).
    + exfalso. destruct (spelled_head rest ls R NE) as (c & q & -> & C). rewrite forallb_app in L. cbn [forallb] in L. rewrite C, andb_false_r in L. discriminate.
    + rewrite <- app_assoc. apply sp_cons; [|exact B|exact NE|now apply (IH NE l r)]. rewrite app_assoc in W. now apply (writes_shorter x t (w ++ l) r).
Qed.
Lemma spelled_length s ls : spelled s ls -> (length ls <= length s)%nat.
Proof.
  induction 1 as [|x t w W T|x t w rest ls W B NE R IH]; [cbn; lia| |]; destruct (writes_head _ _ _ W) as (c & r & -> & _); rewrite ?app_length; cbn; rewrite ?app_length; lia.
Qed.

(** ** rstrip *)
Definition strip (p : N -> bool) : pystr -> pystr := fix go s := match s with c :: r => if p c then go r else s | [] => [] end.
Lemma rstrip_eq p s : rstrip p s = rev (strip p (rev s)). Proof. reflexivity. Qed.
Lemma strip_split p s : exists r, s = r ++ strip p s /\ forallb p r = true.
Proof.
  induction s as [|c s (r & E & R)]; [exists []; auto|]. cbn [strip]. destruct (p c) eqn:C; [|exists []; auto].
  exists (c :: r). cbn [app forallb]. rewrite C, R, <- E. auto.
Qed.
Lemma forallb_rev {A} (p : A -> bool) l : forallb p (rev l) = forallb p l.
Proof. induction l as [|x l IH]; [reflexivity|]. cbn [rev forallb]. rewrite forallb_app, IH. cbn [forallb]. rewrite andb_true_r. apply andb_comm. Qed.
Lemma rstrip_split p s : exists r, s = rstrip p s ++ r /\ forallb p r = true.
Proof.
  destruct (strip_split p (rev s)) as (r & E & R). exists (rev r). rewrite forallb_rev. split; [|exact R].
  rewrite rstrip_eq, <- rev_app_distr, <- E. now rewrite rev_involutive.
Qed.
Lemma strip_drop p r s : forallb p r = true -> strip p (r ++ s) = strip p s.
Proof. induction r as [|c r IH]; intros H; [reflexivity|]. cbn [forallb] in H. apply andb_true_iff in H. destruct H as [C H]. cbn [app strip]. rewrite C. now apply IH. Qed.
Lemma rstrip_drop p s r : forallb p r = true -> rstrip p (s ++ r) = rstrip p s.
Proof. intros H. rewrite !rstrip_eq, rev_app_distr, strip_drop; [reflexivity|]. now rewrite forallb_rev. Qed.
Lemma rstrip_keep p s c : p c = false -> rstrip p (s ++ [c]) = s ++ [c].
Proof. intros H. rewrite rstrip_eq, rev_app_distr. cbn [rev app strip]. rewrite H. cbn [rev]. now rewrite rev_involutive. Qed.
Lemma forallb_weaken {A} (p q : A -> bool) l : (forall x, p x = true -> q x = true) -> forallb p l = true -> forallb q l = true.
Proof. intros H. rewrite !forallb_forall. auto. Qed.
Lemma stripped ls text : spells ls text -> ls <> [] ->
  exists s, skip (rstrip (N.eqb 59) (rstrip py_space text)) = s /\ spelled s ls /\ (length ls <= length (rstrip (N.eqb 59) (rstrip py_space text)))%nat.
Proof.
  intros (lead & s & semis & spaces & -> & B & SP & SE & SA) NE.
  assert (X : exists r, lead ++ s = rstrip (N.eqb 59) (rstrip py_space (lead ++ s ++ semis ++ spaces)) ++ r /\ forallb loose r = true).
  { replace (lead ++ s ++ semis ++ spaces) with (((lead ++ s) ++ semis) ++ spaces) by (now rewrite <- !app_assoc). rewrite rstrip_drop by exact SA.
    destruct semis as [|c0 semis] using rev_ind.
    - rewrite app_nil_r. destruct (rstrip_split py_space (lead ++ s)) as (r1 & E1 & R1). destruct (rstrip_split (N.eqb 59) (rstrip py_space (lead ++ s))) as (r2 & E2 & R2).
      exists (r2 ++ r1). rewrite app_assoc, <- E2. split; [exact E1|]. rewrite forallb_app. apply andb_true_iff.
      split; [apply (forallb_weaken (N.eqb 59)); [|exact R2]|apply (forallb_weaken py_space); [|exact R1]]; unfold loose; intros x ->; [apply orb_true_r|reflexivity].
    - clear IHsemis. apply Forall_app in SE. destruct SE as [SE SL]. apply Forall_inv in SL. subst c0. rewrite app_assoc. rewrite rstrip_keep by reflexivity.
      rewrite rstrip_drop by reflexivity. rewrite rstrip_drop.
      + destruct (rstrip_split (N.eqb 59) (lead ++ s)) as (r2 & E2 & R2). exists r2. split; [exact E2|]. apply (forallb_weaken (N.eqb 59)); [|exact R2]. unfold loose. intros x ->. apply orb_true_r.
      + rewrite forallb_forall. intros x X. rewrite Forall_forall in SE. rewrite (SE x X). reflexivity. }
  destruct X as (r & E & R). set (X := rstrip (N.eqb 59) (rstrip py_space (lead ++ s ++ semis ++ spaces))) in *. clearbody X.
  destruct (app_split lead s X r E) as (l & [[-> ->]|[-> ->]]).
  - exfalso. destruct (spelled_head s ls SP NE) as (c & q & -> & C). rewrite forallb_app in R. cbn [forallb] in R. rewrite C, andb_false_r in R. discriminate.
  - pose proof (spelled_shorter _ _ SP NE l r eq_refl R) as SL. exists l. rewrite skip_white by exact B. split; [now apply (skip_spelled l ls)|]. split; [exact SL|].
    rewrite app_length. pose proof (spelled_length l ls SL). lia.
Qed.
(** What the grammar finds in the parts of a text, parse_mysql finds in the text. *)
Theorem text_of_parts uname more ft ls text x : spells ls text -> ls <> [] ->
  (forall k, (length ls < k)%nat -> whole lx ft k k ls = Ok (Some (x, []))) -> parse_mysql uname more ft text = Ok (scrub x).
Proof.
  intros SP NE W. unfold parse_mysql. destruct (stripped ls text SP NE) as (s & -> & S0 & L). set (X := rstrip (N.eqb 59) (rstrip py_space text)) in *. clearbody X.
  pose proof (s_whole uname more ft (S (length X)) (S (length X)) s ls S0) as H. rewrite W in H by lia. destruct H as (s' & -> & _). reflexivity.
Qed.
