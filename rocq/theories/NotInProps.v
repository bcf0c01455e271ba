(** C112: a word of characters that are not in a list takes the longest run of them; bounds are not read as meant. *)
From Coq Require Import String Ascii List Arith NArith ZArith Bool Lia.
From Verif Require Import Base BaseProof RangeModel RangeSpec RangeProof RangeProps NotInModel NotInSpec.
Import ListNotations.

Lemma class_ok chars : chars <> [] -> (In 6%N chars -> exists c, In c chars /\ (6 < c)%N) -> exists f, one_char (not_class chars) = Some f /\ forall c, f c = true <-> ~ In c chars.
Proof.
  intros Ne H. unfold not_class. cbv zeta. set (n := sorted_set chars). assert (I : forall x, In x n <-> In x chars) by (intros x; apply set_in).
  assert (Nn : n <> []) by (intros E; destruct chars as [|c r]; [exact (Ne eq_refl)|]; apply (in_nil (a := c)); rewrite <- E; apply I; left; reflexivity).
  assert (T : (if Nat.eqb (length n) 1 then u "[^" ++ regex_range n false ++ u "]" else u "[^" ++ tl (regex_range n false)) = regex_range n true).
  { destruct n as [|c [|d n]]; [destruct (Nn eq_refl) | reflexivity | reflexivity]. }
  match goal with |- exists f, one_char ?x = _ /\ _ => replace x with (regex_range n true) by (symmetry; exact T) end. destruct (C107_class n true Nn) as (f & E & F).
  - right. intros J. apply I in J. destruct (H J) as (c & K & L). exists c. split; [apply I; exact K | exact L].
  - exists f. split; [exact E|]. intros c. rewrite (F c). split; intros X Y; apply X, I, Y.
Qed.
Lemma run_of (f : N -> bool) t : exists w r, t = w ++ r /\ Forall (fun c => f c = true) w /\ match r with c :: _ => f c = false | [] => True end.
Proof.
  induction t as [|c t (w & r & -> & F & E)]; [exists [], []; repeat split; constructor|]. destruct (f c) eqn:D.
  - exists (c :: w), r. split; [reflexivity|]. split; [constructor; assumption | exact E].
  - exists [], (c :: w ++ r). split; [reflexivity|]. split; [constructor | exact D].
Qed.

(** Without bounds: the longest run of characters that are not listed, if it is not empty. *)
Theorem C112_word : forall chars, chars <> [] -> (In 6%N chars -> exists c, In c chars /\ (6 < c)%N) ->
  exists t f, chars_not_in chars 1 0 0 = Some t /\ reads t f Plus /\ (forall c, f c = true <-> ~ In c chars) /\
    forall s, (exists w r, s = w ++ r /\ w <> [] /\ taken f Plus s (length w) /\ (forall c, In c w -> ~ In c chars) /\ (match r with c :: _ => In c chars | [] => True end)) \/
              ((match s with c :: _ => In c chars | [] => True end) /\ forall n, ~ taken f Plus s n).
Proof.
  intros chars Ne H. destruct (class_ok chars Ne H) as (f & E & F). exists (not_class chars ++ u "+"), f. split; [reflexivity|]. split; [exists (not_class chars), (u "+"); repeat split; exact E|]. split; [exact F|].
  assert (G : forall c, f c = false -> In c chars) by (intros c X; destruct (in_dec N.eq_dec c chars) as [Y|Y]; [exact Y | apply F in Y; congruence]).
  intros t. destruct (run_of f t) as (w & r & -> & W & R). destruct w as [|a w].
  - right. cbn [app]. split; [destruct r as [|c r]; [exact I | exact (G c R)]|]. intros n T. inversion T as [|w r' N W' R' E1|]; subst.
    destruct w as [|a w]; [exact (N eq_refl)|]. inversion W'; subst. cbn [app] in R. congruence.
  - left. exists (a :: w), r. split; [reflexivity|]. split; [discriminate|]. split; [apply taken_plus; [discriminate | exact W | exact R]|]. split.
    + intros c J. apply F. rewrite Forall_forall in W. exact (W c J).
    + destruct r as [|c r]; [exact I | exact (G c R)].
Qed.
Print Assumptions C112_word.

(** exact = 1, or a maximum of 1: one character that is not listed. *)
Theorem C112_one : forall chars min max exact, 1 <= min -> exact = 1 \/ (exact = 0 /\ min = 1 /\ max = 1) -> chars <> [] -> (In 6%N chars -> exists c, In c chars /\ (6 < c)%N) ->
  exists t f, chars_not_in chars min max exact = Some t /\ reads t f Once /\ forall c, f c = true <-> ~ In c chars.
Proof.
  intros chars min max exact M B Ne H. destruct (class_ok chars Ne H) as (f & E & F). exists (not_class chars ++ []), f. split; [|split; [|exact F]].
  - unfold chars_not_in. destruct (Nat.ltb_spec min 1); [lia|]. destruct B as [->|(-> & -> & ->)]; reflexivity.
  - exists (not_class chars), []. split; [reflexivity|]. split; [exact E | reflexivity].
Qed.
Print Assumptions C112_one.

Lemma span_digits d : (forall c, In c d -> (48 <= c <= 57)%N) -> forall r, span (d ++ 58%N :: r) = (d, 58%N :: r).
Proof.
  induction d as [|c d IH]; intros H r; [reflexivity|]. cbn [app span]. destruct (H c (or_introl eq_refl)) as (A & B).
  unfold is_digit. rewrite (proj2 (N.leb_le 48 c) A), (proj2 (N.leb_le c 57) B). cbn [andb]. rewrite IH by (intros x I; apply H; right; exact I). reflexivity.
Qed.
Lemma nat_digits n c : In c (str_int (Z.of_nat n)) -> (48 <= c <= 57)%N.
Proof. unfold str_int. destruct n as [|n]; cbn [Z.of_nat Z.to_int]; [intros [<-|[]]; lia | apply uint_chars_digit]. Qed.
(** With any other bounds the suffix is read as a text with a colon in it: one character is taken, and only if the text of the suffix follows it. *)
Theorem C112_bounds_refuted : forall chars min max exact, 1 <= min -> 2 <= exact \/ (exact = 0 /\ (2 <= min \/ 2 <= max)) ->
  chars <> [] -> (In 6%N chars -> exists c, In c chars /\ (6 < c)%N) ->
  exists t f q, chars_not_in chars min max exact = Some t /\ reads t f (Text q) /\ (forall c, f c = true <-> ~ In c chars) /\ In 58%N q /\
    (forall s n, taken f (Text q) s n -> exists c r, s = c :: q ++ r /\ n = 1 + length q).
Proof.
  intros chars min max exact M B Ne H. destruct (class_ok chars Ne H) as (f & E & F).
  assert (S : exists m r, chars_not_in chars min max exact = Some (not_class chars ++ 123%N :: str_int (Z.of_nat m) ++ 58%N :: r)).
  { unfold chars_not_in. destruct (Nat.ltb_spec min 1); [lia|]. destruct (Nat.eqb_spec exact 0) as [X|X].
    - exists min. unfold suffix. destruct (Nat.ltb_spec 0 max).
      + exists (str_int (Z.of_nat max) ++ u "}"). destruct (Nat.eqb_spec min 1), (Nat.eqb_spec max 1); try reflexivity. lia.
      + exists (u "}"). destruct (Nat.eqb_spec min 0), (Nat.eqb_spec min 1); try lia. reflexivity.
    - exists exact, (str_int (Z.of_nat exact) ++ u "}"). unfold suffix. destruct (Nat.eqb_spec exact 1); [lia|]. reflexivity. }
  destruct S as (m & r & S). exists (not_class chars ++ 123%N :: str_int (Z.of_nat m) ++ 58%N :: r), f, (123%N :: str_int (Z.of_nat m) ++ 58%N :: r).
  split; [exact S|]. split; [|split; [exact F|split]].
  - exists (not_class chars), (123%N :: str_int (Z.of_nat m) ++ 58%N :: r). split; [reflexivity|]. split; [exact E|]. cbn [read_suffix].
    change (123 =? 43)%N with false. change (123 =? 42)%N with false. change (123 =? 123)%N with true. cbv iota.
    rewrite (span_digits (str_int (Z.of_nat m)) (nat_digits m)). change (58 =? 44)%N with false. cbv iota. change (58 =? 125)%N with false. destruct r; reflexivity.
  - right. apply in_app_iff. right. left. reflexivity.
  - intros s n T. inversion T as [| |c q r' Fc]; subst. exists c, r'. split; reflexivity.
Qed.
Print Assumptions C112_bounds_refuted.

(** ** Examples *)
Example C112_example :
  chars_not_in (u ")(") 1 0 0 = Some (u "[^\(-\)]+") /\ chars_not_in (u ",") 1 0 1 = Some (u "[^,]") /\ chars_not_in (u ",;") 2 3 0 = Some (u "[^,;]{2:3}") /\
  chars_not_in (u ",;") 0 3 2 = None /\
  read_suffix (u "{2:3}") = Some (Text (u "{2:3}")) /\ read_suffix (u "{2,3}") = Some (Counted (u "2") (u "3")).
Proof. vm_compute. repeat split. Qed.
Example C112_word_example : taken (fun c => negb (N.eqb c 44)) Plus (u "ab,c") 2.
Proof. apply (taken_plus _ (u "ab") (u ",c")); [discriminate | repeat constructor | reflexivity]. Qed.
Example C112_text_example : taken (fun c => negb (N.eqb c 44)) (Text (u "{2:3}")) (u "a{2:3}b") 6.
Proof. apply (taken_text _ 97%N (u "{2:3}") (u "b")). reflexivity. Qed.
