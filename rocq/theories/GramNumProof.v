(** Numerals: the number in base ten is the one that the parser computes. *)
From Coq Require Import List Arith NArith ZArith Bool Lia ZifyBool ZifyNat ZifyN.
From Verif Require Import Base LitModel LitSpec GramModel GramSpec.
Import ListNotations.

Lemma digits_forall t : Forall (fun c => 48 <= c <= 57)%N t <-> forallb is_digit t = true.
Proof. rewrite forallb_forall, Forall_forall. unfold is_digit. split; intros H c I; specialize (H c I); lia. Qed.
Lemma decimal_fold t : Forall (fun c => 48 <= c <= 57)%N t ->
  forall a, fold_left (fun a c => (10 * a + Z.of_N (c - 48))%Z) t a = (a * 10 ^ Z.of_nat (length t) + decimal t)%Z.
Proof.
  induction 1 as [|c t D F IH]; intros a; cbn [fold_left decimal length].
  - rewrite Z.mul_1_r. lia.
  - rewrite IH, N2Z.inj_sub by lia. rewrite Nat2Z.inj_succ, Z.pow_succ_r by lia. change (Z.of_N 48) with 48%Z. ring.
Qed.
Lemma numeral_iff t z : numeral t z <-> t <> [] /\ forallb is_digit t = true /\ z = digits_value t.
Proof.
  unfold numeral. split; intros (A & B & ->); (split; [exact A|]).
  - split; [now apply digits_forall|]. unfold digits_value. now rewrite decimal_fold.
  - apply digits_forall in B. split; [exact B|]. unfold digits_value. now rewrite decimal_fold.
Qed.
(** The classes of characters in the model are those of the vocabulary. *)
Ltac classes := try change GramModel.keyword_char with keyword_char in *; try change LitModel.is_digit with is_digit in *;
  try change LitModel.ident_char with ident_char in *; try change GramModel.low_char with low_char in *.
