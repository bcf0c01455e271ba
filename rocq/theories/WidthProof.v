(** Proofs about declared widths. *)
From Coq Require Import String Ascii List NArith ZArith Bool Arith Lia ZifyBool ZifyNat ZifyN.
From Coq Require Import Decimal DecimalFacts DecimalPos DecimalN DecimalZ Init.Byte.
From Verif Require Import Base BaseProof CryptoModel CryptoSpec CryptoProof WidthModel.
Import ListNotations.
Ltac Zify.zify_post_hook ::= Z.div_mod_to_equations.

Definition char_or_varchar (K : pystr) : Prop := K = u "char" \/ K = u "varchar".

Lemma width_value K n :
  char_or_varchar K ->
  snd (get_type_and_len K n) = 4 * ((16 * (n / 16 + 1) + 2) / 3).
Proof.
  intros [-> | ->]; unfold get_type_and_len; cbn [seqb u orb snd];
    (match goal with |- context [if ?b then _ else _] => replace b with true by reflexivity end);
    cbn [snd]; destruct (Nat.eqb_spec ((n / 16 + 1) mod 3) 0); lia.
Qed.

Section W.
Context (P : prim) (HP : prim_ok P).

Lemma width_enough K n key s c :
  char_or_varchar K -> nbytes s <= n -> aes_encrypt P key s = Ok c ->
  length c <= snd (get_type_and_len K n).
Proof.
  intros HK Hs Hc. rewrite (width_value K n HK), (proj2 (aes_shape P HP key s c Hc)). lia.
Qed.

Lemma width_tight K n key s c :
  char_or_varchar K -> nbytes s = n -> n mod 16 <> 0 -> aes_encrypt P key s = Ok c ->
  length c = snd (get_type_and_len K n).
Proof.
  intros HK Hs Hm Hc. rewrite (width_value K n HK), (proj2 (aes_shape P HP key s c Hc)). lia.
Qed.

Lemma nbytes_repeat c n : nbytes (repeat c n) = n * utf8_size c.
Proof. induction n as [|n IH]; [reflexivity|]. cbn [repeat nbytes fold_right]. fold (nbytes (repeat c n)). lia. Qed.

Lemma width_characters_refuted K n key :
  char_or_varchar K -> 6 <= n ->
  exists s c, length s = n /\ aes_encrypt P key s = Ok c /\ snd (get_type_and_len K n) < length c.
Proof.
  intros HK Hn. exists (repeat 20013%N n).
  destruct (aes_encrypt_ok P HP key (repeat 20013%N n)) as [c Hc].
  { apply forallb_forall. intros x Hx. apply repeat_spec in Hx. subst x. reflexivity. }
  exists c. split; [apply repeat_length|]. split; [exact Hc|].
  rewrite (width_value K n HK), (proj2 (aes_shape P HP key _ c Hc)), nbytes_repeat.
  change (utf8_size 20013) with 3. lia.
Qed.

Lemma width_char_type K n :
  char_or_varchar K ->
  fst (get_type_and_len K n) = u "varchar" \/
  (fst (get_type_and_len K n) = K /\ snd (get_type_and_len K n) <= 254).
Proof.
  intros [-> | ->]; unfold get_type_and_len;
    (match goal with |- context [if ?b then _ else (_, n)] => replace b with true by reflexivity end);
    cbn [fst snd];
    (match goal with |- context [254 <? ?w] => destruct (Nat.ltb_spec 254 w) end); auto.
Qed.

Lemma sym_fits w key s c :
  aes_encrypt P key s = Ok c ->
  (length c <= 4 * w <-> (16 * blocks (nbytes s) + 2) / 3 <= w).
Proof. intros Hc. rewrite (proj2 (aes_shape P HP key s c Hc)). unfold blocks. lia. Qed.

Lemma sym_fits_300 key s c :
  aes_encrypt P key s = Ok c -> (length c <= 300 <-> nbytes s <= 224).
Proof. intros Hc. rewrite (proj2 (aes_shape P HP key s c Hc)). lia. Qed.

Lemma sym_fits_1000 key s c :
  aes_encrypt P key s = Ok c -> (length c <= 1000 <-> nbytes s <= 736).
Proof. intros Hc. rewrite (proj2 (aes_shape P HP key s c Hc)). lia. Qed.
End W.

(** ** Digits of a number *)
Lemma uint_chars_len d : length (uint_chars d) = nb_digits d.
Proof. induction d; cbn [uint_chars length nb_digits]; auto. Qed.

Lemma of_uint_acc_lower d acc :
  (Z.pos acc * 10 ^ Z.of_nat (nb_digits d) <= Z.pos (Pos.of_uint_acc d acc))%Z.
Proof.
  revert acc; induction d; intros acc; cbn [Pos.of_uint_acc nb_digits];
    [ change (10 ^ Z.of_nat 0)%Z with 1%Z; lia | .. ];
    match goal with IH : forall acc, _ |- context [Pos.of_uint_acc ?d ?a] =>
      specialize (IH a) end;
    rewrite Nat2Z.inj_succ, Z.pow_succ_r by lia;
    pose proof (Z.pow_pos_nonneg 10 (Z.of_nat (nb_digits d)) ltac:(lia) ltac:(lia));
    nia.
Qed.

Lemma of_uint_lower d :
  (nzhead d = d -> d <> Nil -> 10 ^ (Z.of_nat (nb_digits d) - 1) <= Z.of_uint d)%Z.
Proof.
  intros Hz Hn. destruct d; try congruence.
  1: { exfalso. apply (f_equal nb_digits) in Hz. cbn [nzhead nb_digits] in Hz.
       pose proof (nb_digits_nzhead d). lia. }
  all: cbn [nb_digits]; replace (Z.of_nat (S (nb_digits d)) - 1)%Z with (Z.of_nat (nb_digits d)) by lia;
       unfold Z.of_uint, Pos.of_uint;
       match goal with |- context [Pos.of_uint_acc ?d ?a] =>
         pose proof (of_uint_acc_lower d a) end;
       pose proof (Z.pow_pos_nonneg 10 (Z.of_nat (nb_digits d)) ltac:(lia) ltac:(lia));
       cbn [Z.of_N]; nia.
Qed.

Lemma to_uint_len n k :
  (Z.of_N n < 10 ^ Z.of_nat k)%Z -> 0 < k -> nb_digits (N.to_uint n) <= k.
Proof.
  intros Hn Hk.
  assert (E : unorm (N.to_uint n) = N.to_uint n).
  { rewrite <- Unsigned.to_of, Unsigned.of_to. reflexivity. }
  unfold unorm in E. destruct (nzhead (N.to_uint n)) eqn:Z0.
  1: { rewrite <- E. cbn. lia. }
  all: assert (nzhead (N.to_uint n) = N.to_uint n) as Hz by congruence;
       assert (N.to_uint n <> Nil) as Hnn by (rewrite <- E; discriminate);
       pose proof (of_uint_lower _ Hz Hnn) as L;
       assert (Z.of_uint (N.to_uint n) = Z.of_N n) as EQ1
         by (unfold Z.of_uint; change (Pos.of_uint (N.to_uint n)) with (N.of_uint (N.to_uint n));
             rewrite Unsigned.of_to; reflexivity);
       rewrite EQ1 in L;
       destruct (Nat.le_gt_cases (nb_digits (N.to_uint n)) k) as [G|G]; [exact G|exfalso];
       assert (10 ^ Z.of_nat k <= 10 ^ (Z.of_nat (nb_digits (N.to_uint n)) - 1))%Z
         by (apply Z.pow_le_mono_r; lia);
       lia.
Qed.

Lemma str_int_len z k :
  (Z.abs z < 10 ^ Z.of_nat k)%Z -> 0 < k -> length (str_int z) <= k + 1.
Proof.
  intros H Hk. unfold str_int. destruct z as [|p|p]; cbn [Z.to_int].
  - cbn. lia.
  - rewrite uint_chars_len. change (Pos.to_uint p) with (N.to_uint (Npos p)).
    pose proof (to_uint_len (Npos p) k). cbn [Z.of_N Z.abs] in *. lia.
  - cbn [length]. rewrite uint_chars_len. change (Pos.to_uint p) with (N.to_uint (Npos p)).
    pose proof (to_uint_len (Npos p) k). cbn [Z.of_N Z.abs] in *. lia.
Qed.

Lemma str_int_ascii z c : In c (str_int z) -> (c < 128)%N.
Proof.
  intros H. unfold str_int in H. destruct (Z.to_int z) as [d|d].
  - apply uint_chars_digit in H. lia.
  - destruct H as [<-|H]; [lia|]. apply uint_chars_digit in H. lia.
Qed.

Lemma ascii_nbytes s : (forall c, In c s -> (c < 128)%N) -> nbytes s = length s.
Proof.
  induction s as [|c s IH]; intros H; [reflexivity|].
  cbn [nbytes fold_right length]. fold (nbytes s). rewrite IH by (intros x Hx; apply H; right; exact Hx).
  specialize (H c (or_introl eq_refl)). unfold utf8_size.
  destruct (N.ltb_spec c 128); lia.
Qed.

Lemma int_digits_fit (P : prim) (HP : prim_ok P) key z :
  (Z.abs z < 10 ^ 223)%Z ->
  exists c, aes_encrypt P key (str_int z) = Ok c /\ length c <= 300.
Proof.
  intros Hz. destruct (aes_encrypt_ok P HP key (str_int z)) as [c Hc].
  { apply forallb_forall. intros x Hx. apply str_int_ascii in Hx. unfold scalar. lia. }
  exists c. split; [exact Hc|]. apply (sym_fits_300 P HP key _ c Hc).
  rewrite ascii_nbytes by apply str_int_ascii.
  pose proof (str_int_len z 223 Hz). lia.
Qed.
