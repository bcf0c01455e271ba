(** Properties C06-C11: order-preserving encryption. *)
From Coq Require Import String Ascii List NArith ZArith QArith Qround Bool Arith Lia ZifyBool.
From Coq Require Import Init.Byte.
From Verif Require Import Base CryptoModel OpeModel OpeProof OpeSamplerProof.
Import ListNotations.
Open Scope Z_scope.

(** Sample ciphers for the examples: the sampler takes the proportional number of values. *)
Definition ex_hyper : sampler := fun k g b _ => Ok (Z.min (Z.min k g) (Z.max (Z.max 0 (k - b)) (k * g / (g + b)))).
Definition ex_tape (d : Z) : coins := fun i => Some (if Z.testbit (d * 37 + 11) (Z.of_nat i mod 5) then 1 else 0).
Definition ex_in : vrange := {| vstart := -3; vend := 6 |}.
Definition ex_out : vrange := {| vstart := 0; vend := 99 |}.

(** ** C06 *)
Lemma c06_aux hyper tape fuel inr outr p c :
  ope_encrypt hyper tape fuel inr outr p = Ok c -> ope_decrypt hyper tape fuel inr outr c = Ok p.
Proof.
  unfold ope_encrypt, ope_decrypt. destruct (vcontains inr p) eqn:E; [|discriminate].
  intros H. pose proof (enc_range _ _ _ _ _ _ _ H) as R.
  assert (vcontains outr c = true) as -> by (unfold vcontains; lia).
  apply roundtrip_rec; [unfold vcontains in E; lia | exact H].
Qed.

(** Whatever the sampler and the coin tape do, a ciphertext decrypts to its plaintext. *)
Theorem C06_ope_roundtrip : forall hyper tape fuel inr outr p c,
  ope_encrypt hyper tape fuel inr outr p = Ok c -> ope_decrypt hyper tape fuel inr outr c = Ok p.
Proof. exact c06_aux. Qed.
Print Assumptions C06_ope_roundtrip.

Lemma c06b_aux hyper tape fuel inr outr p c :
  ope_decrypt hyper tape fuel inr outr c = Ok p -> ope_encrypt hyper tape fuel inr outr p = Ok c.
Proof.
  unfold ope_encrypt, ope_decrypt. destruct (vcontains outr c) eqn:E; [|discriminate].
  intros H. apply dec_sound in H. destruct H as [R H].
  assert (vcontains inr p = true) as -> by (unfold vcontains; lia). exact H.
Qed.

(** And decryption never invents a plaintext. *)
Theorem C06_ope_decrypt_sound : forall hyper tape fuel inr outr p c,
  ope_decrypt hyper tape fuel inr outr c = Ok p -> ope_encrypt hyper tape fuel inr outr p = Ok c.
Proof. exact c06b_aux. Qed.
Print Assumptions C06_ope_decrypt_sound.

Example C06_example :
  map (ope_encrypt ex_hyper ex_tape 10 ex_in ex_out) [-3; 0; 2; 6; 7]
    = [Ok 3; Ok 43; Ok 59; Ok 97; Err OutOfRange] /\
  map (ope_decrypt ex_hyper ex_tape 10 ex_in ex_out) [3; 43; 59; 97]
    = [Ok (-3); Ok 0; Ok 2; Ok 6].
Proof. vm_compute. split; reflexivity. Qed.

(** ** C07 *)
Lemma c07_aux hyper tape fuel inr outr p q c d :
  p < q -> ope_encrypt hyper tape fuel inr outr p = Ok c -> ope_encrypt hyper tape fuel inr outr q = Ok d ->
  c < d.
Proof.
  unfold ope_encrypt. intros L. destruct (vcontains inr p) eqn:E1; [|discriminate].
  destruct (vcontains inr q) eqn:E2; [|discriminate]. unfold vcontains in *.
  apply mono_rec; lia.
Qed.

Theorem C07_ope_strictly_monotone : forall hyper tape fuel inr outr p q c d,
  p < q -> ope_encrypt hyper tape fuel inr outr p = Ok c -> ope_encrypt hyper tape fuel inr outr q = Ok d ->
  c < d.
Proof. exact c07_aux. Qed.
Print Assumptions C07_ope_strictly_monotone.

Lemma c07b_aux hyper tape fuel inr outr p q c d :
  ope_encrypt hyper tape fuel inr outr p = Ok c -> ope_encrypt hyper tape fuel inr outr q = Ok d ->
  (p ?= q) = (c ?= d).
Proof.
  intros Hp Hq. destruct (Z.compare_spec p q) as [->|L|L]; symmetry.
  - rewrite Hp in Hq. injection Hq as ->. apply Z.compare_refl.
  - apply Z.compare_lt_iff, (c07_aux _ _ _ _ _ _ _ _ _ L Hp Hq).
  - apply Z.compare_gt_iff, (c07_aux _ _ _ _ _ _ _ _ _ L Hq Hp).
Qed.

(** Every comparison made on ciphertexts has the outcome it has on plaintexts. *)
Theorem C07_ope_comparison : forall hyper tape fuel inr outr p q c d,
  ope_encrypt hyper tape fuel inr outr p = Ok c -> ope_encrypt hyper tape fuel inr outr q = Ok d ->
  (p ?= q) = (c ?= d).
Proof. exact c07b_aux. Qed.
Print Assumptions C07_ope_comparison.

Example C07_example :
  map (ope_encrypt ex_hyper ex_tape 10 ex_in ex_out) [-3; -2; -1; 0; 1; 2; 3; 4; 5; 6]
    = map Ok [3; 19; 31; 43; 44; 59; 67; 87; 89; 97].
Proof. vm_compute. reflexivity. Qed.

(** ** C08 *)
(** [hyper_ok hyper B]: for the draws OPE makes on at most B values, the sampler returns a
    number in the support of the hypergeometric distribution.  [tape_ok]: the tape holds
    bits and never ends. *)
Lemma c08_aux hyper tape bound n fuel inr outr p :
  hyper_ok hyper bound -> tape_ok tape ->
  vstart inr <= p <= vend inr -> vsize inr <= vsize outr ->
  vsize outr <= bound -> vsize outr <= 2 ^ Z.of_nat n -> (n < 1023)%nat -> (n < fuel)%nat ->
  exists c, ope_encrypt hyper tape fuel inr outr p = Ok c /\ vstart outr <= c <= vend outr.
Proof.
  intros Hh Ht Hp Hs Hb Hn Hn2 Hf. unfold ope_encrypt.
  assert (vcontains inr p = true) as -> by (unfold vcontains; lia).
  assert (vsize outr < topf).
  { apply Z.le_lt_trans with (2 ^ Z.of_nat n); [exact Hn|]. apply topf_pow. lia. }
  destruct (enc_total hyper tape bound n fuel p inr outr Hh Ht Hp Hs Hb H Hn Hf) as [c Hc].
  exists c. split; [exact Hc | apply (enc_range _ _ _ _ _ _ _ Hc)].
Qed.

(** Encryption answers for every value in range, within n+1 nested calls when the output range
    has at most 2^n values, and the ciphertext is in the output range. *)
Theorem C08_ope_total : forall hyper tape bound n fuel inr outr p,
  hyper_ok hyper bound -> tape_ok tape ->
  vstart inr <= p <= vend inr -> vsize inr <= vsize outr ->
  vsize outr <= bound -> vsize outr <= 2 ^ Z.of_nat n -> (n < 1023)%nat -> (n < fuel)%nat ->
  exists c, ope_encrypt hyper tape fuel inr outr p = Ok c /\ vstart outr <= c <= vend outr.
Proof. exact c08_aux. Qed.
Print Assumptions C08_ope_total.

Lemma c08b_aux hyper tape fuel inr outr p :
  (p < vstart inr \/ vend inr < p) -> ope_encrypt hyper tape fuel inr outr p = Err OutOfRange.
Proof.
  intros H. unfold ope_encrypt. assert (vcontains inr p = false) as -> by (unfold vcontains; lia).
  reflexivity.
Qed.

Theorem C08_ope_out_of_range : forall hyper tape fuel inr outr p,
  (p < vstart inr \/ vend inr < p) -> ope_encrypt hyper tape fuel inr outr p = Err OutOfRange.
Proof. exact c08b_aux. Qed.
Print Assumptions C08_ope_out_of_range.

Lemma c08c_aux hyper tape bound n fuel inr outr c :
  hyper_ok hyper bound -> tape_ok tape ->
  1 <= vsize inr -> vsize inr <= vsize outr ->
  vsize outr <= bound -> vsize outr <= 2 ^ Z.of_nat n -> (n < 1023)%nat -> (n < fuel)%nat ->
  (exists p, ope_decrypt hyper tape fuel inr outr c = Ok p /\ ope_encrypt hyper tape fuel inr outr p = Ok c) \/
  (exists e, ope_decrypt hyper tape fuel inr outr c = Err e /\
     (e = OutOfRange \/ e = InvalidCiphertext \/ e = InvalidRangeLimits) /\
     forall p, ope_encrypt hyper tape fuel inr outr p <> Ok c).
Proof.
  intros Hh Ht Hi Hs Hb Hn Hn2 Hf.
  assert (Hm : vsize outr < topf).
  { apply Z.le_lt_trans with (2 ^ Z.of_nat n); [exact Hn|]. apply topf_pow. lia. }
  destruct (ope_decrypt hyper tape fuel inr outr c) as [p|e] eqn:E.
  - left. exists p. split; [reflexivity | apply c06b_aux, E].
  - right. exists e. split; [reflexivity|]. split.
    + revert E. unfold ope_decrypt. destruct (vcontains outr c) eqn:V; [|intros [= <-]; auto].
      intros E. unfold vcontains in V.
      destruct (dec_total hyper tape bound n fuel c inr outr Hh Ht ltac:(lia) Hi Hs Hb Hm Hn Hf)
        as [[p H]|[H|H]]; rewrite E in H; try discriminate; injection H as ->; auto.
    + intros p H. apply c06_aux in H. rewrite E in H. discriminate.
Qed.

(** Decryption of an arbitrary number ends: with the plaintext whose ciphertext it is, or, only
    if it is the ciphertext of nothing, with one of three exceptions. *)
Theorem C08_ope_decrypt_total : forall hyper tape bound n fuel inr outr c,
  hyper_ok hyper bound -> tape_ok tape ->
  1 <= vsize inr -> vsize inr <= vsize outr ->
  vsize outr <= bound -> vsize outr <= 2 ^ Z.of_nat n -> (n < 1023)%nat -> (n < fuel)%nat ->
  (exists p, ope_decrypt hyper tape fuel inr outr c = Ok p /\ ope_encrypt hyper tape fuel inr outr p = Ok c) \/
  (exists e, ope_decrypt hyper tape fuel inr outr c = Err e /\
     (e = OutOfRange \/ e = InvalidCiphertext \/ e = InvalidRangeLimits) /\
     forall p, ope_encrypt hyper tape fuel inr outr p <> Ok c).
Proof. exact c08c_aux. Qed.
Print Assumptions C08_ope_decrypt_total.

Definition greedy : sampler := fun k g b _ => Ok (Z.min k g).

Lemma greedy_ok bound : hyper_ok greedy bound.
Proof.
  intros g b c k Hg Hb _ _ Hk. exists (Z.min k g). split; [reflexivity|].
  pose proof (ceil_half_spec (g + b) k ltac:(lia) Hk). lia.
Qed.

Lemma c08d_aux :
  exists hyper tape inr outr c,
    (forall bound, hyper_ok hyper bound) /\ tape_ok tape /\ vsize inr <= vsize outr /\
    vcontains outr c = true /\
    forall fuel, (1 <= fuel)%nat -> ope_decrypt hyper tape fuel inr outr c = Err InvalidRangeLimits.
Proof.
  exists greedy, ex_tape, {| vstart := 1; vend := 2 |}, {| vstart := 1; vend := 10 |}, 8.
  split; [apply greedy_ok|]. split.
  { intros d i. unfold ex_tape, bit. destruct (Z.testbit _ _); auto. }
  split; [vm_compute; discriminate|]. split; [reflexivity|].
  intros fuel Hf. destruct fuel as [|f]; [lia|]. vm_compute. reflexivity.
Qed.

(** The documented exception for a number that is no ciphertext is InvalidCiphertextError; a
    sampler within its contract can make the code raise InvalidRangeLimitsError instead. *)
Theorem C08_invalid_ciphertext_error_refuted :
  exists hyper tape inr outr c,
    (forall bound, hyper_ok hyper bound) /\ tape_ok tape /\ vsize inr <= vsize outr /\
    vcontains outr c = true /\
    forall fuel, (1 <= fuel)%nat -> ope_decrypt hyper tape fuel inr outr c = Err InvalidRangeLimits.
Proof. exact c08d_aux. Qed.
Print Assumptions C08_invalid_ciphertext_error_refuted.

(** The shipped sampler meets the contract on up to 2^53-1 values, provided its rejection loop
    ends; the candidates and the acceptance test of the loop may be anything. *)
Theorem C08_sampler_contract : forall fuel d67 cand accept,
  (forall kk g b c, 10 < kk -> 1 < g -> 0 < b -> kk < g + b -> exists z,
     hypergeometric_hrua fuel g b kk (d67 kk g b) (cand kk g b c) (accept kk g b c) = Ok z) ->
  hyper_ok (rhyper fuel d67 cand accept) (2 ^ 53 - 1).
Proof. exact rhyper_contract. Qed.
Print Assumptions C08_sampler_contract.

(** The tape of the cipher consists of bits and never ends. *)
Theorem C08_tape : forall keystream key, tape_ok (tape_gen keystream key).
Proof. exact tape_gen_ok. Qed.
Print Assumptions C08_tape.

Example C08_example :
  hyper_ok greedy 100 /\ tape_ok ex_tape /\
  map (ope_encrypt greedy ex_tape 8 ex_in ex_out) [-3; 6] = [Ok 0; Ok 9] /\
  map (ope_decrypt ex_hyper ex_tape 10 ex_in ex_out) [12; 100] = [Err InvalidCiphertext; Err OutOfRange] /\
  rhyper 5 (fun _ _ _ => 9) (fun _ _ _ _ t => Qmake (Z.of_nat t) 1) (fun _ _ _ _ _ z => 2 <? z) 12 9 14 (ex_tape 3) = Ok 6 /\
  rhyper 5 (fun _ _ _ => 9) (fun _ _ _ _ t => Qmake (Z.of_nat t) 1) (fun _ _ _ _ _ z => 2 <? z) 6 5 7 (ex_tape 3) = Ok 3.
Proof.
  split; [apply greedy_ok|]. split.
  { intros d i. unfold ex_tape, bit. destruct (Z.testbit _ _); auto. }
  vm_compute. repeat split.
Qed.

(** ** C09 *)
Lemma c09_aux hyper keystream P key v :
  opec_encrypt hyper keystream P key v =
  if (- 2 ^ 63 <=? v) && (v <? 2 ^ 63) then Ok v else Err OutOfRange.
Proof.
  unfold opec_encrypt. destruct ((- 2 ^ 63 <=? v) && (v <? 2 ^ 63)) eqn:E.
  - unfold ope_encrypt. assert (vcontains default_range v = true) as ->.
    { unfold vcontains, default_range. cbn [vstart vend]. lia. }
    rewrite (enc_equal _ _ 64).
    + cbn [vstart default_range]. f_equal. lia.
    + unfold default_range. cbn [vstart vend]. lia.
    + reflexivity.
    + unfold vsize, default_range. cbn [vstart vend].
      pose proof (topf_pow 70 eq_refl). lia.
    + vm_compute. discriminate.
    + apply Nat.ltb_lt. vm_compute. reflexivity.
  - apply c08b_aux. unfold default_range. cbn [vstart vend]. lia.
Qed.

(** With the configuration the proxy uses, the order-preserving column of every 64-bit integer
    is the integer itself, for every key, keystream and sampler. *)
Theorem C09_ope_default_is_identity : forall hyper keystream P key v,
  opec_encrypt hyper keystream P key v =
  if (- 2 ^ 63 <=? v) && (v <? 2 ^ 63) then Ok v else Err OutOfRange.
Proof. exact c09_aux. Qed.
Print Assumptions C09_ope_default_is_identity.

Lemma c09b_aux hyper keystream P key c :
  opec_decrypt hyper keystream P key c =
  if (- 2 ^ 63 <=? c) && (c <? 2 ^ 63) then Ok c else Err OutOfRange.
Proof.
  destruct ((- 2 ^ 63 <=? c) && (c <? 2 ^ 63)) eqn:E.
  - apply c06_aux. change (opec_encrypt hyper keystream P key c = Ok c). rewrite c09_aux, E. reflexivity.
  - unfold opec_decrypt, ope_decrypt.
    assert (vcontains default_range c = false) as ->; [|reflexivity].
    unfold vcontains, default_range. cbn [vstart vend]. lia.
Qed.

(** Anybody can decrypt it: the key is not used. *)
Theorem C09_ope_default_confidentiality_refuted : forall hyper keystream P key c,
  opec_decrypt hyper keystream P key c =
  if (- 2 ^ 63 <=? c) && (c <? 2 ^ 63) then Ok c else Err OutOfRange.
Proof. exact c09b_aux. Qed.
Print Assumptions C09_ope_default_confidentiality_refuted.

Example C09_example :
  map (opec_encrypt greedy (fun _ _ _ => x5a) prim_id (u "secret key")) [0; 42; -7; 9223372036854775807; 9223372036854775808]
  = [Ok 0; Ok 42; Ok (-7); Ok 9223372036854775807; Err OutOfRange].
Proof. vm_compute. reflexivity. Qed.

(** ** C10 *)
Lemma c10_aux r l :
  vstart r <= vend r -> bits l ->
  (exists v, sample_uniform r (list_coins l) = Ok v /\ vstart r <= v <= vend r) \/
  (sample_uniform r (list_coins l) = Err NotEnoughCoins /\ (Z.of_nat (length l) < Z.log2_up (vsize r))).
Proof.
  intros Hr Hl. rewrite sample_uniform_list by exact Hr. unfold draw_uniform.
  pose proof (Z.log2_up_nonneg (vend r - vstart r + 1)).
  destruct (su_outcomes (Z.to_nat (Z.log2_up (vend r - vstart r + 1))) (vstart r) (vend r) l Hr) as [A|[A B]].
  - apply log2_up_bound. lia.
  - exact Hl.
  - left. exact A.
  - right. split; [exact A|]. unfold vsize. lia.
Qed.

(** On a tape of bits the choice is in range, or the tape is too short: at most ceil(log2 size)
    bits are needed. *)
Theorem C10_uniform_outcomes : forall r l,
  vstart r <= vend r -> bits l ->
  (exists v, sample_uniform r (list_coins l) = Ok v /\ vstart r <= v <= vend r) \/
  (sample_uniform r (list_coins l) = Err NotEnoughCoins /\ (Z.of_nat (length l) < Z.log2_up (vsize r))).
Proof. exact c10_aux. Qed.
Print Assumptions C10_uniform_outcomes.

Lemma c10b_aux r l :
  vstart r <= vend r -> bits l -> Z.of_nat (length l) < Z.log2 (vsize r) ->
  sample_uniform r (list_coins l) = Err NotEnoughCoins.
Proof.
  intros Hr Hl Hs. rewrite sample_uniform_list by exact Hr. unfold draw_uniform.
  apply (su_short _ _ _ _ (Z.to_nat (Z.log2 (vsize r)))).
  - rewrite Z2Nat.id by apply Z.log2_nonneg. apply Z.log2_spec. unfold vsize. lia.
  - lia.
  - exact Hl.
  - apply log2_up_bound. lia.
Qed.

(** Fewer than floor(log2 size) bits are never enough. *)
Theorem C10_uniform_short_tape : forall r l,
  vstart r <= vend r -> bits l -> Z.of_nat (length l) < Z.log2 (vsize r) ->
  sample_uniform r (list_coins l) = Err NotEnoughCoins.
Proof. exact c10b_aux. Qed.
Print Assumptions C10_uniform_short_tape.

Lemma c10c_aux r v :
  vstart r <= v <= vend r ->
  exists l, bits l /\ Z.of_nat (length l) <= Z.log2_up (vsize r) /\
    forall l', sample_uniform r (list_coins (l ++ l')) = Ok v.
Proof.
  intros Hv. pose proof (Z.log2_up_nonneg (vsize r)).
  destruct (su_onto (Z.to_nat (Z.log2_up (vsize r))) (vstart r) (vend r) v Hv) as (l & B & L & E).
  - apply log2_up_bound. unfold vsize. lia.
  - exists l. split; [exact B|]. split; [lia|]. intros l'.
    rewrite sample_uniform_list by lia. apply su_extend, E.
Qed.

(** Every value is reachable, and coins after the needed ones do not matter. *)
Theorem C10_uniform_reachable : forall r v,
  vstart r <= v <= vend r ->
  exists l, bits l /\ Z.of_nat (length l) <= Z.log2_up (vsize r) /\
    forall l', sample_uniform r (list_coins (l ++ l')) = Ok v.
Proof. exact c10c_aux. Qed.
Print Assumptions C10_uniform_reachable.

Lemma c10d_aux k r v :
  vsize r = 2 ^ Z.of_nat k -> vstart r <= v <= vend r ->
  exists l, length l = k /\ bits l /\ sample_uniform r (list_coins l) = Ok v /\
    forall l', length l' = k -> bits l' -> sample_uniform r (list_coins l') = Ok v -> l' = l.
Proof.
  intros Hk Hv. destruct (su_pow2_exact k (vstart r) (vend r) v Hk Hv) as (l & L & B & E & U).
  assert (D : forall l0, sample_uniform r (list_coins l0) = su_list k (vstart r) (vend r) l0).
  { intros l0. rewrite sample_uniform_list by lia. unfold draw_uniform. f_equal.
    unfold vsize in Hk. rewrite Hk. rewrite Z.log2_up_pow2 by lia. lia. }
  exists l. split; [exact L|]. split; [exact B|]. rewrite D. split; [exact E|].
  intros l' L' B' E'. rewrite D in E'. apply U; assumption.
Qed.

(** Sizes that are powers of two are sampled uniformly: one tape of length k per value. *)
Theorem C10_uniform_power_of_two : forall k r v,
  vsize r = 2 ^ Z.of_nat k -> vstart r <= v <= vend r ->
  exists l, length l = k /\ bits l /\ sample_uniform r (list_coins l) = Ok v /\
    forall l', length l' = k -> bits l' -> sample_uniform r (list_coins l') = Ok v -> l' = l.
Proof. exact c10d_aux. Qed.
Print Assumptions C10_uniform_power_of_two.

Lemma c10e_aux :
  exists r, vsize r = 3 /\
    map (fun l => sample_uniform r (list_coins l)) [[0;0]; [0;1]; [1;0]; [1;1]]
      = [Ok (vstart r); Ok (vstart r + 1); Ok (vend r); Ok (vend r)].
Proof. exists {| vstart := 10; vend := 12 |}. vm_compute. split; reflexivity. Qed.

(** Other sizes are not: of the four two-bit tapes two select the last of three values. *)
Theorem C10_uniformity_refuted :
  exists r, vsize r = 3 /\
    map (fun l => sample_uniform r (list_coins l)) [[0;0]; [0;1]; [1;0]; [1;1]]
      = [Ok (vstart r); Ok (vstart r + 1); Ok (vend r); Ok (vend r)].
Proof. exact c10e_aux. Qed.
Print Assumptions C10_uniformity_refuted.

Lemma c10f_aux r l b rest :
  vstart r <= vend r -> bits l -> sample_uniform r (list_coins l) = Err NotEnoughCoins ->
  b <> 0 -> b <> 1 ->
  sample_uniform r (list_coins (l ++ b :: rest)) = Err InvalidCoin.
Proof.
  intros Hr Hl. rewrite !sample_uniform_list by exact Hr. unfold draw_uniform.
  generalize (Z.to_nat (Z.log2_up (vend r - vstart r + 1))) as f.
  generalize (vstart r) (vend r). clear Hr. intros s e f E Hb0 Hb1. revert s e f E.
  assert (X : forall s e, (if e - s + 1 =? 1 then @Ok Z s else Err AssertionError) <> Err NotEnoughCoins).
  { intros s e. destruct (e - s + 1 =? 1); discriminate. }
  induction l as [|c l IH]; intros s e f E; destruct f as [|f]; cbn [su_list app] in *;
    destruct (e - s + 1 >? 1); try (exfalso; exact (X _ _ E)); try discriminate.
  - destruct (Z.eqb_spec b 0); [lia|]. destruct (Z.eqb_spec b 1); [lia|]. reflexivity.
  - pose proof (Forall_inv_tail Hl) as Hl'. destruct (c =? 0); [apply IH; auto|].
    destruct (c =? 1); [apply IH; auto | discriminate].
Qed.

(** A coin that is no bit is reported as such when it is reached. *)
Theorem C10_uniform_invalid_coin : forall r l b rest,
  vstart r <= vend r -> bits l -> sample_uniform r (list_coins l) = Err NotEnoughCoins ->
  b <> 0 -> b <> 1 ->
  sample_uniform r (list_coins (l ++ b :: rest)) = Err InvalidCoin.
Proof. exact c10f_aux. Qed.
Print Assumptions C10_uniform_invalid_coin.

Example C10_example :
  let r := {| vstart := 10; vend := 20 |} in
  map (fun l => sample_uniform r (list_coins l)) [[]; [1;0]; [1;0;1]; [0;1;1;0;1]; [1;7]]
  = [Err NotEnoughCoins; Err NotEnoughCoins; Ok 18; Ok 15; Err InvalidCoin].
Proof. vm_compute. reflexivity. Qed.

(** ** C11 *)
(** Bit j of byte i, most significant first. *)
Theorem C11_bits_of_bytes : forall l,
  exists bs, str_to_bitstring l = Ok bs /\ length bs = (8 * length l)%nat /\
    forall i j b, nth_error l i = Some b -> (j < 8)%nat ->
      nth_error bs (8 * i + j) = Some (Z.b2z (Z.testbit (Z.of_N (bN b)) (7 - Z.of_nat j))).
Proof. exact str_bits. Qed.
Print Assumptions C11_bits_of_bytes.

Lemma c11b_aux l l' bs : str_to_bitstring l = Ok bs -> str_to_bitstring l' = Ok bs -> l = l'.
Proof.
  destruct (str_bits l) as (b1 & E1 & L1 & N1). destruct (str_bits l') as (b2 & E2 & L2 & N2).
  rewrite E1, E2. intros [= ->] [= ->].
  assert (L : length l = length l') by lia.
  apply nth_ext with (d := x00) (d' := x00); [exact L|]. intros i Hi.
  assert (Hb : nth_error l i = Some (nth i l x00)) by (apply nth_error_nth'; lia).
  assert (Hb' : nth_error l' i = Some (nth i l' x00)) by (apply nth_error_nth'; lia).
  assert (T : forall j, (j < 8)%nat -> Z.testbit (Z.of_N (bN (nth i l x00))) (7 - Z.of_nat j)
                                    = Z.testbit (Z.of_N (bN (nth i l' x00))) (7 - Z.of_nat j)).
  { intros j Hj. pose proof (N1 i j _ Hb Hj) as A. pose proof (N2 i j _ Hb' Hj) as B.
    rewrite A in B. injection B as B. apply Z.b2z_inj, B. }
  generalize dependent (nth i l x00). generalize dependent (nth i l' x00). intros c _ b _ T.
  assert (Eb : Z.of_N (bN b) = Z.of_N (bN c)).
  { apply Z.bits_inj. intros n. destruct (Z.lt_ge_cases n 0) as [Hn|Hn].
    - rewrite !Z.testbit_neg_r by lia. reflexivity.
    - destruct (Z.lt_ge_cases n 8) as [H8|H8].
      + specialize (T (Z.to_nat (7 - n)) ltac:(lia)).
        replace (7 - Z.of_nat (Z.to_nat (7 - n))) with n in T by lia. exact T.
      + pose proof (Byte.to_N_bounded b). pose proof (Byte.to_N_bounded c).
        assert (G : forall x, Z.log2 (Z.of_N (Byte.to_N x)) < n).
        { intros x. pose proof (Byte.to_N_bounded x).
          eapply Z.le_lt_trans; [apply (Z.log2_le_mono _ 255); lia | change (Z.log2 255) with 7; lia]. }
        unfold bN. rewrite !Z.bits_above_log2; auto; lia. }
  apply N2Z.inj in Eb. unfold bN in Eb.
  assert (Some b = Some c) as [= ->]; [|reflexivity].
  rewrite <- (Byte.of_to_N b), <- (Byte.of_to_N c), Eb. reflexivity.
Qed.

(** Reversible: the bits determine the bytes. *)
Theorem C11_bits_injective : forall l l' bs,
  str_to_bitstring l = Ok bs -> str_to_bitstring l' = Ok bs -> l = l'.
Proof. exact c11b_aux. Qed.
Print Assumptions C11_bits_injective.

Lemma c11c_aux b : (exists l, byte_to_bitstring b = Ok l) <-> 0 <= b <= 255.
Proof.
  unfold byte_to_bitstring. destruct ((0 <=? b) && (b <=? 255)) eqn:E.
  - split; [lia|]. intros _. destruct (b + 256); eexists; reflexivity.
  - split; [intros [l H]; discriminate | lia].
Qed.

(** Numbers that are no bytes are rejected. *)
Theorem C11_byte_domain : forall b, (exists l, byte_to_bitstring b = Ok l) <-> 0 <= b <= 255.
Proof. exact c11c_aux. Qed.
Print Assumptions C11_byte_domain.

Example C11_example : str_to_bitstring [xa5; x01] = Ok [1;0;1;0;0;1;0;1;0;0;0;0;0;0;0;1].
Proof. vm_compute. reflexivity. Qed.
