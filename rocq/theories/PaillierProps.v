(** Properties C15 and C16: the homomorphic cipher, SUM and AVG
    (scheduler/crypto/encrypt.py L303-336, scheduler/schema/metadata.py L170-255). *)
From Coq Require Import String Ascii List NArith ZArith Znumtheory QArith Qabs Bool Lia.
From Verif Require Import Base BaseProof PaillierModel NumTheory PaillierProof.
Import ListNotations.
Open Scope Z_scope.

(** A stored value together with the randomness of its encryption. *)
Definition stored (p q : Z) (rv : Z * Z) (c : Z) : Prop :=
  homo_encrypt_num p q (fst rv) (snd rv) = Ok c.
(** The randomness is a unit and the value in the signed plaintext range |v| <= n/3 - 1. *)
Definition valid (p q : Z) (rv : Z * Z) : Prop :=
  rel_prime (fst rv) (p * q) /\ Z.abs (snd rv) <= p * q / 3 - 1.
Definition total (l : list (Z * Z)) : Z := fold_right Z.add 0 (map snd l).

Lemma F2_len {A B} (R : A -> B -> Prop) l l' : Forall2 R l l' -> length l = length l'.
Proof. induction 1; cbn; congruence. Qed.

Lemma stored_encrypts p q l cs : prime p -> prime q -> p <> q -> Forall (valid p q) l ->
  Forall2 (stored p q) l cs ->
  Forall2 (encrypts (p * q)) cs (map snd l) /\ (forall c, In c cs -> 0 <= c < nsquare (p * q)).
Proof.
  intros P Q D V F. pose proof (prime_ge_2 p P). pose proof (prime_ge_2 q Q).
  induction F as [|[r v] c l cs S F IH]; [split; [constructor|intros c []]|].
  pose proof (Forall_inv V) as [R B]. apply Forall_inv_tail in V. destruct (IH V) as [I J].
  cbn [fst snd] in *.
  destruct (homo_encrypt_ok p q r v ltac:(lia) ltac:(lia) D R B) as (c' & E & EN & RG).
  unfold stored in S. cbn [fst snd] in S. rewrite E in S. injection S as ->.
  split; [constructor; assumption|]. intros d [<-|H']; [exact RG|apply J, H'].
Qed.

(** * C16 *)
Lemma c16_aux p q r v : prime p -> prime q -> p <> q -> rel_prime r (p * q) ->
  Z.abs v <= p * q / 3 - 1 ->
  exists t, homo_encrypt p q r v = Ok t /\ homo_decrypt p q t = Ok (HInt v).
Proof.
  intros P Q D R B. pose proof (prime_ge_2 p P). pose proof (prime_ge_2 q Q).
  destruct (homo_encrypt_ok p q r v ltac:(lia) ltac:(lia) D R B) as (c & E & EN & _).
  exists (str_int c). unfold homo_encrypt. rewrite E. split; [reflexivity|].
  rewrite decrypt_one_text, (sk_decrypt_ok p q c v) by assumption. reflexivity.
Qed.

(** One value survives, whatever the distinct primes and the randomness. *)
Theorem C16_roundtrip : forall p q r v, prime p -> prime q -> p <> q -> rel_prime r (p * q) ->
  Z.abs v <= p * q / 3 - 1 ->
  exists t, homo_encrypt p q r v = Ok t /\ homo_decrypt p q t = Ok (HInt v).
Proof. exact c16_aux. Qed.
Print Assumptions C16_roundtrip.

Lemma c16b_aux p q r v : p <> q -> p * q / 3 - 1 < Z.abs v -> homo_encrypt p q r v = Err ValueError.
Proof. intros D H. unfold homo_encrypt. rewrite homo_encrypt_range by assumption. reflexivity. Qed.

(** Values out of range are rejected, not wrapped. *)
Theorem C16_out_of_range_rejected : forall p q r v, p <> q -> p * q / 3 - 1 < Z.abs v ->
  homo_encrypt p q r v = Err ValueError.
Proof. exact c16b_aux. Qed.
Print Assumptions C16_out_of_range_rejected.

Lemma c16c_aux p q r r' v v' t : prime p -> prime q -> p <> q -> rel_prime r (p * q) -> rel_prime r' (p * q) ->
  homo_encrypt p q r v = Ok t -> homo_encrypt p q r' v' = Ok t -> v = v'.
Proof.
  intros P Q D R R' E E'.
  assert (B : Z.abs v <= p * q / 3 - 1).
  { destruct (Z.le_gt_cases (Z.abs v) (p * q / 3 - 1)) as [L|G]; [exact L|]. rewrite c16b_aux in E by assumption. discriminate. }
  assert (B' : Z.abs v' <= p * q / 3 - 1).
  { destruct (Z.le_gt_cases (Z.abs v') (p * q / 3 - 1)) as [L|G]; [exact L|]. rewrite c16b_aux in E' by assumption. discriminate. }
  destruct (c16_aux p q r v P Q D R B) as (x & X & Y). destruct (c16_aux p q r' v' P Q D R' B') as (x' & X' & Y').
  rewrite E in X. rewrite E' in X'. injection X as <-. injection X' as <-. rewrite Y in Y'. injection Y' as ->. reflexivity.
Qed.

(** No ciphertext belongs to two values. *)
Theorem C16_injective : forall p q r r' v v' t, prime p -> prime q -> p <> q ->
  rel_prime r (p * q) -> rel_prime r' (p * q) ->
  homo_encrypt p q r v = Ok t -> homo_encrypt p q r' v' = Ok t -> v = v'.
Proof. exact c16c_aux. Qed.
Print Assumptions C16_injective.

Lemma c16d_aux p q r v t : prime p -> prime q -> p <> q -> rel_prime r (p * q) -> p * q < 10 ^ 32 ->
  homo_encrypt p q r v = Ok t -> exists c, t = str_int c /\ 0 <= c < 10 ^ 64.
Proof.
  intros P Q D R L E. pose proof (prime_ge_2 p P). pose proof (prime_ge_2 q Q).
  assert (B : Z.abs v <= p * q / 3 - 1).
  { destruct (Z.le_gt_cases (Z.abs v) (p * q / 3 - 1)) as [A|G]; [exact A|]. rewrite c16b_aux in E by assumption. discriminate. }
  destruct (homo_encrypt_ok p q r v ltac:(lia) ltac:(lia) D R B) as (c & E' & _ & RG).
  unfold homo_encrypt in E. rewrite E' in E. injection E as <-. exists c. split; [reflexivity|].
  unfold nsquare in RG. change (10 ^ 64) with (10 ^ 32 * 10 ^ 32). set (k := 10 ^ 32) in *. nia.
Qed.

(** The Decimal(65,0) column (metadata.py L82) holds every ciphertext of keys with n < 10^32. *)
Theorem C16_fits_column : forall p q r v t, prime p -> prime q -> p <> q -> rel_prime r (p * q) ->
  p * q < 10 ^ 32 -> homo_encrypt p q r v = Ok t -> exists c, t = str_int c /\ 0 <= c < 10 ^ 64.
Proof. exact c16d_aux. Qed.
Print Assumptions C16_fits_column.

(** The hypotheses are met: 101 and 103 are primes. *)
Lemma prime_by_trial p : 1 < p ->
  (forallb (fun k => negb (p mod Z.of_nat k =? 0)) (seq 2 (Z.to_nat p - 2)) = true) -> prime p.
Proof.
  intros H T. apply prime_alt. split; [exact H|]. intros k K DV.
  rewrite forallb_forall in T. specialize (T (Z.to_nat k)). rewrite Z2Nat.id in T by lia.
  assert (I : In (Z.to_nat k) (seq 2 (Z.to_nat p - 2))) by (apply in_seq; lia).
  apply T in I. apply Z.mod_divide in DV; [|lia]. rewrite DV in I. discriminate.
Qed.
Example C16_key : prime 101 /\ prime 103 /\ rel_prime 5 (101 * 103).
Proof.
  split; [|split].
  - apply prime_by_trial; [lia|vm_compute; reflexivity].
  - apply prime_by_trial; [lia|vm_compute; reflexivity].
  - apply Zgcd_1_rel_prime. vm_compute. reflexivity.
Qed.
Example C16_example : homo_encrypt 101 103 5 (-7) = Ok (u "87019200") /\
  homo_decrypt 101 103 (u "87019200") = Ok (HInt (-7)).
Proof. split; vm_compute; reflexivity. Qed.

(** * C15 *)

(** The text the decryption receives: the stored ciphertexts and the name of the aggregate,
    separated by commas. *)
Definition cipher_list (cs : list Z) (agg : pystr) : pystr := join (u ",") (map str_int cs ++ [agg]).

Lemma c15_aux p q l cs : prime p -> prime q -> p <> q -> Forall (valid p q) l -> Forall2 (stored p q) l cs ->
  Z.abs (total l) <= p * q / 3 - 1 ->
  homo_decrypt p q (cipher_list cs (u "SUM")) = Ok (HInt (total l)).
Proof.
  intros P Q D V F B. pose proof (prime_ge_2 p P). pose proof (prime_ge_2 q Q).
  destruct (stored_encrypts p q l cs P Q D V F) as [E _].
  change (cipher_list cs (u "SUM")) with (agg_text cs (u "SUM")). rewrite decrypt_sum_text.
  rewrite (sk_decrypt_ok p q _ (total l)); try assumption; [reflexivity|].
  apply product_mod_encrypts; [nia|exact E].
Qed.

(** SUM of any rows, any randomness, any key. *)
Theorem C15_sum : forall p q l cs, prime p -> prime q -> p <> q -> Forall (valid p q) l ->
  Forall2 (stored p q) l cs -> Z.abs (total l) <= p * q / 3 - 1 ->
  homo_decrypt p q (cipher_list cs (u "SUM")) = Ok (HInt (total l)).
Proof. exact c15_aux. Qed.
Print Assumptions C15_sum.

Lemma c15b_aux p q l cs : prime p -> prime q -> p <> q -> l <> [] -> Forall (valid p q) l -> Forall2 (stored p q) l cs ->
  Z.abs (total l) <= p * q / 3 - 1 ->
  homo_decrypt p q (cipher_list cs (u "AVG")) = Ok (HFloat (inject_Z (total l) / inject_Z (Z.of_nat (length l)))).
Proof.
  intros P Q D NE V F B. pose proof (prime_ge_2 p P). pose proof (prime_ge_2 q Q).
  destruct (stored_encrypts p q l cs P Q D V F) as [E _].
  change (cipher_list cs (u "AVG")) with (agg_text cs (u "AVG")). rewrite decrypt_avg_text.
  rewrite (sk_decrypt_ok p q _ (total l)); try assumption; [|apply product_mod_encrypts; [nia|exact E]].
  cbn [bind]. rewrite <- (F2_len _ _ _ F). unfold true_div.
  destruct (Z.of_nat (length l) =? 0) eqn:Z0; [|reflexivity].
  destruct l; [congruence|]. cbn in Z0. discriminate.
Qed.

Theorem C15_avg : forall p q l cs, prime p -> prime q -> p <> q -> l <> [] -> Forall (valid p q) l ->
  Forall2 (stored p q) l cs -> Z.abs (total l) <= p * q / 3 - 1 ->
  homo_decrypt p q (cipher_list cs (u "AVG"))
    = Ok (HFloat (inject_Z (total l) / inject_Z (Z.of_nat (length l)))).
Proof. exact c15b_aux. Qed.
Print Assumptions C15_avg.

Lemma decode_range n e v : phe_decode n e = Ok v -> 0 <= e -> Z.abs v <= max_int n.
Proof.
  unfold phe_decode. destruct (n <=? e) eqn:A; [discriminate|]. apply Z.leb_gt in A.
  destruct (e <=? max_int n) eqn:B.
  - intros [= <-] H. apply Z.leb_le in B. lia.
  - destruct (n - max_int n <=? e) eqn:C; [|discriminate]. intros [= <-] H. apply Z.leb_le in C. lia.
Qed.

Lemma c15c_aux p q l cs : prime p -> prime q -> p <> q -> Forall (valid p q) l -> Forall2 (stored p q) l cs ->
  p * q / 3 - 1 < Z.abs (total l) ->
  homo_decrypt p q (cipher_list cs (u "SUM")) <> Ok (HInt (total l)).
Proof.
  intros P Q D V F B. pose proof (prime_ge_2 p P). pose proof (prime_ge_2 q Q).
  destruct (stored_encrypts p q l cs P Q D V F) as [E _].
  change (cipher_list cs (u "SUM")) with (agg_text cs (u "SUM")). rewrite decrypt_sum_text.
  unfold sk_decrypt. rewrite (raw_decrypt_ok p q _ (total l)); try assumption; [|apply product_mod_encrypts; [nia|exact E]].
  cbn [bind]. destruct (phe_decode (p * q) (total l mod (p * q))) as [v|] eqn:G; cbn [bind]; [|discriminate].
  intros [= ->]. apply decode_range in G; [|apply Z.mod_pos_bound; nia]. unfold max_int in G. lia.
Qed.

(** The range condition is exact: beyond it SUM never returns the true sum. *)
Theorem C15_sum_range_exact : forall p q l cs, prime p -> prime q -> p <> q -> Forall (valid p q) l ->
  Forall2 (stored p q) l cs -> p * q / 3 - 1 < Z.abs (total l) ->
  homo_decrypt p q (cipher_list cs (u "SUM")) <> Ok (HInt (total l)).
Proof. exact c15c_aux. Qed.
Print Assumptions C15_sum_range_exact.

(** ** The aggregate as computed by the database *)
Lemma cap n : 0 < n -> n ^ 4 <= 10 ^ 65 -> n * n * (n * n) <= 10 ^ 65.
Proof. intros _ H. replace (n * n * (n * n)) with (n ^ 4) by ring. exact H. Qed.

Lemma c15d_aux p q l cs : prime p -> prime q -> p <> q -> (p * q) ^ 4 <= 10 ^ 65 -> l <> [] ->
  Forall (valid p q) l -> Forall2 (stored p q) l cs -> Z.abs (total l) <= p * q / 3 - 1 ->
  server_sum p q (map Some cs) = Ok (Some (HInt (total l))) /\
  exists f, server_avg p q (map Some cs) = Ok (Some (HFloat f)) /\
    (Qabs (f - inject_Z (total l) / inject_Z (Z.of_nat (length l))) <= 1 # 20000)%Q.
Proof.
  intros P Q D C NE V F B. pose proof (prime_ge_2 p P). pose proof (prime_ge_2 q Q).
  destruct (stored_encrypts p q l cs P Q D V F) as [E R].
  assert (N : 1 < p * q) by nia.
  assert (NE' : cs <> []) by (destruct F; [congruence|discriminate]).
  unfold server_sum, server_avg.
  rewrite (server_product_ok (p * q) cs N (cap (p * q) ltac:(lia) C) NE' R). cbn [bind].
  rewrite decrypt_one_text, decrypt_pair_text.
  rewrite (sk_decrypt_ok p q _ (total l)); try assumption; [|apply product_mod_encrypts; [lia|exact E]].
  cbn [bind]. split; [reflexivity|].
  rewrite map_length, <- (F2_len _ _ _ F). unfold true_div.
  destruct (Z.of_nat (length l) =? 0) eqn:Z0; [destruct l; [congruence|discriminate]|].
  cbn [bind]. eexists. split; [reflexivity|]. apply round4_err.
Qed.

(** With keys small enough for DECIMAL(65,0) products (n^4 <= 10^65) the server-side loop gives
    the true SUM and the true AVG rounded to four decimals. *)
Theorem C15_server_sum : forall p q l cs, prime p -> prime q -> p <> q -> (p * q) ^ 4 <= 10 ^ 65 -> l <> [] ->
  Forall (valid p q) l -> Forall2 (stored p q) l cs -> Z.abs (total l) <= p * q / 3 - 1 ->
  server_sum p q (map Some cs) = Ok (Some (HInt (total l))) /\
  exists f, server_avg p q (map Some cs) = Ok (Some (HFloat f)) /\
    (Qabs (f - inject_Z (total l) / inject_Z (Z.of_nat (length l))) <= 1 # 20000)%Q.
Proof. exact c15d_aux. Qed.
Print Assumptions C15_server_sum.

Lemma c15e_aux p q c1 c2 rest : 1 < p -> 1 < q -> 0 <= c1 < (p * q) * (p * q) -> c1 < 10 ^ 65 <= c1 * c2 ->
  server_sum p q (Some c1 :: Some c2 :: rest) = Err DbError.
Proof.
  intros P Q R H. unfold server_sum. rewrite server_product_overflow; [reflexivity| | |exact H]; unfold nsquare; [nia|exact R].
Qed.

(** Larger keys: as soon as the product of the first two ciphertexts has more than 65 digits
    the statement fails. *)
Theorem C15_server_sum_overflow : forall p q c1 c2 rest, 1 < p -> 1 < q ->
  0 <= c1 < (p * q) * (p * q) -> c1 < 10 ^ 65 <= c1 * c2 ->
  server_sum p q (Some c1 :: Some c2 :: rest) = Err DbError.
Proof. exact c15e_aux. Qed.
Print Assumptions C15_server_sum_overflow.

(** This happens with the key of the project's own tests (test/single_table_test.py L84) on two
    rows holding 1. *)
Theorem C15_server_sum_test_key_refuted : exists c1 c2,
  homo_encrypt_num 787659527 1023624989 2 1 = Ok c1 /\
  homo_encrypt_num 787659527 1023624989 3 1 = Ok c2 /\
  server_sum 787659527 1023624989 [Some c1; Some c2] = Err DbError.
Proof.
  exists 644353730689924307358710507165845939, 636822642975394626437667062167097458.
  split; [vm_compute; reflexivity|]. split; [vm_compute; reflexivity|].
  apply c15e_aux; [lia|lia| |]; split; vm_compute; congruence.
Qed.
Print Assumptions C15_server_sum_test_key_refuted.

Lemma c15f_aux p q l cs rest : prime p -> prime q -> p <> q -> (p * q) ^ 4 <= 10 ^ 65 ->
  Forall (valid p q) l -> Forall2 (stored p q) l cs ->
  server_sum p q (map Some cs ++ None :: rest) = Ok None.
Proof.
  intros P Q D C V F. pose proof (prime_ge_2 p P). pose proof (prime_ge_2 q Q).
  destruct (stored_encrypts p q l cs P Q D V F) as [E R]. unfold server_sum.
  rewrite server_product_null; [reflexivity| nia | apply cap; [nia|exact C] | exact R].
Qed.

(** SQL's SUM ignores NULL; the server-side loop does not: one NULL makes the answer None. *)
Theorem C15_server_sum_null_refuted : forall p q l cs rest, prime p -> prime q -> p <> q -> (p * q) ^ 4 <= 10 ^ 65 ->
  Forall (valid p q) l -> Forall2 (stored p q) l cs ->
  server_sum p q (map Some cs ++ None :: rest) = Ok None.
Proof. exact c15f_aux. Qed.
Print Assumptions C15_server_sum_null_refuted.

Lemma c15g_aux maxlen p q l cs cells : prime p -> prime q -> p <> q -> l <> [] ->
  Forall (valid p q) l -> Forall2 (stored p q) l cs -> non_null cells = cs ->
  Z.abs (total l) <= p * q / 3 - 1 -> (length (join (u ",") (map str_int cs)) <= maxlen)%nat ->
  concat_agg maxlen (u "SUM") p q cells = Ok (Some (HInt (total l))) /\
  concat_agg maxlen (u "AVG") p q cells
    = Ok (Some (HFloat (inject_Z (total l) / inject_Z (Z.of_nat (length l))))).
Proof.
  intros P Q D NE V F NN B L.
  assert (NE' : cs <> []) by (destruct F; [congruence|discriminate]).
  rewrite !(concat_agg_ok maxlen _ p q cells cs NN NE' L).
  pose proof (c15_aux p q l cs P Q D V F B) as S. pose proof (c15b_aux p q l cs P Q D NE V F B) as A.
  change cipher_list with agg_text in *. rewrite S, A. split; reflexivity.
Qed.

(** The GROUP_CONCAT variant ignores NULLs and is right while the list fits
    group_concat_max_len ... *)
Theorem C15_concat_sum : forall maxlen p q l cs cells, prime p -> prime q -> p <> q -> l <> [] ->
  Forall (valid p q) l -> Forall2 (stored p q) l cs -> non_null cells = cs ->
  Z.abs (total l) <= p * q / 3 - 1 -> (length (join (u ",") (map str_int cs)) <= maxlen)%nat ->
  concat_agg maxlen (u "SUM") p q cells = Ok (Some (HInt (total l))) /\
  concat_agg maxlen (u "AVG") p q cells
    = Ok (Some (HFloat (inject_Z (total l) / inject_Z (Z.of_nat (length l))))).
Proof. exact c15g_aux. Qed.
Print Assumptions C15_concat_sum.

Definition rows120 : list (Z * Z) := map (fun i => (Z.of_nat (i mod 80) + 2, 1)) (seq 0 120).
Definition cells120 : list Z :=
  map (fun rv => match homo_encrypt_num 101 103 (fst rv) (snd rv) with Ok c => c | Err _ => 0 end) rows120.

(** ... and silently wrong once the default length 1024 cuts it: 120 rows holding 1 sum to 113. *)
Theorem C15_concat_sum_truncated_refuted : exists l cs v,
  Forall2 (stored 101 103) l cs /\ total l = 120 /\
  concat_agg 1024 (u "SUM") 101 103 (map Some cs) = Ok (Some (HInt v)) /\ v <> total l.
Proof.
  exists rows120, cells120. eexists. split.
  - assert (A : forallb (fun rv => match homo_encrypt_num 101 103 (fst rv) (snd rv) with Ok _ => true | Err _ => false end) rows120 = true) by (vm_compute; reflexivity).
    unfold cells120. induction rows120 as [|rv l IH]; cbn [map]; [constructor|].
    cbn [forallb] in A. apply andb_true_iff in A. destruct A as [A A']. constructor; [|apply IH, A'].
    unfold stored. destruct (homo_encrypt_num 101 103 (fst rv) (snd rv)); [reflexivity|discriminate].
  - split; [vm_compute; reflexivity|]. split; [vm_compute; reflexivity|vm_compute; discriminate].
Qed.
Print Assumptions C15_concat_sum_truncated_refuted.

Example C15_example :
  homo_encrypt_num 101 103 5 (-7) = Ok 87019200 /\ homo_encrypt_num 101 103 6 20 = Ok 47028341 /\
  homo_decrypt 101 103 (u "87019200,47028341,SUM") = Ok (HInt 13) /\
  server_sum 101 103 [Some 87019200; Some 47028341] = Ok (Some (HInt 13)) /\
  (exists f, homo_decrypt 101 103 (u "87019200,47028341,AVG") = Ok (HFloat f) /\ f == 13 # 2)%Q.
Proof.
  repeat (split; [vm_compute; reflexivity|]). eexists. split; [vm_compute; reflexivity|vm_compute; reflexivity].
Qed.
