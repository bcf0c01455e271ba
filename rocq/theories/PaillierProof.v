(** Correctness of the homomorphic cipher. *)
From Coq Require Import String Ascii List NArith ZArith Znumtheory QArith Qround Qabs Bool Lia Setoid Lqa.
From Coq Require Import ZifyBool ZifyNat ZifyN.
From Verif Require Import Base BaseProof PaillierModel NumTheory.
Import ListNotations.
Open Scope Z_scope.

(** [c] is some encryption of [m] modulo [n]: (1 + n)^m * s^n up to a multiple of n^2. *)
Definition encrypts (n c m : Z) : Prop :=
  exists s, rel_prime s n /\ cong (n * n) c ((1 + n * m) * s ^ n).

Lemma encrypts_one n : 0 < n -> encrypts n 1 0.
Proof.
  intros H. exists 1. split; [apply rel_prime_1|]. rewrite Z.pow_1_l by lia.
  replace ((1 + n * 0) * 1) with 1 by ring. reflexivity.
Qed.

Lemma encrypts_mul n c d m k : encrypts n c m -> encrypts n d k -> encrypts n (c * d) (m + k).
Proof.
  intros (s & S & C) (t & T & D). exists (s * t). split.
  - apply rel_prime_sym, rel_prime_mult; apply rel_prime_sym; assumption.
  - rewrite C, D, Z.pow_mul_l. exists (m * k * (s ^ n * t ^ n)). ring.
Qed.

Lemma encrypts_cong n c d m : cong (n * n) c d -> encrypts n c m -> encrypts n d m.
Proof. intros H (s & S & C). exists s. split; [exact S|]. rewrite <- H. exact C. Qed.

Lemma encrypts_shift n c m k : 0 < n -> cong n m k -> encrypts n c m -> encrypts n c k.
Proof.
  intros Hn [x X] (s & S & C). exists s. split; [exact S|]. rewrite C.
  exists (x * s ^ n). replace m with (k + x * n) by lia. ring.
Qed.

Lemma l_mod p t : 1 < p -> l_function ((1 + p * t) mod (p * p)) p = t mod p.
Proof.
  intros P. unfold l_function.
  assert (E : (1 + p * t) mod (p * p) = 1 + p * (t mod p)).
  { apply (cong_small (p * p)).
    - nia.
    - apply Z.mod_pos_bound. nia.
    - pose proof (Z.mod_pos_bound t p ltac:(lia)). nia.
    - rewrite cong_mod by nia. pose proof (Z.div_mod t p ltac:(lia)). exists (t / p). nia. }
  rewrite E. replace (1 + p * (t mod p) - 1) with (t mod p * p) by ring. apply Z.div_mul. lia.
Qed.

(** Decryption modulo one prime factor. *)
Lemma half p q c m : prime p -> rel_prime q p -> encrypts (p * q) c m -> 0 <= q ->
  exists h, h_function (p * q) p = Ok h /\
            (l_function (powmod c (p - 1) (p * p)) p * h) mod p = m mod p.
Proof.
  intros P R (s & S & C) Q0. pose proof (prime_ge_2 p P) as P2.
  assert (PP : 0 < p * p) by nia.
  assert (DV : (p * p | (p * q) * (p * q))) by (exists (q * q); ring).
  assert (PW : forall x, cong (p * p) ((1 + p * q * x) ^ (p - 1)) (1 + p * (q * x * (p - 1)))).
  { intros x. apply (cong_divide ((p * q * x) * (p * q * x))).
    - exists (q * x * (q * x)). ring.
    - replace (1 + p * (q * x * (p - 1))) with (1 + (p - 1) * (p * q * x)) by ring. apply binom1. lia. }
  assert (G : powmod (p * q + 1) (p - 1) (p * p) = (1 + p * (q * (p - 1))) mod (p * p)).
  { rewrite powmod_spec by lia. apply cong_eq; [lia|].
    replace (p * q + 1) with (1 + p * q * 1) by ring. rewrite (PW 1).
    replace (q * 1 * (p - 1)) with (q * (p - 1)) by ring. reflexivity. }
  assert (U : rel_prime (q * (p - 1) mod p) p).
  { apply rel_prime_mod; [lia|]. apply rel_prime_sym, rel_prime_mult; [apply rel_prime_sym, R|].
    apply rel_prime_sym. apply rel_prime_le_prime; [exact P|lia]. }
  destruct (invert_ok _ p ltac:(lia) U) as (h & H & _ & HC).
  exists h. unfold h_function. rewrite G, l_mod by lia. split; [exact H|].
  assert (E : powmod c (p - 1) (p * p) = (1 + p * (q * m * (p - 1))) mod (p * p)).
  { rewrite powmod_spec by lia. apply cong_eq; [lia|].
    rewrite (cong_pow (p * p) c ((1 + p * q * m) * s ^ (p * q)) (p - 1)) by (apply (cong_divide _ _ _ _ DV C)).
    rewrite Z.pow_mul_l, (PW m).
    assert (SS : cong (p * p) ((s ^ (p * q)) ^ (p - 1)) 1).
    { rewrite <- Z.pow_mul_r by nia. replace (p * q * (p - 1)) with ((p * (p - 1)) * q) by ring.
      rewrite Z.pow_mul_r by nia. rewrite (cong_pow (p * p) _ 1 q).
      - rewrite Z.pow_1_l by lia. reflexivity.
      - apply euler2; [exact P|]. apply rel_prime_sym. apply rel_prime_sym in S.
        apply (rel_prime_div (p * q) s p S). exists q. ring. }
    rewrite SS, Z.mul_1_r. reflexivity. }
  rewrite E, l_mod by lia. apply cong_eq; [lia|].
  rewrite cong_mod by lia. rewrite cong_mod in HC by lia.
  replace (q * m * (p - 1) * h) with (m * (q * (p - 1) * h)) by ring. rewrite HC, Z.mul_1_r. reflexivity.
Qed.

Lemma crt p q mp mq pinv m : 1 < p -> 1 < q -> rel_prime p q -> 0 <= mp < p -> 0 <= mq < q ->
  cong q (p * pinv) 1 -> mp = m mod p -> mq = m mod q ->
  mp + (((mq - mp) * pinv) mod q) * p = m mod (p * q).
Proof.
  intros P Q R BP BQ I EP EQ.
  pose proof (Z.mod_pos_bound ((mq - mp) * pinv) q ltac:(lia)) as B.
  apply (cong_small (p * q)).
  - nia.
  - nia.
  - apply Z.mod_pos_bound. nia.
  - rewrite (cong_mod (p * q)) by nia. apply cong_coprime_mul; [exact R| |].
    + assert (C : cong p mp m) by (rewrite EP; apply cong_mod; lia).
      transitivity mp; [|exact C]. eexists. rewrite Z.add_simpl_l. reflexivity.
    + rewrite cong_mod by lia.
      replace (mp + (mq - mp) * pinv * p) with (mp + (mq - mp) * (p * pinv)) by ring.
      rewrite I. replace (mp + (mq - mp) * 1) with mq by ring. rewrite EQ, cong_mod by lia. reflexivity.
Qed.

Lemma raw_decrypt_ordered_ok p q c m : prime p -> prime q -> p <> q -> encrypts (p * q) c m ->
  raw_decrypt_ordered p q c = Ok (m mod (p * q)).
Proof.
  intros P Q D E. pose proof (prime_ge_2 p P). pose proof (prime_ge_2 q Q).
  assert (R : rel_prime p q).
  { apply prime_rel_prime; [exact P|]. intros V. apply prime_div_prime in V; auto. }
  unfold raw_decrypt_ordered.
  destruct (half p q c m P (rel_prime_sym _ _ R) E ltac:(lia)) as (hp & HP & EP).
  rewrite (Z.mul_comm p q) in E.
  destruct (half q p c m Q R E ltac:(lia)) as (hq & HQ & EQ).
  rewrite HP. cbn [bind]. rewrite (Z.mul_comm p q), HQ. cbn [bind].
  destruct (invert_ok p q ltac:(lia) R) as (pi & PI & _ & IC). rewrite PI. cbn [bind]. f_equal.
  rewrite (Z.mul_comm q p). apply crt; try lia; try assumption; apply Z.mod_pos_bound; lia.
Qed.

Lemma raw_decrypt_ok p q c m : prime p -> prime q -> p <> q -> encrypts (p * q) c m ->
  raw_decrypt p q c = Ok (m mod (p * q)).
Proof.
  intros P Q D E. unfold raw_decrypt. destruct (p =? q) eqn:B; [lia|].
  destruct (q <? p) eqn:L.
  - rewrite (Z.mul_comm p q) in *. apply raw_decrypt_ordered_ok; auto.
  - apply raw_decrypt_ordered_ok; auto.
Qed.

Lemma phe_decode_ok n v : Z.abs v <= max_int n -> 0 < n -> phe_decode n (v mod n) = Ok v.
Proof.
  intros H N. unfold phe_decode. unfold max_int in *.
  pose proof (Z.mod_pos_bound v n N). pose proof (Z.div_mod n 3 ltac:(lia)). pose proof (Z.mod_pos_bound n 3 ltac:(lia)).
  destruct (Z.lt_ge_cases v 0) as [V|V].
  - assert (E : v mod n = v + n).
    { symmetry. apply Z.mod_unique with (-1); lia. }
    rewrite E. destruct (n <=? v + n) eqn:A; [lia|]. destruct (v + n <=? n / 3 - 1) eqn:B; [lia|].
    destruct (n - (n / 3 - 1) <=? v + n) eqn:C; [|lia]. f_equal. lia.
  - rewrite Z.mod_small by lia. destruct (n <=? v) eqn:A; [lia|]. destruct (v <=? n / 3 - 1) eqn:B; [|lia]. reflexivity.
Qed.

Lemma sk_decrypt_ok p q c m : prime p -> prime q -> p <> q -> encrypts (p * q) c m ->
  Z.abs m <= max_int (p * q) -> sk_decrypt p q c = Ok m.
Proof.
  intros P Q D E H. unfold sk_decrypt. rewrite (raw_decrypt_ok p q c m) by assumption. cbn [bind].
  pose proof (prime_ge_2 p P). pose proof (prime_ge_2 q Q). apply phe_decode_ok; [exact H|nia].
Qed.

Lemma homo_encrypt_ok p q r v : 1 < p -> 1 < q -> p <> q -> rel_prime r (p * q) ->
  Z.abs v <= max_int (p * q) ->
  exists c, homo_encrypt_num p q r v = Ok c /\ encrypts (p * q) c v /\ 0 <= c < nsquare (p * q).
Proof.
  intros P Q D R H. set (n := p * q) in *. assert (N : 1 < n) by (unfold n; nia).
  unfold homo_encrypt_num. destruct (p =? q) eqn:E; [lia|]. fold n.
  unfold phe_encode. destruct (max_int n <? Z.abs v) eqn:B; [lia|]. cbn [bind]. unfold raw_encrypt, nsquare.
  assert (NN : 0 < n * n) by nia.
  pose proof (Z.mod_pos_bound v n ltac:(lia)) as MB.
  assert (X : exists nude, (if (n - max_int n <=? v mod n) && (v mod n <? n)
              then invert ((n * (n - v mod n) + 1) mod (n * n)) (n * n)
              else Ok ((n * (v mod n) + 1) mod (n * n))) = Ok nude /\ cong (n * n) nude (1 + n * (v mod n))).
  { destruct ((n - max_int n <=? v mod n) && (v mod n <? n)) eqn:G.
    - set (k := v mod n) in *.
      assert (CR : cong (n * n) ((n * (n - k) + 1) * (1 + n * k)) 1).
      { exists (1 + k * (n - k)). ring. }
      assert (RP : rel_prime ((n * (n - k) + 1) mod (n * n)) (n * n)).
      { apply rel_prime_mod; [nia|]. destruct CR as [z Z]. apply bezout_rel_prime.
        apply Bezout_intro with (1 + n * k) (- z). lia. }
      destruct (invert_ok _ (n * n) ltac:(nia) RP) as (x & XE & XR & XC). exists x. split; [exact XE|].
      rewrite cong_mod in XC by nia.
      assert (Y : cong (n * n) (x * ((n * (n - k) + 1) * (1 + n * k))) x) by (rewrite CR, Z.mul_1_r; reflexivity).
      rewrite <- Y. replace (x * ((n * (n - k) + 1) * (1 + n * k))) with (((n * (n - k) + 1) * x) * (1 + n * k)) by ring.
      rewrite XC, Z.mul_1_l. reflexivity.
    - eexists. split; [reflexivity|]. rewrite cong_mod by nia. rewrite Z.add_comm. reflexivity. }
  destruct X as (nude & -> & NC). cbn [bind]. eexists. split; [reflexivity|]. split; [|apply Z.mod_pos_bound; nia].
  apply (encrypts_shift n _ (v mod n)); [lia | apply cong_mod; lia |].
  exists r. split; [exact R|]. rewrite cong_mod by nia. rewrite NC, powmod_spec by nia. rewrite (cong_mod (n * n) (r ^ n)) by nia. reflexivity.
Qed.

Lemma homo_encrypt_range p q r v : p <> q -> max_int (p * q) < Z.abs v -> homo_encrypt_num p q r v = Err ValueError.
Proof.
  intros D H. unfold homo_encrypt_num, phe_encode. destruct (p =? q) eqn:E; [lia|].
  destruct (max_int (p * q) <? Z.abs v) eqn:B; [reflexivity|lia].
Qed.

(** Products *)
Lemma product_encrypts n l ms a m : 0 < n -> encrypts n a m -> Forall2 (encrypts n) l ms ->
  encrypts n (fold_left (fun x y => (x * y) mod nsquare n) l a) (fold_left Z.add ms m).
Proof.
  intros N A F. revert a m A. induction F as [|c k l ms C F IH]; intros a m A; cbn [fold_left]; [exact A|].
  apply IH. apply (encrypts_cong n (a * c)); [|apply encrypts_mul; assumption].
  symmetry. unfold nsquare. apply cong_mod. nia.
Qed.

Definition zsum (l : list Z) : Z := fold_right Z.add 0 l.
Lemma zsum_fold l a : fold_left Z.add l a = a + zsum l.
Proof.
  revert a. induction l as [|x l IH]; intros a; cbn [fold_left zsum fold_right]; [lia|].
  rewrite IH. unfold zsum. lia.
Qed.

Lemma product_mod_encrypts n l ms : 0 < n -> Forall2 (encrypts n) l ms ->
  encrypts n (product_mod (nsquare n) l) (zsum ms).
Proof.
  intros N F. unfold product_mod. rewrite <- (Z.add_0_l (zsum ms)), <- zsum_fold.
  apply product_encrypts; [exact N | apply encrypts_one, N | exact F].
Qed.

(** Text level *)
Lemma str_int_nocomma z : has_char COMMA (str_int z) = false.
Proof.
  unfold has_char. destruct (existsb _ (str_int z)) eqn:E; [|reflexivity].
  apply existsb_exists in E. destruct E as (c & I & H). apply str_int_char in I.
  apply N.eqb_eq in H. unfold COMMA in H. lia.
Qed.

Lemma str_int_head z : exists c t, str_int z = c :: t /\ (c = 45 \/ 48 <= c <= 57)%N.
Proof.
  destruct (str_int z) as [|c t] eqn:E.
  - exfalso. apply (str_int_nonempty z), E.
  - exists c, t. split; [reflexivity|]. apply (str_int_char z). rewrite E. left. reflexivity.
Qed.

Lemma str_int_not_word z w c t : w = c :: t -> (65 <= c)%N -> seqb (str_int z) w = false.
Proof.
  intros -> C. apply seqb_neq. intros E. destruct (str_int_head z) as (d & r & E2 & B).
  rewrite E2 in E. injection E as -> _. lia.
Qed.

Lemma str_int_not_sum z : seqb (str_int z) (u "SUM") = false.
Proof. apply (str_int_not_word z _ 83%N [85; 77]%N); [reflexivity|lia]. Qed.
Lemma str_int_not_avg z : seqb (str_int z) (u "AVG") = false.
Proof. apply (str_int_not_word z _ 65%N [86; 71]%N); [reflexivity|lia]. Qed.

Lemma mapM_parse l : mapM parse_int (map str_int l) = Ok l.
Proof.
  induction l as [|z l IH]; cbn [map mapM]; [reflexivity|]. rewrite parse_str_int. cbn [bind]. rewrite IH. reflexivity.
Qed.

Definition agg_text (l : list Z) (agg : pystr) : pystr := join [COMMA] (map str_int l ++ [agg]).

Lemma agg_split l agg : has_char COMMA agg = false -> split COMMA (agg_text l agg) = map str_int l ++ [agg].
Proof.
  intros H. unfold agg_text. apply split_join.
  - destruct (map str_int l); discriminate.
  - intros p I. apply in_app_or in I. destruct I as [I|[<-|[]]]; [|exact H].
    apply in_map_iff in I. destruct I as (z & <- & _). apply str_int_nocomma.
Qed.

Lemma decrypt_sum_text p q l : homo_decrypt p q (agg_text l (u "SUM")) =
  (do v <- sk_decrypt p q (product_mod (nsquare (p * q)) l); Ok (HInt v)).
Proof.
  unfold homo_decrypt. rewrite agg_split by reflexivity. rewrite removelast_last, last_last.
  rewrite seqb_refl, mapM_parse. reflexivity.
Qed.

Lemma decrypt_avg_text p q l : homo_decrypt p q (agg_text l (u "AVG")) =
  (do v <- sk_decrypt p q (product_mod (nsquare (p * q)) l);
   do a <- true_div v (Z.of_nat (length l)); Ok (HFloat a)).
Proof.
  unfold homo_decrypt. rewrite agg_split by reflexivity. rewrite removelast_last, last_last.
  replace (seqb (u "AVG") (u "SUM")) with false by reflexivity. rewrite seqb_refl, mapM_parse, map_length. reflexivity.
Qed.

Lemma decrypt_one_text p q z : homo_decrypt p q (str_int z) = (do v <- sk_decrypt p q z; Ok (HInt v)).
Proof.
  unfold homo_decrypt. rewrite split_nochar by apply str_int_nocomma. cbn [removelast last].
  rewrite str_int_not_sum, str_int_not_avg.
  rewrite parse_str_int. reflexivity.
Qed.

Lemma decrypt_pair_text p q z k : homo_decrypt p q (str_int z ++ [COMMA] ++ str_int k) =
  (do v <- sk_decrypt p q z; do a <- true_div v k; Ok (HFloat (round4 a))).
Proof.
  unfold homo_decrypt. cbn [app]. rewrite split_app by apply str_int_nocomma.
  rewrite split_nochar by apply str_int_nocomma. cbn [removelast last].
  rewrite str_int_not_sum, str_int_not_avg.
  rewrite !parse_str_int. reflexivity.
Qed.

Lemma round4_err x : (Qabs (round4 x - x) <= 1 # 20000)%Q.
Proof.
  unfold round4. set (y := (x * 10000)%Q). pose proof (Qfloor_le y) as L. pose proof (Qlt_floor y) as U.
  rewrite inject_Z_plus in U. change (inject_Z 1) with 1%Q in U.
  set (f := Qfloor y) in *. set (d := (y - inject_Z f)%Q).
  assert (E : forall k, (Qabs (inject_Z k - y) <= 1 # 2)%Q -> (Qabs (inject_Z k / 10000 - x) <= 1 # 20000)%Q).
  { intros k K. apply Qabs_Qle_condition in K. apply Qabs_Qle_condition. unfold y in K.
    assert (X : (inject_Z k / 10000 == inject_Z k * (1 # 10000))%Q) by reflexivity. rewrite X. lra. }
  apply E. apply Qabs_Qle_condition.
  destruct (Qcompare_spec d (1 # 2)) as [H|H|H]; unfold d in H.
  - destruct (Z.even f); rewrite ?inject_Z_plus; change (inject_Z 1) with 1%Q; lra.
  - lra.
  - rewrite inject_Z_plus. change (inject_Z 1) with 1%Q. lra.
Qed.

(** ** Server side *)
Lemma server_fold n l a : 0 < n -> n * n * (n * n) <= 10 ^ 65 ->
  (forall c, In c l -> 0 <= c < nsquare n) -> 0 <= a < nsquare n ->
  fold_left (sum_step (nsquare n)) (map Some l) (Ok (Some a)) =
  Ok (Some (fold_left (fun x y => (x * y) mod nsquare n) l a)).
Proof.
  intros N CAP. revert a. induction l as [|c l IH]; intros a R A; cbn [map fold_left]; [reflexivity|].
  unfold sum_step at 2. cbn [bind]. unfold dec65.
  pose proof (R c (or_introl eq_refl)) as C. unfold nsquare in *.
  assert (B : 0 <= a * c < n * n * (n * n)) by nia. rewrite Z.abs_eq by lia.
  destruct (a * c <? 10 ^ 65) eqn:G; [|apply Z.ltb_ge in G; lia]. cbn [bind].
  apply IH; [intros d I; apply R; right; exact I | apply Z.mod_pos_bound; nia].
Qed.

Lemma sum_step_null nsq l : fold_left (sum_step nsq) l (Ok None) = Ok None.
Proof. induction l as [|c l IH]; cbn [fold_left]; [reflexivity|exact IH]. Qed.

Lemma server_product_ok n l : 1 < n -> n * n * (n * n) <= 10 ^ 65 -> l <> [] ->
  (forall c, In c l -> 0 <= c < nsquare n) ->
  server_product (nsquare n) (map Some l) = Ok (Some (product_mod (nsquare n) l)).
Proof.
  intros N CAP NE R. unfold server_product, product_mod.
  destruct (map Some l) as [|x t] eqn:E; [destruct l; [congruence|discriminate]|].
  rewrite <- E. apply server_fold; try assumption; try lia. unfold nsquare. nia.
Qed.

Lemma server_product_null n l1 l2 : 1 < n -> n * n * (n * n) <= 10 ^ 65 ->
  (forall c, In c l1 -> 0 <= c < nsquare n) ->
  server_product (nsquare n) (map Some l1 ++ None :: l2) = Ok None.
Proof.
  intros N CAP R. unfold server_product.
  destruct (map Some l1 ++ None :: l2) as [|x t] eqn:E; [reflexivity|]. rewrite <- E.
  rewrite fold_left_app, server_fold; try assumption; try lia; [|unfold nsquare; nia].
  cbn [fold_left]. unfold sum_step at 2. cbn [bind]. apply sum_step_null.
Qed.

Lemma server_product_overflow nsq c1 c2 l : 0 < nsq -> 0 <= c1 < nsq -> c1 < 10 ^ 65 <= c1 * c2 ->
  server_product nsq (Some c1 :: Some c2 :: l) = Err DbError.
Proof.
  intros N R H. unfold server_product. cbn [fold_left]. unfold sum_step at 3. cbn [bind].
  unfold dec65 at 1. rewrite Z.mul_1_l, Z.abs_eq by lia.
  destruct (c1 <? 10 ^ 65) eqn:A; [|apply Z.ltb_ge in A; lia]. cbn [bind].
  unfold sum_step at 2. cbn [bind]. rewrite Z.mod_small by lia. unfold dec65 at 1.
  destruct (Z.abs (c1 * c2) <? 10 ^ 65) eqn:B; [apply Z.ltb_lt in B; lia|]. cbn [bind].
  induction l as [|c l IH]; cbn [fold_left]; [reflexivity|exact IH].
Qed.

Lemma non_null_some {A} (l : list A) : non_null (map Some l) = l.
Proof. induction l as [|x l IH]; cbn; congruence. Qed.

Lemma join_snoc sep l (x : pystr) : l <> [] -> join sep (l ++ [x]) = join sep l ++ sep ++ x.
Proof.
  induction l as [|y l IH]; intros H; [congruence|]. destruct l as [|z l].
  - reflexivity.
  - change ((y :: z :: l) ++ [x]) with (y :: (z :: l) ++ [x]).
    change (join sep (y :: (z :: l) ++ [x])) with (y ++ sep ++ join sep ((z :: l) ++ [x])).
    rewrite IH by discriminate. change (join sep (y :: z :: l)) with (y ++ sep ++ join sep (z :: l)).
    rewrite <- !app_assoc. reflexivity.
Qed.

Lemma concat_agg_ok maxlen agg p q cells l : non_null cells = l -> l <> [] ->
  (length (join [COMMA] (map str_int l)) <= maxlen)%nat ->
  concat_agg maxlen agg p q cells = (do v <- homo_decrypt p q (agg_text l agg); Ok (Some v)).
Proof.
  intros E NE L. unfold concat_agg, group_concat. rewrite E. destruct l as [|z l]; [congruence|].
  rewrite firstn_all2 by exact L. unfold agg_text. rewrite join_snoc by discriminate. reflexivity.
Qed.
