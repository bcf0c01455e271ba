(** Number theory behind the homomorphic cipher: congruences, Fermat's little theorem, the
    inverse computed by extended Euclid. *)
From Coq Require Import List ZArith Znumtheory Zpow_facts Permutation Lia Morphisms Setoid Bool.
From Verif Require Import Base PaillierModel.
Import ListNotations.
Open Scope Z_scope.

Definition cong (m a b : Z) : Prop := (m | a - b).

#[export] Instance cong_equiv m : Equivalence (cong m).
Proof.
  split.
  - intros a. unfold cong. rewrite Z.sub_diag. apply Z.divide_0_r.
  - intros a b [k H]. exists (- k). lia.
  - intros a b c [k H] [l L]. exists (k + l). lia.
Qed.
#[export] Instance cong_add m : Proper (cong m ==> cong m ==> cong m) Z.add.
Proof. intros a b [k H] c d [l L]. exists (k + l). lia. Qed.
#[export] Instance cong_sub m : Proper (cong m ==> cong m ==> cong m) Z.sub.
Proof. intros a b [k H] c d [l L]. exists (k - l). lia. Qed.
#[export] Instance cong_opp m : Proper (cong m ==> cong m) Z.opp.
Proof. intros a b [k H]. exists (- k). lia. Qed.
#[export] Instance cong_mul m : Proper (cong m ==> cong m ==> cong m) Z.mul.
Proof. intros a b [k H] c d [l L]. exists (k * c + b * l). nia. Qed.

Lemma cong_pow m a b e : cong m a b -> cong m (a ^ e) (b ^ e).
Proof.
  intros H. destruct (Z.lt_ge_cases e 0) as [N|N].
  { rewrite !Z.pow_neg_r by exact N. reflexivity. }
  revert e N. apply natlike_ind; [reflexivity|].
  intros e He IH. rewrite !Z.pow_succ_r by exact He. rewrite IH, H. reflexivity.
Qed.

Lemma cong_mod m a : 0 < m -> cong m (a mod m) a.
Proof. intros H. exists (- (a / m)). pose proof (Z.div_mod a m ltac:(lia)). nia. Qed.

Lemma cong_eq m a b : 0 < m -> cong m a b <-> a mod m = b mod m.
Proof.
  intros H. split.
  - intros [k K]. replace a with (b + k * m) by lia. apply Z_mod_plus_full.
  - intros E. rewrite <- (cong_mod m a H), E, (cong_mod m b H). reflexivity.
Qed.

Lemma cong_small m a b : 0 < m -> 0 <= a < m -> 0 <= b < m -> cong m a b -> a = b.
Proof. intros H A B C. apply cong_eq in C; [|exact H]. rewrite !Z.mod_small in C; assumption. Qed.

Lemma cong_divide m k a b : (k | m) -> cong m a b -> cong k a b.
Proof. intros [x X] [y Y]. exists (y * x). rewrite Y, X. ring. Qed.

Lemma cong_cancel m a b c : rel_prime c m -> cong m (c * a) (c * b) -> cong m a b.
Proof.
  intros R H. unfold cong in *. replace (c * a - c * b) with (c * (a - b)) in H by ring.
  apply Gauss with c; [exact H | apply rel_prime_sym, R].
Qed.

Lemma cong_coprime_mul m k a b : rel_prime m k -> cong m a b -> cong k a b -> cong (m * k) a b.
Proof.
  intros R [x X] Hk. unfold cong in *. rewrite X in *.
  assert (D : (k | x)).
  { apply Gauss with m; [rewrite Z.mul_comm; exact Hk | apply rel_prime_sym, R]. }
  destruct D as [y Y]. exists y. rewrite Y. ring.
Qed.

(** ** Fermat *)
Definition range1 (n : nat) : list Z := map Z.of_nat (seq 1 n).
Definition prod (l : list Z) : Z := fold_right Z.mul 1 l.

Lemma prod_perm l l' : Permutation l l' -> prod l = prod l'.
Proof. induction 1; unfold prod in *; cbn [fold_right] in *; [reflexivity | congruence | ring | congruence]. Qed.

Lemma range1_In n z : In z (range1 n) <-> 1 <= z <= Z.of_nat n.
Proof.
  unfold range1. rewrite in_map_iff. split.
  - intros (k & <- & H). apply in_seq in H. lia.
  - intros H. exists (Z.to_nat z). split; [lia|]. apply in_seq. lia.
Qed.

Lemma range1_NoDup n : NoDup (range1 n).
Proof. apply FinFun.Injective_map_NoDup; [intros a b; lia | apply seq_NoDup]. Qed.

Lemma prod_coprime p l : prime p -> (forall z, In z l -> 1 <= z < p) -> rel_prime (prod l) p.
Proof.
  intros P H. induction l as [|x l IH]; cbn [prod fold_right].
  - apply rel_prime_1.
  - apply rel_prime_sym, rel_prime_mult; apply rel_prime_sym.
    + apply rel_prime_le_prime; [exact P | apply H; left; reflexivity].
    + apply IH. intros z Hz. apply H. right. exact Hz.
Qed.

Lemma prod_scale p a l : 0 < p -> cong p (prod (map (fun x => (a * x) mod p) l)) (a ^ Z.of_nat (length l) * prod l).
Proof.
  intros P. induction l as [|x l IH].
  - cbn. reflexivity.
  - cbn [map prod fold_right length]. fold (prod l). fold (prod (map (fun x => (a * x) mod p) l)).
    rewrite IH, (cong_mod p (a * x) P). rewrite Nat2Z.inj_succ, Z.pow_succ_r by lia.
    match goal with |- cong _ ?x ?y => replace x with y by ring end. reflexivity.
Qed.

Lemma map_NoDup {A B} (f : A -> B) l :
  (forall a b, In a l -> In b l -> f a = f b -> a = b) -> NoDup l -> NoDup (map f l).
Proof.
  intros H N. induction N as [|x l NI N IH]; cbn; constructor.
  - intros I. apply in_map_iff in I. destruct I as (y & E & Y). apply NI.
    rewrite (H x y); [exact Y | left; reflexivity | right; exact Y | symmetry; exact E].
  - apply IH. intros a b A' B'. apply H; right; assumption.
Qed.

Lemma fermat p a : prime p -> rel_prime a p -> cong p (a ^ (p - 1)) 1.
Proof.
  intros P R. pose proof (prime_ge_2 p P) as P2.
  set (n := Z.to_nat (p - 1)). assert (Hn : Z.of_nat n = p - 1) by lia.
  set (l := range1 n). set (f := fun x => (a * x) mod p).
  assert (PM : Permutation (map f l) l).
  { apply NoDup_Permutation_bis.
    - apply map_NoDup; [|apply range1_NoDup].
      intros x y X Y E. unfold l in X, Y. apply range1_In in X. apply range1_In in Y.
      apply (cong_small p); try lia. apply (cong_cancel p x y a R).
      apply cong_eq; [lia|exact E].
    - rewrite map_length. lia.
    - intros z Z. apply in_map_iff in Z. destruct Z as (x & <- & X).
      unfold l in *. apply range1_In in X. apply range1_In. unfold f.
      pose proof (Z.mod_pos_bound (a * x) p ltac:(lia)).
      enough ((a * x) mod p <> 0) by lia.
      intros E. apply Z.mod_divide in E; [|lia].
      apply Gauss in E; [|apply rel_prime_sym, R].
      apply Z.divide_pos_le in E; lia. }
  apply prod_perm in PM. pose proof (prod_scale p a l ltac:(lia)) as S. fold f in S. rewrite PM in S.
  assert (L : Z.of_nat (length l) = p - 1) by (unfold l, range1; rewrite map_length, seq_length; exact Hn).
  rewrite L in S.
  apply (cong_cancel p _ _ (prod l)).
  - apply prod_coprime; [exact P|]. intros z Hz. apply range1_In in Hz. lia.
  - rewrite Z.mul_1_r. rewrite Z.mul_comm. symmetry. exact S.
Qed.

(** (1 + x)^e = 1 + e x modulo x^2 *)
Lemma binom1 x e : 0 <= e -> cong (x * x) ((1 + x) ^ e) (1 + e * x).
Proof.
  revert e. apply natlike_ind; [rewrite Z.pow_0_r; replace (1 + 0 * x) with 1 by ring; reflexivity|].
  intros e He IH. rewrite Z.pow_succ_r by exact He. rewrite IH. exists e. ring.
Qed.

(** Euler for p^2 *)
Lemma euler2 p a : prime p -> rel_prime a p -> cong (p * p) (a ^ (p * (p - 1))) 1.
Proof.
  intros P R. pose proof (prime_ge_2 p P) as P2.
  destruct (fermat p a P R) as [k K].
  rewrite (Z.mul_comm p (p - 1)), Z.pow_mul_r by lia.
  replace (a ^ (p - 1)) with (1 + k * p) by lia.
  assert (C : cong (p * p) ((1 + k * p) ^ p) (1 + p * (k * p))).
  { apply (cong_divide ((k * p) * (k * p))); [exists (k * k); ring | apply binom1; lia]. }
  rewrite C. exists k. ring.
Qed.

(** ** The inverse *)
Lemma egcd_bezout f : forall a b g x y, egcd f a b = (g, x, y) -> a * x + b * y = g.
Proof.
  induction f as [|f IH]; intros a b g x y; cbn [egcd].
  - intros [= <- <- <-]. ring.
  - destruct (b =? 0) eqn:B.
    + intros [= <- <- <-]. ring.
    + destruct (egcd f b (a mod b)) as [[g' x'] y'] eqn:E. intros [= <- <- <-].
      apply IH in E. pose proof (Z.div_mod a b ltac:(lia)) as D. nia.
Qed.

Lemma egcd_gcd f : forall a b g x y, 0 <= b <= a -> 0 < a -> a * b < 2 ^ Z.of_nat f ->
  egcd f a b = (g, x, y) -> g = Z.gcd a b.
Proof.
  induction f as [|f IH]; intros a b g x y R A L.
  - cbn [egcd]. intros [= <- <- <-]. change (2 ^ Z.of_nat 0) with 1 in L.
    assert (b = 0) by nia. subst b. rewrite Z.gcd_0_r. lia.
  - cbn [egcd]. destruct (b =? 0) eqn:B.
    + intros [= <- <- <-]. assert (b = 0) by lia. subst b. rewrite Z.gcd_0_r. lia.
    + destruct (egcd f b (a mod b)) as [[g' x'] y'] eqn:E. intros [= <- <- <-].
      pose proof (Z.mod_pos_bound a b ltac:(lia)) as M.
      apply IH in E; [| lia | lia |].
      * rewrite E, Z.gcd_comm. rewrite Z.gcd_mod by lia. apply Z.gcd_comm.
      * rewrite Nat2Z.inj_succ, Z.pow_succ_r in L by lia.
        pose proof (Z.div_mod a b ltac:(lia)) as D.
        assert (1 <= a / b) by (apply Z.div_le_lower_bound; lia). nia.
Qed.

Lemma invert_ok a m : 1 < m -> rel_prime a m -> exists x, invert a m = Ok x /\ 0 <= x < m /\ cong m (a * x) 1.
Proof.
  intros M R. unfold invert. destruct (egcd _ m (a mod m)) as [[g x] y] eqn:E.
  pose proof (Z.mod_pos_bound a m ltac:(lia)) as B.
  assert (G : g = 1).
  { apply egcd_gcd in E; [|lia|lia|].
    - rewrite E, Z.gcd_comm, Z.gcd_mod by lia. rewrite Z.gcd_comm. apply Zgcd_1_rel_prime in R. exact R.
    - pose proof (Z.log2_spec m ltac:(lia)) as S. pose proof (Z.log2_nonneg m).
      rewrite Z2Nat.id by lia. replace (2 * (Z.log2 m + 1)) with (Z.succ (Z.log2 m) + Z.succ (Z.log2 m)) by lia.
      rewrite Z.pow_add_r by lia. nia. }
  apply egcd_bezout in E. rewrite G in *. cbn [Z.eqb Pos.eqb]. eexists. split; [reflexivity|].
  split; [apply Z.mod_pos_bound; lia|]. rewrite (cong_mod m y) by lia.
  rewrite <- (cong_mod m a) by lia. exists (- x). lia.
Qed.

Lemma powmod_spec a b c : c <> 0 -> powmod a b c = a ^ b mod c.
Proof. apply Zpow_mod_correct. Qed.
