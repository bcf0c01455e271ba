(** Proofs about order-preserving encryption. *)
From Coq Require Import String Ascii List NArith ZArith QArith Qround Bool Arith Lia ZifyBool ZifyNat ZifyN.
From Coq Require Import Init.Byte.
From Verif Require Import Base BaseProof CryptoModel OpeModel.
Import ListNotations.
Open Scope Z_scope.

(** ** Halving *)
Lemma f64_small n : n < 2 ^ 53 -> f64_int n = n.
Proof. intros H. unfold f64_int. destruct (Z.ltb_spec n (2 ^ 53)); lia. Qed.

Lemma f64_big n :
  2 ^ 53 <= n ->
  exists M h q R, M = 2 * h /\ 1 <= h /\ 2 ^ 52 * M <= n /\ f64_int n = R /\
    (exists j, (0 <= j)%Z /\ M = 2 ^ j /\ (forall k, n <= 2 ^ k -> j <= k)) /\
    q * M <= n < (q + 1) * M /\
    ((R = q * M /\ n - q * M <= h) \/ (R = (q + 1) * M /\ h <= n - q * M)).
Proof.
  intros Hn. unfold f64_int. destruct (Z.ltb_spec n (2 ^ 53)); [lia|].
  set (e := Z.log2 n - 52).
  assert (L : 53 <= Z.log2 n).
  { apply Z.log2_le_pow2; lia. }
  assert (He : 1 <= e) by (subst e; lia).
  assert (EM : 2 ^ e = 2 * 2 ^ (e - 1)).
  { replace e with (Z.succ (e - 1)) at 1 by lia. rewrite Z.pow_succ_r by lia. lia. }
  assert (Hh : 1 <= 2 ^ (e - 1)).
  { pose proof (Z.pow_pos_nonneg 2 (e - 1)). lia. }
  exists (2 ^ e), (2 ^ (e - 1)), (n / 2 ^ e).
  eexists. split; [exact EM|]. split; [exact Hh|].
  split.
  { rewrite <- Z.pow_add_r by lia. replace (52 + e) with (Z.log2 n) by (subst e; lia).
    apply Z.log2_spec. lia. }
  split; [reflexivity|].
  split.
  { exists e. split; [lia|]. split; [reflexivity|]. intros k Hk.
    destruct (Z.lt_ge_cases k e) as [G|G]; [exfalso|lia].
    assert (n < n); [|lia].
    pose proof (Z.log2_spec n ltac:(lia)) as [A _].
    destruct (Z.lt_ge_cases k 0) as [K0|K0].
    - rewrite Z.pow_neg_r in Hk by lia. lia.
    - pose proof (Z.pow_lt_mono_r 2 k (Z.log2 n) ltac:(lia) ltac:(lia) ltac:(subst e; lia)). lia. }
  pose proof (Z.div_mod n (2 ^ e) ltac:(lia)) as D.
  pose proof (Z.mod_pos_bound n (2 ^ e) ltac:(lia)) as B.
  split; [nia|].
  destruct (Z.ltb_spec (n mod 2 ^ e) (2 ^ (e - 1))); [left; split; [reflexivity|nia]|].
  destruct (Z.ltb_spec (2 ^ (e - 1)) (n mod 2 ^ e)); [right; split; [reflexivity|nia]|].
  destruct (Z.even (n / 2 ^ e)); [left|right]; (split; [reflexivity|nia]).
Qed.

Lemma ceil_half_spec n h :
  1 <= n -> ceil_half n = Ok h -> 1 <= h <= n /\ (2 <= n -> h <= n - 1).
Proof.
  intros Hn. unfold ceil_half. destruct (2 ^ 1024 <=? f64_int n); [discriminate|].
  intros [= <-]. destruct (Z.lt_ge_cases n (2 ^ 53)) as [S|S].
  - rewrite f64_small by exact S.
    pose proof (Z.div_mod (n + 1) 2 ltac:(lia)). pose proof (Z.mod_pos_bound (n + 1) 2 ltac:(lia)). lia.
  - destruct (f64_big n S) as (M & m & q & R & EM & Hm & HM & -> & _ & Hq & HR).
    pose proof (Z.div_mod (R + 1) 2 ltac:(lia)). pose proof (Z.mod_pos_bound (R + 1) 2 ltac:(lia)).
    assert (2 ^ 52 >= 16) by (cbv; discriminate).
    assert (16 * M <= n) by nia.
    assert (n - m <= R <= n + m) by (destruct HR as [[-> ?]|[-> ?]]; nia).
    lia.
Qed.

Lemma ceil_half_pow n h k :
  1 <= n -> 1 <= k -> n <= 2 ^ k -> ceil_half n = Ok h -> h <= 2 ^ (k - 1) /\ n - h <= 2 ^ (k - 1).
Proof.
  intros Hn Hk Hp. unfold ceil_half. destruct (2 ^ 1024 <=? f64_int n); [discriminate|].
  intros [= <-].
  assert (EP : 2 ^ k = 2 * 2 ^ (k - 1)).
  { replace k with (Z.succ (k - 1)) at 1 by lia. rewrite Z.pow_succ_r by lia. lia. }
  destruct (Z.lt_ge_cases n (2 ^ 53)) as [S|S].
  - rewrite f64_small by exact S.
    pose proof (Z.div_mod (n + 1) 2 ltac:(lia)). pose proof (Z.mod_pos_bound (n + 1) 2 ltac:(lia)). lia.
  - destruct (f64_big n S) as (M & m & q & R & EM & Hm & HM & -> & (j & Hj & Mj & Hle) & Hq & HR).
    specialize (Hle k Hp).
    assert (exists c, 2 ^ k = c * M) as [c Hc].
    { exists (2 ^ (k - j)). rewrite Mj, <- Z.pow_add_r by lia. f_equal. lia. }
    pose proof (Z.div_mod (R + 1) 2 ltac:(lia)). pose proof (Z.mod_pos_bound (R + 1) 2 ltac:(lia)).
    assert (exists t, R = 2 * t) as [t Ht].
    { destruct HR as [[-> _]|[-> _]]; [exists (q * m) | exists ((q + 1) * m)]; rewrite EM; lia. }
    assert (R <= 2 ^ k /\ 2 * n - R <= 2 ^ k).
    { destruct HR as [[-> Hr]|[-> Hr]].
      - split; [lia|]. destruct (Z.eq_dec n (q * M)) as [E|E]; [lia|].
        assert (q < c) by nia. nia.
      - assert (q < c) by nia. split; nia. }
    lia.
Qed.

(** Half of the floating point range, kept folded: [lia] treats it as an atom. *)
Definition topf : Z := 2 ^ 1023.
Lemma topf_double : 2 ^ 1024 = 2 * topf.
Proof. unfold topf. change 1024 with (Z.succ 1023). apply Z.pow_succ_r. discriminate. Qed.
Lemma topf_pow n : (n < 1023)%Z -> 2 ^ n < topf.
Proof.
  intros H. unfold topf. apply Z.pow_lt_mono_r; [reflexivity | discriminate | exact H].
Qed.

Lemma ceil_half_ok n : 1 <= n < topf -> exists h, ceil_half n = Ok h.
Proof.
  intros Hn. unfold ceil_half. rewrite topf_double.
  pose proof (topf_pow 53 eq_refl) as B53.
  destruct (Z.leb_spec (2 * topf) (f64_int n)) as [L|L].
  - exfalso. destruct (Z.lt_ge_cases n (2 ^ 53)) as [S|S].
    + rewrite f64_small in L by exact S. lia.
    + destruct (f64_big n S) as (M & m & q & R & EM & Hm & HM & E & _ & Hq & HR). rewrite E in L.
      assert (R <= n + m) by (destruct HR as [[-> ?]|[-> ?]]; nia).
      assert (m <= n) by (assert (2 ^ 52 >= 16) by (cbv; discriminate); nia).
      lia.
  - eexists; reflexivity.
Qed.

(** ** Uniform choice *)
Definition bit (o : option Z) : Prop := o = Some 0 \/ o = Some 1.

Lemma su_range f s e c i v : su_loop f s e c i = Ok v -> s <= v <= e.
Proof.
  revert s e i; induction f as [|f IH]; intros s e i; cbn [su_loop];
    destruct (e - s + 1 >? 1) eqn:G.
  - discriminate.
  - destruct (Z.eqb_spec (e - s + 1) 1); [intros [= <-]; lia | discriminate].
  - destruct (c i) as [b|]; [|discriminate].
    pose proof (Z.div_mod (s + e) 2 ltac:(lia)). pose proof (Z.mod_pos_bound (s + e) 2 ltac:(lia)).
    destruct (b =? 0); [intros H1; apply IH in H1; lia|].
    destruct (b =? 1); [intros H1; apply IH in H1; lia | discriminate].
  - destruct (Z.eqb_spec (e - s + 1) 1); [intros [= <-]; lia | discriminate].
Qed.

Lemma su_total f s e c i :
  s <= e -> e - s + 1 <= 2 ^ Z.of_nat f -> (forall j, (i <= j < i + f)%nat -> bit (c j)) ->
  exists v, su_loop f s e c i = Ok v.
Proof.
  revert s e i; induction f as [|f IH]; intros s e i Hs Hf Hc; cbn [su_loop].
  - change (2 ^ Z.of_nat 0) with 1 in Hf.
    destruct (e - s + 1 >? 1) eqn:G; [lia|].
    destruct (Z.eqb_spec (e - s + 1) 1); [eexists; reflexivity | lia].
  - destruct (e - s + 1 >? 1) eqn:G.
    + rewrite Nat2Z.inj_succ, Z.pow_succ_r in Hf by lia.
      pose proof (Z.div_mod (s + e) 2 ltac:(lia)). pose proof (Z.mod_pos_bound (s + e) 2 ltac:(lia)).
      destruct (Hc i ltac:(lia)) as [-> | ->]; cbn [Z.eqb Pos.eqb].
      * apply IH; [lia | lia | intros j Hj; apply Hc; lia].
      * apply IH; [lia | lia | intros j Hj; apply Hc; lia].
    + destruct (Z.eqb_spec (e - s + 1) 1); [eexists; reflexivity | lia].
Qed.

Lemma log2_up_bound n : 1 <= n -> n <= 2 ^ Z.of_nat (Z.to_nat (Z.log2_up n)).
Proof.
  intros H. rewrite Z2Nat.id by apply Z.log2_up_nonneg.
  destruct (Z.eq_dec n 1) as [->|N1]; [cbv; discriminate|].
  apply Z.log2_up_spec. lia.
Qed.

Lemma su_uniform_range r c v : sample_uniform r c = Ok v -> vstart r <= v <= vend r.
Proof. unfold sample_uniform. destruct (vsize r =? 0); [discriminate | apply su_range]. Qed.

Lemma su_uniform_total r c :
  vstart r <= vend r -> (forall j, bit (c j)) -> exists v, sample_uniform r c = Ok v.
Proof.
  intros H Hc. unfold sample_uniform, vsize.
  destruct (Z.eqb_spec (vend r - vstart r + 1) 0); [lia|].
  apply su_total; [lia | apply log2_up_bound; lia | intros j _; apply Hc].
Qed.

(** ** Round trip and order, whatever the sampler does *)
Section OPE.
Context (hyper : sampler) (tape : Z -> coins).

Local Notation enc := (encrypt_recursive hyper tape).
Local Notation dec := (decrypt_recursive hyper tape).

Lemma sample_hgd_inv inr outr mid c x :
  sample_hgd hyper inr outr mid c = Ok x ->
  vsize inr > 0 /\ vsize inr <= vsize outr /\ vstart outr <= mid <= vend outr.
Proof.
  unfold sample_hgd, vcontains.
  destruct ((vsize inr >? 0) && (vsize outr >? 0)) eqn:E1; cbn [negb]; [|discriminate].
  destruct (Z.leb_spec (vsize inr) (vsize outr)); cbn [negb]; [|discriminate].
  destruct ((vstart outr <=? mid) && (mid <=? vend outr)) eqn:E2; cbn [negb]; [|discriminate].
  intros _. lia.
Qed.

(** One step of the recursion. *)
Inductive enc_step (inr outr : vrange) : Z -> Z -> Prop :=
| Step mid x : ceil_half (vsize outr) = Ok (mid - vstart outr + 1) ->
    vsize inr <= vsize outr -> vsize inr <> 1 ->
    sample_hgd hyper inr outr mid (tape mid) = Ok x ->
    vstart outr <= mid <= vend outr -> enc_step inr outr mid x.

Lemma mk_range_inv s e r : mk_range s e = Ok r -> s <= e /\ vstart r = s /\ vend r = e.
Proof. unfold mk_range. destruct (s >? e) eqn:G; [discriminate|]. intros [= <-]. cbn. lia. Qed.

Lemma enc_unfold f p inr outr c :
  enc (S f) p inr outr = Ok c ->
  (vsize inr = 1 /\ vsize inr <= vsize outr /\ (exists h, ceil_half (vsize outr) = Ok h) /\
   sample_uniform outr (tape p) = Ok c) \/
  (exists mid x, enc_step inr outr mid x /\
     ((p <= x /\ vstart inr <= x /\ enc f p {| vstart := vstart inr; vend := x |} {| vstart := vstart outr; vend := mid |} = Ok c) \/
      (x < p /\ x + 1 <= vend inr /\ mid + 1 <= vend outr /\
       enc f p {| vstart := x + 1; vend := vend inr |} {| vstart := mid + 1; vend := vend outr |} = Ok c))).
Proof.
  cbn [encrypt_recursive]. destruct (ceil_half (vsize outr)) as [half|] eqn:Eh; cbn [bind]; [|discriminate].
  destruct (Z.leb_spec (vsize inr) (vsize outr)) as [Hs|Hs]; cbn [negb]; [|discriminate].
  destruct (Z.eqb_spec (vsize inr) 1) as [H1|H1]; [intros H; left; eauto|].
  destruct (sample_hgd _ _ _ _ _) as [x|] eqn:Ex; cbn [bind]; [|discriminate].
  pose proof (sample_hgd_inv _ _ _ _ _ Ex) as (_ & _ & Hm).
  intros H. right. exists (vstart outr - 1 + half), x.
  split.
  { constructor; auto. rewrite Eh. f_equal. lia. }
  destruct (Z.leb_spec p x) as [Hp|Hp].
  - left. split; [exact Hp|].
    destruct (mk_range (vstart inr - 1 + 1) x) as [i'|] eqn:Ei; cbn [bind] in H; [|discriminate].
    destruct (mk_range (vstart outr - 1 + 1) _) as [o'|] eqn:Eo; cbn [bind] in H; [|discriminate].
    apply mk_range_inv in Ei. apply mk_range_inv in Eo.
    destruct i' as [a b], o' as [a' b']. cbn in *. destruct Ei as (? & -> & ->). destruct Eo as (? & -> & ->).
    replace (vstart inr - 1 + 1) with (vstart inr) in * by lia.
    replace (vstart outr - 1 + 1) with (vstart outr) in * by lia. auto.
  - right. split; [lia|].
    destruct (mk_range (x + 1) _) as [i'|] eqn:Ei; cbn [bind] in H; [|discriminate].
    destruct (mk_range (_ + 1) (vstart outr - 1 + vsize outr)) as [o'|] eqn:Eo; cbn [bind] in H; [|discriminate].
    apply mk_range_inv in Ei. apply mk_range_inv in Eo.
    destruct i' as [a b], o' as [a' b']. unfold vsize in *. cbn in *.
    destruct Ei as (? & -> & ->). destruct Eo as (? & -> & ->).
    replace (vstart inr - 1 + (vend inr - vstart inr + 1)) with (vend inr) in * by lia.
    replace (vstart outr - 1 + (vend outr - vstart outr + 1)) with (vend outr) in * by lia.
    auto.
Qed.

Lemma enc_range f p inr outr c : enc f p inr outr = Ok c -> vstart outr <= c <= vend outr.
Proof.
  revert inr outr; induction f as [|f IH]; intros inr outr; [discriminate|].
  intros H. apply enc_unfold in H. destruct H as [(_ & _ & _ & H)|(mid & x & St & H)].
  - apply su_uniform_range in H. exact H.
  - destruct St as [mid x _ _ _ _ Hm].
    destruct H as [(_ & _ & H)|(_ & _ & _ & H)]; apply IH in H; cbn in H; lia.
Qed.

Lemma step_det inr outr m1 x1 m2 x2 :
  enc_step inr outr m1 x1 -> enc_step inr outr m2 x2 -> m1 = m2 /\ x1 = x2.
Proof.
  intros [a b Ha _ _ Hx _] [a' b' Ha' _ _ Hx' _].
  assert (a = a') as -> by (rewrite Ha in Ha'; injection Ha' as E; lia).
  split; [reflexivity|]. rewrite Hx in Hx'. injection Hx' as ->. reflexivity.
Qed.

Lemma dec_fold f c inr outr mid x :
  enc_step inr outr mid x ->
  dec (S f) c inr outr =
  if c <=? mid then do inr' <- mk_range (vstart inr) x;
                    do outr' <- mk_range (vstart outr) mid; dec f c inr' outr'
  else do inr' <- mk_range (x + 1) (vend inr);
       do outr' <- mk_range (mid + 1) (vend outr); dec f c inr' outr'.
Proof.
  intros [mid0 x0 Hh Hs H1 Hx Hm]. cbn [decrypt_recursive]. rewrite Hh. cbn [bind].
  destruct (Z.leb_spec (vsize inr) (vsize outr)); [|lia]. cbn [negb].
  destruct (Z.eqb_spec (vsize inr) 1); [lia|].
  replace (vstart outr - 1 + (mid0 - vstart outr + 1)) with mid0 by lia.
  rewrite Hx. cbn [bind]. unfold vsize.
  replace (vstart inr - 1 + 1) with (vstart inr) by lia.
  replace (vstart outr - 1 + 1) with (vstart outr) by lia.
  replace (vstart inr - 1 + (vend inr - vstart inr + 1)) with (vend inr) by lia.
  replace (vstart outr - 1 + (vend outr - vstart outr + 1)) with (vend outr) by lia.
  reflexivity.
Qed.

Lemma mk_range_ok s e : s <= e -> mk_range s e = Ok {| vstart := s; vend := e |}.
Proof. intros H. unfold mk_range. destruct (s >? e) eqn:G; [lia | reflexivity]. Qed.

Lemma roundtrip_rec f p inr outr c :
  vstart inr <= p <= vend inr -> enc f p inr outr = Ok c -> dec f c inr outr = Ok p.
Proof.
  revert inr outr; induction f as [|f IH]; intros inr outr Hp; [discriminate|].
  intros H. apply enc_unfold in H. destruct H as [(H1 & Hs & [h Hh] & H)|(mid & x & St & H)].
  - assert (p = vstart inr) by (unfold vsize in H1; lia). subst p.
    cbn [decrypt_recursive].
    rewrite Hh. cbn [bind]. destruct (Z.leb_spec (vsize inr) (vsize outr)); [|lia]. cbn [negb].
    rewrite H1. cbn [Z.eqb Pos.eqb]. rewrite H. cbn [bind]. rewrite Z.eqb_refl. reflexivity.
  - rewrite (dec_fold f c inr outr mid x St). destruct St as [mid x _ _ _ _ Hm].
    destruct H as [(H1 & H2 & H)|(H1 & H2 & H3 & H)].
    + pose proof (enc_range _ _ _ _ _ H) as R. cbn in R.
      destruct (Z.leb_spec c mid); [|lia].
      rewrite !mk_range_ok by lia. cbn [bind]. apply IH; [cbn; lia | exact H].
    + pose proof (enc_range _ _ _ _ _ H) as R. cbn in R.
      destruct (Z.leb_spec c mid); [lia|].
      rewrite !mk_range_ok by lia. cbn [bind]. apply IH; [cbn; lia | exact H].
Qed.

Lemma mono_rec f p q inr outr c d :
  vstart inr <= p -> p < q -> q <= vend inr ->
  enc f p inr outr = Ok c -> enc f q inr outr = Ok d -> c < d.
Proof.
  revert inr outr; induction f as [|f IH]; intros inr outr Hp Hq He; [discriminate|].
  intros Hc Hd. apply enc_unfold in Hc. apply enc_unfold in Hd.
  destruct Hc as [(H1 & _)|(mid & x & St & Hc)]; [unfold vsize in H1; lia|].
  destruct Hd as [(H1 & _)|(mid' & x' & St' & Hd)]; [unfold vsize in H1; lia|].
  destruct (step_det _ _ _ _ _ _ St St') as [-> ->]. clear St'.
  destruct St as [mid x _ _ _ _ Hm].
  destruct Hc as [(A1 & A2 & Hc)|(A1 & A2 & A3 & Hc)];
    destruct Hd as [(B1 & B2 & Hd)|(B1 & B2 & B3 & Hd)]; try lia.
  - eapply IH; [| exact Hq | | exact Hc | exact Hd]; cbn; lia.
  - pose proof (enc_range _ _ _ _ _ Hc) as R1. pose proof (enc_range _ _ _ _ _ Hd) as R2.
    cbn in R1, R2. lia.
  - eapply IH; [| exact Hq | | exact Hc | exact Hd]; cbn; lia.
Qed.

Lemma enc_fold f p inr outr mid x :
  enc_step inr outr mid x ->
  enc (S f) p inr outr =
  if p <=? x then do inr' <- mk_range (vstart inr) x;
                  do outr' <- mk_range (vstart outr) mid; enc f p inr' outr'
  else do inr' <- mk_range (x + 1) (vend inr);
       do outr' <- mk_range (mid + 1) (vend outr); enc f p inr' outr'.
Proof.
  intros [mid0 x0 Hh Hs H1 Hx Hm]. cbn [encrypt_recursive]. rewrite Hh. cbn [bind].
  destruct (Z.leb_spec (vsize inr) (vsize outr)); [|lia]. cbn [negb].
  destruct (Z.eqb_spec (vsize inr) 1); [lia|].
  replace (vstart outr - 1 + (mid0 - vstart outr + 1)) with mid0 by lia.
  rewrite Hx. cbn [bind]. unfold vsize.
  replace (vstart inr - 1 + 1) with (vstart inr) by lia.
  replace (vstart outr - 1 + 1) with (vstart outr) by lia.
  replace (vstart inr - 1 + (vend inr - vstart inr + 1)) with (vend inr) by lia.
  replace (vstart outr - 1 + (vend outr - vstart outr + 1)) with (vend outr) by lia.
  reflexivity.
Qed.

(** What decryption returns is in range and encrypts back. *)
Lemma dec_sound f c inr outr p :
  dec f c inr outr = Ok p -> vstart inr <= p <= vend inr /\ enc f p inr outr = Ok c.
Proof.
  revert inr outr; induction f as [|f IH]; intros inr outr; [discriminate|].
  destruct (ceil_half (vsize outr)) as [half|] eqn:Eh;
    [|cbn [decrypt_recursive]; rewrite Eh; discriminate].
  destruct (Z.leb_spec (vsize inr) (vsize outr)) as [Hs|Hs].
  2:{ cbn [decrypt_recursive]. rewrite Eh. cbn [bind].
      destruct (Z.leb_spec (vsize inr) (vsize outr)); [lia | discriminate]. }
  destruct (Z.eqb_spec (vsize inr) 1) as [H1|H1].
  - cbn [decrypt_recursive encrypt_recursive]. rewrite Eh. cbn [bind].
    destruct (Z.leb_spec (vsize inr) (vsize outr)); [|lia]. cbn [negb]. rewrite H1. cbn [Z.eqb Pos.eqb].
    destruct (sample_uniform outr (tape (vstart inr))) as [v|] eqn:Ev; cbn [bind]; [|discriminate].
    destruct (Z.eqb_spec v c) as [->|]; [|discriminate]. intros [= <-].
    unfold vsize in H1. split; [lia | exact Ev].
  - destruct (sample_hgd hyper inr outr (vstart outr - 1 + half) (tape (vstart outr - 1 + half))) as [x|] eqn:Ex.
    2:{ cbn [decrypt_recursive]. rewrite Eh. cbn [bind].
        destruct (Z.leb_spec (vsize inr) (vsize outr)); [|lia]. cbn [negb].
        destruct (Z.eqb_spec (vsize inr) 1); [lia|]. rewrite Ex. discriminate. }
    pose proof (sample_hgd_inv _ _ _ _ _ Ex) as (Hpos & _ & Hm).
    assert (St : enc_step inr outr (vstart outr - 1 + half) x).
    { constructor; auto. rewrite Eh. f_equal. lia. }
    rewrite (dec_fold f c _ _ _ _ St), (enc_fold f p _ _ _ _ St).
    destruct (Z.leb_spec c (vstart outr - 1 + half)).
    + destruct (mk_range (vstart inr) x) as [i'|] eqn:Ei; cbn [bind]; [|discriminate].
      destruct (mk_range (vstart outr) _) as [o'|] eqn:Eo; cbn [bind]; [|discriminate].
      intros H0. apply IH in H0. destruct H0 as [B E].
      apply mk_range_inv in Ei. destruct Ei as (L & E1 & E2). rewrite E1, E2 in B.
      destruct (Z.leb_spec p x); [|lia]. cbn [bind].
      split; [|exact E]. split; [lia|].
      assert (x <= vend inr); [|lia].
      revert Ex. unfold sample_hgd.
      destruct (negb ((vsize inr >? 0) && (vsize outr >? 0))); [discriminate|].
      destruct (negb (vsize inr <=? vsize outr)); [discriminate|].
      destruct (negb (vcontains outr (vstart outr - 1 + half))); [discriminate|].
      destruct (Z.eqb_spec (vsize inr) (vsize outr)) as [Eq|Eq].
      * intros [= <-]. unfold vsize in *. lia.
      * destruct (hyper _ _ _ _) as [num|]; cbn [bind]; [|discriminate].
        destruct (num =? 0); [intros [= <-]; unfold vsize in *; lia|].
        destruct (vcontains inr (vstart inr + num - 1)) eqn:Ec; [|discriminate].
        intros [= <-]. unfold vcontains in Ec. lia.
    + destruct (mk_range (x + 1) (vend inr)) as [i'|] eqn:Ei; cbn [bind]; [|discriminate].
      destruct (mk_range _ (vend outr)) as [o'|] eqn:Eo; cbn [bind]; [|discriminate].
      intros H0. apply IH in H0. destruct H0 as [B E].
      apply mk_range_inv in Ei. destruct Ei as (L & E1 & E2). rewrite E1, E2 in B.
      destruct (Z.leb_spec p x); [lia|]. cbn [bind].
      split; [|exact E]. split; [|lia].
      assert (vstart inr <= x); [|lia].
      revert Ex. unfold sample_hgd.
      destruct (negb ((vsize inr >? 0) && (vsize outr >? 0))); [discriminate|].
      destruct (negb (vsize inr <=? vsize outr)); [discriminate|].
      destruct (negb (vcontains outr (vstart outr - 1 + half))); [discriminate|].
      destruct (Z.eqb_spec (vsize inr) (vsize outr)) as [Eq|Eq].
      * intros [= <-]. lia.
      * destruct (hyper _ _ _ _) as [num|]; cbn [bind]; [|discriminate].
        destruct (num =? 0); [intros [= <-]; lia|].
        destruct (vcontains inr (vstart inr + num - 1)) eqn:Ec; [|discriminate].
        intros [= <-]. unfold vcontains in Ec. lia.
Qed.

(** ** Totality under the sampler's contract *)
(** The support of the hypergeometric distribution, for the draws OPE makes. *)
Definition hyper_ok (bound : Z) : Prop := forall g b c k,
  1 < g -> 0 < b -> g + b <= bound -> (forall j, bit (c j)) -> ceil_half (g + b) = Ok k ->
  exists r, hyper k g b c = Ok r /\ Z.max 0 (k - b) <= r <= Z.min k g.

Definition tape_ok : Prop := forall d i, bit (tape d i).

(** The step exists and splits both ranges consistently. *)
Lemma step_total bound inr outr :
  hyper_ok bound -> tape_ok ->
  1 < vsize inr -> vsize inr <= vsize outr -> vsize outr <= bound -> vsize outr < topf ->
  exists mid x, enc_step inr outr mid x /\
    vstart inr <= x <= vend inr /\
    x - vstart inr + 1 <= mid - vstart outr + 1 /\
    (x < vend inr -> vend inr - x <= vend outr - mid) /\
    vstart outr <= mid < vend outr.
Proof.
  intros Hh Ht H1 Hs Hb Hm.
  destruct (ceil_half_ok (vsize outr) ltac:(lia)) as [k Hk].
  pose proof (ceil_half_spec (vsize outr) k ltac:(lia) Hk) as [Hk1 Hk2].
  specialize (Hk2 ltac:(lia)).
  assert (Eidx : vstart outr - 1 + k - vstart outr + 1 = k) by lia.
  assert (Hcont : vcontains outr (vstart outr - 1 + k) = true) by (unfold vcontains, vsize in *; lia).
  assert (Hx : exists x, sample_hgd hyper inr outr (vstart outr - 1 + k) (tape (vstart outr - 1 + k)) = Ok x /\
                 vstart inr <= x <= vend inr /\ x - vstart inr + 1 <= k /\
                 (x < vend inr -> vend inr - x <= vsize outr - k)).
  { unfold sample_hgd. destruct ((vsize inr >? 0) && (vsize outr >? 0)) eqn:E; [|lia].
    cbn [negb]. destruct (Z.leb_spec (vsize inr) (vsize outr)); [|lia]. cbn [negb].
    rewrite Hcont. cbn [negb]. rewrite Eidx.
    destruct (Z.eqb_spec (vsize inr) (vsize outr)) as [Eq|Eq].
    - eexists. split; [reflexivity|]. unfold vsize in *. lia.
    - destruct (Hh (vsize inr) (vsize outr - vsize inr) (tape (vstart outr - 1 + k)) k) as (r & Hr & Br).
      + lia.
      + lia.
      + lia.
      + intros j; apply Ht.
      + rewrite <- Hk. f_equal. lia.
      + rewrite Hr. cbn [bind]. destruct (Z.eqb_spec r 0) as [R0|R0].
        * eexists. split; [reflexivity|]. unfold vsize in *. lia.
        * assert (vcontains inr (vstart inr + r - 1) = true) as -> by (unfold vcontains, vsize in *; lia).
          eexists. split; [reflexivity|]. unfold vsize in *. lia. }
  destruct Hx as (x & Ex & Bx & Lx & Rx).
  exists (vstart outr - 1 + k), x. split.
  { constructor; auto; try lia. - rewrite Hk. f_equal. lia. - unfold vsize in *. lia. }
  unfold vsize in *. repeat split; lia.
Qed.

Lemma enc_total bound n f p inr outr :
  hyper_ok bound -> tape_ok ->
  vstart inr <= p <= vend inr -> vsize inr <= vsize outr -> vsize outr <= bound ->
  vsize outr < topf -> vsize outr <= 2 ^ Z.of_nat n -> (n < f)%nat ->
  exists c, enc f p inr outr = Ok c.
Proof.
  intros Hh Ht. revert f inr outr; induction n as [|n IH]; intros f inr outr Hp Hs Hb Hm Hn Hf;
    (destruct f as [|f]; [lia|]).
  - change (2 ^ Z.of_nat 0) with 1 in Hn.
    destruct (ceil_half_ok (vsize outr)) as [h Eh]; [unfold vsize in *; lia|].
    cbn [encrypt_recursive]. rewrite Eh. cbn [bind].
    destruct (Z.leb_spec (vsize inr) (vsize outr)); [|lia]. cbn [negb].
    destruct (Z.eqb_spec (vsize inr) 1) as [_|]; [|unfold vsize in *; lia].
    apply su_uniform_total; [unfold vsize in *; lia | intros j; apply Ht].
  - destruct (Z.eq_dec (vsize inr) 1) as [H1|H1].
    + destruct (ceil_half_ok (vsize outr)) as [h Eh]; [unfold vsize in *; lia|].
      cbn [encrypt_recursive]. rewrite Eh. cbn [bind].
      destruct (Z.leb_spec (vsize inr) (vsize outr)); [|lia]. cbn [negb].
      destruct (Z.eqb_spec (vsize inr) 1) as [_|]; [|lia].
      apply su_uniform_total; [unfold vsize in *; lia | intros j; apply Ht].
    + assert (H1' : 1 < vsize inr) by (unfold vsize in *; lia).
      destruct (step_total bound inr outr Hh Ht H1' Hs Hb Hm) as (mid & x & St & Bx & Lx & Rx & Bm).
      rewrite (enc_fold f p _ _ _ _ St). destruct St as [mid x Eh _ _ _ _].
      pose proof (ceil_half_pow (vsize outr) _ (Z.of_nat (S n)) ltac:(lia) ltac:(lia) Hn Eh) as [P1 P2].
      replace (Z.of_nat (S n) - 1) with (Z.of_nat n) in * by lia.
      destruct (Z.leb_spec p x).
      * rewrite !mk_range_ok by lia. cbn [bind].
        apply IH; unfold vsize in *; cbn [vstart vend]; lia.
      * rewrite !mk_range_ok by lia. cbn [bind].
        specialize (Rx ltac:(lia)).
        apply IH; unfold vsize in *; cbn [vstart vend]; lia.
Qed.

(** Decryption of any number in the output range. *)
Lemma dec_total bound n f c inr outr :
  hyper_ok bound -> tape_ok ->
  vstart outr <= c <= vend outr -> 1 <= vsize inr -> vsize inr <= vsize outr -> vsize outr <= bound ->
  vsize outr < topf -> vsize outr <= 2 ^ Z.of_nat n -> (n < f)%nat ->
  (exists p, dec f c inr outr = Ok p) \/ dec f c inr outr = Err InvalidCiphertext
  \/ dec f c inr outr = Err InvalidRangeLimits.
Proof.
  intros Hh Ht. revert f inr outr; induction n as [|n IH]; intros f inr outr Hp Hi Hs Hb Hm Hn Hf;
    (destruct f as [|f]; [lia|]).
  - change (2 ^ Z.of_nat 0) with 1 in Hn.
    destruct (ceil_half_ok (vsize outr)) as [h Eh]; [unfold vsize in *; lia|].
    cbn [decrypt_recursive]. rewrite Eh. cbn [bind].
    destruct (Z.leb_spec (vsize inr) (vsize outr)); [|lia]. cbn [negb].
    destruct (Z.eqb_spec (vsize inr) 1) as [_|]; [|unfold vsize in *; lia].
    destruct (su_uniform_total outr (tape (vstart inr))) as [v ->]; [unfold vsize in *; lia | intros j; apply Ht|].
    cbn [bind]. destruct (v =? c); eauto.
  - destruct (Z.eq_dec (vsize inr) 1) as [H1|H1].
    + destruct (ceil_half_ok (vsize outr)) as [h Eh]; [unfold vsize in *; lia|].
      cbn [decrypt_recursive]. rewrite Eh. cbn [bind].
      destruct (Z.leb_spec (vsize inr) (vsize outr)); [|lia]. cbn [negb].
      destruct (Z.eqb_spec (vsize inr) 1) as [_|]; [|lia].
      destruct (su_uniform_total outr (tape (vstart inr))) as [v ->]; [unfold vsize in *; lia | intros j; apply Ht|].
      cbn [bind]. destruct (v =? c); eauto.
    + assert (H1' : 1 < vsize inr) by (unfold vsize in *; lia).
      destruct (step_total bound inr outr Hh Ht H1' Hs Hb Hm) as (mid & x & St & Bx & Lx & Rx & Bm).
      rewrite (dec_fold f c _ _ _ _ St). destruct St as [mid x Eh _ _ _ _].
      pose proof (ceil_half_pow (vsize outr) _ (Z.of_nat (S n)) ltac:(lia) ltac:(lia) Hn Eh) as [P1 P2].
      replace (Z.of_nat (S n) - 1) with (Z.of_nat n) in * by lia.
      destruct (Z.leb_spec c mid).
      * rewrite !mk_range_ok by lia. cbn [bind].
        apply IH; unfold vsize in *; cbn [vstart vend]; lia.
      * destruct (Z.lt_ge_cases x (vend inr)) as [G|G].
        -- rewrite !mk_range_ok by lia. cbn [bind]. specialize (Rx G).
           apply IH; unfold vsize in *; cbn [vstart vend]; lia.
        -- right; right. unfold mk_range at 1. destruct (x + 1 >? vend inr) eqn:E; [reflexivity | lia].
Qed.

(** ** Equal sizes: the cipher is a shift *)
Lemma enc_equal_leaf f p inr outr :
  vstart inr <= p <= vend inr -> vsize inr = vsize outr -> vsize inr = 1 ->
  enc (S f) p inr outr = Ok (vstart outr + (p - vstart inr)).
Proof.
  intros Hp Hs H1. pose proof (topf_pow 53 eq_refl).
  destruct (ceil_half_ok (vsize outr)) as [h Eh]; [lia|].
  cbn [encrypt_recursive]. rewrite Eh. cbn [bind].
  destruct (Z.leb_spec (vsize inr) (vsize outr)); [|lia]. cbn [negb].
  destruct (Z.eqb_spec (vsize inr) 1) as [_|]; [|lia].
  unfold sample_uniform. destruct (Z.eqb_spec (vsize outr) 0); [lia|].
  replace (vsize outr) with 1 by lia. change (Z.to_nat (Z.log2_up 1)) with 0%nat. cbn [su_loop].
  destruct (vend outr - vstart outr + 1 >? 1) eqn:E; [unfold vsize in *; lia|].
  destruct (Z.eqb_spec (vend outr - vstart outr + 1) 1); [|unfold vsize in *; lia].
  f_equal. unfold vsize in *. lia.
Qed.

Lemma enc_equal n f p inr outr :
  vstart inr <= p <= vend inr -> vsize inr = vsize outr ->
  vsize outr < topf -> vsize outr <= 2 ^ Z.of_nat n -> (n < f)%nat ->
  enc f p inr outr = Ok (vstart outr + (p - vstart inr)).
Proof.
  revert f inr outr; induction n as [|n IH]; intros f inr outr Hp Hs Hm Hn Hf;
    (destruct f as [|f]; [lia|]).
  1: change (2 ^ Z.of_nat 0) with 1 in Hn.
  - apply enc_equal_leaf; unfold vsize in *; lia.
  - destruct (Z.eq_dec (vsize inr) 1) as [H1|H1]; [apply enc_equal_leaf; [exact Hp | exact Hs | exact H1]|].
    destruct (ceil_half_ok (vsize outr)) as [k Hk]; [unfold vsize in *; lia|].
    pose proof (ceil_half_spec (vsize outr) k ltac:(unfold vsize in *; lia) Hk) as [Hk1 Hk2].
    specialize (Hk2 ltac:(unfold vsize in *; lia)).
    pose proof (ceil_half_pow (vsize outr) _ (Z.of_nat (S n)) ltac:(lia) ltac:(lia) Hn Hk) as [P1 P2].
    replace (Z.of_nat (S n) - 1) with (Z.of_nat n) in * by lia.
    assert (St : enc_step inr outr (vstart outr - 1 + k) (vstart inr + k - 1)).
    { constructor; try lia.
      - rewrite Hk. f_equal. lia.
      - unfold sample_hgd. destruct ((vsize inr >? 0) && (vsize outr >? 0)) eqn:E; [|unfold vsize in *; lia].
        cbn [negb]. destruct (Z.leb_spec (vsize inr) (vsize outr)); [|lia]. cbn [negb].
        assert (vcontains outr (vstart outr - 1 + k) = true) as -> by (unfold vcontains, vsize in *; lia).
        cbn [negb]. destruct (Z.eqb_spec (vsize inr) (vsize outr)); [|lia]. f_equal. lia.
      - unfold vsize in *. lia. }
    rewrite (enc_fold f p _ _ _ _ St).
    destruct (Z.leb_spec p (vstart inr + k - 1)).
    + rewrite !mk_range_ok by lia. cbn [bind].
      rewrite IH; unfold vsize in *; cbn [vstart vend]; try lia. reflexivity.
    + rewrite !mk_range_ok by (unfold vsize in *; lia). cbn [bind].
      rewrite IH; unfold vsize in *; cbn [vstart vend]; try lia. f_equal. lia.
Qed.
End OPE.
