(** Proofs about the coin-driven samplers: sample_uniform, the bit expansion, rhyper. *)
From Coq Require Import String Ascii List NArith ZArith QArith Qround Bool Arith Lia Lqa ZifyBool ZifyNat ZifyN.
From Coq Require Import Init.Byte.
From Verif Require Import Base BaseProof CryptoModel OpeModel OpeProof.
Import ListNotations.
Open Scope Z_scope.

(** ** sample_uniform on a list of coins *)
Fixpoint su_list (fuel : nat) (s e : Z) (l : list Z) : res Z :=
  if e - s + 1 >? 1 then
    match fuel with
    | O => Err OutOfFuel
    | S f =>
      let mid := (s + e) / 2 in
      match l with
      | b :: l' => if b =? 0 then su_list f s mid l'
                   else if b =? 1 then su_list f (mid + 1) e l'
                   else Err InvalidCoin
      | [] => Err NotEnoughCoins
      end
    end
  else if e - s + 1 =? 1 then Ok s else Err AssertionError.

Lemma su_shift f s e c i j : su_loop f s e c (i + j)%nat = su_loop f s e (fun n => c (i + n)%nat) j.
Proof.
  revert s e j; induction f as [|f IH]; intros s e j; cbn [su_loop]; [reflexivity|].
  destruct (e - s + 1 >? 1); [|reflexivity].
  destruct (c (i + j)%nat) as [b|]; [|reflexivity].
  replace (S (i + j)) with (i + S j)%nat by lia. rewrite !IH. reflexivity.
Qed.

Lemma su_loop_ext f s e c d i : (forall j, c j = d j) -> su_loop f s e c i = su_loop f s e d i.
Proof.
  intros H. revert s e i; induction f as [|f IH]; intros s e i; cbn [su_loop]; [reflexivity|].
  rewrite H. destruct (e - s + 1 >? 1); [|reflexivity]. destruct (d i); [|reflexivity].
  rewrite !IH. reflexivity.
Qed.

Lemma su_loop_list f s e l : su_loop f s e (list_coins l) 0 = su_list f s e l.
Proof.
  revert s e l; induction f as [|f IH]; intros s e l; cbn [su_loop su_list]; [reflexivity|].
  destruct (e - s + 1 >? 1); [|reflexivity].
  destruct l as [|b l]; cbn [list_coins nth_error]; [reflexivity|].
  assert (E : forall s e, su_loop f s e (list_coins (b :: l)) 1 = su_list f s e l).
  { intros s0 e0. change 1%nat with (1 + 0)%nat. rewrite su_shift.
    rewrite (su_loop_ext _ _ _ _ (list_coins l)); [apply IH | reflexivity]. }
  rewrite !E. reflexivity.
Qed.

Definition bits (l : list Z) : Prop := Forall (fun b => b = 0 \/ b = 1) l.

Definition draw_uniform (s e : Z) (l : list Z) : res Z :=
  su_list (Z.to_nat (Z.log2_up (e - s + 1))) s e l.

Lemma sample_uniform_list r l :
  vstart r <= vend r -> sample_uniform r (list_coins l) = draw_uniform (vstart r) (vend r) l.
Proof.
  intros H. unfold sample_uniform, vsize, draw_uniform.
  destruct (Z.eqb_spec (vend r - vstart r + 1) 0); [lia|]. apply su_loop_list.
Qed.

Lemma mid_facts s e : let mid := (s + e) / 2 in s < e -> s <= mid < e /\
  mid - s + 1 = (e - s + 1 + 1) / 2 /\ e - mid = (e - s + 1) / 2.
Proof.
  cbv zeta. intros H.
  pose proof (Z.div_mod (s + e) 2 ltac:(lia)). pose proof (Z.mod_pos_bound (s + e) 2 ltac:(lia)).
  pose proof (Z.div_mod (e - s + 1 + 1) 2 ltac:(lia)). pose proof (Z.mod_pos_bound (e - s + 1 + 1) 2 ltac:(lia)).
  pose proof (Z.div_mod (e - s + 1) 2 ltac:(lia)). pose proof (Z.mod_pos_bound (e - s + 1) 2 ltac:(lia)).
  lia.
Qed.

Lemma half_le n f : 1 <= n -> n <= 2 ^ Z.of_nat (S f) -> (n + 1) / 2 <= 2 ^ Z.of_nat f /\ n / 2 <= 2 ^ Z.of_nat f.
Proof.
  intros H1 H. rewrite Nat2Z.inj_succ, Z.pow_succ_r in H by lia.
  pose proof (Z.div_mod (n + 1) 2 ltac:(lia)). pose proof (Z.mod_pos_bound (n + 1) 2 ltac:(lia)).
  pose proof (Z.div_mod n 2 ltac:(lia)). pose proof (Z.mod_pos_bound n 2 ltac:(lia)).
  lia.
Qed.

(** On bits the only outcomes are a value of the range or NotEnoughCoins. *)
Lemma su_outcomes f s e l :
  s <= e -> e - s + 1 <= 2 ^ Z.of_nat f -> bits l ->
  (exists v, su_list f s e l = Ok v /\ s <= v <= e) \/
  (su_list f s e l = Err NotEnoughCoins /\ (length l < f)%nat).
Proof.
  revert s e l; induction f as [|f IH]; intros s e l Hs Hf Hl; cbn [su_list].
  - change (2 ^ Z.of_nat 0) with 1 in Hf.
    destruct (e - s + 1 >? 1) eqn:G; [lia|]. destruct (Z.eqb_spec (e - s + 1) 1); [|lia].
    left. exists s. split; [reflexivity | lia].
  - destruct (e - s + 1 >? 1) eqn:G.
    + pose proof (mid_facts s e ltac:(lia)) as (M1 & M2 & M3).
      pose proof (half_le (e - s + 1) f ltac:(lia) Hf) as [P1 P2].
      destruct l as [|b l]; [right; cbn [length]; split; [reflexivity | lia]|].
      inversion Hl as [|? ? Hb Hl']; subst.
      destruct Hb as [-> | ->]; cbn [Z.eqb Pos.eqb length].
      * destruct (IH s ((s + e) / 2) l) as [(v & -> & Bv)|[-> L]]; [lia|lia|exact Hl'| |].
        -- left. exists v. split; [reflexivity | lia].
        -- right. split; [reflexivity | lia].
      * destruct (IH ((s + e) / 2 + 1) e l) as [(v & -> & Bv)|[-> L]]; [lia|lia|exact Hl'| |].
        -- left. exists v. split; [reflexivity | lia].
        -- right. split; [reflexivity | lia].
    + destruct (Z.eqb_spec (e - s + 1) 1); [|lia]. left. exists s. split; [reflexivity | lia].
Qed.

Lemma su_extend f s e l l' v : su_list f s e l = Ok v -> su_list f s e (l ++ l') = Ok v.
Proof.
  revert s e l; induction f as [|f IH]; intros s e l; cbn [su_list];
    destruct (e - s + 1 >? 1); auto.
  destruct l as [|b l]; cbn [app]; [discriminate|].
  destruct (b =? 0); [apply IH|]. destruct (b =? 1); [apply IH | discriminate].
Qed.

Lemma su_onto f s e v :
  s <= v <= e -> e - s + 1 <= 2 ^ Z.of_nat f ->
  exists l, bits l /\ (length l <= f)%nat /\ su_list f s e l = Ok v.
Proof.
  revert s e; induction f as [|f IH]; intros s e Hv Hf; cbn [su_list].
  - change (2 ^ Z.of_nat 0) with 1 in Hf. exists []. split; [constructor|]. split; [cbn; lia|].
    destruct (e - s + 1 >? 1) eqn:G; [lia|]. destruct (Z.eqb_spec (e - s + 1) 1); [|lia].
    f_equal. lia.
  - destruct (e - s + 1 >? 1) eqn:G.
    + pose proof (mid_facts s e ltac:(lia)) as (M1 & M2 & M3).
      pose proof (half_le (e - s + 1) f ltac:(lia) Hf) as [P1 P2].
      destruct (Z.le_gt_cases v ((s + e) / 2)) as [L|L].
      * destruct (IH s ((s + e) / 2)) as (l & Hl & Ll & E); [lia|lia|].
        exists (0 :: l). split; [constructor; auto|]. split; [cbn [length]; lia | exact E].
      * destruct (IH ((s + e) / 2 + 1) e) as (l & Hl & Ll & E); [lia|lia|].
        exists (1 :: l). split; [constructor; auto|]. split; [cbn [length]; lia | exact E].
    + exists []. split; [constructor|]. split; [cbn; lia|].
      destruct (Z.eqb_spec (e - s + 1) 1); [|lia]. f_equal. lia.
Qed.

(** A tape shorter than log2 of the size is never enough. *)
Lemma su_short f s e l m :
  2 ^ Z.of_nat m <= e - s + 1 -> (length l < m)%nat -> bits l ->
  e - s + 1 <= 2 ^ Z.of_nat f -> su_list f s e l = Err NotEnoughCoins.
Proof.
  revert s e l m; induction f as [|f IH]; intros s e l m Hm Hl Hb Hf.
  - change (2 ^ Z.of_nat 0) with 1 in Hf. destruct m as [|m]; [lia|].
    rewrite Nat2Z.inj_succ, Z.pow_succ_r in Hm by lia.
    pose proof (Z.pow_pos_nonneg 2 (Z.of_nat m)). lia.
  - destruct m as [|m]; [lia|]. rewrite Nat2Z.inj_succ, Z.pow_succ_r in Hm by lia.
    pose proof (Z.pow_pos_nonneg 2 (Z.of_nat m) ltac:(lia) ltac:(lia)).
    cbn [su_list]. destruct (e - s + 1 >? 1) eqn:G; [|lia].
    pose proof (mid_facts s e ltac:(lia)) as (M1 & M2 & M3).
    pose proof (half_le (e - s + 1) f ltac:(lia) Hf) as [P1 P2].
    pose proof (Z.div_mod (e - s + 1 + 1) 2 ltac:(lia)). pose proof (Z.mod_pos_bound (e - s + 1 + 1) 2 ltac:(lia)).
    pose proof (Z.div_mod (e - s + 1) 2 ltac:(lia)). pose proof (Z.mod_pos_bound (e - s + 1) 2 ltac:(lia)).
    destruct l as [|b l]; [reflexivity|]. cbn [length] in Hl.
    inversion Hb as [|? ? Hb0 Hb']; subst.
    destruct Hb0 as [-> | ->]; cbn [Z.eqb Pos.eqb]; apply (IH _ _ _ m); auto; lia.
Qed.

(** Power-of-two sizes: one tape per value. *)
Lemma su_pow2_unique k s e l l' v :
  e - s + 1 = 2 ^ Z.of_nat k -> length l = k -> length l' = k -> bits l -> bits l' ->
  su_list k s e l = Ok v -> su_list k s e l' = Ok v -> l = l'.
Proof.
  revert s e l l'; induction k as [|k IH]; intros s e l l' Hk L L' B B' E E'.
  - destruct l, l'; try discriminate. reflexivity.
  - rewrite Nat2Z.inj_succ, Z.pow_succ_r in Hk by lia.
    pose proof (Z.pow_pos_nonneg 2 (Z.of_nat k) ltac:(lia) ltac:(lia)).
    cbn [su_list] in E, E'. destruct (e - s + 1 >? 1) eqn:G; [|lia].
    pose proof (mid_facts s e ltac:(lia)) as (M1 & M2 & M3).
    pose proof (Z.div_mod (e - s + 1 + 1) 2 ltac:(lia)). pose proof (Z.mod_pos_bound (e - s + 1 + 1) 2 ltac:(lia)).
    pose proof (Z.div_mod (e - s + 1) 2 ltac:(lia)). pose proof (Z.mod_pos_bound (e - s + 1) 2 ltac:(lia)).
    destruct l as [|b l]; [discriminate|]. destruct l' as [|b' l']; [discriminate|].
    injection L as L. injection L' as L'.
    pose proof (Forall_inv B) as Hb0. pose proof (Forall_inv_tail B) as Hb.
    pose proof (Forall_inv B') as Hb0'. pose proof (Forall_inv_tail B') as Hb'.
    assert (R : forall s e l v, su_list k s e l = Ok v -> bits l -> s <= e -> e - s + 1 <= 2 ^ Z.of_nat k -> s <= v <= e).
    { intros s0 e0 l0 v0 E0 B0 H00 H01. destruct (su_outcomes k s0 e0 l0 H00 H01 B0) as [(w & Ew & Bw)|[Ew _]].
      - rewrite Ew in E0. injection E0 as <-. exact Bw.
      - rewrite Ew in E0. discriminate. }
    destruct Hb0 as [-> | ->], Hb0' as [-> | ->]; cbn [Z.eqb Pos.eqb] in E, E'.
    + f_equal. apply (IH s ((s + e) / 2)); auto. lia.
    + exfalso. apply R in E; [|exact Hb|lia|lia]. apply R in E'; [|exact Hb'|lia|lia]. lia.
    + exfalso. apply R in E; [|exact Hb|lia|lia]. apply R in E'; [|exact Hb'|lia|lia]. lia.
    + f_equal. apply (IH ((s + e) / 2 + 1) e); auto. lia.
Qed.

Lemma su_pow2_exact k s e v :
  e - s + 1 = 2 ^ Z.of_nat k -> s <= v <= e ->
  exists l, length l = k /\ bits l /\ su_list k s e l = Ok v /\
    forall l', length l' = k -> bits l' -> su_list k s e l' = Ok v -> l' = l.
Proof.
  intros Hk Hv. destruct (su_onto k s e v Hv ltac:(lia)) as (l & B & L & E).
  assert (length l = k) as Lk.
  { destruct (Nat.eq_dec (length l) k) as [|N]; [assumption|exfalso].
    rewrite (su_short k s e l k) in E; [discriminate|lia|lia|exact B|lia]. }
  exists l. split; [exact Lk|]. split; [exact B|]. split; [exact E|].
  intros l' L' B' E'. apply (su_pow2_unique k s e l' l v); auto.
Qed.

(** ** Bits of a byte *)
Lemma byte_bits (b : byte) :
  exists l, byte_to_bitstring (Z.of_N (bN b)) = Ok l /\ length l = 8%nat /\
    forall j, (j < 8)%nat -> nth_error l j = Some (Z.b2z (Z.testbit (Z.of_N (bN b)) (7 - Z.of_nat j))).
Proof.
  destruct b; (eexists; split; [vm_compute; reflexivity|]; split; [reflexivity|];
    intros j Hj; do 8 (destruct j as [|j]; [reflexivity|]); lia).
Qed.

Lemma str_bits l :
  exists bs, str_to_bitstring l = Ok bs /\ length bs = (8 * length l)%nat /\
    forall i j b, nth_error l i = Some b -> (j < 8)%nat ->
      nth_error bs (8 * i + j) = Some (Z.b2z (Z.testbit (Z.of_N (bN b)) (7 - Z.of_nat j))).
Proof.
  unfold str_to_bitstring. induction l as [|b l (bs & E & L & N0)].
  - exists []. split; [reflexivity|]. split; [reflexivity|]. intros i j b H. destruct i; discriminate.
  - destruct (byte_bits b) as (x & Ex & Lx & Nx). cbn [mapM]. rewrite Ex. cbn [bind].
    destruct (mapM _ l) as [ys|]; [|discriminate]. cbn [bind] in *. injection E as E.
    exists (x ++ bs). cbn [concat]. rewrite E. split; [reflexivity|]. split.
    + rewrite app_length. cbn [length]. lia.
    + intros i j c Hi Hj. destruct i as [|i].
      * cbn in Hi. injection Hi as <-. rewrite nth_error_app1 by lia.
        replace (8 * 0 + j)%nat with j by lia. apply Nx, Hj.
      * cbn [nth_error] in Hi. rewrite nth_error_app2 by lia.
        replace (8 * S i + j - length x)%nat with (8 * i + j)%nat by lia. apply N0; assumption.
Qed.

Lemma tape_gen_ok ks key : tape_ok (tape_gen ks key).
Proof.
  intros d i. unfold tape_gen, bit.
  destruct (byte_bits (ks key (str_int d) (i / 8)%nat)) as (l & -> & L & N0).
  rewrite N0 by (apply Nat.mod_upper_bound; lia).
  destruct (Z.testbit _ _); cbn; auto.
Qed.

(** ** The hypergeometric sampler stays in its support *)
Lemma draw_bits_bound n c i acc :
  (forall j, bit (c j)) -> 0 <= acc ->
  exists o, draw_bits n c i acc = Ok o /\ acc * 2 ^ Z.of_nat n <= o < (acc + 1) * 2 ^ Z.of_nat n.
Proof.
  intros Hc. revert i acc; induction n as [|n IH]; intros i acc Ha; cbn [draw_bits].
  - exists acc. split; [reflexivity|]. change (2 ^ Z.of_nat 0) with 1. lia.
  - rewrite Nat2Z.inj_succ, Z.pow_succ_r by lia.
    destruct (Hc i) as [-> | ->].
    + destruct (IH (S i) (2 * acc + 0) ltac:(lia)) as (o & -> & B). exists o. split; [reflexivity|]. nia.
    + destruct (IH (S i) (2 * acc + 1) ltac:(lia)) as (o & -> & B). exists o. split; [reflexivity|]. nia.
Qed.

Lemma draw_unit c i : (forall j, bit (c j)) -> exists U, draw c i = Ok U /\ (0 <= U <= 1)%Q.
Proof.
  intros Hc. unfold draw. destruct (draw_bits_bound 32 c (32 * i) 0 Hc ltac:(lia)) as (o & -> & B).
  cbn [bind]. eexists. split; [reflexivity|].
  change (2 ^ Z.of_nat 32) with 4294967296 in B.
  unfold Qle. cbn [Qnum Qden]. lia.
Qed.

Lemma floor_step U Y n : (0 <= U <= 1)%Q -> 0 < Y < n ->
  Qfloor (U + inject_Z Y / inject_Z n) = 0 \/ Qfloor (U + inject_Z Y / inject_Z n) = 1.
Proof.
  intros [U0 U1] H. set (x := (U + inject_Z Y / inject_Z n)%Q).
  assert (N0 : (0 < inject_Z n)%Q) by (change 0%Q with (inject_Z 0); rewrite <- Zlt_Qlt; lia).
  assert (F : (0 < inject_Z Y / inject_Z n < 1)%Q).
  { split.
    - apply Qlt_shift_div_l; [exact N0|]. rewrite Qmult_0_l. change 0%Q with (inject_Z 0). rewrite <- Zlt_Qlt. lia.
    - apply Qlt_shift_div_r; [exact N0|]. rewrite Qmult_1_l. rewrite <- Zlt_Qlt. lia. }
  assert (X : (0 <= x /\ x < 2)%Q) by (unfold x; destruct F; split; lra).
  destruct X as [X0 X2].
  pose proof (Qfloor_le x) as A. pose proof (Qlt_floor x) as B.
  assert (0 <= Qfloor x) by (apply (Qfloor_resp_le 0 x X0)).
  assert (Qfloor x < 2); [|lia].
  rewrite Zlt_Qlt. eapply Qle_lt_trans; [exact A|]. exact X2.
Qed.

Lemma hyp_loop_support K Y d1 c i :
  (forall j, bit (c j)) -> 0 <= Y <= d1 ->
  exists Y', hyp_loop K Y d1 c i = Ok Y' /\ 0 <= Y' <= Y /\ Y - Y' <= Z.of_nat K.
Proof.
  intros Hc. revert Y i; induction K as [|K IH]; intros Y i HY; cbn [hyp_loop].
  - destruct (Z.leb_spec Y 0); exists Y; (split; [reflexivity|]); lia.
  - destruct (Z.leb_spec Y 0); [exists Y; split; [reflexivity|]; lia|].
    destruct (draw_unit c i Hc) as (U & -> & HU). cbn [bind].
    destruct (floor_step U Y (d1 + Z.of_nat (S K)) HU ltac:(lia)) as [-> | ->].
    + destruct (IH (Y - 0) (S i) ltac:(lia)) as (Y' & -> & B). exists Y'. split; [reflexivity|]. lia.
    + destruct (IH (Y - 1) (S i) ltac:(lia)) as (Y' & -> & B). exists Y'. split; [reflexivity|]. lia.
Qed.

Lemma hyp_support good bad sample c :
  (forall j, bit (c j)) -> 0 <= good -> 0 <= bad -> 1 <= sample -> sample <= Z.max good bad ->
  exists r, hypergeometric_hyp good bad sample c = Ok r /\
            Z.max 0 (sample - bad) <= r <= Z.min sample good.
Proof.
  intros Hc Hg Hb Hs Hm. unfold hypergeometric_hyp.
  destruct (hyp_loop_support (Z.to_nat sample) (Z.min bad good) (bad + good - sample) c 0 Hc ltac:(lia))
    as (Y & -> & B1 & B2). cbn [bind].
  eexists. split; [reflexivity|]. destruct (good >? bad) eqn:G; lia.
Qed.

Lemma hrua_loop_range fuel d11 cand accept t z :
  hrua_loop fuel d11 cand accept t = Ok z -> 0 <= z < d11.
Proof.
  revert t; induction fuel as [|f IH]; intros t; cbn [hrua_loop]; [discriminate|].
  destruct (negb (Qle_bool 0 (cand t)) || Qle_bool (inject_Z d11) (cand t)) eqn:G; [apply IH|].
  destruct (accept t (Qfloor (cand t))); [|apply IH]. intros [= <-].
  apply orb_false_iff in G. destruct G as [G1 G2].
  apply negb_false_iff in G1. apply Qle_bool_iff in G1.
  split; [apply (Qfloor_resp_le 0 _ G1)|].
  assert (cand t < inject_Z d11)%Q.
  { apply Qnot_le_lt. intros L. apply Qle_bool_iff in L. congruence. }
  rewrite Zlt_Qlt. eapply Qle_lt_trans; [apply Qfloor_le | assumption].
Qed.

Lemma hrua_support fuel good bad sample d67 cand accept r :
  0 <= good -> 0 <= bad -> 0 <= sample <= good + bad ->
  hypergeometric_hrua fuel good bad sample d67 cand accept = Ok r ->
  Z.max 0 (sample - bad) <= r <= Z.min sample good.
Proof.
  intros Hg Hb Hs. unfold hypergeometric_hrua.
  destruct (hrua_loop _ _ _ _ _) as [z|] eqn:E; cbn [bind]; [|discriminate].
  apply hrua_loop_range in E. intros [= <-].
  destruct (good >? bad) eqn:G1; destruct (Z.ltb_spec (Z.min sample (good + bad - sample)) sample); lia.
Qed.

Lemma rhyper_contract fuel d67 cand accept :
  (forall kk g b c, 10 < kk -> 1 < g -> 0 < b -> kk < g + b -> exists z,
     hypergeometric_hrua fuel g b kk (d67 kk g b) (cand kk g b c) (accept kk g b c) = Ok z) ->
  hyper_ok (rhyper fuel d67 cand accept) (2 ^ 53 - 1).
Proof.
  intros Hr g b c k Hg Hb Hbd Hc Hk.
  assert (Ek : k = (g + b + 1) / 2).
  { unfold ceil_half in Hk. rewrite f64_small in Hk by lia.
    destruct (2 ^ 1024 <=? g + b); [discriminate|]. injection Hk as <-. reflexivity. }
  pose proof (Z.div_mod (g + b + 1) 2 ltac:(lia)). pose proof (Z.mod_pos_bound (g + b + 1) 2 ltac:(lia)).
  unfold rhyper. destruct (k >? 10) eqn:G.
  - destruct (Hr k g b c ltac:(lia) ltac:(lia) ltac:(lia) ltac:(lia)) as [z Ez]. exists z. split; [exact Ez|].
    apply hrua_support in Ez; lia.
  - apply hyp_support; [exact Hc | lia..].
Qed.
