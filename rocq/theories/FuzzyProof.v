(** Proofs about LIKE on the fuzzy column. *)
From Coq Require Import String Ascii List NArith ZArith Bool Arith Lia ZifyBool ZifyNat ZifyN.
From Coq Require Import Init.Byte.
From Verif Require Import Base BaseProof CryptoModel CryptoSpec CryptoProof FuzzyModel LikeSpec.
Import ListNotations.
Ltac Zify.zify_post_hook ::= Z.div_mod_to_equations.

(** ** Pattern matching on parts *)
Fixpoint tmatch {A} (ps : list (list A)) (s : list A) : Prop :=
  match ps with
  | [] => True
  | p :: qs => match qs with
               | [] => exists a, s = a ++ p
               | _ => exists a b, s = a ++ p ++ b /\ tmatch qs b
               end
  end.

Definition pmatch {A} (ps : list (list A)) (s : list A) : Prop :=
  match ps with
  | [] => s = []
  | p :: qs => match qs with
               | [] => s = p
               | _ => exists s', s = p ++ s' /\ tmatch qs s'
               end
  end.

Lemma like_plain c p s :
  plainc c = true ->
  like (c :: p) s = match s with [] => false | x :: s' => N.eqb c x && like p s' end.
Proof.
  unfold plainc. intros H. cbn [like].
  destruct (N.eqb c 37); [discriminate|]. destruct (N.eqb c 95); [discriminate|].
  destruct (N.eqb c 92); [discriminate|]. reflexivity.
Qed.

Lemma like_lit p q s :
  forallb plainc p = true ->
  (like (p ++ q) s = true <-> exists s', s = p ++ s' /\ like q s' = true).
Proof.
  revert s; induction p as [|c p IH]; intros s H.
  - cbn [app]. split; [intros L; exists s; auto | intros (s' & -> & L); exact L].
  - cbn [forallb] in H. apply andb_true_iff in H. destruct H as [Hc Hp].
    change ((c :: p) ++ q) with (c :: (p ++ q)). rewrite like_plain by exact Hc.
    destruct s as [|x s].
    + split; [discriminate | intros (s' & E & _); discriminate].
    + rewrite andb_true_iff, N.eqb_eq, IH by exact Hp. split.
      * intros [-> (s' & -> & L)]. exists s'. auto.
      * intros (s' & E & L). injection E as -> ->. split; [reflexivity | exists s'; auto].
Qed.

Lemma like_pct p s : like (37%N :: p) s = true <-> exists a b, s = a ++ b /\ like p b = true.
Proof.
  induction s as [|x s IH]; cbn [like N.eqb Pos.eqb].
  - rewrite orb_false_r. split.
    + intros L. exists [], []. auto.
    + intros (a & b & E & L). destruct a; [|discriminate]. destruct b; [exact L | discriminate].
  - cbn [like N.eqb Pos.eqb] in IH. rewrite orb_true_iff, IH. split.
    + intros [L|(a & b & -> & L)]; [exists [], (x :: s); auto | exists (x :: a), b; auto].
    + intros (a & b & E & L). destruct a as [|y a].
      * left. cbn in E. subst b. exact L.
      * right. injection E as -> ->. exists a, b. auto.
Qed.

Lemma like_nil s : like [] s = true <-> s = [].
Proof. destruct s; cbn; split; intros H; congruence. Qed.

Lemma like_tail ps s :
  ps <> [] -> (forall p, In p ps -> forallb plainc p = true) ->
  (like (37%N :: join [37%N] ps) s = true <-> tmatch ps s).
Proof.
  revert s; induction ps as [|p ps IH]; intros s Hn H; [congruence|].
  rewrite like_pct. destruct ps as [|q ps].
  - cbn [join tmatch]. split.
    + intros (a & b & -> & L). rewrite <- (app_nil_r p) in L.
      apply like_lit in L; [|apply H; left; reflexivity].
      destruct L as (s' & -> & L). apply like_nil in L. subst. exists a.
      rewrite app_nil_r. reflexivity.
    + intros [a ->]. exists a, p. split; [reflexivity|].
      rewrite <- (app_nil_r p) at 1. apply like_lit; [apply H; left; reflexivity|].
      exists []. rewrite app_nil_r. split; reflexivity.
  - change (join [37%N] (p :: q :: ps)) with (p ++ [37%N] ++ join [37%N] (q :: ps)).
    change (tmatch (p :: q :: ps) s) with (exists a b, s = a ++ p ++ b /\ tmatch (q :: ps) b).
    split.
    + intros (a & b & -> & L). apply like_lit in L; [|apply H; left; reflexivity].
      destruct L as (s' & -> & L). exists a, s'. split; [reflexivity|].
      apply IH; [discriminate| |exact L]. intros r Hr. apply H. right; exact Hr.
    + intros (a & b & -> & T). exists a, (p ++ b). split; [reflexivity|].
      apply like_lit; [apply H; left; reflexivity|]. exists b. split; [reflexivity|].
      apply IH; [discriminate| |exact T]. intros r Hr. apply H. right; exact Hr.
Qed.

Lemma like_parts ps s :
  ps <> [] -> (forall p, In p ps -> forallb plainc p = true) ->
  (like (join [37%N] ps) s = true <-> pmatch ps s).
Proof.
  intros Hn H. destruct ps as [|p ps]; [congruence|]. destruct ps as [|q ps].
  - cbn [join pmatch]. rewrite <- (app_nil_r p) at 1.
    rewrite like_lit by (apply H; left; reflexivity). split.
    + intros (s' & -> & L). apply like_nil in L. subst. apply app_nil_r.
    + intros ->. exists []. rewrite app_nil_r. split; reflexivity.
  - change (join [37%N] (p :: q :: ps)) with (p ++ [37%N] ++ join [37%N] (q :: ps)).
    cbn [pmatch]. rewrite like_lit by (apply H; left; reflexivity).
    split; intros (s' & -> & L); exists s'; (split; [reflexivity|]).
    + apply like_tail in L; [exact L | discriminate |]. intros r Hr. apply H. right; exact Hr.
    + apply like_tail; [discriminate | | exact L]. intros r Hr. apply H. right; exact Hr.
Qed.

(** ** Blocks of 24 characters ending in "==" *)
Definition good (b : pystr) : Prop :=
  exists body, b = body ++ [EQ; EQ] /\ length body = 22 /\ forall c, In c body -> c <> EQ.

Lemma good_length b : good b -> length b = 24.
Proof. intros (body & -> & L & _). rewrite app_length, L. reflexivity. Qed.

Lemma b64_16_good (l : list byte) : length l = 16 -> good (b64encode l).
Proof.
  intros H.
  do 16 (destruct l as [|? l]; [discriminate H|]).
  destruct l; [|discriminate H]. clear H.
  repeat match goal with b : byte |- _ => first [ pose proof (bN_lt b); generalize dependent b ] end.
  intros. cbn [b64encode].
  match goal with |- good ?x => let y := eval cbv [app] in x in exists (firstn 22 x) end.
  cbn [firstn app length]. split; [reflexivity|]. split; [reflexivity|].
  intros c Hc. cbn [In] in Hc.
  repeat (destruct Hc as [<-|Hc]; [apply b64_char_not_eq; lia|]). destruct Hc.
Qed.

Lemma good_eq_pos b i : good b -> nth_error b i = Some EQ -> i = 22 \/ i = 23.
Proof.
  intros (body & -> & L & N0) H.
  destruct (Nat.lt_ge_cases i 22) as [Hi|Hi].
  - rewrite nth_error_app1 in H by lia. apply nth_error_In in H. apply N0 in H. congruence.
  - assert (i < length (body ++ [EQ; EQ])) as G by (apply nth_error_Some; congruence).
    rewrite app_length in G. cbn [length] in G. lia.
Qed.

Lemma concat_eq_pos X i :
  (forall b, In b X -> good b) -> nth_error (concat X) i = Some EQ -> 22 <= i mod 24.
Proof.
  revert i; induction X as [|x X IH]; intros i G H.
  - destruct i; discriminate.
  - cbn [concat] in H. pose proof (good_length x (G x (or_introl eq_refl))) as L.
    destruct (Nat.lt_ge_cases i 24) as [Hi|Hi].
    + rewrite nth_error_app1 in H by lia.
      apply good_eq_pos in H; [|apply G; left; reflexivity]. lia.
    + rewrite nth_error_app2 in H by lia. rewrite L in H.
      apply IH in H; [lia|]. intros b Hb. apply G. right; exact Hb.
Qed.

Lemma good_has_eq b : good b -> nth_error b 22 = Some EQ /\ nth_error b 23 = Some EQ.
Proof.
  intros (body & -> & L & _). rewrite !nth_error_app2 by lia. rewrite L. split; reflexivity.
Qed.

Lemma concat_prefix_blocks X Y r :
  (forall b, In b X -> good b) -> (forall b, In b Y -> good b) ->
  concat X = concat Y ++ r -> exists Z0, X = Y ++ Z0 /\ r = concat Z0.
Proof.
  revert Y r; induction X as [|x X IH]; intros Y r GX GY H.
  - destruct Y as [|y Y].
    + exists []. cbn in *. auto.
    + cbn [concat] in H. pose proof (good_length y (GY y (or_introl eq_refl))) as L.
      apply (f_equal (@length N)) in H. rewrite !app_length in H. cbn [length] in H. lia.
  - destruct Y as [|y Y].
    + exists (x :: X). cbn [app concat] in *. auto.
    + cbn [concat] in H. rewrite <- app_assoc in H.
      pose proof (good_length x (GX x (or_introl eq_refl))) as Lx.
      pose proof (good_length y (GY y (or_introl eq_refl))) as Ly.
      assert (x = y) as E.
      { pose proof (f_equal (firstn 24) H) as F.
        rewrite (firstn_app_exact 24 _ _ Lx), (firstn_app_exact 24 _ _ Ly) in F. exact F. }
      subst y. apply app_inv_head in H.
      destruct (IH Y r) as (Z0 & -> & ->); auto.
      * intros b Hb. apply GX. right; exact Hb.
      * intros b Hb. apply GY. right; exact Hb.
      * exists Z0. auto.
Qed.

Lemma aligned X Y a r :
  (forall b, In b X -> good b) -> (forall b, In b Y -> good b) -> Y <> [] ->
  concat X = a ++ concat Y ++ r ->
  exists X1 X2, X = X1 ++ Y ++ X2 /\ a = concat X1 /\ r = concat X2.
Proof.
  revert a; induction X as [|x X IH]; intros a GX GY Hn H.
  - destruct Y as [|y Y]; [congruence|].
    pose proof (good_length y (GY y (or_introl eq_refl))) as L.
    apply (f_equal (@length N)) in H. cbn [concat] in H. rewrite !app_length in H.
    cbn [length] in H. lia.
  - destruct a as [|a0 a'] eqn:Ea.
    + cbn [app] in H. destruct (concat_prefix_blocks _ _ _ GX GY H) as (Z0 & -> & ->).
      exists [], Z0. auto.
    + rewrite <- Ea in *. clear Ea.
      pose proof (good_length x (GX x (or_introl eq_refl))) as Lx.
      assert (Hm : length a mod 24 = 0).
      { destruct Y as [|y Y]; [congruence|].
        destruct (good_has_eq y (GY y (or_introl eq_refl))) as [E1 E2].
        assert (P1 : forall j, j < 24 -> nth_error y j = Some EQ -> 22 <= (length a + j) mod 24).
        { intros j Hj E. apply (concat_eq_pos (x :: X) (length a + j) GX). rewrite H.
          rewrite nth_error_app2 by lia. replace (length a + j - length a) with j by lia.
          cbn [concat]. rewrite <- app_assoc.
          rewrite nth_error_app1; [exact E|]. apply nth_error_Some. congruence. }
        pose proof (P1 22 ltac:(lia) E1). pose proof (P1 23 ltac:(lia) E2). lia. }
      destruct (Nat.eq_dec (length a) 0) as [Z0|Z0].
      * destruct a; [|discriminate Z0]. cbn [app] in H.
        destruct (concat_prefix_blocks _ _ _ GX GY H) as (Z1 & E & ->).
        exists [], Z1. auto.
      * assert (24 <= length a) as Ha by lia.
        assert (a = x ++ skipn 24 a) as Ax.
        { rewrite <- (firstn_skipn 24 a) at 1. f_equal.
          pose proof (f_equal (firstn 24) H) as F. cbn [concat] in F.
          rewrite (firstn_app_exact 24 _ _ Lx) in F.
          rewrite firstn_app in F. replace (24 - length a) with 0 in F by lia.
          cbn [firstn] in F. rewrite app_nil_r in F. symmetry; exact F. }
        rewrite Ax in H. cbn [concat] in H. rewrite <- app_assoc in H. apply app_inv_head in H.
        destruct (IH (skipn 24 a)) as (X1 & X2 & -> & E & ->); auto.
        { intros b Hb. apply GX. right; exact Hb. }
        exists (x :: X1), X2. split; [reflexivity|]. split; [|reflexivity].
        cbn [concat]. rewrite <- E. exact Ax.
Qed.

(** ** Windows *)
Lemma windows_short k s : length s < k -> windows k s = [].
Proof.
  intros H. destruct s as [|x s]; [reflexivity|]. cbn [windows].
  destruct (Nat.leb_spec k (length (x :: s))); [lia | reflexivity].
Qed.

Lemma windows_cons k x s : k <= S (length s) -> windows k (x :: s) = firstn k (x :: s) :: windows k s.
Proof.
  intros H. cbn [windows length].
  destruct (Nat.leb_spec k (S (length s))); [reflexivity | lia].
Qed.

Lemma windows_length k s : 0 < k -> length (windows k s) = length s + 1 - k.
Proof.
  intros Hk. induction s as [|x s IH]; cbn [windows].
  - cbn [length]. lia.
  - destruct (Nat.leb_spec k (length (x :: s))); cbn [length] in *.
    + rewrite IH. lia.
    + lia.
Qed.

Lemma windows_suffix k a b : exists X, windows k (a ++ b) = X ++ windows k b.
Proof.
  induction a as [|x a [X IH]]; cbn [app].
  - exists []. reflexivity.
  - destruct (Nat.le_gt_cases k (S (length (a ++ b)))) as [H|H].
    + rewrite windows_cons by exact H. rewrite IH. exists (firstn k (x :: a ++ b) :: X). reflexivity.
    + rewrite windows_short by (cbn [length]; lia).
      rewrite windows_short by (rewrite app_length in H; lia). exists []. reflexivity.
Qed.

Lemma windows_prefix k p b : exists Y, windows k (p ++ b) = windows k p ++ Y.
Proof.
  induction p as [|x p [Y IH]]; cbn [app].
  - exists (windows k b). reflexivity.
  - destruct (Nat.le_gt_cases k (S (length p))) as [H|H].
    + rewrite windows_cons by (rewrite app_length; lia).
      rewrite (windows_cons k x p) by exact H. rewrite IH. exists Y. cbn [app]. f_equal.
      change (x :: p ++ b) with ((x :: p) ++ b). rewrite firstn_app.
      replace (k - length (x :: p)) with 0 by (cbn [length]; lia).
      cbn [firstn]. apply app_nil_r.
    + rewrite (windows_short k (x :: p)) by (cbn [length]; lia). eexists; reflexivity.
Qed.

Lemma windows_suffix_len k a b :
  0 < k -> exists X, windows k (a ++ b) = X ++ windows k b /\ (k <= length b -> length X = length a).
Proof.
  intros Hk. destruct (windows_suffix k a b) as [X HX]. exists X. split; [exact HX|].
  intros Hb. apply (f_equal (@length pystr)) in HX. rewrite app_length, !windows_length in HX by exact Hk.
  rewrite app_length in HX. lia.
Qed.

(** Part of the middle: the windows of [p] inside those of [a ++ p ++ b], with the windows of
    [b] after them. *)
Lemma windows_mid0 k p b :
  k <= length p -> exists Z0, windows k (p ++ b) = windows k p ++ Z0 ++ windows k b.
Proof.
  induction p as [|x p IH]; intros H.
  - exists []. reflexivity.
  - cbn [app]. rewrite windows_cons by (rewrite app_length; cbn [length] in H; lia).
    rewrite (windows_cons k x p) by exact H.
    assert (F : firstn k (x :: p ++ b) = firstn k (x :: p)).
    { change (x :: p ++ b) with ((x :: p) ++ b). rewrite firstn_app.
      replace (k - length (x :: p)) with 0 by lia. cbn [firstn]. apply app_nil_r. }
    rewrite F. destruct (Nat.le_gt_cases k (length p)) as [H'|H'].
    + destruct (IH H') as [Z0 HZ]. rewrite HZ. exists Z0. reflexivity.
    + rewrite (windows_short k p) by exact H'. cbn [app].
      destruct (windows_suffix k p b) as [Z0 HZ]. rewrite HZ. exists Z0. reflexivity.
Qed.

Lemma windows_mid k a p b :
  exists X Z0, windows k (a ++ p ++ b) = X ++ windows k p ++ Z0 ++ windows k b.
Proof.
  destruct (Nat.le_gt_cases k (length p)) as [H|H].
  - destruct (windows_suffix k a (p ++ b)) as [X HX].
    destruct (windows_mid0 k p b H) as [Z0 HZ].
    exists X, Z0. rewrite HX, HZ. reflexivity.
  - rewrite (windows_short k p) by exact H. cbn [app].
    destruct (windows_suffix k (a ++ p) b) as [Z0 HZ]. exists [], Z0.
    rewrite <- app_assoc in HZ. rewrite HZ. reflexivity.
Qed.

(** Recovering a prefix from its windows. *)
Lemma windows_prefix_inv k s v W :
  0 < k -> k <= length s -> windows k v = windows k s ++ W -> exists b, v = s ++ b.
Proof.
  intros Hk. revert v; induction s as [|x s IH]; intros v Hs H.
  - cbn [length] in Hs. lia.
  - rewrite windows_cons in H by exact Hs.
    destruct v as [|y v]; [discriminate|].
    assert (Hv : k <= S (length v)).
    { destruct (Nat.le_gt_cases k (S (length v))) as [G|G]; [exact G|].
      rewrite windows_short in H by exact G. discriminate. }
    rewrite windows_cons in H by exact Hv. cbn [app] in H. injection H as H1 H2.
    destruct (Nat.le_gt_cases k (length s)) as [Hs'|Hs'].
    + destruct (IH v Hs' H2) as [b ->].
      destruct k as [|k]; [lia|]. cbn [firstn] in H1. injection H1 as -> _.
      exists b. reflexivity.
    + assert (k = length (x :: s)) as -> by (cbn [length] in *; lia).
      rewrite (firstn_all (x :: s)) in H1.
      exists (skipn (length (x :: s)) (y :: v)).
      rewrite <- H1 at 1. symmetry. apply firstn_skipn.
Qed.

Lemma windows_sub_inv k s v W1 W2 :
  0 < k -> k <= length s -> windows k v = W1 ++ windows k s ++ W2 ->
  exists a b, v = a ++ s ++ b /\ length a = length W1 /\ length b = length W2.
Proof.
  intros Hk Hs. revert v; induction W1 as [|w W1 IH]; intros v H.
  - cbn [app] in H. destruct (windows_prefix_inv k s v W2 Hk Hs H) as [b ->].
    exists [], b. split; [reflexivity|]. split; [reflexivity|].
    apply (f_equal (@length pystr)) in H. rewrite app_length, !windows_length in H by exact Hk.
    rewrite app_length in H. lia.
  - destruct v as [|y v]; [discriminate|].
    assert (Hv : k <= S (length v)).
    { destruct (Nat.le_gt_cases k (S (length v))) as [G|G]; [exact G|].
      rewrite windows_short in H by exact G. discriminate. }
    rewrite windows_cons in H by exact Hv. cbn [app] in H. injection H as _ H2.
    destruct (IH v H2) as (a & b & -> & La & Lb).
    exists (y :: a), b. cbn [app length]. auto.
Qed.

Lemma windows_elem k s w : In w (windows k s) -> exists a b, s = a ++ w ++ b /\ length w = k.
Proof.
  induction s as [|x s IH]; cbn [windows]; [intros []|].
  destruct (Nat.leb_spec k (length (x :: s))) as [H|H]; [|intros []].
  intros [<-|Hw].
  - exists [], (skipn k (x :: s)). cbn [app]. rewrite firstn_skipn. split; [reflexivity|].
    rewrite firstn_length. lia.
  - destruct (IH Hw) as (a & b & E & L). exists (x :: a), b. rewrite E at 1. auto.
Qed.

(** ** Tokens of a value *)
Definition toks (k : nat) (v : pystr) : list pystr :=
  match v with
  | [] => []
  | _ => if Nat.ltb (length v) k then [v] else windows k v
  end.

Lemma toks_nonnil k v : v <> [] -> toks k v = if Nat.ltb (length v) k then [v] else windows k v.
Proof. destruct v; [congruence | reflexivity]. Qed.

Lemma text_scalar s : forallb textc s = true -> forallb scalar s = true.
Proof.
  intros H. rewrite forallb_forall in *. intros x Hx. specialize (H x Hx). unfold textc in H.
  apply andb_true_iff in H. apply H.
Qed.

Section F.
Context (alnum : N -> bool) (P : prim) (HP : prim_ok P) (key : pystr).

Definition encw (w : pystr) : pystr := match aes_encrypt P key w with Ok c => c | Err _ => [] end.

Lemma utf8_size_le c : 1 <= utf8_size c <= 4.
Proof. unfold utf8_size. destruct (c <? 128)%N, (c <? 2048)%N, (c <? 65536)%N; lia. Qed.

Lemma nbytes_bounds s : length s <= nbytes s <= 4 * length s.
Proof.
  induction s as [|c s IH]; cbn [nbytes fold_right length]; [lia|].
  fold (nbytes s). pose proof (utf8_size_le c). lia.
Qed.

Lemma encw_ok w : forallb scalar w = true -> aes_encrypt P key w = Ok (encw w).
Proof.
  intros H. unfold encw.
  destruct (aes_encrypt_ok P HP key w H) as [c Hc]. rewrite Hc. reflexivity.
Qed.

Lemma encw_good w : forallb scalar w = true -> 1 <= length w <= 4 -> good (encw w).
Proof.
  intros H L. pose proof (encw_ok w H) as E. pose proof (nbytes_bounds w) as B.
  apply aes_encrypt_inv in E. destruct E as (b & e & Hb & He & ->).
  apply b64_16_good.
  destruct (ecb_ok (aes_enc_block P (kdf P key)) (aes_pad b)) as (e' & He' & Le).
  - intros bl; apply (aes_len P HP).
  - rewrite aes_pad_length. rewrite Nat.mul_comm, Nat.mod_mul by lia. reflexivity.
  - rewrite He' in He. injection He as ->. rewrite Le, aes_pad_length.
    rewrite (utf8_encode_length _ _ Hb). unfold nblocks. lia.
Qed.

Lemma rstrip_text w : forallb textc w = true -> rstrip 0 w = w.
Proof.
  intros H. apply rstrip_fix. destruct w as [|x w]; [left; reflexivity|]. right.
  assert (I : In (last (x :: w) 0%N) (x :: w)).
  { clear. revert x. induction w as [|y w IH]; intros x; [left; reflexivity|].
    right. apply IH. }
  rewrite forallb_forall in H. specialize (H _ I). unfold textc in H.
  apply andb_true_iff in H. destruct H as [_ H]. destruct (N.eqb_spec (last (x :: w) 0%N) 0); [discriminate | assumption].
Qed.

(** Ciphertexts do not show trailing NULs. *)
Lemma encw_pad v w :
  forallb scalar v = true -> forallb textc w = true -> encw v = encw w -> exists n, v = w ++ repeat 0%N n.
Proof.
  intros Hv Hw E.
  pose proof (aes_roundtrip P HP key v _ (encw_ok v Hv)) as R1.
  pose proof (aes_roundtrip P HP key w _ (encw_ok w (text_scalar w Hw))) as R2.
  rewrite (rstrip_text w Hw) in R2. rewrite E, R2 in R1. injection R1 as R1.
  destruct (rstrip_decomp 0 v) as [n Hn]. rewrite <- R1 in Hn. exists n. exact Hn.
Qed.

Lemma encw_inj v w :
  forallb scalar v = true -> forallb textc w = true -> length v <= length w -> encw v = encw w -> v = w.
Proof.
  intros Hv Hw L E. destruct (encw_pad v w Hv Hw E) as [n ->]. rewrite app_length, repeat_length in L.
  destruct n; [apply app_nil_r|lia].
Qed.

(** Window length chosen by the cipher for a text. *)
Definition klen (v : pystr) : nat := if isalnum alnum v then 3 else 2.

Lemma windows_text (f : N -> bool) k s w : forallb f s = true -> In w (windows k s) -> forallb f w = true.
Proof.
  intros H Hw. apply windows_elem in Hw. destruct Hw as (a & b & -> & _).
  rewrite !forallb_app in H. apply andb_true_iff in H. destruct H as [_ H].
  apply andb_true_iff in H. apply H.
Qed.

Lemma fuzzy_encrypt_toks v :
  forallb scalar v = true ->
  fuzzy_encrypt alnum P key v = Ok (concat (map encw (toks (klen v) v))).
Proof.
  intros H. destruct v as [|x v'] eqn:Ev.
  - reflexivity.
  - rewrite <- Ev in *. rewrite (toks_nonnil (klen v) v) by congruence.
    unfold fuzzy_encrypt, klen. clear Ev.
    assert (S0 : aes_encrypt P key v = Ok (concat (map encw [v]))).
    { cbn [map concat]. rewrite app_nil_r. apply encw_ok, H. }
    destruct (isalnum alnum v).
    + destruct (length v <? 3); [exact S0|].
      rewrite (mapM_map _ encw); [reflexivity|].
      intros w Hw. apply encw_ok, (windows_text scalar 3 v w H Hw).
    + destruct (length v <? 2); [exact S0|].
      rewrite (mapM_map _ encw); [reflexivity|].
      intros w Hw. apply encw_ok, (windows_text scalar 2 v w H Hw).
Qed.

Lemma toks_In (f : N -> bool) k v w :
  forallb f v = true -> In w (toks k v) -> forallb f w = true /\ length w <= k.
Proof.
  intros H Hw. unfold toks in Hw. destruct v as [|x v'] eqn:Ev; [destruct Hw|].
  rewrite <- Ev in *. clear Ev. destruct (Nat.ltb_spec (length v) k).
  - destruct Hw as [<-|[]]. split; [exact H | lia].
  - split; [apply (windows_text f k v w H Hw)|]. apply windows_elem in Hw.
    destruct Hw as (a & b & _ & L). lia.
Qed.

Lemma toks_nonempty k v w : 0 < k -> In w (toks k v) -> w <> [].
Proof.
  intros Hk Hw. unfold toks in Hw. destruct v as [|x v'] eqn:Ev; [destruct Hw|].
  rewrite <- Ev in *. destruct (Nat.ltb_spec (length v) k).
  - destruct Hw as [<-|[]]. rewrite Ev. discriminate.
  - apply windows_elem in Hw. destruct Hw as (a & b & _ & L).
    intros ->. cbn [length] in L. lia.
Qed.

Lemma toks_good k v b :
  0 < k <= 4 -> forallb scalar v = true -> In b (map encw (toks k v)) -> good b.
Proof.
  intros Hk H Hb. apply in_map_iff in Hb. destruct Hb as (w & <- & Hw).
  destruct (toks_In scalar k v w H Hw) as [T L].
  pose proof (toks_nonempty k v w ltac:(lia) Hw) as Hn.
  apply encw_good; [exact T|]. destruct w; [congruence | cbn [length] in *; lia].
Qed.

Lemma map_encw_inj k l m :
  (forall w, In w l -> forallb scalar w = true /\ length w <= k) ->
  (forall w, In w m -> forallb textc w = true /\ length w = k) ->
  map encw l = map encw m -> l = m.
Proof.
  revert m; induction l as [|a l IH]; intros [|b m] Hl Hm E; cbn [map] in E; try discriminate; [reflexivity|].
  injection E as E1 E2. f_equal.
  - destruct (Hl a (or_introl eq_refl)), (Hm b (or_introl eq_refl)).
    apply encw_inj; [assumption | assumption | lia | exact E1].
  - apply IH; [intros w Hw; apply Hl; right; exact Hw | intros w Hw; apply Hm; right; exact Hw | exact E2].
Qed.

Lemma windows_toks k v : 0 < k -> k <= length v -> toks k v = windows k v.
Proof.
  intros Hk Hv. unfold toks. destruct v as [|x v'] eqn:E; [cbn in Hv; lia|]. rewrite <- E in *.
  destruct (Nat.ltb_spec (length v) k); [lia | reflexivity].
Qed.

(** An occurrence in ciphertext text is an occurrence of tokens. *)
Lemma cipher_occurrence k v s a r :
  0 < k <= 3 -> forallb scalar v = true -> forallb textc s = true -> 3 <= length s ->
  concat (map encw (toks k v)) = a ++ concat (map encw (toks k s)) ++ r ->
  exists W1 W2, toks k v = W1 ++ toks k s ++ W2 /\
                length a = 24 * length W1 /\ length r = 24 * length W2.
Proof.
  intros Hk Hv Hs Ls H.
  assert (Hn : toks k s <> []).
  { unfold toks. destruct s as [|x s'] eqn:E; [cbn in Ls; lia|]. rewrite <- E in *.
    destruct (Nat.ltb_spec (length s) k); [discriminate|].
    intros W. apply (f_equal (@length pystr)) in W. rewrite windows_length in W by lia.
    cbn [length] in W. lia. }
  destruct (aligned (map encw (toks k v)) (map encw (toks k s)) a r) as (X1 & X2 & E & Ea & Er).
  - intros b Hb. apply (toks_good k v b ltac:(lia) Hv Hb).
  - intros b Hb. apply (toks_good k s b ltac:(lia) (text_scalar s Hs) Hb).
  - intros M. apply map_eq_nil in M. contradiction.
  - exact H.
  - apply map_eq_app in E. destruct E as (W1 & R1 & ER & <- & E).
    symmetry in E. apply eq_sym in E. apply map_eq_app in E.
    destruct E as (S0 & W2 & -> & E1 & <-).
    assert (S0 = toks k s) as ->.
    { apply (map_encw_inj k); [| |exact E1].
      - intros w Hw. apply (toks_In scalar k v w Hv). rewrite ER.
        apply in_app_iff. right. apply in_app_iff. left; exact Hw.
      - intros w Hw. split; [apply (toks_In textc k s w Hs Hw)|].
        rewrite windows_toks in Hw by lia. apply windows_elem in Hw. destruct Hw as (_ & _ & _ & L). exact L. }
    exists W1, W2. split; [exact ER|].
    assert (LC : forall W, (forall w, In w W -> In w (toks k v)) ->
                 length (concat (map encw W)) = 24 * length W).
    { clear - alnum HP Hk Hv. induction W as [|w W IH]; intros HW; [reflexivity|].
      cbn [map concat length]. rewrite app_length.
      rewrite (good_length (encw w)).
      - rewrite IH by (intros w' Hw'; apply HW; right; exact Hw'). lia.
      - apply (toks_good k v); [lia | exact Hv |]. apply in_map. apply HW. left; reflexivity. }
    rewrite Ea, Er. split; apply LC; intros w Hw; rewrite ER.
    + apply in_app_iff; left; exact Hw.
    + apply in_app_iff; right. apply in_app_iff; right; exact Hw.
Qed.

(** Tokens of a part inside the tokens of a value: the value contains the part. *)
Lemma toks_sub_inv k v s W1 W2 :
  0 < k <= 3 -> 3 <= length s ->
  toks k v = W1 ++ toks k s ++ W2 ->
  exists a b, v = a ++ s ++ b /\ length a = length W1 /\ length b = length W2.
Proof.
  intros Hk Ls H.
  assert (Es : toks k s = windows k s).
  { unfold toks. destruct s as [|x s'] eqn:E; [cbn in Ls; lia|]. rewrite <- E in *.
    destruct (Nat.ltb_spec (length s) k); [lia | reflexivity]. }
  rewrite Es in H.
  destruct (Nat.lt_ge_cases (length v) k) as [Hv|Hv].
  - (* a short value has one token, shorter than every window *)
    exfalso. assert (I : exists w, In w (windows k s)).
    { destruct (windows k s) as [|w W] eqn:E; [|exists w; left; reflexivity].
      apply (f_equal (@length pystr)) in E. rewrite windows_length in E by lia.
      cbn [length] in E. lia. }
    destruct I as [w Hw]. pose proof Hw as Hw2. apply windows_elem in Hw2.
    destruct Hw2 as (_ & _ & _ & Lw).
    assert (I : In w (toks k v)).
    { rewrite H. apply in_app_iff. right. apply in_app_iff. left; exact Hw. }
    unfold toks in I. destruct v as [|y v'] eqn:E; [destruct I|]. rewrite <- E in *.
    destruct (Nat.ltb_spec (length v) k); [|lia].
    destruct I as [<-|[]]. lia.
  - assert (Ev : toks k v = windows k v).
    { unfold toks. destruct v as [|x v'] eqn:E; [cbn in Hv; lia|]. rewrite <- E in *.
      destruct (Nat.ltb_spec (length v) k); [lia | reflexivity]. }
    rewrite Ev in H. apply (windows_sub_inv k s v W1 W2); [lia | lia | exact H].
Qed.

Lemma alphabet_plain c : b64_alphabet c -> plainc c = true.
Proof. unfold b64_alphabet, plainc. lia. Qed.

Lemma encw_plain w : forallb scalar w = true -> forallb plainc (encw w) = true.
Proof.
  intros H. apply forallb_forall. intros c Hc. apply alphabet_plain.
  apply (proj1 (aes_shape P HP key w _ (encw_ok w H)) c Hc).
Qed.

Lemma toks_plain k v :
  forallb scalar v = true -> forallb plainc (concat (map encw (toks k v))) = true.
Proof.
  intros Hv. apply forallb_forall. intros c Hc. apply in_concat in Hc.
  destruct Hc as (b & Hb & Hc). apply in_map_iff in Hb. destruct Hb as (w & <- & Hw).
  pose proof (encw_plain w (proj1 (toks_In scalar k v w Hv Hw))) as F.
  rewrite forallb_forall in F. apply F, Hc.
Qed.

(** ** The encrypted pattern *)
Definition encpart (k : nat) (p : pystr) : pystr := concat (map encw (toks k p)).

(** Parts that may appear: empty, or at least three searchable characters of the class. *)
Definition part_ok (cls : bool) (p : pystr) : Prop :=
  p = [] \/ (3 <= length p /\ forallb textc p = true /\ isalnum alnum p = cls).

Lemma fuzzy_part_ok cls p :
  part_ok cls p -> fuzzy_part alnum P key p = Ok (encpart (if cls then 3 else 2) p).
Proof.
  intros [->|(L & T & C)]; [reflexivity|].
  unfold fuzzy_part. destruct p as [|x p'] eqn:E; [cbn in L; lia|]. rewrite <- E in *.
  destruct (Nat.ltb_spec (length p) 3); [lia|].
  rewrite (fuzzy_encrypt_toks p (text_scalar p T)). unfold klen. rewrite C. reflexivity.
Qed.

Lemma fuzzy_pattern_ok cls ps :
  ps <> [] -> (forall p, In p ps -> part_ok cls p) -> (forall p, In p ps -> has_char PCT p = false) ->
  fuzzy_pattern alnum P key (join [PCT] ps) = Ok (join [PCT] (map (encpart (if cls then 3 else 2)) ps)).
Proof.
  intros Hn Hp Hc. unfold fuzzy_pattern.
  rewrite split_join by assumption.
  rewrite (mapM_map _ (encpart (if cls then 3 else 2))); [reflexivity|].
  intros p Hi. apply fuzzy_part_ok, Hp, Hi.
Qed.

Lemma encpart_plain cls p : part_ok cls p -> forallb plainc (encpart (if cls then 3 else 2) p) = true.
Proof.
  intros [->|(L & T & C)]; [reflexivity|].
  apply toks_plain, text_scalar, T.
Qed.

(** Completeness on parts. *)
Lemma tmatch_encode k ps v :
  0 < k <= 3 -> (forall p, In p ps -> p = [] \/ 3 <= length p) ->
  tmatch ps v -> tmatch (map (encpart k) ps) (concat (map encw (windows k v))).
Proof.
  intros Hk. revert v; induction ps as [|p ps IH]; intros v Hp H; [exact I|].
  assert (Ep : encpart k p = concat (map encw (windows k p))).
  { destruct (Hp p (or_introl eq_refl)) as [->|L]; [reflexivity|].
    unfold encpart. rewrite windows_toks by lia. reflexivity. }
  destruct ps as [|q ps].
  - destruct H as [a ->]. cbn [map tmatch]. rewrite Ep.
    destruct (windows_suffix k a p) as [X ->]. rewrite map_app, concat_app.
    eexists; reflexivity.
  - destruct H as (a & b & -> & H).
    change (exists a0 b0, concat (map encw (windows k (a ++ p ++ b))) = a0 ++ encpart k p ++ b0 /\
              tmatch (map (encpart k) (q :: ps)) b0).
    destruct (windows_mid k a p b) as (X & Z0 & ->).
    rewrite !map_app, !concat_app. rewrite Ep.
    exists (concat (map encw X)), (concat (map encw Z0) ++ concat (map encw (windows k b))).
    split; [reflexivity|].
    assert (T : tmatch (map (encpart k) (q :: ps)) (concat (map encw (windows k b)))).
    { apply IH; [|exact H]. intros r Hr. apply Hp. right; exact Hr. }
    revert T. generalize (concat (map encw Z0)) (concat (map encw (windows k b))).
    intros z t. cbn [map]. destruct (map (encpart k) ps) as [|m ms].
    + intros [a0 ->]. exists (z ++ a0). apply app_assoc.
    + intros (a0 & b0 & -> & T). exists (z ++ a0), b0. rewrite app_assoc. split; [reflexivity | exact T].
Qed.

Lemma pmatch_encode k ps v :
  0 < k <= 3 -> ps <> [] -> (forall p, In p ps -> p = [] \/ 3 <= length p) ->
  pmatch ps v -> pmatch (map (encpart k) ps) (encpart k v).
Proof.
  intros Hk Hn Hp H. destruct ps as [|p ps]; [congruence|].
  destruct ps as [|q ps].
  - cbn [pmatch map] in *. subst. reflexivity.
  - cbn [pmatch map] in *. destruct H as (s' & -> & T).
    destruct (Hp p (or_introl eq_refl)) as [->|L].
    + cbn [app]. exists (encpart k s'). split; [reflexivity|].
      destruct (Nat.le_gt_cases k (length s')) as [Hl|Hl].
      * unfold encpart at 3. rewrite windows_toks by lia.
        apply (tmatch_encode k (q :: ps) s' Hk); [|exact T].
        intros r Hr. apply Hp. right; exact Hr.
      * (* a short text: all parts are empty *)
        assert (G : forall (qs : list pystr) (t : pystr) z, tmatch qs t -> length t < k ->
                    (forall r, In r qs -> r = [] \/ 3 <= length r) ->
                    tmatch (map (encpart k) qs) z).
        { clear - Hk. induction qs as [|r qs IH]; intros t z T Ht Hr; [exact I|].
          destruct qs as [|r2 qs].
          - destruct T as [a ->]. destruct (Hr r (or_introl eq_refl)) as [->|L].
            + cbn [map tmatch]. exists z. rewrite app_nil_r. reflexivity.
            + rewrite app_length in Ht. lia.
          - destruct T as (a & b & -> & T). rewrite !app_length in Ht.
            destruct (Hr r (or_introl eq_refl)) as [->|L]; [|lia].
            change (exists a0 b0, z = a0 ++ encpart k [] ++ b0 /\ tmatch (map (encpart k) (r2 :: qs)) b0).
            exists [], z. split; [reflexivity|]. apply (IH b z T); [lia|].
            intros x Hx. apply Hr. right; exact Hx. }
        apply (G (q :: ps) s' (encpart k s') T Hl). intros r Hr. apply Hp. right; exact Hr.
    + assert (Ep : encpart k p = concat (map encw (windows k p)))
        by (unfold encpart; rewrite windows_toks by lia; reflexivity).
      assert (Ev : encpart k (p ++ s') = concat (map encw (windows k (p ++ s'))))
        by (unfold encpart; rewrite windows_toks by (rewrite ?app_length; lia); reflexivity).
      rewrite Ep, Ev.
      destruct (windows_mid0 k p s') as [Z1 EZ]; [lia|].
      rewrite EZ, !map_app, !concat_app.
      exists (concat (map encw Z1) ++ concat (map encw (windows k s'))). split; [reflexivity|].
      assert (T2 : tmatch (map (encpart k) (q :: ps)) (concat (map encw (windows k s')))).
      { apply tmatch_encode; [exact Hk| |exact T]. intros r Hr. apply Hp. right; exact Hr. }
      revert T2. generalize (concat (map encw Z1)) (concat (map encw (windows k s'))).
      intros z t. cbn [map]. destruct (map (encpart k) ps) as [|m ms].
      * intros [a0 ->]. exists (z ++ a0). apply app_assoc.
      * intros (a0 & b0 & -> & T2). exists (z ++ a0), b0. rewrite app_assoc. split; [reflexivity | exact T2].
Qed.

(** Completeness of LIKE. *)
Lemma like_complete cls ps v :
  ps <> [] -> (forall p, In p ps -> part_ok cls p) -> (forall p, In p ps -> forallb plainc p = true) ->
  forallb scalar v = true -> isalnum alnum v = cls ->
  like (join [PCT] ps) v = true ->
  exists pat c, fuzzy_pattern alnum P key (join [PCT] ps) = Ok pat /\
                fuzzy_encrypt alnum P key v = Ok c /\ like pat c = true.
Proof.
  intros Hn Hp Hc Hv Cv L.
  set (k := if cls then 3 else 2).
  exists (join [PCT] (map (encpart k) ps)), (encpart k v).
  split; [|split].
  - apply fuzzy_pattern_ok; [exact Hn | exact Hp|].
    intros p Hi. specialize (Hc p Hi). unfold has_char.
    destruct (existsb (N.eqb PCT) p) eqn:E; [|reflexivity].
    apply existsb_exists in E. destruct E as (x & Hx & Ex). apply N.eqb_eq in Ex. subst x.
    rewrite forallb_forall in Hc. specialize (Hc _ Hx). discriminate.
  - rewrite (fuzzy_encrypt_toks v Hv). unfold klen, encpart, k. rewrite Cv. reflexivity.
  - apply like_parts in L; [|exact Hn|exact Hc].
    apply like_parts.
    + intros M. apply map_eq_nil in M. contradiction.
    + intros p Hi. apply in_map_iff in Hi. destruct Hi as (p0 & <- & Hi).
      apply encpart_plain, Hp, Hi.
    + apply pmatch_encode; [subst k; destruct cls; lia | exact Hn | | exact L].
      intros p Hi. destruct (Hp p Hi) as [->|(L3 & _)]; auto.
Qed.

(** Exactness for one non-empty part. *)
Definition pct (b : bool) : pystr := if b then [PCT] else [].

Definition one_part (l r : bool) (s : pystr) : list pystr :=
  (if l then [[]] else []) ++ [s] ++ (if r then [[]] else []).

Lemma one_part_join l r s : pct l ++ s ++ pct r = join [PCT] (one_part l r s).
Proof. destruct l, r; cbn; rewrite ?app_nil_r; reflexivity. Qed.

Lemma one_part_pmatch l r s {A} (f : list N -> list A) (v : list A) :
  f [] = [] ->
  pmatch (map f (one_part l r s)) v <->
  exists a b, v = a ++ f s ++ b /\ (l = false -> a = []) /\ (r = false -> b = []).
Proof.
  intros F0. destruct l, r; unfold one_part; cbn [app map pmatch tmatch]; rewrite ?F0; split.
  - intros (s' & -> & a & b & -> & c & ->). cbn [app]. exists a, (c ++ []).
    split; [reflexivity|]. split; discriminate.
  - intros (a & b & -> & _). exists (a ++ f s ++ b). split; [reflexivity|].
    exists a, b. split; [reflexivity|]. exists b. rewrite app_nil_r. reflexivity.
  - intros (s' & -> & a & ->). exists a, []. rewrite app_nil_r. cbn [app].
    split; [reflexivity|]. split; [discriminate | reflexivity].
  - intros (a & b & -> & _ & Hb). rewrite (Hb eq_refl), app_nil_r.
    exists (a ++ f s). split; [reflexivity|]. exists a. reflexivity.
  - intros (s' & -> & a & ->). exists [], (a ++ []). cbn [app].
    split; [reflexivity|]. split; [reflexivity | discriminate].
  - intros (a & b & -> & Ha & _). rewrite (Ha eq_refl). cbn [app].
    exists b. split; [reflexivity|]. exists b. rewrite app_nil_r. reflexivity.
  - intros ->. exists [], []. rewrite app_nil_r. auto.
  - intros (a & b & -> & Ha & Hb). rewrite (Ha eq_refl), (Hb eq_refl), app_nil_r. reflexivity.
Qed.

Lemma like_exact l r s v :
  forallb scalar v = true -> forallb textc s = true -> 3 <= length s ->
  forallb plainc s = true -> isalnum alnum s = isalnum alnum v ->
  exists pat c,
    fuzzy_pattern alnum P key (pct l ++ s ++ pct r) = Ok pat /\
    fuzzy_encrypt alnum P key v = Ok c /\
    like pat c = like (pct l ++ s ++ pct r) v.
Proof.
  intros Hv Hs Ls Ps Cs.
  set (cls := isalnum alnum v) in *. set (k := if cls then 3 else 2).
  assert (Hk : 0 < k <= 3) by (subst k; destruct cls; lia).
  rewrite one_part_join.
  assert (Hn : one_part l r s <> []) by (destruct l, r; discriminate).
  assert (Hin : forall p, In p (one_part l r s) -> p = [] \/ p = s).
  { intros p Hp. unfold one_part in Hp. destruct l, r; cbn [app In] in Hp; intuition congruence. }
  assert (Hpo : forall p, In p (one_part l r s) -> part_ok cls p).
  { intros p Hp. destruct (Hin p Hp) as [->| ->]; [left; reflexivity | right; auto]. }
  assert (Hpl : forall p, In p (one_part l r s) -> forallb plainc p = true).
  { intros p Hp. destruct (Hin p Hp) as [->| ->]; [reflexivity | exact Ps]. }
  exists (join [PCT] (map (encpart k) (one_part l r s))), (encpart k v).
  split; [|split].
  - apply fuzzy_pattern_ok; [exact Hn | exact Hpo|].
    intros p Hi. specialize (Hpl p Hi). unfold has_char.
    destruct (existsb (N.eqb PCT) p) eqn:E; [|reflexivity].
    apply existsb_exists in E. destruct E as (x & Hx & Ex). apply N.eqb_eq in Ex. subst x.
    rewrite forallb_forall in Hpl. specialize (Hpl _ Hx). discriminate.
  - rewrite (fuzzy_encrypt_toks v Hv). reflexivity.
  - apply eq_true_iff_eq. rewrite !like_parts.
    + rewrite (one_part_pmatch l r s (encpart k)) by reflexivity.
      rewrite <- (map_id (one_part l r s)) at 1.
      rewrite (one_part_pmatch l r s (fun x => x)) by reflexivity.
      split.
      * intros (a & b & E & Ha & Hb).
        destruct (cipher_occurrence k v s a b Hk Hv Hs Ls E) as (W1 & W2 & ET & La & Lb).
        destruct (toks_sub_inv k v s W1 W2 Hk Ls ET) as (x & y & -> & Lx & Ly).
        exists x, y. split; [reflexivity|]. split.
        -- intros Hl. rewrite (Ha Hl) in La. cbn [length] in La. apply length_zero_iff_nil. lia.
        -- intros Hr. rewrite (Hb Hr) in Lb. cbn [length] in Lb. apply length_zero_iff_nil. lia.
      * intros M.
        assert (PM : pmatch (map (fun x => x) (one_part l r s)) v)
          by (apply (one_part_pmatch l r s (fun x => x)); [reflexivity | exact M]).
        rewrite map_id in PM.
        apply (one_part_pmatch l r s (encpart k)); [reflexivity|].
        apply pmatch_encode; [exact Hk | exact Hn | | exact PM].
        intros p Hp. destruct (Hin p Hp) as [->| ->]; auto.
    + exact Hn.
    + exact Hpl.
    + intros M. apply map_eq_nil in M. contradiction.
    + intros p Hi. apply in_map_iff in Hi. destruct Hi as (p0 & <- & Hi).
      apply encpart_plain, Hpo, Hi.
Qed.

(** Length of the fuzzy ciphertext. *)
Lemma fuzzy_length v :
  forallb scalar v = true -> klen v <= length v ->
  exists c, fuzzy_encrypt alnum P key v = Ok c /\ length c = 24 * (length v + 1 - klen v).
Proof.
  intros Hv Hl. exists (encpart (klen v) v). split; [apply fuzzy_encrypt_toks, Hv|].
  assert (Hk : 0 < klen v <= 3) by (unfold klen; destruct (isalnum alnum v); lia).
  assert (G : forall W, (forall w, In w W -> In w (toks (klen v) v)) ->
              length (concat (map encw W)) = 24 * length W).
  { induction W as [|w W IH]; intros HW; [reflexivity|].
    cbn [map concat length]. rewrite app_length.
    rewrite (good_length (encw w)).
    - rewrite IH by (intros w' Hw'; apply HW; right; exact Hw'). lia.
    - apply (toks_good (klen v) v); [lia | exact Hv |]. apply in_map. apply HW. left; reflexivity. }
  unfold encpart. rewrite G by auto. rewrite windows_toks by lia. rewrite windows_length by lia.
  reflexivity.
Qed.

Lemma fuzzy_capacity v :
  forallb scalar v = true ->
  exists c, fuzzy_encrypt alnum P key v = Ok c /\
            (length c <= 2000 <-> length v <= (if isalnum alnum v then 85 else 84)).
Proof.
  intros Hv. destruct (Nat.le_gt_cases (klen v) (length v)) as [H|H].
  - destruct (fuzzy_length v Hv H) as (c & Hc & L). exists c. split; [exact Hc|].
    rewrite L. unfold klen in *. destruct (isalnum alnum v); lia.
  - eexists. split; [apply fuzzy_encrypt_toks, Hv|].
    assert (K : klen v <= 3) by (unfold klen; destruct (isalnum alnum v); lia).
    split; intros _; [destruct (isalnum alnum v); lia|].
    unfold toks. destruct v as [|x v'] eqn:E; [cbn; lia|]. rewrite <- E in *.
    destruct (Nat.ltb_spec (length v) (klen v)); [|lia].
    cbn [map concat]. rewrite app_nil_r.
    rewrite (good_length (encw v)); [lia|]. apply encw_good; [exact Hv|].
    rewrite E in *. cbn [length] in *. lia.
Qed.

Lemma fuzzy_short_rejected ps p :
  ps <> [] -> (forall q, In q ps -> has_char PCT q = false) ->
  In p ps -> 0 < length p < 3 ->
  exists e, fuzzy_pattern alnum P key (join [PCT] ps) = Err e.
Proof.
  intros Hn Hc Hp Hl. unfold fuzzy_pattern. rewrite split_join by assumption.
  assert (G : exists e, mapM (fuzzy_part alnum P key) ps = Err e).
  { clear Hn Hc. induction ps as [|q ps IH]; [destruct Hp|]. cbn [mapM].
    destruct Hp as [->|Hp].
    - assert (fuzzy_part alnum P key p = Err Generic) as ->; [|eexists; reflexivity].
      unfold fuzzy_part. destruct p as [|x p']; [cbn in Hl; lia|].
      destruct (Nat.ltb_spec (length (x :: p')) 3); [reflexivity | lia].
    - destruct (IH Hp) as [e He]. rewrite He. unfold bind.
      destruct (fuzzy_part alnum P key q); eexists; reflexivity. }
  destruct G as [e ->]. exists e. reflexivity.
Qed.
End F.
