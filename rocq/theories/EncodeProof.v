(** Proofs about the numeric encoding. *)
From Coq Require Import String Ascii List NArith ZArith QArith Qabs Bool Lia Lqa.
From Verif Require Import Base EncodeModel.
Import ListNotations.
Open Scope Q_scope.

(** ** Truncation *)
Lemma trunc_nonneg q : 0 <= q -> inject_Z (trunc q) <= q /\ q < inject_Z (trunc q) + 1.
Proof.
  destruct q as [n d]. unfold trunc, Qle, Qlt. cbn [Qnum Qden inject_Z Qplus Qle]. intros H.
  pose proof (Z.quot_rem' n (Zpos d)). pose proof (Z.rem_bound_pos n (Zpos d) ltac:(lia) ltac:(lia)).
  lia.
Qed.

Lemma trunc_opp q : trunc (- q) = (- trunc q)%Z.
Proof. destruct q as [n d]. unfold trunc. cbn. apply Z.quot_opp_l. lia. Qed.

Lemma trunc_nonneg_Z q : 0 <= q -> (0 <= trunc q)%Z.
Proof.
  intros H. destruct (trunc_nonneg q H) as [_ B].
  assert (-1 < trunc q)%Z; [|lia].
  rewrite Zlt_Qlt. change (inject_Z (-1)) with (-1). lra.
Qed.

Lemma trunc_mono_nonneg q r : 0 <= q -> q <= r -> (trunc q <= trunc r)%Z.
Proof.
  intros H L. destruct (trunc_nonneg q H) as [A B]. destruct (trunc_nonneg r ltac:(lra)) as [C D].
  assert (trunc q < trunc r + 1)%Z; [|lia]. rewrite Zlt_Qlt, inject_Z_plus.
  change (inject_Z 1) with 1. lra.
Qed.

Lemma trunc_mono q r : q <= r -> (trunc q <= trunc r)%Z.
Proof.
  intros L. destruct (Qlt_le_dec q 0) as [N|N].
  - destruct (Qlt_le_dec r 0) as [M|M].
    + pose proof (trunc_mono_nonneg (- r) (- q) ltac:(lra) ltac:(lra)) as H. rewrite !trunc_opp in H. lia.
    + pose proof (trunc_nonneg_Z (- q) ltac:(lra)) as H. rewrite trunc_opp in H.
      pose proof (trunc_nonneg_Z r M). lia.
  - apply trunc_mono_nonneg; assumption.
Qed.

Lemma trunc_err q : Qabs (inject_Z (trunc q) - q) < 1.
Proof.
  apply Qabs_Qlt_condition. destruct (Qlt_le_dec q 0) as [N|N].
  - destruct (trunc_nonneg (- q) ltac:(lra)) as [A B]. rewrite trunc_opp, inject_Z_opp in *. lra.
  - destruct (trunc_nonneg q N). lra.
Qed.

Lemma trunc_inject z : trunc (inject_Z z) = z.
Proof. unfold trunc. cbn. apply Z.quot_1_r. Qed.

(** ** Constants, kept folded *)
Lemma p10_lt a b : (0 <= a < b)%Z -> p10 a < p10 b.
Proof. intros H. unfold p10. rewrite <- Zlt_Qlt. apply Z.pow_lt_mono_r; lia. Qed.
Lemma p10_pos a : (0 <= a)%Z -> 0 < p10 a.
Proof. intros H. unfold p10. change 0 with (inject_Z 0). rewrite <- Zlt_Qlt. apply Z.pow_pos_nonneg; lia. Qed.
Lemma p10_add a b : (0 <= a)%Z -> (0 <= b)%Z -> p10 (a + b) == p10 a * p10 b.
Proof. intros. unfold p10. rewrite Z.pow_add_r by assumption. rewrite inject_Z_mult. reflexivity. Qed.

Lemma Qltb_true a b : Qltb a b = true <-> a < b.
Proof.
  unfold Qltb. rewrite negb_true_iff. split.
  - intros H. apply Qnot_le_lt. intros L. apply Qle_bool_iff in L. congruence.
  - intros H. apply not_true_is_false. rewrite Qle_bool_iff. lra.
Qed.
Lemma Qltb_false a b : Qltb a b = false <-> b <= a.
Proof. unfold Qltb. rewrite negb_false_iff. apply Qle_bool_iff. Qed.
Lemma Qle_bool_false a b : Qle_bool a b = false <-> b < a.
Proof.
  rewrite <- Qltb_true. unfold Qltb. rewrite negb_true_iff. reflexivity.
Qed.

(** ** Linear pieces *)
Lemma piece_eq x0 x1 y0 y1 v : x0 < x1 -> (piece x0 x1 y0 y1 v - y0) * (x1 - x0) == (v - x0) * (y1 - y0).
Proof. intros H. unfold piece. field. lra. Qed.

Lemma piece_mono x0 x1 y0 y1 v w :
  x0 < x1 -> y0 < y1 -> v < w -> piece x0 x1 y0 y1 v < piece x0 x1 y0 y1 w.
Proof.
  intros Hx Hy L. pose proof (piece_eq x0 x1 y0 y1 v Hx) as A. pose proof (piece_eq x0 x1 y0 y1 w Hx) as B.
  generalize dependent (piece x0 x1 y0 y1 v). generalize dependent (piece x0 x1 y0 y1 w).
  intros b B a A. apply Qnot_le_lt. intros G.
  assert (0 <= (a - b) * (x1 - x0)) by (apply Qmult_le_0_compat; lra).
  assert (0 < (w - v) * (y1 - y0)) by (apply Qmult_lt_0_compat; lra).
  lra.
Qed.

Lemma piece_range x0 x1 y0 y1 v :
  x0 < x1 -> y0 < y1 -> x0 < v <= x1 -> y0 < piece x0 x1 y0 y1 v <= y1.
Proof.
  intros Hx Hy [L R].
  pose proof (piece_mono x0 x1 y0 y1 x0 v Hx Hy L) as A.
  assert (E0 : piece x0 x1 y0 y1 x0 == y0) by (unfold piece; field; lra).
  assert (E1 : piece x0 x1 y0 y1 x1 == y1) by (unfold piece; field; lra).
  split; [lra|]. apply Qle_lteq in R. destruct R as [R|R].
  - pose proof (piece_mono x0 x1 y0 y1 v x1 Hx Hy R). lra.
  - assert (piece x0 x1 y0 y1 v == piece x0 x1 y0 y1 x1) by (unfold piece; rewrite R; reflexivity). lra.
Qed.

Lemma piece_inv x0 x1 y0 y1 v : x0 < x1 -> y0 < y1 -> piece y0 y1 x0 x1 (piece x0 x1 y0 y1 v) == v.
Proof. intros Hx Hy. unfold piece. field. split; lra. Qed.

(** ** stretch *)
Ltac consts :=
  pose proof (p10_pos 15 ltac:(lia)); pose proof (p10_lt 15 19 ltac:(lia));
  pose proof (p10_lt 19 22 ltac:(lia)); pose proof (p10_lt 22 24 ltac:(lia));
  pose proof (p10_lt 24 42 ltac:(lia)); pose proof (p10_lt 42 56 ltac:(lia));
  pose proof (p10_lt 56 65 ltac:(lia)).

Ltac bools := repeat match goal with
  | H : andb _ _ = true |- _ => apply andb_true_iff in H; destruct H
  | H : Qle_bool _ _ = true |- _ => apply Qle_bool_iff in H
  | H : Qltb _ _ = true |- _ => apply Qltb_true in H
  | H : andb _ _ = false |- _ => apply andb_false_iff in H; destruct H
  | H : Qle_bool _ _ = false |- _ => apply Qle_bool_false in H
  | H : Qltb _ _ = false |- _ => apply Qltb_false in H
  end.

(** The four pieces, as a relation: (v, w) lies on the curve. *)
Inductive curve (v w : Q) : Prop :=
| on0 : 0 <= v <= p10 15 -> w = v -> curve v w
| on1 : p10 15 < v <= p10 42 -> w = piece (p10 15) (p10 42) (p10 15) (p10 19) v -> curve v w
| on2 : p10 42 < v <= p10 56 -> w = piece (p10 42) (p10 56) (p10 19) (p10 22) v -> curve v w
| on3 : p10 56 < v <= p10 65 -> w = piece (p10 56) (p10 65) (p10 22) (p10 24) v -> curve v w.

Lemma stretch_nonneg_curve v w : 0 <= v -> stretch_nonneg v = Ok w -> curve v w.
Proof.
  intros Hv. unfold stretch_nonneg. consts.
  destruct (Qle_bool v (p10 15) && Qle_bool 0 v) eqn:E0; [bools; intros [= <-]; apply on0; auto|].
  destruct (Qle_bool v (p10 42) && Qltb (p10 15) v) eqn:E1; [bools; intros [= <-]; apply on1; auto|].
  destruct (Qle_bool v (p10 56) && Qltb (p10 42) v) eqn:E2; [bools; intros [= <-]; apply on2; auto|].
  destruct (Qle_bool v (p10 65) && Qltb (p10 56) v) eqn:E3; [bools; intros [= <-]; apply on3; auto|].
  discriminate.
Qed.

Lemma curve_stretch v w : curve v w -> stretch_nonneg v = Ok w.
Proof.
  consts. intros C. unfold stretch_nonneg.
  destruct C as [H' ->|H' ->|H' ->|H' ->];
  destruct (Qle_bool v (p10 15) && Qle_bool 0 v) eqn:E0; bools; try reflexivity; try lra;
  destruct (Qle_bool v (p10 42) && Qltb (p10 15) v) eqn:E1; bools; try reflexivity; try lra;
  destruct (Qle_bool v (p10 56) && Qltb (p10 42) v) eqn:E2; bools; try reflexivity; try lra;
  destruct (Qle_bool v (p10 65) && Qltb (p10 56) v) eqn:E3; bools; try reflexivity; try lra.
Qed.

Lemma stretch_nonneg_dom v : 0 <= v -> ((exists w, stretch_nonneg v = Ok w) <-> v <= p10 65).
Proof.
  intros Hv. consts. split.
  - intros [w H']. apply stretch_nonneg_curve in H'; [|assumption]. destruct H'; lra.
  - intros L.
    destruct (Qlt_le_dec (p10 15) v) as [A|A]; [|exists v; apply curve_stretch, on0; auto].
    destruct (Qlt_le_dec (p10 42) v) as [B|B];
      [|eexists; apply curve_stretch, on1; [split; eassumption|reflexivity]].
    destruct (Qlt_le_dec (p10 56) v) as [C|C];
      [|eexists; apply curve_stretch, on2; [split; eassumption|reflexivity]].
    eexists; apply curve_stretch, on3; [split; eassumption|reflexivity].
Qed.

Lemma stretch_nonneg_err v e : stretch_nonneg v = Err e -> e = TypeError.
Proof.
  unfold stretch_nonneg. repeat (match goal with |- context [if ?b then _ else _] => destruct b end);
    try discriminate. intros [= <-]. reflexivity.
Qed.

Lemma curve_range v w : curve v w -> 0 <= w <= p10 24.
Proof.
  consts. intros [H' ->|H' ->|H' ->|H' ->]; [lra| | |].
  - pose proof (piece_range (p10 15) (p10 42) (p10 15) (p10 19) v ltac:(lra) ltac:(lra) H'). lra.
  - pose proof (piece_range (p10 42) (p10 56) (p10 19) (p10 22) v ltac:(lra) ltac:(lra) H'). lra.
  - pose proof (piece_range (p10 56) (p10 65) (p10 22) (p10 24) v ltac:(lra) ltac:(lra) H'). lra.
Qed.

Lemma curve_mono v w v' w' : curve v w -> curve v' w' -> v < v' -> w < w'.
Proof.
  consts. intros C C' L.
  destruct C as [A ->|A ->|A ->|A ->]; destruct C' as [B ->|B ->|B ->|B ->];
    try (exfalso; lra); try assumption; try (apply piece_mono; lra).
  all: repeat match goal with
    | K : ?x0 < ?v /\ ?v <= ?x1 |- context [piece ?x0 ?x1 ?y0 ?y1 ?v] =>
        pose proof (piece_range x0 x1 y0 y1 v ltac:(lra) ltac:(lra) K);
        generalize dependent (piece x0 x1 y0 y1 v); intros end; lra.
Qed.

Lemma stretch_sign v w : stretch v = Ok w ->
  (0 <= v /\ curve v w) \/ (v < 0 /\ exists w', w = - w' /\ curve (- v) w').
Proof.
  unfold stretch. destruct (Qltb v 0) eqn:E; bools.
  - destruct (stretch_nonneg (- v)) as [w'|] eqn:S; [|discriminate]. cbn [bind]. intros [= <-].
    right. split; [assumption|]. exists w'. split; [reflexivity|]. apply stretch_nonneg_curve; [lra|assumption].
  - left. split; [assumption|]. apply stretch_nonneg_curve; assumption.
Qed.

Lemma curve_pos v w : curve v w -> 0 < v -> 0 < w.
Proof.
  consts. intros C Hv. assert (C0 : curve 0 0) by (apply on0; [lra|reflexivity]).
  apply (curve_mono _ _ _ _ C0 C Hv).
Qed.

Lemma stretch_mono v w v' w' : stretch v = Ok w -> stretch v' = Ok w' -> v < v' -> w < w'.
Proof.
  intros S S' L. apply stretch_sign in S. apply stretch_sign in S'.
  destruct S as [[A C]|[A (x & -> & C)]]; destruct S' as [[A' C']|[A' (x' & -> & C')]].
  - apply (curve_mono _ _ _ _ C C' L).
  - lra.
  - pose proof (curve_pos _ _ C ltac:(lra)). pose proof (curve_range _ _ C'). lra.
  - pose proof (curve_mono _ _ _ _ C' C ltac:(lra)). lra.
Qed.

Lemma curve_ext v w v' w' : curve v w -> curve v' w' -> v == v' -> w == w'.
Proof.
  consts. intros C C' L.
  destruct C as [A ->|A ->|A ->|A ->]; destruct C' as [B ->|B ->|B ->|B ->];
    try (exfalso; lra); try assumption; unfold piece; rewrite L; reflexivity.
Qed.

Lemma stretch_ext v w v' w' : stretch v = Ok w -> stretch v' = Ok w' -> v == v' -> w == w'.
Proof.
  intros S S' L. apply stretch_sign in S. apply stretch_sign in S'.
  destruct S as [[A C]|[A (x & -> & C)]]; destruct S' as [[A' C']|[A' (x' & -> & C')]]; try lra.
  - apply (curve_ext _ _ _ _ C C' L).
  - pose proof (curve_ext _ _ _ _ C C' ltac:(lra)). lra.
Qed.

Lemma stretch_dom v : (exists w, stretch v = Ok w) <-> Qabs v <= p10 65.
Proof.
  consts. unfold stretch. destruct (Qltb v 0) eqn:E; bools.
  - rewrite Qabs_neg by lra. rewrite <- (stretch_nonneg_dom (- v)) by lra. split.
    + intros [w H']. destruct (stretch_nonneg (- v)); [eauto|discriminate].
    + intros [w ->]. eexists; reflexivity.
  - rewrite Qabs_pos by lra. apply stretch_nonneg_dom. assumption.
Qed.

Lemma stretch_err v e : stretch v = Err e -> e = TypeError.
Proof.
  unfold stretch. destruct (Qltb v 0).
  - destruct (stretch_nonneg (- v)) eqn:S; cbn [bind]; [discriminate|]. intros [= <-].
    apply (stretch_nonneg_err _ _ S).
  - apply stretch_nonneg_err.
Qed.

(** inverse_stretch on the non-negative side *)
Inductive icurve (v w : Q) : Prop :=
| in0 : 0 <= v <= p10 15 -> w = v -> icurve v w
| in1 : p10 15 < v <= p10 19 -> w = piece (p10 15) (p10 19) (p10 15) (p10 42) v -> icurve v w
| in2 : p10 19 < v <= p10 22 -> w = piece (p10 19) (p10 22) (p10 42) (p10 56) v -> icurve v w
| in3 : p10 22 < v <= p10 24 -> w = piece (p10 22) (p10 24) (p10 56) (p10 65) v -> icurve v w.

Lemma inverse_icurve v : 0 <= v ->
  (exists w, inverse_stretch v = Ok w /\ icurve v w) \/ (p10 24 < v /\ inverse_stretch v = Err TypeError).
Proof.
  intros Hv. consts. unfold inverse_stretch. destruct (Qltb v 0) eqn:E; bools; [lra|].
  destruct (Qle_bool v (p10 15) && Qle_bool 0 v) eqn:E0; [bools; left; eexists; split; [reflexivity|apply in0; auto]|].
  destruct (Qle_bool v (p10 19) && Qltb (p10 15) v) eqn:E1; [bools; try lra; left; eexists; split; [reflexivity|apply in1; auto]|].
  destruct (Qle_bool v (p10 22) && Qltb (p10 19) v) eqn:E2; [bools; try lra; left; eexists; split; [reflexivity|apply in2; auto]|].
  destruct (Qle_bool v (p10 24) && Qltb (p10 22) v) eqn:E3; [bools; try lra; left; eexists; split; [reflexivity|apply in3; auto]|].
  right. split; [bools; lra | reflexivity].
Qed.

Lemma inverse_stretch_nonneg v w : 0 <= v -> stretch v = Ok w -> exists v', inverse_stretch w = Ok v' /\ v' == v.
Proof.
  intros Hv S. apply stretch_sign in S. destruct S as [[_ C]|[A _]]; [|lra].
  pose proof (curve_range _ _ C) as [R0 R1]. consts.
  destruct (inverse_icurve w R0) as [(v' & E & IC)|[G _]]; [|lra].
  exists v'. split; [exact E|].
  destruct C as [A ->|A ->|A ->|A ->].
  - destruct IC as [B ->|B ->|B ->|B ->]; lra.
  - pose proof (piece_range (p10 15) (p10 42) (p10 15) (p10 19) v ltac:(lra) ltac:(lra) A).
    destruct IC as [B ->|B ->|B ->|B ->]; try lra. apply piece_inv; lra.
  - pose proof (piece_range (p10 42) (p10 56) (p10 19) (p10 22) v ltac:(lra) ltac:(lra) A).
    destruct IC as [B ->|B ->|B ->|B ->]; try lra. apply piece_inv; lra.
  - pose proof (piece_range (p10 56) (p10 65) (p10 22) (p10 24) v ltac:(lra) ltac:(lra) A).
    destruct IC as [B ->|B ->|B ->|B ->]; try lra. apply piece_inv; lra.
Qed.

(** ** FLOAT *)
Lemma float_roundtrip v : Qabs (decode_float (encode_float v) - v) < / p10 12.
Proof.
  pose proof (p10_pos 12 ltac:(lia)) as P. unfold decode_float, encode_float.
  pose proof (trunc_err (v * p10 12)) as T. apply Qabs_Qlt_condition in T. apply Qabs_Qlt_condition.
  set (e := inject_Z (trunc (v * p10 12))) in *.
  assert (I : 0 < / p10 12) by (apply Qinv_lt_0_compat; exact P).
  assert (X : p10 12 * / p10 12 == 1) by (apply Qmult_inv_r; lra).
  assert (Y : e / p10 12 - v == (e - v * p10 12) * / p10 12) by (unfold Qdiv; field; lra).
  rewrite Y. generalize dependent (e - v * p10 12). intros d T _. split.
  - assert (0 < (d + 1) * / p10 12) by (apply Qmult_lt_0_compat; lra). lra.
  - assert (0 < (1 - d) * / p10 12) by (apply Qmult_lt_0_compat; lra). lra.
Qed.

Lemma scale_le v w : v <= w -> v * p10 12 <= w * p10 12.
Proof. intros H. apply Qmult_le_compat_r; [exact H|]. apply Qlt_le_weak, p10_pos. lia. Qed.

Lemma float_mono v w : v <= w -> (encode_float v <= encode_float w)%Z.
Proof. intros H. apply trunc_mono, scale_le, H. Qed.

Lemma scaled_gap v w g : v + g / p10 12 <= w -> v * p10 12 + g <= w * p10 12.
Proof.
  intros H. pose proof (p10_pos 12 ltac:(lia)) as P. apply scale_le in H.
  assert (E : (v + g / p10 12) * p10 12 == v * p10 12 + g) by (field; lra). lra.
Qed.

Lemma trunc_gap_nonneg q r : 0 <= q -> q + 1 <= r -> (trunc q < trunc r)%Z.
Proof.
  intros H L. destruct (trunc_nonneg q H) as [A B]. destruct (trunc_nonneg r ltac:(lra)) as [C D].
  rewrite Zlt_Qlt. assert (inject_Z (trunc q) + 1 < inject_Z (trunc r) + 1); [|lra]. lra.
Qed.

Lemma trunc_gap_same q r : (0 <= q \/ r <= 0) -> q + 1 <= r -> (trunc q < trunc r)%Z.
Proof.
  intros [H|H] L; [apply trunc_gap_nonneg; assumption|].
  pose proof (trunc_gap_nonneg (- r) (- q) ltac:(lra) ltac:(lra)) as G. rewrite !trunc_opp in G. lia.
Qed.

Lemma trunc_gap q r : q + 2 <= r -> (trunc q < trunc r)%Z.
Proof.
  intros L. destruct (Qlt_le_dec q 0) as [N|N]; [|apply trunc_gap_same; [left; exact N|lra]].
  destruct (Qlt_le_dec r 0) as [M|M]; [apply trunc_gap_same; [right; lra|lra]|].
  destruct (Qlt_le_dec r 1) as [K|K].
  - pose proof (trunc_gap_same q (-1) ltac:(right; lra)) as G.
    destruct (Qlt_le_dec (-2) q) as [Z|Z].
    + assert (q + 2 <= r) by lra. assert (q <= -1) by lra.
      pose proof (trunc_mono q (-1) H0) as T. change (trunc (-1)) with (-1)%Z in T.
      pose proof (trunc_nonneg_Z r M). lia.
    + pose proof (G ltac:(lra)) as T. change (trunc (-1)) with (-1)%Z in T.
      pose proof (trunc_nonneg_Z r M). lia.
  - pose proof (trunc_mono 1 r K) as T. change (trunc 1) with 1%Z in T.
    pose proof (trunc_nonneg_Z (- q) ltac:(lra)) as T2. rewrite trunc_opp in T2. lia.
Qed.

Lemma float_distinct v w : v + 2 / p10 12 <= w -> (encode_float v < encode_float w)%Z.
Proof. intros H. apply trunc_gap, scaled_gap, H. Qed.

Lemma float_distinct_same v w : (0 <= v \/ w <= 0) -> v + 1 / p10 12 <= w -> (encode_float v < encode_float w)%Z.
Proof.
  intros S H. apply trunc_gap_same; [|apply scaled_gap, H].
  destruct S as [S|S]; [left|right]; apply scale_le in S; lra.
Qed.

(** ** DOUBLE *)
Lemma double_dom v : (exists e, encode_double v = Ok e) <-> Qabs v <= p10 65.
Proof.
  rewrite <- stretch_dom. unfold encode_double. split.
  - intros [e H]. destruct (stretch v); [eauto|discriminate].
  - intros [w ->]. eexists; reflexivity.
Qed.

Lemma double_err v : p10 65 < Qabs v -> encode_double v = Err TypeError.
Proof.
  intros H. unfold encode_double. destruct (stretch v) as [w|e] eqn:S.
  - exfalso. assert (Qabs v <= p10 65); [|lra]. apply stretch_dom. eauto.
  - cbn. f_equal. apply (stretch_err _ _ S).
Qed.

Lemma double_mono v w e f : v <= w -> encode_double v = Ok e -> encode_double w = Ok f -> (e <= f)%Z.
Proof.
  intros L. unfold encode_double. destruct (stretch v) as [x|] eqn:S; [|discriminate].
  destruct (stretch w) as [y|] eqn:T; [|discriminate]. cbn [bind]. intros [= <-] [= <-].
  apply trunc_mono, scale_le. apply Qle_lteq in L. destruct L as [L|L].
  - apply Qlt_le_weak, (stretch_mono _ _ _ _ S T L).
  - rewrite (stretch_ext _ _ _ _ S T L). apply Qle_refl.
Qed.

Lemma p10_27 : p10 27 == p10 15 * p10 12.
Proof. apply (p10_add 15 12); lia. Qed.
Lemma p10_15 : p10 15 == 1000 * p10 12.
Proof. rewrite (p10_add 3 12) by lia. reflexivity. Qed.

Lemma trunc_ge q z : inject_Z z <= q -> (z <= trunc q)%Z.
Proof. intros H. rewrite <- (trunc_inject z). apply trunc_mono, H. Qed.

Lemma trunc_ext q r : q == r -> trunc q = trunc r.
Proof. intros H. apply Z.le_antisymm; apply trunc_mono; rewrite H; apply Qle_refl. Qed.

Lemma double_small_code v : Qabs v <= p10 15 -> encode_double v = Ok (encode_float v).
Proof.
  intros H. unfold encode_double, stretch. consts. destruct (Qltb v 0) eqn:E; bools.
  - rewrite (curve_stretch (- v) (- v)) by (apply on0; [rewrite Qabs_neg in H by lra; lra|reflexivity]).
    cbn [bind]. f_equal. apply trunc_ext. ring.
  - rewrite (curve_stretch v v) by (apply on0; [rewrite Qabs_pos in H by lra; lra|reflexivity]). reflexivity.
Qed.

Lemma inverse_small v : Qabs v <= p10 15 -> exists w, inverse_stretch v = Ok w /\ w == v.
Proof.
  intros H. consts. destruct (Qlt_le_dec v 0) as [N|N].
  - rewrite Qabs_neg in H by lra. unfold inverse_stretch.
    destruct (Qltb v 0) eqn:E; bools; [|lra]. unfold stretch. destruct (Qltb (- v) 0) eqn:E2; bools; [lra|].
    rewrite (curve_stretch (- v) (- v)) by (apply on0; [lra|reflexivity]). cbn [bind].
    eexists. split; [reflexivity|]. ring.
  - rewrite Qabs_pos in H by lra. destruct (inverse_icurve v N) as [(w & E & C)|[G _]]; [|lra].
    exists w. split; [exact E|]. destruct C as [? ->|? ->|? ->|? ->]; lra.
Qed.

Lemma trunc_le q z : q <= inject_Z z -> (trunc q <= z)%Z.
Proof. intros H. rewrite <- (trunc_inject z). apply trunc_mono, H. Qed.

Lemma abs_trunc q z : Qabs q <= inject_Z z -> Qabs (inject_Z (trunc q)) <= inject_Z z.
Proof.
  intros H. apply Qabs_Qle_condition in H. apply Qabs_Qle_condition. destruct H as [A B].
  rewrite <- (inject_Z_opp z) in *. rewrite <- !Zle_Qle.
  split; [apply trunc_ge, A | apply trunc_le, B].
Qed.

Lemma double_roundtrip_small v :
  Qabs v <= 1000 -> exists e r, encode_double v = Ok e /\ decode_double e = Ok r /\ Qabs (r - v) < / p10 12.
Proof.
  intros H. pose proof (p10_pos 12 ltac:(lia)) as P. consts. pose proof p10_15 as E15.
  assert (Hv : Qabs v <= p10 15).
  { pose proof (p10_lt 3 15 ltac:(lia)) as L. change (p10 3) with 1000 in L. lra. }
  exists (encode_float v). pose proof (double_small_code v Hv) as E.
  unfold decode_double. destruct (inverse_small (inject_Z (encode_float v))) as (w & W & EW).
  - unfold encode_float. unfold p10 at 2. apply abs_trunc. change (inject_Z (10 ^ 15)) with (p10 15).
    rewrite Qabs_Qmult. rewrite (Qabs_pos (p10 12)) by lra. rewrite E15.
    apply Qmult_le_compat_r; lra.
  - rewrite W. cbn [bind]. eexists. split; [exact E|]. split; [reflexivity|].
    assert (X : w / p10 12 - v == decode_float (encode_float v) - v).
    { unfold decode_float. rewrite EW. reflexivity. }
    rewrite X. apply float_roundtrip.
Qed.

(** Beyond 1001 the decoded value is off by more than one half, or missing. *)
Lemma code_ge v k : 0 <= v -> inject_Z k <= v -> forall e, encode_double v = Ok e ->
  (k * 10 ^ 12 <= e)%Z \/ p10 15 < v.
Proof.
  intros Hv Hk e He. destruct (Qlt_le_dec (p10 15) v) as [G|G]; [right; exact G|left].
  rewrite double_small_code in He by (rewrite Qabs_pos; assumption). injection He as <-.
  unfold encode_float. apply trunc_ge. rewrite inject_Z_mult. apply scale_le, Hk.
Qed.

Lemma code_big v e : p10 15 < v -> encode_double v = Ok e -> p10 27 <= inject_Z e /\ inject_Z e <= p10 36.
Proof.
  intros G. unfold encode_double. destruct (stretch v) as [w|] eqn:S; [|discriminate].
  cbn [bind]. intros [= <-]. consts. apply stretch_sign in S. destruct S as [[_ C]|[? _]]; [|lra].
  pose proof (curve_range _ _ C) as [_ R].
  assert (C15 : curve (p10 15) (p10 15)) by (apply on0; [lra|reflexivity]).
  pose proof (curve_mono _ _ _ _ C15 C G) as L. split.
  - unfold p10 at 1. rewrite <- Zle_Qle. apply trunc_ge. change (inject_Z (10 ^ 27)) with (p10 27).
    rewrite p10_27. apply scale_le. lra.
  - apply Qle_trans with (w * p10 12).
    + apply (proj1 (trunc_nonneg (w * p10 12) ltac:(apply Qmult_le_0_compat; [lra|apply Qlt_le_weak, p10_pos; lia]))).
    + rewrite (p10_add 24 12) by lia. apply scale_le, R.
Qed.

Lemma piece_slope_ge x0 x1 y0 y1 v s :
  x0 < x1 -> s * (x1 - x0) <= y1 - y0 -> x0 <= v -> s * (v - x0) <= piece x0 x1 y0 y1 v - y0.
Proof.
  intros Hx Hs Hv. pose proof (piece_eq x0 x1 y0 y1 v Hx) as E.
  generalize dependent (piece x0 x1 y0 y1 v). intros p E.
  apply Qnot_lt_le. intros G.
  assert (A : 0 < (s * (v - x0) - (p - y0)) * (x1 - x0)) by (apply Qmult_lt_0_compat; lra).
  assert (B : 0 <= (v - x0) * (y1 - y0 - s * (x1 - x0))) by (apply Qmult_le_0_compat; lra).
  lra.
Qed.

Lemma piece_slope_le x0 x1 y0 y1 v s :
  x0 < x1 -> y1 - y0 <= s * (x1 - x0) -> x0 <= v -> piece x0 x1 y0 y1 v - y0 <= s * (v - x0).
Proof.
  intros Hx Hs Hv. pose proof (piece_eq x0 x1 y0 y1 v Hx) as E.
  generalize dependent (piece x0 x1 y0 y1 v). intros p E.
  apply Qnot_lt_le. intros G.
  assert (A : 0 < ((p - y0) - s * (v - x0)) * (x1 - x0)) by (apply Qmult_lt_0_compat; lra).
  assert (B : 0 <= (v - x0) * (s * (x1 - x0) - (y1 - y0))) by (apply Qmult_le_0_compat; lra).
  lra.
Qed.

Lemma unscale a b : a < b * p10 12 -> a / p10 12 < b.
Proof.
  intros H. pose proof (p10_pos 12 ltac:(lia)). apply Qlt_shift_div_r; assumption.
Qed.
Lemma unscale2 a b : a * p10 12 < b -> a < b / p10 12.
Proof.
  intros H. pose proof (p10_pos 12 ltac:(lia)). apply Qlt_shift_div_l; assumption.
Qed.

Lemma double_wrong_pos v e :
  1001 <= v -> encode_double v = Ok e ->
  decode_double e = Err TypeError \/ exists r, decode_double e = Ok r /\ v + (1 # 2) < r.
Proof.
  intros Hv He. consts. pose proof (p10_pos 12 ltac:(lia)) as P12.
  pose proof (p10_lt 24 27 ltac:(lia)) as L27. pose proof p10_15 as E15. unfold decode_double.
  destruct (code_ge v 1001 ltac:(lra) Hv e He) as [G|G].
  2:{ destruct (code_big v e G He) as [B _]. left.
      destruct (inverse_icurve (inject_Z e) ltac:(lra)) as [(w & _ & C)|[_ ->]]; [|reflexivity].
      exfalso. destruct C; lra. }
  rewrite Zle_Qle in G. rewrite inject_Z_mult in G. change (inject_Z (10 ^ 12)) with (p10 12) in G.
  change (inject_Z 1001) with 1001 in G.
  destruct (Qlt_le_dec (p10 15) v) as [V|V].
  { destruct (code_big v e V He) as [B _]. left.
    destruct (inverse_icurve (inject_Z e) ltac:(lra)) as [(w & _ & C)|[_ ->]]; [|reflexivity].
    exfalso. destruct C; lra. }
  assert (B : v * p10 12 < inject_Z e + 1).
  { rewrite double_small_code in He by (rewrite Qabs_pos; lra). injection He as <-.
    apply (trunc_nonneg (v * p10 12)). apply Qmult_le_0_compat; lra. }
  assert (P1 : 1 < p10 12) by (change 1 with (p10 0); apply p10_lt; lia).
  set (E := inject_Z e) in *.
  destruct (inverse_icurve E ltac:(lra)) as [(w & -> & C)|[_ ->]]; [|left; reflexivity].
  right. cbn [bind]. eexists. split; [reflexivity|]. apply unscale2.
  assert (W : E + 2 * p10 12 <= w); [|lra].
  destruct C as [R ->|R ->|R ->|R ->].
  - lra.
  - assert (S3 : 3 * (p10 19 - p10 15) <= p10 42 - p10 15) by (vm_compute; discriminate).
    pose proof (piece_slope_ge (p10 15) (p10 19) (p10 15) (p10 42) E 3 ltac:(lra) S3 ltac:(lra)). lra.
  - pose proof (piece_range (p10 19) (p10 22) (p10 42) (p10 56) E ltac:(lra) ltac:(lra) R).
    assert (3 * p10 22 <= p10 42) by (vm_compute; discriminate). lra.
  - pose proof (piece_range (p10 22) (p10 24) (p10 56) (p10 65) E ltac:(lra) ltac:(lra) R).
    assert (3 * p10 24 <= p10 56) by (vm_compute; discriminate). lra.
Qed.

Lemma encode_double_opp v e : encode_double v = Ok e -> encode_double (- v) = Ok (- e)%Z.
Proof.
  unfold encode_double. destruct (stretch v) as [w|] eqn:S; [|discriminate]. cbn [bind]. intros [= <-].
  destruct (proj2 (stretch_dom (- v))) as [w' S'].
  { rewrite Qabs_opp. apply stretch_dom. eauto. }
  rewrite S'. cbn [bind]. f_equal. rewrite <- trunc_opp. apply trunc_ext.
  assert (X : w' == - w).
  { apply stretch_sign in S. apply stretch_sign in S'.
    destruct S as [[A C]|[A (x & -> & C)]]; destruct S' as [[A' C']|[A' (x' & -> & C')]]; try lra.
    - assert (Z : v == 0) by lra. consts.
      assert (C0 : curve 0 0) by (apply on0; [lra|reflexivity]).
      pose proof (curve_ext _ _ _ _ C C0 Z). pose proof (curve_ext _ _ _ _ C' C0 ltac:(lra)). lra.
    - pose proof (curve_ext _ _ _ _ C' C ltac:(lra)). lra.
    - pose proof (curve_ext _ _ _ _ C' C ltac:(lra)). lra. }
  rewrite X. ring.
Qed.

Lemma double_wrong_neg v e :
  1001 <= v -> encode_double v = Ok e ->
  exists r, decode_double (- e) = Ok r /\ - v + (1 # 2) < r.
Proof.
  intros Hv He. consts. pose proof (p10_pos 12 ltac:(lia)) as P12.
  pose proof (p10_lt 24 27 ltac:(lia)) as L27. pose proof (p10_lt 27 36 ltac:(lia)) as L36.
  pose proof (p10_lt 36 42 ltac:(lia)) as L42. pose proof p10_15 as E15.
  assert (Sl : p10 19 - p10 15 <= / p10 22 * (p10 42 - p10 15)) by (vm_compute; discriminate).
  assert (R : p10 15 < inject_Z e /\ inject_Z e <= p10 36).
  { destruct (Qlt_le_dec (p10 15) v) as [V|V]; [pose proof (code_big v e V He); lra|].
    destruct (code_ge v 1001 ltac:(lra) Hv e He) as [G|G]; [|lra].
    rewrite Zle_Qle in G. rewrite inject_Z_mult in G. change (inject_Z (10 ^ 12)) with (p10 12) in G.
    change (inject_Z 1001) with 1001 in G. split; [lra|].
    rewrite double_small_code in He by (rewrite Qabs_pos; lra). injection He as <-.
    apply Qle_trans with (v * p10 12); [apply trunc_nonneg, Qmult_le_0_compat; lra|].
    pose proof (scale_le _ _ V). pose proof p10_27. lra. }
  unfold decode_double, inverse_stretch. rewrite inject_Z_opp. set (E := inject_Z e) in *.
  destruct (Qltb (- E) 0) eqn:X; bools; [|lra]. unfold stretch.
  destruct (Qltb (- - E) 0) eqn:Y; bools; [lra|].
  rewrite (curve_stretch (- - E) (piece (p10 15) (p10 42) (p10 15) (p10 19) (- - E))) by (apply on1; [lra|reflexivity]).
  cbn [bind]. eexists. split; [reflexivity|]. apply unscale2.
  pose proof (piece_slope_le (p10 15) (p10 42) (p10 15) (p10 19) (- - E) (/ p10 22) ltac:(lra) Sl ltac:(lra)) as W.
  generalize dependent (piece (p10 15) (p10 42) (p10 15) (p10 19) (- - E)). intros w W.
  assert (I : 0 < / p10 22) by (apply Qinv_lt_0_compat, p10_pos; lia).
  destruct (Qlt_le_dec (p10 15) v) as [V|V].
  - assert (E <= p10 36) by lra.
    assert (/ p10 22 * (- - E - p10 15) <= / p10 22 * p10 36) by (apply Qmult_le_l; lra).
    assert (/ p10 22 * p10 36 <= p10 15) by (vm_compute; discriminate).
    apply scale_le in V || idtac.
    assert (p10 15 * p10 12 < v * p10 12) by (apply Qmult_lt_r; lra).
    pose proof p10_27. assert (3 * p10 15 <= p10 27) by (vm_compute; discriminate). lra.
  - assert (E <= p10 27).
    { unfold E. rewrite double_small_code in He by (rewrite Qabs_pos; lra). injection He as <-.
      apply Qle_trans with (v * p10 12); [apply trunc_nonneg, Qmult_le_0_compat; lra|].
      pose proof (scale_le _ _ V). pose proof p10_27. lra. }
    assert (/ p10 22 * (- - E - p10 15) <= / p10 22 * p10 27) by (apply Qmult_le_l; lra).
    assert (/ p10 22 * p10 27 <= p10 5) by (vm_compute; discriminate).
    assert (p10 5 * 4 <= p10 12) by (vm_compute; discriminate).
    pose proof (scale_le _ _ Hv). lra.
Qed.
