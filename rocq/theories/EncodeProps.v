(** Properties C12-C14 of the numeric encodings (scheduler/crypto/encrypt.py L35-85). *)
From Coq Require Import String Ascii List NArith ZArith QArith Qabs Bool Lia Lqa.
From Verif Require Import Base EncodeModel EncodeProof.
Import ListNotations.
Open Scope Q_scope.

(** * C12: FLOAT *)

(** Decoding the code of any value misses it by less than 1e-12. *)
Theorem C12_float_roundtrip : forall v,
  Qabs (decode_float (encode_float v) - v) < 1 # 1000000000000.
Proof. exact float_roundtrip. Qed.
Print Assumptions C12_float_roundtrip.

Theorem C12_float_order : forall v w, v <= w -> (encode_float v <= encode_float w)%Z.
Proof. exact float_mono. Qed.
Print Assumptions C12_float_order.

(** The order of two different codes is the order of the two values. *)
Theorem C12_float_order_reflects : forall v w, (encode_float v < encode_float w)%Z -> v < w.
Proof.
  intros v w H. apply Qnot_le_lt. intros G. apply float_mono in G. lia.
Qed.
Print Assumptions C12_float_order_reflects.

(** Values of one sign at least 1e-12 apart keep distinct codes, ... *)
Theorem C12_float_distinct : forall v w, (0 <= v \/ w <= 0) -> v + (1 # 1000000000000) <= w ->
  (encode_float v < encode_float w)%Z.
Proof. exact float_distinct_same. Qed.
Print Assumptions C12_float_distinct.

(** ... and any two values at least 2e-12 apart do. *)
Theorem C12_float_distinct_any_sign : forall v w, v + (2 # 1000000000000) <= w ->
  (encode_float v < encode_float w)%Z.
Proof. exact float_distinct. Qed.
Print Assumptions C12_float_distinct_any_sign.

(** Around zero truncation merges values up to (but not including) 2e-12 apart. *)
Theorem C12_float_distinct_across_zero_refuted : exists v w,
  v + (19 # 10000000000000) <= w /\ encode_float v = encode_float w.
Proof. exists (- (95 # 100000000000000)), (95 # 100000000000000). split; [vm_compute; discriminate|vm_compute; reflexivity]. Qed.
Print Assumptions C12_float_distinct_across_zero_refuted.

Example C12_example :
  encode_float (31415926535897932 # 10000000000000000) = 3141592653589%Z /\
  decode_float 3141592653589 == 3141592653589 # 1000000000000 /\
  encode_float (- (31415926535897932 # 10000000000000000)) = (-3141592653589)%Z.
Proof. vm_compute. repeat split. Qed.

(** * C13: DOUBLE round trip *)

(** The range compression is strictly increasing ... *)
Theorem C13_stretch_increasing : forall v w x y,
  stretch v = Ok x -> stretch w = Ok y -> v < w -> x < y.
Proof. intros v w x y Hv Hw L. exact (stretch_mono _ _ _ _ Hv Hw L). Qed.
Print Assumptions C13_stretch_increasing.

(** ... defined exactly up to 1e65 ... *)
Theorem C13_stretch_domain : forall v,
  (exists x, stretch v = Ok x) <-> Qabs v <= inject_Z (10 ^ 65).
Proof. exact stretch_dom. Qed.
Print Assumptions C13_stretch_domain.

(** ... and undone by [inverse_stretch] on non-negative values. *)
Theorem C13_stretch_inverse : forall v x, 0 <= v -> stretch v = Ok x ->
  exists v', inverse_stretch x = Ok v' /\ v' == v.
Proof. exact inverse_stretch_nonneg. Qed.
Print Assumptions C13_stretch_inverse.

(** The negative branch of [inverse_stretch] compresses again instead of expanding. *)
Theorem C13_stretch_inverse_negative_refuted : exists v x v',
  stretch v = Ok x /\ inverse_stretch x = Ok v' /\ ~ (Qabs (v' - v) <= inject_Z (10 ^ 41)).
Proof.
  exists (- inject_Z (10 ^ 42)), (- piece (p10 15) (p10 42) (p10 15) (p10 19) (p10 42)).
  eexists. split; [vm_compute; reflexivity|]. split; [vm_compute; reflexivity|]. vm_compute. intros H; apply H; reflexivity.
Qed.
Print Assumptions C13_stretch_inverse_negative_refuted.

(** Up to 1000 in absolute value the round trip holds to 1e-12. *)
Theorem C13_double_roundtrip_small : forall v, Qabs v <= 1000 ->
  exists e r, encode_double v = Ok e /\ decode_double e = Ok r /\ Qabs (r - v) < 1 # 1000000000000.
Proof. exact double_roundtrip_small. Qed.
Print Assumptions C13_double_roundtrip_small.

Lemma c13_aux v e : 1001 <= Qabs v -> encode_double v = Ok e ->
  decode_double e = Err TypeError \/ exists r, decode_double e = Ok r /\ 1 # 2 < Qabs (r - v).
Proof.
  intros H He. destruct (Qlt_le_dec v 0) as [N|N].
  - rewrite Qabs_neg in H by lra. pose proof (encode_double_opp _ _ He) as Ho.
    destruct (double_wrong_neg (- v) (- e)%Z ltac:(lra) Ho) as (r & Hr & G).
    rewrite Z.opp_involutive in Hr. right. exists r. split; [exact Hr|].
    rewrite Qabs_pos; lra.
  - rewrite Qabs_pos in H by lra. destruct (double_wrong_pos v e ltac:(lra) He) as [D|(r & Hr & G)]; [left; exact D|].
    right. exists r. split; [exact Hr|]. rewrite Qabs_pos; lra.
Qed.

(** From 1001 on, whatever the sign, no value survives: decoding raises TypeError or is off
    by more than one half. *)
Theorem C13_double_roundtrip_large_refuted : forall v e, 1001 <= Qabs v -> encode_double v = Ok e ->
  decode_double e = Err TypeError \/ exists r, decode_double e = Ok r /\ 1 # 2 < Qabs (r - v).
Proof. exact c13_aux. Qed.
Print Assumptions C13_double_roundtrip_large_refuted.

(** The claim as one would expect it, refuted at 2000. *)
Theorem C13_double_roundtrip_refuted : exists v e r, encode_double v = Ok e /\ decode_double e = Ok r /\
  inject_Z (10 ^ 26) < Qabs (r - v).
Proof.
  exists 2000, 2000000000000000%Z. eexists. split; [vm_compute; reflexivity|].
  split; [vm_compute; reflexivity|]. vm_compute. reflexivity.
Qed.
Print Assumptions C13_double_roundtrip_refuted.

Example C13_example : encode_double (25 # 2) = Ok 12500000000000%Z /\
  (exists r, decode_double 12500000000000 = Ok r /\ r == 25 # 2) /\
  decode_double (10 ^ 25) = Err TypeError.
Proof.
  split; [vm_compute; reflexivity|]. split; [|vm_compute; reflexivity].
  eexists. split; [vm_compute; reflexivity|vm_compute; reflexivity].
Qed.

(** * C14: DOUBLE ordering *)
Theorem C14_double_order : forall v w e f,
  v <= w -> encode_double v = Ok e -> encode_double w = Ok f -> (e <= f)%Z.
Proof. intros v w e f L He Hf. exact (double_mono _ _ _ _ L He Hf). Qed.
Print Assumptions C14_double_order.

Theorem C14_double_order_reflects : forall v w e f,
  encode_double v = Ok e -> encode_double w = Ok f -> (e < f)%Z -> v < w.
Proof.
  intros v w e f He Hf L. apply Qnot_le_lt. intros G. pose proof (double_mono _ _ _ _ G Hf He). lia.
Qed.
Print Assumptions C14_double_order_reflects.

Theorem C14_double_domain : forall v,
  (exists e, encode_double v = Ok e) <-> Qabs v <= inject_Z (10 ^ 65).
Proof. exact double_dom. Qed.
Print Assumptions C14_double_domain.

Theorem C14_double_rejects : forall v, inject_Z (10 ^ 65) < Qabs v -> encode_double v = Err TypeError.
Proof. exact double_err. Qed.
Print Assumptions C14_double_rejects.

Example C14_example : exists e f, encode_double (inject_Z (10 ^ 20)) = Ok e /\
  encode_double (inject_Z (10 ^ 50)) = Ok f /\ (e < f)%Z /\
  encode_double (inject_Z (10 ^ 66)) = Err TypeError.
Proof.
  do 2 eexists. split; [vm_compute; reflexivity|]. split; [vm_compute; reflexivity|].
  split; vm_compute; reflexivity.
Qed.
