(** C105: whole numbers in statements keep their value, with an exponent only as far as doubles go. *)
From Coq Require Import String Ascii List Arith NArith ZArith Bool Lia.
From Verif Require Import Base OpeModel OpeProof EngineSqlModel RegexModel RegexProof NumModel NumSpec NumProof.
Import ListNotations.
Local Open Scope Z_scope.

(** What the regular expression takes is the text of a whole number. *)
Theorem C105_taken : forall before l n, re_match int_re (before, l) = Some n ->
  (exists v, plain (firstn n l) v) \/ exists f v, powered (firstn n l) f v.
Proof. intros b l n H. rewrite int_ok in H. apply taken. exact H. Qed.
Print Assumptions C105_taken.

(** Without an exponent it keeps its value, whatever its length. *)
Theorem C105_plain : forall t v, plain t v -> parse_int t = Ok v.
Proof. exact plain_ok. Qed.
Print Assumptions C105_plain.
(** What is sent to the database for a number is read as this number. *)
Theorem C105_sent : forall t v, plain t v -> exists v', parse_int t = Ok v' /\ plain (str_int v') v.
Proof. intros t v P. exists v. split; [apply plain_ok; exact P | apply str_plain]. Qed.
Print Assumptions C105_sent.

(** With an exponent it keeps its value up to 2^53. *)
Theorem C105_exact : forall t f v, powered t f v -> v <= 2 ^ 53 -> parse_int t = Ok (f v).
Proof.
  intros t f v P L. rewrite (powered_ok t f v P), (proj2 (Z.leb_gt _ _)) by lia. f_equal. f_equal.
  destruct (Z.eq_dec v (2 ^ 53)) as [->|N]; [vm_compute; reflexivity | apply f64_small; lia].
Qed.
Print Assumptions C105_exact.
(** Beyond, the number in its place is near, and it is an error exactly from 2^1024 - 2^970 on. *)
Theorem C105_near : forall t f v, powered t f v ->
  (v < 2 ^ 1024 - 2 ^ 970 -> exists v', parse_int t = Ok (f v') /\ Z.abs (v' - v) * 2 ^ 53 <= v) /\
  (2 ^ 1024 - 2 ^ 970 <= v -> exists e, parse_int t = Err e).
Proof.
  intros t f v P. rewrite (powered_ok t f v P). split; intros L.
  - rewrite (proj2 (Z.leb_gt _ _)) by lia. eexists. split; [reflexivity|]. apply f64_error.
    destruct P. pose proof (value_pos ds). assert (0 <= 10 ^ value ks) by (apply Z.pow_nonneg; lia). nia.
  - rewrite (proj2 (Z.leb_le _ _)) by exact L. eexists. reflexivity.
Qed.
Print Assumptions C105_near.
(** Greater numbers do not become smaller ones. *)
Theorem C105_order : forall t1 t2 f v1 v2 x1 x2, powered t1 f v1 -> powered t2 f v2 -> v1 <= v2 ->
  parse_int t1 = Ok (f x1) -> parse_int t2 = Ok (f x2) -> (forall a b, f a = f b -> a = b) -> x1 <= x2.
Proof.
  intros t1 t2 f v1 v2 x1 x2 P1 P2 L E1 E2 I. rewrite (powered_ok _ _ _ P1) in E1. rewrite (powered_ok _ _ _ P2) in E2.
  destruct (_ <=? v1); [discriminate|]. destruct (_ <=? v2); [discriminate|]. injection E1 as E1. injection E2 as E2. apply I in E1, E2. subst x1 x2.
  apply f64_mono. exact L.
Qed.
Print Assumptions C105_order.

(** ** Examples *)
Example C105_example :
  plain (u "-007") (-7) /\ parse_int (u "-007") = Ok (-7) /\ powered (u "+12E+3") (fun v => v) 12000 /\ parse_int (u "+12E+3") = Ok 12000 /\
  parse_int (u "123456789012345678901234567890") = Ok 123456789012345678901234567890 /\ parse_int (u "1e309") = Err Generic.
Proof.
  split; [apply (plain_by [45%N] Z.opp (u "007")); [constructor | vm_compute; reflexivity ..]|]. split; [vm_compute; reflexivity|].
  split; [|split; [vm_compute; reflexivity | split; vm_compute; reflexivity]].
  apply (powered_by [43%N] (fun v => v) (u "12") 69%N [43%N] (u "3")); [constructor | vm_compute; reflexivity | right; reflexivity | right; reflexivity | vm_compute; reflexivity ..].
Qed.
Example C105_taken_example : re_match int_re (None, u "-12e5, 3") = Some 5%nat /\ firstn 5 (u "-12e5, 3") = u "-12e5" /\ parse_int (u "-12e5") = Ok (-1200000).
Proof. vm_compute. auto. Qed.

(** Beyond 2^53 another number is sent than is written. *)
Theorem C105_large_refuted : exists t v x, powered t (fun v => v) v /\ v = 10 ^ 23 /\ parse_int t = Ok x /\ x = 10 ^ 23 - 8388608 /\ plain (str_int x) x.
Proof.
  exists (u "1e23"), (10 ^ 23), (10 ^ 23 - 8388608). split; [|split; [reflexivity|split; [vm_compute; reflexivity|split; [reflexivity | apply str_plain]]]].
  apply (powered_by [] (fun v => v) (u "1") 101%N [] (u "23")); [constructor | vm_compute; reflexivity | left; reflexivity | left; reflexivity | vm_compute; reflexivity ..].
Qed.
Print Assumptions C105_large_refuted.
