(** C109: a parse error points to the furthest place that was reached, by line and column. *)
From Coq Require Import String Ascii List Arith NArith Bool Lia.
From Verif Require Import Base ErrPosModel ErrPosSpec ErrPosProof.
Import ListNotations.

(** Line number, column and line are those of the position. *)
Theorem C109_position : forall s at_, at_ <= length s -> position s at_ (lineno at_ s) (col at_ s) (line at_ s).
Proof. exact position_ok. Qed.
Print Assumptions C109_position.

(** The place in the message: an attempt failed there, and none further on. *)
Theorem C109_furthest : forall e, pure e -> reached e (loc (best_cause e)) /\ forall l, reached e l -> l <= loc (best_cause e).
Proof. intros e P. destruct (best_good e P) as (_ & L & _). rewrite L. exact (loc_furthest e P). Qed.
Print Assumptions C109_furthest.

(** What the message names as expected was tried in an attempt that reached this place. *)
Theorem C109_expected : forall e, pure e ->
  forall x, In x (what_of (best_cause e)) -> exists e', within e' e /\ In x (what_of e') /\ reached e' (loc (best_cause e)).
Proof. intros e P. destruct (best_good e P) as (_ & L & W). rewrite L. exact W. Qed.
Print Assumptions C109_expected.

(** With an exception of another class among the causes the place is where the element began, whatever was reached. *)
Theorem C109_foreign_refuted : forall what named start msg causes far, start < far ->
  loc (Failed what named start msg (Failed what named far msg [] :: Foreign :: causes)) = start /\
  reached (Failed what named start msg (Failed what named far msg [] :: Foreign :: causes)) far.
Proof.
  intros. split; [apply foreign_start; right; left; reflexivity|]. apply reached_cause with (Failed what named far msg []); [left; reflexivity | constructor].
Qed.
Print Assumptions C109_foreign_refuted.

(** ** Examples *)
Example C109_example :
  let s := u "select a" ++ [10%N] ++ u "from" ++ [10%N; 10%N] ++ u "t where" in
  (lineno 17 s, col 17 s, line 17 s) = (4, 3, u "t where") /\ (lineno 9 s, col 9 s, line 9 s) = (2, 1, u "from") /\ (lineno 8 s, col 8 s, line 8 s) = (1, 9, u "select a") /\
  (lineno 22 s, col 22 s) = (4, 8).
Proof. vm_compute. repeat split. Qed.
(** Failures as parsing/exceptions.py L13-29 nests them; the one with a message comes first. *)
Definition tried : exc :=
  Failed [0] false 0 false
    [Failed [1] false 0 false [Failed [2] false 7 false []; Failed [3] true 4 false [Failed [4] false 9 false []; Failed [5] false 9 true []; Failed [6] false 5 false []]];
     Failed [7] true 9 false []; Failed [8] false 3 false []].
Example C109_causes_example : pure tried /\ loc (best_cause tried) = 9 /\ what_of (best_cause tried) = [5; 4; 7].
Proof. split; [repeat constructor|]. vm_compute. split; reflexivity. Qed.
