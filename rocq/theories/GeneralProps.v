(** C110: a generalized statement has no numbers and no text between single quotes. *)
From Coq Require Import String Ascii List Arith NArith Bool Lia.
From Verif Require Import Base GeneralModel GeneralProof.
Import ListNotations.

(** Whatever _normalize_likes returns: no digit and no pair of quotes is left. *)
Theorem C110_left : forall likes s,
  (forall c, In c (generalize likes s) -> ~ (48 <= c <= 57)%N) /\
  length (filter (N.eqb 39) (generalize likes s)) <= 1 /\ length (filter (N.eqb 34) (generalize likes s)) <= 1.
Proof.
  intros likes s. destruct (hide_left (likes (spaces2 [] (unquoted s)))) as (D & Q). split; [|exact Q].
  intros c I (A & B). specialize (D c I). unfold digit in D. apply N.leb_le in A, B. rewrite A, B in D. discriminate D.
Qed.
Print Assumptions C110_left.

(** Of a number, wherever it stands, it cannot be seen which it was.  Without LIKE and per cent signs _normalize_likes returns its argument. *)
Theorem C110_numbers : forall a n m b, n <> [] -> m <> [] -> (forall c, In c (n ++ m) -> (48 <= c <= 57)%N) ->
  generalize (fun s => s) (a ++ n ++ b) = generalize (fun s => s) (a ++ m ++ b).
Proof.
  assert (X : forall c, (48 <= c <= 57)%N -> digit c = true) by (intros c (A & B); unfold digit; apply andb_true_iff; split; apply N.leb_le; assumption).
  intros a n m b Hn Hm D. apply all_number; (split; [assumption | intros c I; apply X, D, in_app_iff]); [left | right]; exact I.
Qed.
Print Assumptions C110_numbers.

(** Nor of a text in single quotes. *)
Theorem C110_texts : forall a t t' b, ~ In 92%N a -> Nat.even (length (filter (N.eqb 39) a)) = true ->
  (forall x, In x (t ++ t') -> x <> 39%N /\ x <> 92%N) ->
  generalize (fun s => s) (a ++ u "'" ++ t ++ u "'" ++ b) = generalize (fun s => s) (a ++ u "'" ++ t' ++ u "'" ++ b).
Proof.
  intros a t t' b A E H. apply all_text; try assumption; intros I;
    match type of I with In ?x _ => assert (J : In x (t ++ t')) by (apply in_app_iff; tauto); destruct (H x J) as (P & Q); congruence end.
Qed.
Print Assumptions C110_texts.

(** A text in double quotes, which MySQL reads as a text too, is left as it is: the quotes are removed before texts are replaced. *)
Theorem C110_double_refuted : exists s t, generalize (fun s => s) s <> generalize (fun s => s) t /\
  (exists a x y b, s = a ++ [34%N] ++ x ++ [34%N] ++ b /\ t = a ++ [34%N] ++ y ++ [34%N] ++ b /\ (forall c, In c (a ++ x ++ y ++ b) -> ~ In c [34; 39; 92]%N)).
Proof.
  exists (u "SELECT a FROM t WHERE b = " ++ [34%N] ++ u "Alice" ++ [34%N]), (u "SELECT a FROM t WHERE b = " ++ [34%N] ++ u "Bob" ++ [34%N]).
  split; [vm_compute; discriminate|]. exists (u "SELECT a FROM t WHERE b = "), (u "Alice"), (u "Bob"), []. split; [reflexivity|]. split; [reflexivity|].
  assert (F : forallb (fun c => negb (existsb (N.eqb c) [34; 39; 92]%N)) (u "SELECT a FROM t WHERE b = " ++ u "Alice" ++ u "Bob" ++ []) = true) by (vm_compute; reflexivity).
  intros c I J. rewrite forallb_forall in F. specialize (F c I). apply negb_true_iff in F.
  assert (T : existsb (N.eqb c) [34; 39; 92]%N = true) by (apply existsb_exists; exists c; split; [exact J | apply N.eqb_refl]). congruence.
Qed.
Print Assumptions C110_double_refuted.

(** ** Examples *)
Example C110_example :
  generalize (fun s => s) (u "SELECT  a  FROM t WHERE b = 'Alice' AND c in ('1','22', -3) AND d = -41.5 ") = u "SELECT a FROM t WHERE b = X AND c in (XYZ) AND d = N.N" /\
  generalize (fun s => s) (u "INSERT INTO t1 VALUES (1, 'it\'s')") = u "INSERT INTO tN VALUES (XYZ)" /\
  generalize (fun s => s) (u "SELECT 'a") = u "SELECT 'a".
Proof. vm_compute. repeat split. Qed.
Example C110_double_example : generalize (fun s => s) (u "b = " ++ [34%N] ++ u "Alice" ++ [34%N]) = u "b = Alice".
Proof. vm_compute. reflexivity. Qed.
