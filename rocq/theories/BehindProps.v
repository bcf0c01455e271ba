(** C116: what must stand before a place is looked for at the nearest place; how far back it may be is not heeded. *)
From Coq Require Import String Ascii List Arith NArith Bool Lia.
From Verif Require Import Base SkipToModel SkipToProps BehindModel.
Import ListNotations.

Inductive newlines : pystr -> Prop :=
| newlines_nil : newlines []
| newlines_lf r : newlines r -> newlines (10%N :: r)
| newlines_crlf r : newlines r -> newlines (13%N :: 10%N :: r).
(** In a text the expression takes something at a place, and white space and then line ends alone follow; or it takes nothing and line ends alone follow. *)
Definition stands (blank : N -> bool) (e : texpr) (cut : pystr) (p : nat) : Prop :=
  exists end_, e cut p = Some end_ /\
    ((p < end_ /\ exists w n, skipn end_ cut = w ++ n /\ Forall (fun c => blank c = true) w /\ newlines n) \/ (end_ <= p /\ newlines (skipn p cut))).

Lemma newlines_tl c r : newlines (c :: r) -> newlines r.
Proof. intros H. inversion H; subst; [assumption | apply newlines_lf; assumption]. Qed.
Lemma only_ok s : only_newlines s = true <-> newlines s.
Proof.
  split.
  - induction s as [|c r IH]; intros E; [constructor|]. cbn [only_newlines] in E. destruct (N.eqb_spec c 10) as [->|]; [constructor; exact (IH E)|]. destruct (N.eqb_spec c 13) as [->|]; [|discriminate E].
    destruct r as [|d r]; [discriminate E|]. apply andb_prop in E. destruct E as (D & E). apply N.eqb_eq in D. subst d. apply newlines_crlf. exact (newlines_tl _ _ (IH E)).
  - intros H. induction H as [|r H IH|r H IH]; [reflexivity | exact IH | exact IH].
Qed.
Lemma skip_rest_ok blank s rest : forall loc, skipn loc s = rest -> exists w, rest = w ++ skipn (skip_rest blank rest loc) s /\ Forall (fun c => blank c = true) w /\ match skipn (skip_rest blank rest loc) s with c :: _ => blank c = false | [] => True end.
Proof.
  induction rest as [|c r IH]; intros loc E; cbn [skip_rest].
  - exists []. rewrite E. repeat split. constructor.
  - destruct (blank c) eqn:B.
    + destruct (IH (S loc)) as (w & W & F & H); [replace (S loc) with (loc + 1) by lia; rewrite <- skipn_add, E; reflexivity|]. exists (c :: w). split; [cbn [app]; f_equal; exact W|]. split; [constructor; assumption | exact H].
    + exists []. rewrite E. split; [reflexivity|]. split; [constructor | exact B].
Qed.
Lemma skip_newlines blank cut end_ : newlines (skipn (skip blank cut end_) cut) <-> exists w n, skipn end_ cut = w ++ n /\ Forall (fun c => blank c = true) w /\ newlines n.
Proof.
  unfold skip. destruct (skip_rest_ok blank cut (skipn end_ cut) end_ eq_refl) as (w & W & F & H). split.
  - intros N1. exists w, (skipn (skip_rest blank (skipn end_ cut) end_) cut). split; [exact W|]. split; assumption.
  - intros (w' & n & E & F' & N1). set (x := skipn (skip_rest blank (skipn end_ cut) end_) cut) in *. rewrite W in E. clear W. clearbody x. revert w E F. induction w' as [|c w' IH]; intros w E F.
    + cbn [app] in E. subst n. clear F F'. induction w as [|c w IHw]; [exact N1 | apply IHw; exact (newlines_tl _ _ N1)].
    + inversion F' as [|? ? C F1]; subst. destruct w as [|d w].
      * cbn [app] in E. subst x. cbv beta iota in H. congruence.
      * injection E as -> E. inversion F; subst. exact (IH F1 w E H3).
Qed.
Lemma then_ok blank e cut p : then_end blank e cut p = true <-> stands blank e cut p.
Proof.
  unfold then_end, stands. destruct (e cut p) as [x|]; [|split; [discriminate | intros (y & Y & _); discriminate Y]]. rewrite only_ok. destruct (Nat.ltb_spec p x) as [L|L].
  - rewrite skip_newlines. split; [intros H; exists x; split; [reflexivity | left; split; assumption] | intros (y & [= <-] & [(_ & H)|(H & _)]); [exact H | lia]].
  - split; [intros H; exists x; split; [reflexivity | right; split; assumption] | intros (y & [= <-] & [(H & _)|(_ & H)]); [lia | exact H]].
Qed.
Lemma loop_ok blank e cut start n : forall from, from + n = start + 1 ->
  match behind_loop blank e cut start (seq from n) with
  | Some p => p + from <= start /\ stands blank e cut p /\ forall q, p < q -> q + from <= start -> ~ stands blank e cut q
  | None => forall q, q + from <= start -> ~ stands blank e cut q
  end.
Proof.
  induction n as [|n IH]; intros from E; cbn [seq behind_loop]; [intros q Q; lia|]. destruct (then_end blank e cut (start - from)) eqn:T.
  - apply then_ok in T. split; [lia|]. split; [exact T | intros; lia].
  - assert (NT : ~ stands blank e cut (start - from)) by (rewrite <- then_ok; congruence). specialize (IH (S from) ltac:(lia)). destruct (behind_loop blank e cut start (seq (S from) n)) as [p|].
    + destruct IH as (A & B & C). split; [lia|]. split; [exact B|]. intros q Q1 Q2. destruct (Nat.eq_dec q (start - from)) as [->|]; [exact NT | apply C; lia].
    + intros q Q. destruct (Nat.eq_dec q (start - from)) as [->|]; [exact NT | apply IH; lia].
Qed.

(** An expression whose length is not fixed: found is the nearest place, at least its least length back, where it stands in the text before start;
    there is a failure exactly if there is none. *)
Theorem C116_nearest : forall blank n retreat e s start,
  (forall p, preceded_by blank (Other n) retreat e s start = Some p <->
    p + n <= start /\ stands blank e (firstn start s) p /\ forall q, p < q -> q + n <= start -> ~ stands blank e (firstn start s) q) /\
  (preceded_by blank (Other n) retreat e s start = None <-> ~ exists p, p + n <= start /\ stands blank e (firstn start s) p).
Proof.
  intros blank n retreat e s start. unfold preceded_by. cbn [config]. destruct (Nat.le_gt_cases n (start + 1)) as [L|L].
  - pose proof (loop_ok blank e (firstn start s) start (start + 1 - n) n ltac:(lia)) as G. destruct (behind_loop blank e (firstn start s) start (seq n (start + 1 - n))) as [x|].
    + destruct G as (A & B & C). split; [intros p; split|split].
      * intros [= <-]. split; [exact A|]. split; assumption.
      * intros (A' & B' & C'). f_equal. destruct (Nat.lt_trichotomy x p) as [H|[H|H]]; [destruct (C p H A' B') | exact H | destruct (C' x H A B)].
      * discriminate.
      * intros H. destruct H. exists x. split; assumption.
    + split; [intros p; split; [discriminate | intros (A & B & _); destruct (G p A B)] | split; [intros _ (p & A & B); exact (G p A B) | reflexivity]].
  - replace (start + 1 - n) with 0 by lia. cbn [seq behind_loop]. split; [intros p; split; [discriminate | intros (A & _); lia] | split; [intros _ (p & A & _); lia | reflexivity]].
Qed.
Print Assumptions C116_nearest.

Lemma starts_ok w s : starts_with w s = true <-> exists r, s = w ++ r.
Proof.
  revert s. induction w as [|c w IH]; intros s; cbn [starts_with]; [split; [intros _; exists s; reflexivity | reflexivity]|]. destruct s as [|d s]; [split; [discriminate | intros (r & E); discriminate E]|].
  rewrite andb_true_iff, IH, N.eqb_eq. split; [intros (-> & r & ->); exists r; reflexivity | intros (r & E); injection E as -> ->; split; [reflexivity | exists r; reflexivity]].
Qed.
(** A literal: it stands directly before start. *)
Theorem C116_literal : forall blank w retreat s start, start <= length s ->
  ((exists p, preceded_by blank (Fixed (length w)) retreat (literal w) s start = Some p) <-> exists a b, s = a ++ w ++ b /\ start = length a + length w).
Proof.
  intros blank w retreat s start L. unfold preceded_by. cbn [config]. destruct (Nat.ltb_spec start (length w)) as [H|H]; [split; [intros (p & X); discriminate X | intros (a & b & _ & X); lia]|].
  unfold literal. destruct (starts_with w (skipn (start - length w) s)) eqn:S.
  - split; [intros _ | intros _; eexists; reflexivity]. apply starts_ok in S. destruct S as (r & S). exists (firstn (start - length w) s), r. rewrite <- S, firstn_skipn, firstn_length. split; [reflexivity | lia].
  - split; [intros (p & X); discriminate X|]. intros (a & b & -> & ->). exfalso. replace (length a + length w - length w) with (length a) in S by lia.
    rewrite skipn_app, skipn_all, Nat.sub_diag in S. cbn [app skipn] in S. assert (T : starts_with w (w ++ b) = true) by (apply starts_ok; exists b; reflexivity). congruence.
Qed.
Print Assumptions C116_literal.

(** However little it should look back, it looks back further: a letter (as a group, which is neither Literal nor Word) with white space behind it is found beyond any retreat. *)
Theorem C116_retreat_refuted : forall retreat, exists s start p, preceded_by (N.eqb 32) (Other 1) (Some retreat) (literal (u "a")) s start = Some p /\ retreat < start - p /\ start <= length s.
Proof.
  intros k. exists (97%N :: repeat 32%N k), (k + 1), 0. split; [|cbn [length]; rewrite repeat_length; lia].
  assert (F : firstn (k + 1) (97%N :: repeat 32%N k) = 97%N :: repeat 32%N k) by (apply firstn_all2; cbn [length]; rewrite repeat_length; lia).
  apply (proj1 (C116_nearest (N.eqb 32) 1 (Some k) (literal (u "a")) (97%N :: repeat 32%N k) (k + 1))). rewrite F. split; [lia|]. split.
  - exists 1. split; [reflexivity|]. left. split; [lia|]. exists (repeat 32%N k), []. split; [rewrite app_nil_r; reflexivity|]. split; [|constructor]. apply Forall_forall. intros c I. apply repeat_spec in I. subst c. reflexivity.
  - intros q Q _ (x & X & _). unfold literal in X. destruct (starts_with (u "a") (skipn q (97%N :: repeat 32%N k))) eqn:S; [|discriminate X]. apply starts_ok in S. destruct S as (r & S).
    assert (I : In 97%N (repeat 32%N k)).
    { destruct q as [|q]; [lia|]. cbn [skipn] in S. rewrite <- (firstn_skipn q (repeat 32%N k)). apply in_app_iff. right. rewrite S. left. reflexivity. }
    apply repeat_spec in I. discriminate I.
Qed.
Print Assumptions C116_retreat_refuted.

(** ** Examples *)
Example C116_example :
  preceded_by (N.eqb 32) (Fixed 2) None (literal (u "ab")) (u "xabc") 3 = Some 1 /\ preceded_by (N.eqb 32) (Fixed 2) None (literal (u "ab")) (u "xab c") 4 = None /\
  preceded_by (N.eqb 32) (Other 2) None (literal (u "ab")) (u "ab ab c") 6 = Some 3 /\ preceded_by (N.eqb 32) (Other 2) (Some 2) (literal (u "ab")) (u "ab   c") 5 = Some 0.
Proof. vm_compute. repeat split. Qed.
