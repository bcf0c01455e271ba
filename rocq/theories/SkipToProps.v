(** C115: text is skipped to the first place where the target is found; an expression that should make it fail only ends it. *)
From Coq Require Import String Ascii List Arith NArith Bool Lia.
From Verif Require Import Base SkipToModel.
Import ListNotations.

(** A place is blank if white space begins there. *)
Definition blank_at (blank : N -> bool) (s : pystr) (p : nat) : Prop := exists c, nth_error s p = Some c /\ blank c = true.
(** The first place, from start on and not blank, that has a property. *)
Definition first_place (blank : N -> bool) (s : pystr) (P : nat -> Prop) (start p : nat) : Prop :=
  start <= p <= length s /\ ~ blank_at blank s p /\ P p /\ forall q, start <= q < p -> blank_at blank s q \/ ~ P q.
(** text is what is between start and p, without the white space before p. *)
Definition text_before (blank : N -> bool) (s : pystr) (start p : nat) (text : pystr) : Prop :=
  exists white, firstn (p - start) (skipn start s) = text ++ white /\ Forall (fun c => blank c = true) white /\ (text = [] \/ exists t c, text = t ++ [c] /\ blank c = false).
Definition matches (e : expr) (p : nat) : Prop := e p <> None.

Lemma skipn_add (s : pystr) a : forall b, skipn b (skipn a s) = skipn (a + b) s.
Proof. revert s. induction a as [|a IH]; intros s b; [reflexivity|]. destruct s as [|c s]; [rewrite !skipn_nil; reflexivity | exact (IH s b)]. Qed.
Lemma skip_ok blank s loc : loc <= length s -> loc <= skip blank s loc <= length s /\ ~ blank_at blank s (skip blank s loc) /\ forall q, loc <= q < skip blank s loc -> blank_at blank s q.
Proof.
  intros L. unfold skip. remember (skipn loc s) as rest eqn:E. revert loc L E. induction rest as [|c r IH]; intros loc L E.
  - cbn [skip_rest]. assert (K : length (skipn loc s) = 0) by (rewrite <- E; reflexivity). rewrite skipn_length in K. split; [lia|]. split; [|intros; lia].
    intros (c & X & _). assert (Y : nth_error s loc <> None) by congruence. apply nth_error_Some in Y. lia.
  - assert (X : nth_error s loc = Some c) by (rewrite <- (firstn_skipn loc s), nth_error_app2; rewrite firstn_length_le by exact L; [|lia]; rewrite Nat.sub_diag, <- E; reflexivity).
    assert (L' : loc < length s) by (apply nth_error_Some; congruence).
    cbn [skip_rest]. destruct (blank c) eqn:B.
    + assert (E' : r = skipn (S loc) s) by (replace (S loc) with (loc + 1) by lia; rewrite <- skipn_add, <- E; reflexivity).
      destruct (IH (S loc) L' E') as (A1 & A2 & A3). split; [lia|]. split; [exact A2|]. intros q Q. destruct (Nat.eq_dec q loc) as [->|]; [exists c; split; assumption | apply A3; lia].
    + split; [lia|]. split; [|intros; lia]. intros (d & Y & Z). congruence.
Qed.
Definition hit (target : expr) (fail : option expr) (p : nat) : Prop := matches target p \/ exists f, fail = Some f /\ matches f p.
(** What the loop gives from loc on: where it began last is loc, or follows a place that is not blank. *)
Definition good blank s target fail loc (r : left) : Prop :=
  match r with
  | Broken se be e => loc <= se <= be /\ first_place blank s (hit target fail) loc be /\ (forall q, se <= q < be -> blank_at blank s q) /\
      (se = loc \/ (loc < se /\ ~ blank_at blank s (se - 1) /\ se - 1 < length s)) /\
      ((exists f, fail = Some f /\ matches f be) /\ e = be \/ (~ exists f, fail = Some f /\ matches f be) /\ target be = Some e)
  | Ran => forall q, loc <= q <= length s -> blank_at blank s q \/ ~ hit target fail q
  | OutOfFuel => False
  end.
Lemma loop_ok blank s target fail : forall fuel loc, loc <= length s + 1 -> length s + 1 < loc + fuel -> good blank s target fail loc (skip_loop fuel blank s target fail loc).
Proof.
  induction fuel as [|fuel IH]; intros loc M L; [lia|]. cbn [skip_loop]. destruct (Nat.leb_spec loc (length s)) as [K|K]; [|intros q Q; lia]. cbv zeta.
  destruct (skip_ok blank s loc K) as (A & B & C). set (be := skip blank s loc) in *.
  assert (Base : hit target fail be -> loc <= loc <= be /\ first_place blank s (hit target fail) loc be /\ (forall q, loc <= q < be -> blank_at blank s q) /\ (loc = loc \/ (loc < loc /\ ~ blank_at blank s (loc - 1) /\ loc - 1 < length s))).
  { intros H. split; [lia|]. split; [split; [lia|]; split; [exact B|]; split; [exact H|]; intros q Q; left; apply C; lia|]. split; [exact C | left; reflexivity]. }
  destruct (match fail with Some f => f be | None => None end) as [x|] eqn:F.
  - assert (X : exists f, fail = Some f /\ matches f be) by (destruct fail as [f|]; [exists f; split; [reflexivity | unfold matches; congruence] | discriminate F]).
    destruct Base as (B1 & B2 & B3 & B4); [right; exact X|]. repeat (split; [assumption|]). left. split; [exact X | reflexivity].
  - assert (X : ~ exists f, fail = Some f /\ matches f be) by (intros (f & -> & X); exact (X F)). destruct (target be) as [e|] eqn:T.
    + destruct Base as (B1 & B2 & B3 & B4); [left; unfold matches; congruence|]. repeat (split; [assumption|]). right. split; [exact X | exact T].
    + assert (NH : ~ hit target fail be) by (intros [H|H]; [exact (H T) | exact (X H)]). specialize (IH (be + 1) ltac:(lia) ltac:(lia)).
      assert (Q1 : forall q, loc <= q < be + 1 -> blank_at blank s q \/ ~ hit target fail q) by (intros q Q; destruct (Nat.eq_dec q be) as [->|]; [right; exact NH | left; apply C; lia]).
      destruct (skip_loop fuel blank s target fail (be + 1)) as [se b e| |]; cbn [good] in IH |- *; [| |exact IH].
      * destruct IH as (I1 & (I2 & I3 & I4 & I5) & I6 & I7 & I8). split; [lia|]. split.
        -- split; [lia|]. split; [exact I3|]. split; [exact I4|]. intros q Q. destruct (Nat.lt_ge_cases q (be + 1)); [apply Q1; lia | apply I5; lia].
        -- split; [exact I6|]. split; [|exact I8]. right. destruct I7 as [->|(I7 & I9 & I10)]; [|split; [lia | split; assumption]].
           replace (be + 1 - 1) with be by lia. split; [lia|]. split; [exact B | lia].
      * intros q Q. destruct (Nat.lt_ge_cases q (be + 1)); [apply Q1; lia | apply IH; lia].
Qed.
Lemma first_unique blank s P start p q : first_place blank s P start p -> first_place blank s P start q -> p = q.
Proof.
  intros (A1 & A2 & A3 & A4) (B1 & B2 & B3 & B4). destruct (Nat.lt_trichotomy p q) as [H|[H|H]]; [|exact H|].
  - destruct (B4 p) as [X|X]; [lia | destruct (A2 X) | destruct (X A3)].
  - destruct (A4 q) as [X|X]; [lia | destruct (B2 X) | destruct (X B3)].
Qed.
Lemma nth_error_slice (s : pystr) a n i : i < n -> nth_error (firstn n (skipn a s)) i = nth_error s (a + i).
Proof.
  revert a i. assert (G : forall (t : pystr) n i, i < n -> nth_error (firstn n t) i = nth_error t i).
  { induction t as [|c t IH]; intros m i H; [rewrite firstn_nil; reflexivity|]. destruct m; [lia|]. destruct i; [reflexivity|]. cbn [firstn nth_error]. apply IH. lia. }
  intros a i H. rewrite G by exact H. clear G H n. revert a. induction s as [|c s IH]; intros a; [destruct a, i; reflexivity|]. destruct a; [reflexivity|]. cbn [skipn plus nth_error]. apply IH.
Qed.
Lemma text_ok blank s start se be : start <= se <= be -> be <= length s -> (forall q, se <= q < be -> blank_at blank s q) ->
  (se = start \/ (start < se /\ ~ blank_at blank s (se - 1) /\ se - 1 < length s)) -> text_before blank s start be (firstn (se - start) (skipn start s)).
Proof.
  intros L M W S. exists (firstn (be - se) (skipn se s)). split; [|split].
  - replace (skipn se s) with (skipn (se - start) (skipn start s)) by (rewrite skipn_add; f_equal; lia).
    replace (be - start) with ((se - start) + (be - se)) by lia. generalize (be - se) as m. generalize (skipn start s) as t. generalize (se - start) as k. clear. induction k as [|k IH]; intros t m; [reflexivity|].
    destruct t as [|c t]; [destruct m; reflexivity|]. cbn [plus firstn skipn app]. rewrite IH. reflexivity.
  - apply Forall_forall. intros c I. apply In_nth_error in I. destruct I as (i & I). assert (X : i < length (firstn (be - se) (skipn se s))) by (apply nth_error_Some; congruence).
    rewrite firstn_length in X. rewrite nth_error_slice in I by lia. destruct (W (se + i)) as (d & D & E); [lia|]. congruence.
  - destruct S as [->|(S1 & S2 & S3)]; [left; rewrite Nat.sub_diag; reflexivity|]. right. destruct (nth_error s (se - 1)) as [c|] eqn:C; [|apply nth_error_None in C; lia].
    exists (firstn (se - 1 - start) (skipn start s)), c. split.
    + assert (X : nth_error (skipn start s) (se - 1 - start) = Some c).
      { rewrite <- (firstn_all (skipn start s)), nth_error_slice by (rewrite skipn_length; lia). replace (start + (se - 1 - start)) with (se - 1) by lia. exact C. }
      replace (se - start) with (S (se - 1 - start)) by lia. revert X. generalize (skipn start s) as t. generalize (se - 1 - start) as k. clear. induction k as [|k IH]; intros [|d t] X; try discriminate X.
      * injection X as ->. reflexivity.
      * cbn [firstn app] in *. f_equal. apply (IH t X).
    + destruct (blank c) eqn:B; [|reflexivity]. destruct S2. exists c. split; assumption.
Qed.

(** Nothing to fail on: the text is skipped to the first place, not blank, where the target matches; there is a failure exactly if there is none. *)
Theorem C115_first : forall blank target include s start, start <= length s ->
  (exists p text e, skip_to blank target None include s start = Skipped (if include : bool then e else p) text include /\ first_place blank s (matches target) start p /\ target p = Some e /\ text_before blank s start p text) \/
  (skip_to blank target None include s start = Fails /\ ~ exists p, first_place blank s (matches target) start p).
Proof.
  intros blank target include s start L. unfold skip_to. pose proof (loop_ok blank s target None (length s + 2 - start) start ltac:(lia) ltac:(lia)) as G.
  assert (H : forall q, hit target None q <-> matches target q) by (intros q; split; [intros [X|(f & X & _)]; [exact X | discriminate X] | intros X; left; exact X]).
  destruct (skip_loop (length s + 2 - start) blank s target None start) as [se be e| |]; cbn [good] in G; [| |destruct G].
  - destruct G as (G1 & (G2 & G3 & G4 & G5) & G6 & G7 & [((f & X & _) & _)|(_ & T)]); [discriminate X|]. left. exists be, (firstn (se - start) (skipn start s)), e. cbv zeta. rewrite T. split; [destruct include; reflexivity|]. split.
    + split; [exact G2|]. split; [exact G3|]. split; [apply H; exact G4|]. intros q Q. rewrite <- H. exact (G5 q Q).
    + split; [reflexivity|]. apply text_ok; [lia | lia | exact G6 | exact G7].
  - right. split; [reflexivity|]. intros (p & A & B & C & _). destruct (G p A) as [X|X]; [exact (B X) | apply X, H, C].
Qed.
Print Assumptions C115_first.

(** An expression to fail on, found before the target, does not make it fail: the text before it is skipped as if it were the target. *)
Theorem C115_fail_refuted : forall blank target f s start p, first_place blank s (fun q => matches target q \/ matches f q) start p -> matches f p ->
  exists text, skip_to blank target (Some f) false s start = Skipped p text false /\ text_before blank s start p text.
Proof.
  intros blank target f s start p P F. unfold skip_to. assert (L : start <= length s) by (destruct P as (P & _); lia). pose proof (loop_ok blank s target (Some f) (length s + 2 - start) start ltac:(lia) ltac:(lia)) as G.
  assert (H : forall q, hit target (Some f) q <-> matches target q \/ matches f q) by (intros q; split; [intros [X|(g & [= <-] & X)]; [left | right]; exact X | intros [X|X]; [left; exact X | right; exists f; split; [reflexivity | exact X]]]).
  assert (P' : first_place blank s (hit target (Some f)) start p) by (destruct P as (P1 & P2 & P3 & P4); split; [exact P1|]; split; [exact P2|]; split; [apply H; exact P3|]; intros q Q; rewrite H; exact (P4 q Q)).
  destruct (skip_loop (length s + 2 - start) blank s target (Some f) start) as [se be e| |]; cbn [good] in G; [| |destruct G].
  - destruct G as (G1 & G2 & G6 & G7 & _). assert (be = p) by exact (first_unique _ _ _ _ _ _ G2 P'). subst be. eexists. split; [reflexivity|]. destruct P as (P & _). apply text_ok; [lia | lia | exact G6 | exact G7].
  - exfalso. destruct P' as (A & B & C & _). destruct (G p A) as [X|X]; [exact (B X) | exact (X C)].
Qed.
Print Assumptions C115_fail_refuted.

(** ** Examples *)
Definition at_char (s : pystr) (c : N) : expr := fun p => match nth_error s p with Some d => if N.eqb c d then Some (p + 1) else None | None => None end.
Example C115_example : let s := u "ab c  ;d" in
  skip_to (N.eqb 32) (at_char s 59) None false s 0 = Skipped 6 (u "ab c") false /\ skip_to (N.eqb 32) (at_char s 59) None true s 0 = Skipped 7 (u "ab c") true /\
  skip_to (N.eqb 32) (at_char s 120) None true s 0 = Fails.
Proof. vm_compute. repeat split. Qed.
Example C115_fail_example : let s := u "ab c  ;d" in skip_to (N.eqb 32) (at_char s 59) (Some (at_char s 99)) false s 0 = Skipped 3 (u "ab") false /\ matches (at_char s 99) 3.
Proof. split; [reflexivity | discriminate]. Qed.
