(** C111: a close match is accepted exactly if it has few mismatches, and they are listed. *)
From Coq Require Import String Ascii List Arith NArith Bool Lia.
From Verif Require Import Base CloseModel.
Import ListNotations.

(** The positions of the match text at which the text from start differs from it (parsing/tokens.py L284-287). *)
Definition differences (m s : pystr) (start : nat) : list nat := filter (fun i => negb (N.eqb (nth (start + i) s 0%N) (nth i m 0%N))) (seq 0 (length m)).

Lemma loop_ok max : forall mat src i mis, length src = length mat ->
  compare_loop max i mis src mat =
    let d := filter (fun j => negb (N.eqb (nth (j - i) src 0%N) (nth (j - i) mat 0%N))) (seq i (length mat)) in
    if match d with [] => true | _ => Nat.leb (length (mis ++ d)) max end then Some (mis ++ d) else None.
Proof.
  induction mat as [|b mat IH]; intros src i mis L; destruct src as [|a src]; cbn [length] in L; try lia.
  - cbn. rewrite app_nil_r. reflexivity.
  - cbn [compare_loop length seq filter]. rewrite Nat.sub_diag. change (nth 0 (a :: src) 0%N) with a. change (nth 0 (b :: mat) 0%N) with b.
    assert (F : filter (fun j => negb (N.eqb (nth (j - i) (a :: src) 0%N) (nth (j - i) (b :: mat) 0%N))) (seq (S i) (length mat)) =
                filter (fun j => negb (N.eqb (nth (j - S i) src 0%N) (nth (j - S i) mat 0%N))) (seq (S i) (length mat))).
    { apply filter_ext_in. intros j I. apply in_seq in I. replace (j - i) with (S (j - S i)) by lia. reflexivity. }
    cbv zeta. match goal with |- context[filter ?f (seq (S i) (length mat))] => change (filter f (seq (S i) (length mat))) with
      (filter (fun j => negb (N.eqb (nth (j - i) (a :: src) 0%N) (nth (j - i) (b :: mat) 0%N))) (seq (S i) (length mat))) end. rewrite F.
    destruct (N.eqb a b); cbn [negb].
    + rewrite IH by lia. reflexivity.
    + rewrite IH by lia. cbv zeta. set (d := filter _ _). rewrite <- app_assoc. cbn [app].
      destruct (Nat.ltb_spec max (length (mis ++ [i]))) as [H|H]; rewrite app_length in H; cbn [length] in H.
      * destruct (Nat.leb_spec (length (mis ++ i :: d)) max) as [H'|H']; [rewrite app_length in H'; cbn [length] in H'; lia | reflexivity].
      * destruct d as [|x d]; [|reflexivity].
        destruct (Nat.leb_spec (length (mis ++ [i])) max) as [H'|H']; [reflexivity | rewrite app_length in H'; cbn [length] in H'; lia].
Qed.

(** It fits into the text and differs in at most max places: then it is accepted, and the places are given; else it fails. *)
Theorem C111_accepts : forall m max s start,
  option_map snd (close_match m max s start) =
  if Nat.leb (start + length m) (length s) && Nat.leb (length (differences m s start)) max then Some (differences m s start) else None.
Proof.
  intros m max s start. unfold close_match. cbv zeta. destruct (Nat.leb_spec (start + length m) (length s)) as [L|L]; [|reflexivity]. cbn [andb].
  assert (Ls : length (slice s start (start + length m)) = length m) by (unfold slice; rewrite skipn_length, firstn_length; lia).
  rewrite loop_ok by exact Ls. cbv zeta. cbn [app].
  assert (D : filter (fun j => negb (N.eqb (nth (j - 0) (slice s start (start + length m)) 0%N) (nth (j - 0) m 0%N))) (seq 0 (length m)) = differences m s start).
  { apply filter_ext_in. intros j I. apply in_seq in I. rewrite Nat.sub_0_r. do 2 f_equal. unfold slice.
    assert (Sk : forall n (l : pystr) k, nth k (skipn n l) 0%N = nth (n + k) l 0%N).
    { induction n as [|n IHn]; intros l k; [reflexivity|]. destruct l as [|x l]; [destruct k; reflexivity | exact (IHn l k)]. }
    assert (Fi : forall n (l : pystr) k, k < n -> nth k (firstn n l) 0%N = nth k l 0%N).
    { induction n as [|n IHn]; intros l k H; [lia|]. destruct l as [|x l]; [reflexivity|]. destruct k as [|k]; [reflexivity | cbn [firstn nth]; apply (IHn l k); lia]. }
    rewrite Sk, Fi by lia. reflexivity. }
  rewrite D. destruct (differences m s start) as [|x d]; [reflexivity|]. destruct (Nat.leb _ _); reflexivity.
Qed.
Print Assumptions C111_accepts.

(** At the beginning of the text the end and the text are right. *)
Theorem C111_beginning : forall m max s e t d, m <> [] -> close_match m max s 0 = Some (e, t, d) -> e = length m /\ exists r, s = t ++ r /\ length t = length m.
Proof.
  intros m max s e t d Ne. unfold close_match. cbv zeta. cbn [Nat.add]. destruct (Nat.leb_spec (length m) (length s)) as [L|L]; [|discriminate].
  destruct (compare_loop _ _ _ _ _); [|discriminate]. intros [= <- <- <-]. assert (P : length m - 1 + 1 = length m) by (destruct m; [destruct (Ne eq_refl) | cbn; lia]).
  rewrite P. split; [reflexivity|]. exists (skipn (length m) s). unfold slice. cbn [skipn]. split; [symmetry; apply firstn_skipn | rewrite firstn_length; lia].
Qed.
Print Assumptions C111_beginning.

(** Further on they are not: the end does not count the start, and the text is shorter than what was matched. *)
Theorem C111_end_refuted : forall m max s start e t d, m <> [] -> 0 < start -> close_match m max s start = Some (e, t, d) ->
  e < start + length m /\ length t < length m.
Proof.
  intros m max s start e t d Ne Hs. unfold close_match. cbv zeta. destruct (Nat.leb_spec (start + length m) (length s)) as [L|L]; [|discriminate].
  destruct (compare_loop _ _ _ _ _); [|discriminate]. intros [= <- <- <-]. assert (P : length m - 1 + 1 = length m) by (destruct m; [destruct (Ne eq_refl) | cbn; lia]).
  assert (P' : 0 < length m) by (destruct m; [destruct (Ne eq_refl) | cbn; lia]).
  rewrite P. split; [lia|]. unfold slice. rewrite skipn_length, firstn_length. lia.
Qed.
Print Assumptions C111_end_refuted.

(** ** Examples *)
Example C111_example :
  close_match (u "ATCATCGAATGGA") 1 (u "ATCATCGAAXGGAT") 0 = Some (13, u "ATCATCGAAXGGA", [9]) /\
  close_match (u "ATCATCGAATGGA") 1 (u "ATCAXCGAAXGGA") 0 = None /\ close_match (u "ATCATCGAATGGA") 2 (u "ATCAXCGAAXGGA") 0 = Some (13, u "ATCAXCGAAXGGA", [4; 9]) /\
  close_match (u "ABC") 1 (u "xxABDyy") 2 = Some (3, u "A", [2]) /\ close_match (u "ABC") 1 (u "xxxABC") 3 = Some (3, [], []).
Proof. vm_compute. repeat split. Qed.
