(** C114: beginnings and ends of lines are found where lines are cut; the pattern of a beginning does not find them. *)
From Coq Require Import String Ascii List Arith NArith Bool Lia.
From Verif Require Import Base ErrPosModel LineTokenModel.
Import ListNotations.

Lemma rfind_app a c : rfind_nl (a ++ [c]) = if N.eqb c 10 then Some (length a) else rfind_nl a.
Proof.
  induction a as [|d a IH]; cbn [app rfind_nl length]; [reflexivity|]. rewrite IH. destruct (N.eqb c 10); reflexivity.
Qed.
Lemma rfind_less a i : rfind_nl a = Some i -> i < length a.
Proof.
  revert i. induction a as [|c a IH]; intros i E; [discriminate E|]. cbn [rfind_nl length] in *. destruct (rfind_nl a) as [j|]; [injection E as <-; specialize (IH j eq_refl); lia|].
  destruct (N.eqb c 10); [injection E as <-; lia | discriminate E].
Qed.
Lemma start_app a c r : line_start (a ++ c :: r) (length a + 1) = if N.eqb c 10 then Some (length a + 1) else None.
Proof.
  unfold line_start, col. replace (length a + 1 - 1) with (length a) by lia. rewrite nth_middle.
  assert (F : firstn (length a + 1) (a ++ c :: r) = a ++ [c]) by (rewrite firstn_app, firstn_all2 by lia; replace (length a + 1 - length a) with 1 by lia; reflexivity).
  rewrite F, rfind_app. destruct (N.eqb c 10).
  - rewrite andb_true_r. destruct (Nat.ltb 0 _ && Nat.ltb _ _); [reflexivity|]. replace (length a + 1 - length a) with 1 by lia. reflexivity.
  - rewrite andb_false_r. destruct (rfind_nl a) as [i|] eqn:E; [apply rfind_less in E|]; match goal with |- context[Nat.eqb ?x 1] => destruct (Nat.eqb_spec x 1); [lia | reflexivity] end.
Qed.

(** A line begins at the beginning of the text and after every line feed, at the end of the text as well, and nothing is taken. *)
Theorem C114_start : forall s start e, start <= length s -> (line_start s start = Some e <-> e = start /\ (start = 0 \/ exists a r, s = a ++ 10%N :: r /\ start = length a + 1)).
Proof.
  intros s start e L. destruct start as [|n].
  - assert (E : line_start s 0 = Some 0) by reflexivity. rewrite E. split; [intros [= <-]; split; [reflexivity | left; reflexivity] | intros (-> & _); reflexivity].
  - assert (X : exists a c r, s = a ++ c :: r /\ length a = n).
    { exists (firstn n s). destruct (skipn n s) as [|c r] eqn:K.
      - assert (Y : length (skipn n s) = 0) by (rewrite K; reflexivity). rewrite skipn_length in Y. lia.
      - exists c, r. rewrite <- K, firstn_skipn. split; [reflexivity|]. rewrite firstn_length. lia. }
    destruct X as (a & c & r & -> & <-). replace (S (length a)) with (length a + 1) by lia. rewrite start_app. destruct (N.eqb_spec c 10) as [->|C]; split.
    + intros [= <-]. split; [reflexivity|]. right. exists a, r. split; reflexivity.
    + intros (-> & _). reflexivity.
    + discriminate.
    + intros (_ & [Z|(a' & r' & E & Z)]); [lia|]. assert (Y : nth (length a) (a ++ c :: r) 0%N = nth (length a') (a' ++ 10%N :: r') 0%N) by (rewrite E; f_equal; lia). rewrite !nth_middle in Y. congruence.
Qed.
Print Assumptions C114_start.

(** A line ends before a line feed, with or without a carriage return before it, which are taken, and at the end of the text, with or without a carriage return. *)
Theorem C114_end : forall pre rest e, line_end (pre ++ rest) (length pre) = Some e <->
  exists cr, (cr = [] \/ cr = [13%N]) /\ ((exists r, rest = cr ++ 10%N :: r /\ e = length pre + length cr + 1) \/ (rest = cr /\ e = length pre + length cr)).
Proof.
  intros pre rest e. unfold line_end. rewrite skipn_app, skipn_all, Nat.sub_diag. cbn [app skipn]. split.
  - intros E. destruct rest as [|c r].
    + injection E as <-. exists []. split; [left; reflexivity|]. right. split; reflexivity.
    + cbn [line_end_match nl_or_end] in E. cbv zeta in E. destruct (N.eqb_spec c 13) as [->|C].
      * exists [13%N]. split; [right; reflexivity|]. change (13 =? 10)%N with false in E. cbv iota in E. destruct r as [|d r].
        -- injection E as <-. right. split; reflexivity.
        -- cbn [nl_or_end] in E. destruct (N.eqb_spec d 10) as [->|D]; [injection E as <-; left; exists r; split; [reflexivity | cbn [length]; lia]|].
           exfalso. destruct r as [|x r]; cbn [dollar] in E; [rewrite (proj2 (N.eqb_neq d 10) D) in E|]; discriminate E.
      * exists []. split; [left; reflexivity|]. destruct (N.eqb_spec c 10) as [->|D]; [injection E as <-; left; exists r; split; [reflexivity | cbn [length]; lia]|].
        exfalso. destruct r as [|x r]; cbn [dollar] in E; [rewrite (proj2 (N.eqb_neq c 10) D) in E|]; discriminate E.
  - intros (cr & [->| ->] & [(r & -> & ->)|(-> & ->)]); cbn [app length]; cbn -[Nat.add]; f_equal; lia.
Qed.
Print Assumptions C114_end.

(** After the end of a line another begins, or the text is over; and before every line but the first one ends. *)
Theorem C114_lines : forall pre rest,
  (forall e, line_end (pre ++ rest) (length pre) = Some e -> e = length (pre ++ rest) \/ line_start (pre ++ rest) e = Some e) /\
  (pre <> [] -> line_start (pre ++ rest) (length pre) = Some (length pre) -> line_end (pre ++ rest) (length pre - 1) = Some (length pre)).
Proof.
  intros pre rest. split.
  - intros e E. apply C114_end in E. destruct E as (cr & _ & [(r & -> & ->)|(-> & ->)]); [|left; rewrite app_length; reflexivity].
    right. apply C114_start; [rewrite !app_length; cbn [length]; lia|]. split; [reflexivity|]. right. exists (pre ++ cr), r. rewrite app_assoc, app_length. split; reflexivity.
  - intros Ne E. assert (X : exists a c, pre = a ++ [c]) by (destruct (exists_last Ne) as (a & c & X); exists a, c; exact X). clear Ne. destruct X as (a & c & ->).
    rewrite <- app_assoc in E |- *. rewrite app_length in E |- *. cbn [app length] in E |- *. rewrite start_app in E. destruct (N.eqb c 10) eqn:C; [|discriminate E]. apply N.eqb_eq in C. rewrite C.
    replace (length a + 1 - 1) with (length a) by lia. apply C114_end. exists []. split; [left; reflexivity|]. left. exists rest. split; [reflexivity | cbn [length]; lia].
Qed.
Print Assumptions C114_lines.

(** The pattern that LineStart gives for itself finds no line but the first. *)
Theorem C114_regex_refuted : forall a r, line_start (a ++ 10%N :: r) (length a + 1) = Some (length a + 1) /\ line_start_regex (a ++ 10%N :: r) (length a + 1) = None.
Proof. intros a r. rewrite start_app. split; [reflexivity|]. unfold line_start_regex. destruct (Nat.eqb_spec (length a + 1) 0); [lia | reflexivity]. Qed.
Print Assumptions C114_regex_refuted.

(** ** Examples *)
Example C114_example : let s := [97; 13; 10; 98; 13; 99; 13]%N in
  map (line_start s) (seq 0 8) = [Some 0; None; None; Some 3; None; None; None; None] /\
  map (line_end s) (seq 0 8) = [None; Some 3; Some 3; None; None; None; Some 7; Some 7].
Proof. vm_compute. split; reflexivity. Qed.
Example C114_regex_example : line_start [97; 10; 98]%N 2 = Some 2 /\ line_start_regex [97; 10; 98]%N 2 = None.
Proof. split; reflexivity. Qed.
