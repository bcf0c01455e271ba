(** * Lemmas: lexing what the SQL writer emits *)
From Coq Require Import String Ascii List NArith ZArith QArith Bool Lia ZifyBool ZifyNat ZifyN.
From Verif Require Import Base BaseProof JsonModel CreateModel DotsModel DotsSpec DotsProof SqlLex SqlRead FmtModel FmtSpec.
Import ListNotations.
Open Scope N_scope.

Lemma letter_eq c : ascii_letter c = letter c.
Proof. reflexivity. Qed.
Lemma digit_eq c : ascii_digit c = digit c.
Proof. reflexivity. Qed.

(** ** Quoted texts *)
Lemma read_quoted_rest (bs : bool) q s : (bs = true -> ~ In 92 s) -> q <> 92 ->
  forall rest, match rest with d :: _ => d <> q | [] => True end ->
  read_quoted bs q (double_char q s ++ q :: rest) = Some (s, rest).
Proof.
  intros HB HQ rest HR. induction s as [|c s IH].
  - cbn. rewrite N.eqb_refl. destruct rest as [|d r]; [reflexivity|].
    destruct (N.eqb_spec d q); [congruence|reflexivity].
  - assert (IH' : read_quoted bs q (double_char q s ++ q :: rest) = Some (s, rest)).
    { apply IH. intros E F. apply (HB E). now right. }
    unfold double_char, replace1 in *. cbn [flat_map]. destruct (N.eqb_spec c q) as [->|Hc].
    + cbn [app read_quoted]. rewrite N.eqb_refl, IH'. reflexivity.
    + cbn [app read_quoted]. destruct (N.eqb_spec c q); [congruence|].
      assert (E : bs && (c =? 92) = false).
      { destruct bs; [|reflexivity]. cbn. apply N.eqb_neq. intros ->. apply HB; [reflexivity|now left]. }
      rewrite E, IH'. reflexivity.
Qed.

(** ** Composition *)
Section Lexing.
Variables bs dq : bool.

Definition Lx (s : pystr) (ts : list token) : Prop :=
  forall n, (length s <= n)%nat -> lex_fuel n bs dq s = Some ts.

Lemma Lx_lex s ts : Lx s ts -> lex bs dq s = Some ts.
Proof. intros H. apply H. apply Nat.le_refl. Qed.
Lemma Lx_nil : Lx [] [].
Proof. intros [|n] _; reflexivity. Qed.
Lemma Lx_space c s ts : space c = true -> Lx s ts -> Lx (c :: s) ts.
Proof.
  intros E H n Hn. cbn in Hn. destruct n as [|n]; [lia|]. cbn [lex_fuel]. rewrite E. apply H. lia.
Qed.
Lemma Lx_tok c s t r ts : space c = false -> read_token bs dq (c :: s) = Some (t, r) -> (length r <= length s)%nat ->
  Lx r ts -> Lx (c :: s) (t :: ts).
Proof.
  intros E T L H n Hn. cbn in Hn. destruct n as [|n]; [lia|]. cbn [lex_fuel]. rewrite E, T, H by lia. reflexivity.
Qed.

(** [s] is read as [ts] when something that ends words follows. *)
Definition Lw (s : pystr) (ts : list token) : Prop :=
  forall rest ts', sep rest = true -> Lx rest ts' -> Lx (s ++ rest) (ts ++ ts').

Lemma Lw_lex s ts : Lw s ts -> lex bs dq s = Some ts.
Proof.
  intros H. apply Lx_lex. specialize (H [] [] eq_refl Lx_nil). now rewrite !app_nil_r in H.
Qed.

Lemma sep_head rest : sep rest = true -> match rest with d :: _ => word_char d = false /\ d <> 39 /\ d <> 34 /\ d <> 96 /\ digit d = false | [] => True end.
Proof.
  destruct rest as [|d r]; [easy|]. cbn [sep]. intros H.
  assert (D : d = 32 \/ d = 40 \/ d = 41 \/ d = 44 \/ d = 46) by lia.
  destruct D as [->|[->|[->|[->| ->]]]]; cbv; repeat split; congruence.
Qed.

Lemma span_all p s rest : forallb p s = true -> match rest with d :: _ => p d = false | [] => True end ->
  span p (s ++ rest) = (s, rest).
Proof.
  intros H R. induction s as [|c s IH]; cbn in *.
  - destruct rest as [|d r]; [reflexivity|]. cbn. now rewrite R.
  - apply andb_true_iff in H as [-> H]. now rewrite (IH H).
Qed.

Lemma space_word c : word_start c = true -> space c = false.
Proof. unfold word_start, letter, space. lia. Qed.
Lemma space_digit c : digit c = true -> space c = false.
Proof. unfold digit, space. lia. Qed.
Lemma word_start_not c : word_start c = true -> (c =? 39) = false /\ (c =? 34) = false /\ (c =? 96) = false.
Proof. unfold word_start, letter. lia. Qed.
Lemma digit_not c : digit c = true -> (c =? 39) = false /\ (c =? 34) = false /\ (c =? 96) = false /\ word_start c = false.
Proof. unfold digit, word_start, letter. lia. Qed.

Lemma Lw_word c w : word_start c = true -> forallb word_char w = true -> Lw (c :: w) [TWord (c :: w)].
Proof.
  intros C W rest ts' S H. cbn [app].
  pose proof (sep_head _ S) as HR.
  apply Lx_tok with (r := rest); [now apply space_word| |rewrite app_length; lia|exact H].
  unfold read_token. destruct (word_start_not _ C) as [-> [-> ->]]. rewrite C.
  change (c :: w ++ rest) with ((c :: w) ++ rest). rewrite span_all; [reflexivity| |].
  - cbn [forallb]. rewrite W. unfold word_char. now rewrite C.
  - destruct rest as [|d r]; [easy|]. apply HR.
Qed.

Lemma Lw_num c w : digit c = true -> forallb digit w = true -> Lw (c :: w) [TNum (c :: w)].
Proof.
  intros C W rest ts' S H. cbn [app].
  pose proof (sep_head _ S) as HR.
  apply Lx_tok with (r := rest); [now apply space_digit| |rewrite app_length; lia|exact H].
  unfold read_token. destruct (digit_not _ C) as [-> [-> [-> ->]]]. rewrite C.
  change (c :: w ++ rest) with ((c :: w) ++ rest). rewrite span_all.
  - destruct rest as [|d r]; [reflexivity|]. now rewrite (proj1 HR).
  - cbn [forallb]. now rewrite C, W.
  - destruct rest as [|d r]; [easy|]. apply HR.
Qed.

Lemma Lw_str s : (bs = true -> ~ In 92 s) -> Lw (quote_str s) [TStr s].
Proof.
  intros B rest ts' S H. unfold quote_str. cbn [app].
  pose proof (sep_head _ S) as HR.
  apply Lx_tok with (r := rest); [reflexivity| |rewrite !app_length; cbn; lia|exact H].
  unfold read_token. change (39 =? 39) with true. cbv iota.
  rewrite <- app_assoc. cbn [app]. rewrite read_quoted_rest; [reflexivity|exact B|discriminate|].
  destruct rest as [|d r]; [easy|]. apply HR.
Qed.

Lemma Lw_dquoted s : dq = false -> Lw (34 :: double_char 34 s ++ [34]) [TQuoted s].
Proof.
  intros B rest ts' S H. cbn [app].
  pose proof (sep_head _ S) as HR.
  apply Lx_tok with (r := rest); [reflexivity| |rewrite !app_length; cbn; lia|exact H].
  unfold read_token. change (34 =? 39) with false. change (34 =? 34) with true. cbv iota.
  rewrite <- app_assoc. cbn [app]. rewrite read_quoted_rest; [now rewrite B| |discriminate|].
  - intros E. rewrite B in E. now destruct bs.
  - destruct rest as [|d r]; [easy|]. apply HR.
Qed.
Lemma Lw_bquoted s : Lw (96 :: double_char 96 s ++ [96]) [TQuoted s].
Proof.
  intros rest ts' S H. cbn [app].
  pose proof (sep_head _ S) as HR.
  apply Lx_tok with (r := rest); [reflexivity| |rewrite !app_length; cbn; lia|exact H].
  unfold read_token. change (96 =? 39) with false. change (96 =? 34) with false. change (96 =? 96) with true. cbv iota.
  rewrite <- app_assoc. cbn [app]. rewrite read_quoted_rest; [reflexivity| |discriminate|].
  - discriminate.
  - destruct rest as [|d r]; [easy|]. apply HR.
Qed.

(** ** Identifier parts *)
Variable alnum : N -> bool.
Hypothesis HA : ascii_ok alnum.

Lemma wordc_word c : wordc alnum c = true -> word_char c = true.
Proof.
  unfold wordc. intros H. destruct (N.ltb_spec c 128) as [L|L].
  - rewrite (HA c L) in H. unfold word_char, word_start. lia.
  - unfold word_char, word_start. lia.
Qed.

Lemma valid_tail_word s : valid_tail alnum s = true -> last s 0 <> 10 -> forallb word_char s = true.
Proof.
  induction s as [|c [|d r] IH]; intros H L; [reflexivity| |].
  - cbn in H, L |- *. rewrite andb_true_r. apply wordc_word.
    destruct (wordc alnum c); [reflexivity|]. cbn in H. apply N.eqb_eq in H. congruence.
  - change (wordc alnum c && valid_tail alnum (d :: r) = true) in H. apply andb_true_iff in H as [H1 H2].
    change (last (c :: d :: r) 0) with (last (d :: r) 0) in L.
    change (word_char c && forallb word_char (d :: r) = true). rewrite (wordc_word c H1), (IH H2 L). reflexivity.
Qed.

Lemma valid_word s : valid alnum s = true -> last s 0 <> 10 ->
  exists c w, s = c :: w /\ word_start c = true /\ forallb word_char w = true.
Proof.
  destruct s as [|c w]; cbn [valid]; [discriminate|]. intros H L. apply andb_true_iff in H as [H1 H2].
  exists c, w. split; [reflexivity|]. split.
  - rewrite letter_eq in H1. unfold word_start. now rewrite H1.
  - apply valid_tail_word; [exact H2|]. destruct w; [cbn; lia|exact L].
Qed.

Definition part_tok (p : pystr) : token := if should_quote alnum p then TQuoted p else TWord p.

Lemma Lw_esc ansi p : name_ok p -> (ansi = true -> dq = false) -> Lw (esc alnum ansi p) [part_tok p].
Proof.
  intros [NS NL] HD. unfold esc, part_tok. destruct (should_quote alnum p) eqn:Q.
  - unfold quote_char. destruct ansi; [apply Lw_dquoted; exact (HD eq_refl)|apply Lw_bquoted].
  - unfold should_quote in Q. assert (S : seqb p (u "*") = false) by (now apply seqb_neq).
    rewrite S in Q. cbn [negb andb] in Q. apply orb_false_iff in Q as [Q _]. apply negb_false_iff in Q.
    destruct (valid_word _ Q NL) as (c & w & -> & C & W). now apply Lw_word.
Qed.

Lemma kw_prefix_low w s : map low s = w -> kw_prefix w s = true.
Proof.
  revert w. induction s as [|c s IH]; intros w <-; [reflexivity|]. cbn [map kw_prefix].
  change (lower_char c) with (low c). now rewrite N.eqb_refl, (IH _ eq_refl).
Qed.

Lemma kw_of_reserved s k : kw_of s = Some k -> is_keyword s = true.
Proof.
  unfold kw_of. destruct (find _ kw_list) as [p|] eqn:F; [|discriminate]. intros _.
  apply find_some in F as [I E]. apply seqb_eq in E.
  unfold is_keyword. apply existsb_exists. exists (fst p). split.
  - unfold kw_list in I. cbn [In] in I. apply smem_In.
    repeat (destruct I as [<-|I]; [reflexivity|]). destruct I.
  - apply kw_prefix_low. now symmetry.
Qed.

Lemma part_name p : name_ok p -> name_tok (part_tok p) = Some p.
Proof.
  intros [NS _]. unfold part_tok. destruct (should_quote alnum p) eqn:Q; [reflexivity|].
  cbn [name_tok]. destruct (kw_of p) as [k|] eqn:K; [|reflexivity].
  apply kw_of_reserved in K. unfold should_quote in Q.
  assert (S : seqb p (u "*") = false) by (now apply seqb_neq).
  rewrite S, K in Q. cbn in Q. now rewrite orb_true_r in Q.
Qed.
End Lexing.
