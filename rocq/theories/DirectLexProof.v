(** The tokens that MySQL reads in a text of an application. *)
From Coq Require Import String Ascii List Arith NArith ZArith Bool Lia ZifyBool ZifyNat ZifyN Decimal.
From Verif Require Import Base BaseProof JsonModel SqlLex SqlRead FmtModel FmtSpec FmtLexProof ScrubModel OperModel OperSpec TextSpec LitModel LitSpec LitProof GramModel GramSpec GramNumProof DirectSpec.
Import ListNotations.

(** ** Numbers *)
Definition dstep (a : Z) (c : N) : Z := (10 * a + Z.of_N (c - 48))%Z.
Lemma dig_cases c : is_digit c = true -> In c [48; 49; 50; 51; 52; 53; 54; 55; 56; 57]%N.
Proof. unfold is_digit. intros H. cbn [In]. lia. Qed.
Lemma uint_some t : forallb is_digit t = true -> exists d, parse_uint t = Some d /\ forall a, Z.pos (Pos.of_uint_acc d a) = fold_left dstep t (Z.pos a).
Proof.
  induction t as [|c t IH]; intros H; [now exists Nil|]. cbn [forallb] in H. apply andb_true_iff in H. destruct H as [C H]. destruct (IH H) as (d & P & Q).
  cbn [parse_uint]. rewrite P. apply dig_cases in C. cbn [In] in C.
  repeat (destruct C as [<-|C]; [eexists; split; [reflexivity|]; intros a; cbn [fold_left Pos.of_uint_acc]; rewrite Q; f_equal; unfold dstep; lia|]). contradiction.
Qed.
Lemma uint_value t : forallb is_digit t = true -> exists d, parse_uint t = Some d /\ Z.of_uint d = digits_value t.
Proof.
  change digits_value with (fun l => fold_left dstep l 0%Z). cbv beta.
  induction t as [|c t IH]; intros H; [now exists Nil|]. cbn [forallb] in H. apply andb_true_iff in H. destruct H as [C H]. destruct (IH H) as (d & P & Q).
  destruct (uint_some t H) as (d' & P' & R). assert (d' = d) by congruence. subst d'.
  cbn [parse_uint]. rewrite P. apply dig_cases in C. cbn [In] in C.
  repeat (destruct C as [<-|C]; [eexists; split; [reflexivity|]; cbn [fold_left]; first [exact Q|unfold Z.of_uint; cbn [Pos.of_uint Z.of_N]; rewrite R; reflexivity]|]). contradiction.
Qed.
Lemma numval_digits t : t <> [] -> forallb is_digit t = true -> numval t = digits_value t.
Proof.
  intros NE H. destruct (uint_value t H) as (d & P & Q). unfold numval, parse_int. destruct t as [|c t]; [congruence|].
  cbn [forallb] in H. apply andb_true_iff in H. destruct H as [C _]. destruct (N.eqb_spec c 45) as [->|_]; [discriminate C|]. rewrite P. exact Q.
Qed.

(** ** Parts and their tokens *)
Inductive tk : lexeme -> token -> Prop :=
| tk_kw w t : map low t = w -> tk (LKw w) (TWord t)
| tk_name v : SqlRead.kw_of v = None -> ~ In (map low v) stmt_words -> ~ In 46%N v -> ~ In 8%N v -> ~ In (map low v) language -> tk (LName v) (TWord v)
| tk_quoted v : ~ In 46%N v -> ~ In 8%N v -> tk (LName v) (TQuoted v)
| tk_fun v : tk (LFun v) (TWord v)
| tk_num z t : numval t = z -> tk (LNum z) (TNum t)
| tk_str v : tk (LStr v) (TStr v)
| tk_sym s : s <> u "==" -> tk (LSym s) (TSym s).

Lemma kw_of_language v k : SqlRead.kw_of v = Some k -> In (map low_char v) language.
Proof.
  unfold SqlRead.kw_of. destruct (find _ kw_list) as [[w k']|] eqn:F; [|discriminate]. intros _. apply find_some in F. cbn [fst] in F. destruct F as [F E]. apply seqb_eq in E. change (map low_char v) with (map low v). rewrite <- E.
  apply smem_In. unfold kw_list in F. cbn [In] in F. repeat (destruct F as [F|F]; [injection F as <- _; vm_compute; reflexivity|]). contradiction.
Qed.
Lemma stmt_language w : In w stmt_words -> In w language.
Proof.
  intros H. apply smem_In. unfold stmt_words in H. cbn [map In] in H. repeat (destruct H as [<-|H]; [vm_compute; reflexivity|]). contradiction.
Qed.
Lemma plain_words v : plain_name v -> SqlRead.kw_of v = None /\ ~ In (map low v) stmt_words /\ ~ In 46%N v.
Proof.
  intros (_ & K & _ & L). split; [|split].
  - destruct (SqlRead.kw_of v) eqn:E; [|reflexivity]. now apply kw_of_language in E.
  - intros X. apply L. change (map low_char v) with (map low v). now apply stmt_language.
  - intros X. rewrite forallb_forall in K. specialize (K _ X). discriminate K.
Qed.

(** What stands behind a part. *)
Definition after_part (next : pystr) : Prop := match next with c :: _ => (c < 128)%N | [] => True end.
Lemma kwc_word c : keyword_char c = true -> word_char c = true.
Proof. unfold keyword_char, word_char, word_start, letter, digit, is_digit. lia. Qed.
Lemma kwc_start c : keyword_char c = true -> is_digit c = false -> c <> 36%N -> word_start c = true.
Proof. unfold keyword_char, word_start, letter, is_digit. lia. Qed.
Lemma low_kwc c : keyword_char (low_char c) = true -> is_digit (low_char c) = is_digit c -> keyword_char c = true.
Proof. unfold keyword_char, low_char, is_digit. destruct ((65 <=? c) && (c <=? 90))%N eqn:E; lia. Qed.

Lemma len_tail (a : pystr) c (b : pystr) : (length b <= length (a ++ c :: b))%nat.
Proof. rewrite app_length. cbn [length]. lia. Qed.

Section Lex.
Variable bs : bool.
Notation Lx := (Lx bs true).

Lemma Lx_blanks w s ts : blanks w -> Lx s ts -> Lx (w ++ s) ts.
Proof.
  intros B. induction B as [|c w C B IH]; intros H; [exact H|]. cbn [app]. apply Lx_space; [|now apply IH]. cbn [In] in C. unfold space. lia.
Qed.
Lemma lx_word t next ts : forallb word_char t = true -> word_start (hd 0%N t) = true -> match next with c :: _ => word_char c = false | [] => True end -> t <> [] ->
  Lx next ts -> Lx (t ++ next) (TWord t :: ts).
Proof.
  intros W S N NE H. destruct t as [|c t]; [congruence|]. cbn [hd] in S. cbn [app]. destruct (word_start_not c S) as (Q1 & Q2 & Q3).
  apply (Lx_tok bs true c (t ++ next) (TWord (c :: t)) next); [now apply space_word| |rewrite app_length; lia|exact H].
  cbn [read_token]. rewrite Q1, Q2, Q3, S. change (c :: t ++ next) with ((c :: t) ++ next). rewrite (span_all word_char (c :: t) next W N). reflexivity.
Qed.
Lemma lang_start : forallb (fun w => match w with c :: _ => letter c && forallb (fun c => letter c) w | [] => false end) language = true.
Proof. vm_compute. reflexivity. Qed.
Lemma low_letter c : letter (low_char c) = true -> letter c = true.
Proof. unfold low_char, letter. destruct ((65 <=? c) && (c <=? 90))%N eqn:E; lia. Qed.
Lemma lang_word t : In (map low_char t) language -> t <> [] /\ forallb letter t = true.
Proof.
  intros H. pose proof lang_start as L. rewrite forallb_forall in L. specialize (L _ H). destruct t as [|c t]; [discriminate L|]. split; [discriminate|].
  change (map low_char (c :: t)) with (low_char c :: map low_char t) in L. apply andb_true_iff in L. destruct L as [_ L].
  change (low_char c :: map low_char t) with (map low_char (c :: t)) in L. revert L. generalize (c :: t). clear. intros t. induction t as [|c t IH]; [reflexivity|]. cbn [map forallb]. rewrite !andb_true_iff.
  intros [A B]. split; [now apply low_letter|now apply IH].
Qed.
Lemma letter_word c : letter c = true -> word_start c = true /\ word_char c = true.
Proof. unfold word_char, word_start. intros ->. split; reflexivity. Qed.

(** Two symbols that stand together are not read as one. *)
Definition apart (x : lexeme) (next : pystr) : Prop :=
  match x, next with
  | LSym [a], b :: _ => smem2 [a; b] (comment_starts ++ symbols2) = false
  | _, _ => True
  end.
Lemma smem2_app x l l' : smem2 x (l ++ l') = (smem2 x l || smem2 x l')%bool.
Proof. apply existsb_app. Qed.
Lemma lx_sym s next ts : In s symbols -> s <> u "==" -> apart (LSym s) next -> Lx next ts -> Lx (s ++ next) (TSym s :: ts).
Proof.
  intros IN NE A H. assert (C : (exists a, s = [a] /\ existsb (N.eqb a) symbols1 = true) \/ exists a b, s = [a; b] /\ smem2 [a; b] comment_starts = false /\ smem2 [a; b] symbols2 = true).
  { unfold symbols in IN. cbn [map In] in IN.
    repeat (destruct IN as [<-|IN]; [first [left; eexists; split; [reflexivity|vm_compute; reflexivity]|right; eexists _, _; split; [reflexivity|split; vm_compute; reflexivity]|now contradiction NE]|]). contradiction. }
  assert (NS : space (hd 0%N s) = false /\ (hd 0%N s =? 39)%N = false /\ (hd 0%N s =? 34)%N = false /\ (hd 0%N s =? 96)%N = false /\ word_start (hd 0%N s) = false /\ digit (hd 0%N s) = false).
  { clear -IN. unfold symbols in IN. cbn [map In] in IN. repeat (destruct IN as [<-|IN]; [vm_compute; repeat split|]). contradiction. }
  destruct NS as (N1 & N2 & N3 & N4 & N5 & N6). destruct C as [(a & -> & SY)|(a & b & -> & SC & SY)]; cbn [hd] in *; cbn [app].
  - apply (Lx_tok bs true a next (TSym [a]) next); [exact N1| |lia|exact H]. cbn [read_token]. rewrite N2, N3, N4, N5, N6. cbn [read_symbol]. rewrite SY. destruct next as [|d r]; [reflexivity|].
    cbn [apart] in A. rewrite smem2_app in A. apply orb_false_iff in A. destruct A as [A1 A2]. now rewrite A1, A2.
  - apply (Lx_tok bs true a (b :: next) (TSym [a; b]) next); [exact N1| |cbn [length]; lia|exact H]. cbn [read_token]. rewrite N2, N3, N4, N5, N6. cbn [read_symbol]. now rewrite SC, SY.
Qed.

(** The same character follows, or a semicolon. *)
Definition same_head (a b : pystr) : Prop :=
  match a with c :: _ => exists r, b = c :: r | [] => match b with c :: _ => c = 59%N | [] => True end end.
Lemma lx_part x t next0 next ts : writes x t next0 -> readable_part bs x t -> same_head next0 next -> after_part next -> apart x next -> Lx next ts ->
  exists k, tk x k /\ Lx (t ++ next) (k :: ts).
Proof.
  intros W S SH AP A H.
  assert (HN : forall P : N -> Prop, (forall c r, next0 = c :: r -> P c) -> P 59%N -> forall c r, next = c :: r -> P c).
  { intros P HP H59 c r E. unfold same_head in SH. destruct next0 as [|d q].
    - subst next. cbn in SH. now subst c.
    - destruct SH as [r' E']. rewrite E in E'. injection E' as -> _. now apply (HP d q). }
  destruct W as [w t next0 L E N|v next0 P N|v next0 Q N|v next0 P N|z t next0 [NE [D ->]]%numeral_iff N|l next0 P N|v next0 C Q1 Q2 N|s next0 IN _].
  - pose proof (HN (fun c => keyword_char c = false) N eq_refl) as N'. clear N. rename N' into N. subst w. exists (TWord t). split; [now constructor|]. destruct (lang_word t L) as [NE LT]. rewrite forallb_forall in LT. apply lx_word; [| | |exact NE|exact H].
    + rewrite forallb_forall. intros c X. now apply letter_word, LT.
    + destruct t as [|c t]; [congruence|]. apply letter_word, LT. now left.
    + destruct next as [|c r]; [exact Logic.I|]. specialize (N c r eq_refl). cbn [after_part] in AP. clear -N AP. unfold keyword_char, word_char, word_start, letter, digit, is_digit in *. lia.
  - pose proof (HN (fun c => ident_char c = false /\ ~ In c [45; 46; 93; 96]%N) N ltac:(split; [reflexivity|vm_compute; intuition discriminate])) as N'. clear N. rename N' into N. destruct (plain_words v P) as (K1 & K2 & K3). destruct S as [S1 S2]. exists (TWord v). split; [constructor; try assumption; now destruct P as (_ & _ & _ & P)|]. destruct P as (NE & KC & D & _). apply lx_word; [| | |exact NE|exact H].
    + rewrite forallb_forall in *. intros c X. apply kwc_word. auto.
    + destruct v as [|c v]; [congruence|]. cbn [hd forallb] in *. apply andb_true_iff in KC. now apply kwc_start.
    + destruct next as [|c r]; [exact Logic.I|]. destruct (N c r eq_refl) as [N1 _]. cbn [after_part] in AP. clear -N1 AP. unfold ident_char, word_char, word_start, letter, digit, is_digit in *. lia.
  - pose proof (HN (fun c => ~ In c [46; 96]%N) N ltac:(vm_compute; intuition discriminate)) as N'. clear N. rename N' into N. destruct Q as (NE & C & DOTS). destruct S as [S1 S2]. exists (TQuoted v). split; [now constructor|]. rewrite <- app_comm_cons, <- app_assoc. cbn [app].
    apply (Lx_tok bs true 96%N _ (TQuoted v) next); [reflexivity| |apply len_tail|exact H]. apply sql_back. destruct next as [|c r]; [exact Logic.I|]. intros ->. apply (N _ r eq_refl). cbn; auto.
  - pose proof (HN (fun c => ident_char c = false /\ ~ In c [45; 46; 93; 96]%N) N ltac:(split; [reflexivity|vm_compute; intuition discriminate])) as N'. clear N. rename N' into N. destruct (plain_words v P) as (K1 & K2 & K3). exists (TWord v). split; [constructor|]. destruct P as (NE & KC & D & _). apply lx_word; [| | |exact NE|exact H].
    + rewrite forallb_forall in *. intros c X. apply kwc_word. auto.
    + destruct v as [|c v]; [congruence|]. cbn [hd forallb] in *. apply andb_true_iff in KC. now apply kwc_start.
    + destruct next as [|c r]; [exact Logic.I|]. destruct (N c r eq_refl) as [N1 _]. cbn [after_part] in AP. clear -N1 AP. unfold ident_char, word_char, word_start, letter, digit, is_digit in *. lia.
  - pose proof (HN (fun c => ident_char c = false /\ ~ In c [46; 91; 96]%N) N ltac:(split; [reflexivity|vm_compute; intuition discriminate])) as N'. clear N. rename N' into N. exists (TNum t). split; [constructor; now apply numval_digits|]. destruct t as [|c t]; [congruence|]. pose proof D as D'. cbn [forallb] in D'. apply andb_true_iff in D'. destruct D' as [DC _].
    change (is_digit c) with (digit c) in DC. destruct (digit_not c DC) as (Q1 & Q2 & Q3 & Q4). cbn [app].
    apply (Lx_tok bs true c (t ++ next) (TNum (c :: t)) next); [now apply space_digit| |rewrite app_length; lia|exact H].
    assert (WN : match next with d :: _ => word_char d = false /\ digit d = false | [] => True end).
    { destruct next as [|d r]; [exact Logic.I|]. destruct (N d r eq_refl) as [N1 _]. cbn [after_part] in AP. clear -N1 AP. unfold ident_char, word_char, word_start, letter, digit, is_digit in *. lia. }
    cbn [read_token]. rewrite Q1, Q2, Q3, Q4, DC. change (c :: t ++ next) with ((c :: t) ++ next).
    rewrite (span_all digit (c :: t) next); [|exact D|destruct next; [exact Logic.I|apply WN]]. destruct next as [|d r]; [reflexivity|]. destruct WN as [-> _]. reflexivity.
  - pose proof (HN (fun c => c <> 39%N) N ltac:(discriminate)) as N'. clear N. rename N' into N. exists (TStr (LitSpec.val l)). split; [constructor|]. rewrite <- app_comm_cons, <- app_assoc. cbn [app].
    apply (Lx_tok bs true 39%N _ (TStr (LitSpec.val l)) next); [reflexivity| |apply len_tail|exact H].
    assert (NN : not_next 39 next). { destruct next as [|c r]; [exact Logic.I|]. exact (N c r eq_refl). }
    destruct bs; [apply (sql_pieces (fun _ => None) (fun _ _ => Err Generic)); [exact P|exact NN]|]. cbn [readable_part] in S. specialize (S eq_refl).
    assert (NB : ~ In 92%N (src l)) by (intros X; apply S; right; apply in_or_app; now left).
    assert (EV : src l = doubled 39 (LitSpec.val l)).
    { clear -P NB. unfold LitSpec.val, src, doubled in *. induction P as [|p l HP P IH]; [reflexivity|]. cbn [flat_map] in *. rewrite flat_map_app. rewrite in_app_iff in NB. rewrite <- IH by tauto. f_equal.
      destruct p as [c| |c]; cbn [piece_src piece_val] in *.
      - destruct HP as [_ Hc]. cbn [flat_map]. now destruct (N.eqb_spec c 39).
      - reflexivity.
      - exfalso. apply NB. left. now left. }
    rewrite EV. pose proof (quoted_doubled false 39%N (LitSpec.val l) next) as QD. specialize (QD ltac:(discriminate) ltac:(discriminate) NN). transitivity (match read_quoted false 39%N (doubled 39 (LitSpec.val l) ++ 39%N :: next) with Some (a, b) => Some (TStr a, b) | None => None end); [reflexivity|]. now rewrite QD.
  - pose proof (HN (fun c => c <> 34%N) N ltac:(discriminate)) as N'. clear N. rename N' into N. exists (TStr v). split; [constructor|]. rewrite <- app_comm_cons, <- app_assoc. cbn [app].
    apply (Lx_tok bs true 34%N _ (TStr v) next); [reflexivity| |apply len_tail|exact H].
    assert (NN : not_next 34 next). { destruct next as [|c r]; [exact Logic.I|]. exact (N c r eq_refl). }
    pose proof (quoted_doubled (bs && true) 34%N v next ltac:(discriminate) (fun _ => clean_no_bs v C) NN) as QD. rewrite (doubled_none 34 v Q2) in QD.
    transitivity (match read_quoted (bs && true) 34%N (v ++ 34%N :: next) with Some (a, b) => Some (TStr a, b) | None => None end); [reflexivity|]. now rewrite QD.
  - exists (TSym s). split; [now constructor|]. now apply lx_sym.
Qed.

(** ** The parts of a text *)
(** Which symbols may stand together. *)
Definition okpair (x y : lexeme) : Prop :=
  match x, y with
  | LSym [a], LSym (b :: _) => smem2 [a; b] (comment_starts ++ symbols2) = false \/ (a = 45 /\ b = 45)%N
  | _, _ => True
  end.
Fixpoint fine (ls : list lexeme) : Prop :=
  match ls with
  | x :: (y :: _) as r => okpair x y /\ fine r
  | _ => True
  end.
(** The first characters of symbols that are longer than one character are not followed by letters, digits, quotes, blanks. *)
Definition second (c : N) : bool := existsb (N.eqb c) [62; 61; 124; 38; 60; 45; 42]%N.
Lemma second_ok a b : second b = false -> smem2 [a; b] (comment_starts ++ symbols2) = false.
Proof.
  intros H. destruct (smem2 [a; b] (comment_starts ++ symbols2)) eqn:E; [|reflexivity]. exfalso. unfold smem2 in E. apply existsb_exists in E. destruct E as (x & X & E). apply seqb_eq in E. subst x.
  unfold comment_starts, symbols2 in X. cbn [map app In] in X. repeat (destruct X as [X|X]; [injection X as _ <-; discriminate H|]). contradiction.
Qed.
Lemma part_ascii x t next : writes x t next -> exists c r, t = c :: r /\ (c < 128)%N /\ match x with LSym s => t = s | _ => second c = false end.
Proof.
  assert (LS : forall c, (letter c = true \/ is_digit c = true \/ keyword_char c = true) -> (c < 128)%N /\ second c = false).
  { intros c H. assert (A : letter c = true \/ digit c = true \/ c = 95%N \/ c = 36%N). { unfold keyword_char, letter, digit, is_digit in *. lia. }
    clear H. unfold second. cbn [existsb]. unfold letter, digit in A. lia. }
  intros [w t0 n L E N|v n P N|v n Q N|v n P N|z t0 n [NE [D ->]]%numeral_iff N|l n P N|v n C Q1 Q2 N|s n IN _].
  - subst w. destruct (lang_word t0 L) as [NE LT]. destruct t0 as [|c r]; [congruence|]. cbn [forallb] in LT. apply andb_true_iff in LT. destruct (LS c) as [A B]; [tauto|]. now exists c, r.
  - destruct P as (NE & KC & _). destruct v as [|c r]; [congruence|]. cbn [forallb] in KC. apply andb_true_iff in KC. destruct (LS c) as [A B]; [tauto|]. now exists c, r.
  - eexists _, _. split; [reflexivity|]. now split.
  - destruct P as (NE & KC & _). destruct v as [|c r]; [congruence|]. cbn [forallb] in KC. apply andb_true_iff in KC. destruct (LS c) as [A B]; [tauto|]. now exists c, r.
  - destruct t0 as [|c r]; [congruence|]. cbn [forallb] in D. apply andb_true_iff in D. destruct (LS c) as [A B]; [tauto|]. now exists c, r.
  - eexists _, _. split; [reflexivity|]. now split.
  - eexists _, _. split; [reflexivity|]. now split.
  - unfold symbols in IN. cbn [map In] in IN. repeat (destruct IN as [<-|IN]; [eexists _, _; split; [reflexivity|split; [vm_compute; reflexivity|reflexivity]]|]). contradiction.
Qed.

(** The text that follows the last part. *)
Definition tail_ok (e : pystr) : Prop := match e with c :: _ => (c < 128)%N /\ second c = false | [] => True end.
Lemma blanks_tail w e : blanks w -> tail_ok e -> tail_ok (w ++ e).
Proof. intros [|c w' C _] H; [exact H|]. cbn [app tail_ok]. destruct C as [<-|[<-|[<-|[<-|[]]]]]; split; reflexivity. Qed.
Lemma apart_tail x e : tail_ok e -> apart x e.
Proof. destruct x; try exact (fun _ => Logic.I). cbn [apart]. destruct s as [|a [|b s]]; try exact (fun _ => Logic.I). destruct e as [|b e]; [exact (fun _ => Logic.I)|]. intros [_ H]. now apply second_ok. Qed.
Lemma after_tail e : tail_ok e -> after_part e.
Proof. destruct e; [exact (fun _ => Logic.I)|]. now intros [H _]. Qed.

Lemma shared_readable s ls : shared bs s ls -> readable bs s ls.
Proof.
  assert (P : forall x t w, shared_part bs x t w -> readable_part bs x t) by (intros x t w; destruct x; cbn [shared_part readable_part]; tauto).
  induction 1; constructor; eauto.
Qed.
Lemma lx_readable s ls e ts : readable bs s ls -> fine ls -> match e with c :: _ => c = 59%N | [] => True end -> Lx e ts ->
  exists ks, Forall2 tk ls ks /\ Lx (s ++ e) (ks ++ ts).
Proof.
  intros H. induction H as [x t w W S B|x t w rest ls W S B NE H IH]; intros F E L.
  - rewrite <- app_assoc. assert (T' : tail_ok (w ++ e)) by (apply blanks_tail; [exact B|]; destruct e as [|c e]; [exact Logic.I|]; subst c; split; reflexivity).
    destruct (lx_part x t w (w ++ e) ts W S) as (k & K & X).
    + destruct w; [exact E|]. eexists. reflexivity.
    + now apply after_tail.
    + now apply apart_tail.
    + now apply Lx_blanks.
    + exists [k]. split; [now repeat constructor|exact X].
  - assert (F' : fine ls) by (destruct ls as [|y ls]; [congruence|]; apply F). destruct (IH F' E L) as (ks & KS & X). rewrite <- !app_assoc.
    assert (HD : exists y c r ls', rest = c :: r /\ (c < 128)%N /\ ls = y :: ls' /\ match y with LSym s => exists s', s = c :: s' | _ => second c = false end).
    { destruct H as [y t' w' W' _ _|y t' w' rest' ls' W' _ _ _ _]; destruct (part_ascii _ _ _ W') as (c & r & -> & A & D);
        (eexists y, c, _, _; split; [reflexivity|]; split; [exact A|]; split; [reflexivity|]; destruct y; try exact D; subst; now eexists). }
    destruct HD as (y & c & r & ls' & ER & A & EL & SD). subst ls.
    destruct (lx_part x t (w ++ rest) (w ++ rest ++ e) (ks ++ ts) W S) as (k & K & Y).
    + subst rest. destruct w; eexists; reflexivity.
    + subst rest. destruct B as [|b w' B1 _]; [exact A|]. cbn [app after_part]. destruct B1 as [<-|[<-|[<-|[<-|[]]]]]; reflexivity.
    + destruct B as [|b w' B1 B2].
      * cbn [app]. subst rest. cbn [app]. destruct F as [F _]. destruct x; try exact Logic.I. cbn [apart]. destruct s as [|a [|a' s]]; try exact Logic.I.
        destruct y; try now apply second_ok. destruct SD as [s' ->]. cbn [okpair] in F. destruct F as [F|[-> ->]]; [exact F|]. exfalso.
        inversion W as [| | | | | | |? ? IN LM]; subst. destruct (LM (u "--")) as [z Z].
        -- apply smem_In. vm_compute. reflexivity.
        -- exists r. reflexivity.
        -- discriminate Z.
      * apply apart_tail. cbn [app tail_ok]. destruct B1 as [<-|[<-|[<-|[<-|[]]]]]; split; reflexivity.
    + now apply Lx_blanks.
    + exists (k :: ks). split; [now constructor|exact Y].
Qed.
Lemma lx_shared s ls e ts : shared bs s ls -> fine ls -> match e with c :: _ => c = 59%N | [] => True end -> Lx e ts ->
  exists ks, Forall2 tk ls ks /\ Lx (s ++ e) (ks ++ ts).
Proof. intros H. now apply lx_readable, shared_readable. Qed.
End Lex.
