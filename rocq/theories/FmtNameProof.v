(** * Lemmas: identifiers in the SQL writer *)
From Coq Require Import String Ascii List NArith ZArith QArith Bool Lia ZifyBool ZifyNat ZifyN.
From Verif Require Import Base BaseProof JsonModel CreateModel CryptoModel CryptoSpec CryptoProof DotsModel DotsSpec DotsProof SqlLex SqlRead
  FmtModel FmtSpec FmtLexProof.
Import ListNotations.
Open Scope N_scope.

(** ** Single names *)
Lemma escape_single alnum ansi s : ~ In DOT s -> ~ In BS s -> escape alnum ansi s = Ok (esc alnum ansi s).
Proof.
  intros D B. unfold escape, split_field.
  destruct (seqb s [DOT]) eqn:E; [apply seqb_eq in E; subst; exfalso; apply D; now left|].
  assert (E1 : has_char DOT s = false) by (destruct (has_char DOT s) eqn:H; [apply has_char_In in H; contradiction|reflexivity]).
  assert (E2 : has_char BS s = false) by (destruct (has_char BS s) eqn:H; [apply has_char_In in H; contradiction|reflexivity]).
  now rewrite E1, E2.
Qed.

Lemma plain_shape alnum s : plain_word alnum s = true -> exists c w, s = c :: w /\ (letter c || (c =? 95)) = true /\ forallb (fun x => alnum x || (x =? 95)) w = true.
Proof. destruct s as [|c w]; [discriminate|]. intros H. apply andb_true_iff in H as [A B]. now exists c, w. Qed.

Lemma tail_plain alnum w : last w 0 <> 10 -> valid_tail alnum w = forallb (wordc alnum) w.
Proof.
  induction w as [|c [|d r] IH]; intros L; [reflexivity| |].
  - cbn in L |- *. rewrite andb_true_r. destruct (N.eqb_spec c 10); [congruence|]. now rewrite orb_false_r.
  - change (valid_tail alnum (c :: d :: r)) with (wordc alnum c && valid_tail alnum (d :: r)).
    change (forallb (wordc alnum) (c :: d :: r)) with (wordc alnum c && forallb (wordc alnum) (d :: r)).
    rewrite IH; [reflexivity|exact L].
Qed.
Lemma valid_plain alnum s : last s 0 <> 10 -> valid alnum s = plain_word alnum s.
Proof.
  destruct s as [|c w]; intros L; [reflexivity|]. cbn [valid plain_word]. rewrite tail_plain.
  - reflexivity.
  - destruct w; [cbn; lia|exact L].
Qed.

Lemma kw_prefix_exact w s : kw_prefix w s = true -> forallb kw_char s = true -> map low s = w.
Proof.
  revert w. induction s as [|c s IH]; intros [|x w] H K; cbn in *; try discriminate; [reflexivity| |].
  - apply andb_true_iff in K as [K _]. rewrite K in H. discriminate.
  - apply andb_true_iff in H as [E H]. apply andb_true_iff in K as [_ K]. apply N.eqb_eq in E.
    rewrite (IH _ H K). f_equal. change (low c) with (lower_char c). now symmetry.
Qed.
Lemma is_keyword_iff s : forallb kw_char s = true -> is_keyword s = smem (map low s) reserved_words.
Proof.
  intros K. unfold is_keyword. destruct (smem _ _) eqn:M.
  - apply smem_In in M. apply existsb_exists. exists (map low s). split; [exact M|now apply kw_prefix_low].
  - destruct (existsb _ _) eqn:E; [|reflexivity]. apply existsb_exists in E as (w & I & H).
    rewrite <- (kw_prefix_exact _ _ H K) in I. apply smem_In in I. congruence.
Qed.
Lemma keyword_low s : In (map low s) reserved_words -> is_keyword s = true.
Proof. intros H. apply existsb_exists. exists (map low s). split; [exact H|now apply kw_prefix_low]. Qed.

(** Quoted unless a plain word that is no keyword. *)
Lemma quote_false alnum s : name_ok s -> should_quote alnum s = false ->
  plain_word alnum s = true /\ ~ In (map low s) reserved_words.
Proof.
  intros [NS NL] Q. unfold should_quote in Q. assert (E : seqb s (u "*") = false) by (now apply seqb_neq).
  rewrite E in Q. cbn [negb andb] in Q. apply orb_false_iff in Q as [Q1 Q2]. apply negb_false_iff in Q1.
  split; [now rewrite <- valid_plain|]. intros I. apply keyword_low in I. congruence.
Qed.
Lemma quote_true alnum s : s <> u "*" -> last s 0 <> 10 -> plain_word alnum s = false -> should_quote alnum s = true.
Proof.
  intros NS NL Q. unfold should_quote. assert (E : seqb s (u "*") = false) by (now apply seqb_neq).
  rewrite E, valid_plain by exact NL. now rewrite Q.
Qed.
Lemma ascii_plain alnum s : ascii_ok alnum -> ascii_word s = true ->
  plain_word alnum s = true /\ forallb kw_char s = true /\ last s 0 <> 10 /\ s <> u "*".
Proof.
  intros HA H. destruct s as [|c w]; [discriminate|]. cbn [ascii_word] in H. apply andb_true_iff in H as [A B].
  assert (W : forall x, In x w -> (letter x || digit x || (x =? 95)) = true) by now apply forallb_forall.
  split; [|split; [|split]].
  - cbn [plain_word]. rewrite A. apply forallb_forall. intros x I. specialize (W x I).
    destruct (N.ltb_spec x 128) as [L|L]; [cbv beta; rewrite (HA x L); exact W|]. unfold letter, digit in W. lia.
  - apply forallb_forall. intros x [<-|I].
    + unfold kw_char. rewrite letter_eq, digit_eq. apply orb_true_iff in A as [A|A]; rewrite A, ?orb_true_r; reflexivity.
    + specialize (W x I). unfold kw_char. rewrite letter_eq, digit_eq, W. reflexivity.
  - destruct w as [|d w]; [cbn; unfold letter in A; lia|].
    assert (I : In (last (c :: d :: w) 0) (d :: w)).
    { change (last (c :: d :: w) 0) with (last (d :: w) 0). clear. revert d. induction w as [|x w IH]; intros d; [now left|].
      change (last (d :: x :: w) 0) with (last (x :: w) 0). right. apply IH. }
    intros E. rewrite E in I. specialize (W _ I). discriminate W.
  - intros E. injection E as -> ->. discriminate A.
Qed.

(** ** Reading it back *)
Lemma read_plain bs dq alnum s rest : ascii_ok alnum -> plain_word alnum s = true -> sep rest = true -> read_token bs dq (s ++ rest) = Some (TWord s, rest).
Proof.
  intros HA H S. apply plain_shape in H as (c & w & -> & C & W).
  assert (C' : word_start c = true) by (unfold word_start; now rewrite C).
  pose proof (sep_head _ S) as HR. cbn [app]. unfold read_token. destruct (word_start_not _ C') as [-> [-> ->]]. rewrite C'.
  change (c :: w ++ rest) with ((c :: w) ++ rest). rewrite span_all; [reflexivity| |].
  - cbn [forallb]. unfold word_char at 1. rewrite C'. cbn [orb andb]. apply forallb_forall. intros x I.
    apply (wordc_word alnum HA). unfold wordc. rewrite forallb_forall in W. now apply W.
  - destruct rest as [|d r]; [easy|]. apply HR.
Qed.
Lemma read_dquoted bs (dq : bool) s rest : (bs && dq = true -> ~ In 92 s) -> match rest with d :: _ => d <> 34 | [] => True end ->
  read_token bs dq ((34 :: double_char 34 s ++ [34]) ++ rest) = Some (if dq then TStr s else TQuoted s, rest).
Proof.
  intros B HR. cbn [app]. unfold read_token. change (34 =? 39) with false. change (34 =? 34) with true. cbv iota.
  rewrite <- app_assoc. cbn [app]. rewrite read_quoted_rest; [reflexivity|exact B|discriminate|exact HR].
Qed.
Lemma read_bquoted bs dq s rest : match rest with d :: _ => d <> 96 | [] => True end ->
  read_token bs dq ((96 :: double_char 96 s ++ [96]) ++ rest) = Some (TQuoted s, rest).
Proof.
  intros HR. cbn [app]. unfold read_token. change (96 =? 39) with false. change (96 =? 34) with false. change (96 =? 96) with true. cbv iota.
  rewrite <- app_assoc. cbn [app]. rewrite read_quoted_rest; [reflexivity|discriminate|discriminate|exact HR].
Qed.
Lemma sep_not rest q : sep rest = true -> q = 34 \/ q = 96 -> match rest with d :: _ => d <> q | [] => True end.
Proof. intros S Q. pose proof (sep_head _ S) as H. destruct rest as [|d r]; [exact I|]. destruct Q as [-> | ->]; apply H. Qed.

(** The two modes of [format]: [ansi] with the standard meaning of double quotes, or backticks. *)
Lemma name_written alnum fstr ansi n s c : ~ In DOT s -> ~ In BS s ->
  dispatch alnum fstr ansi (S n) (JStr s) c = Ok (esc alnum ansi s).
Proof. intros D B. cbn [dispatch dispatch_step]. now apply escape_single. Qed.

Lemma name_reads alnum fstr ansi bs dq n s c : ascii_ok alnum -> (ansi = true -> dq = false) ->
  ~ In DOT s -> ~ In BS s -> name_ok s ->
  exists txt, dispatch alnum fstr ansi (S n) (JStr s) c = Ok txt /\ forall rest, sep rest = true ->
    (txt <> s /\ read_token bs dq (txt ++ rest) = Some (TQuoted s, rest)) \/
    (txt = s /\ plain_word alnum s = true /\ ~ In (map low s) reserved_words /\
     read_token bs dq (txt ++ rest) = Some (TWord s, rest)).
Proof.
  intros HA HD D B OK. exists (esc alnum ansi s). split; [now apply name_written|]. intros rest S.
  unfold esc. destruct (should_quote alnum s) eqn:Q.
  - left. split.
    + intros E. apply (f_equal (@length N)) in E. cbn [length] in E. rewrite app_length in E. cbn [length] in E.
      assert (L : (length s <= length (double_char (quote_char ansi) s))%nat).
      { clear. unfold double_char, replace1. induction s as [|x s IH]; [cbn; lia|]. cbn [flat_map]. rewrite app_length.
        destruct (x =? _); cbn [length]; lia. }
      lia.
    + unfold quote_char. destruct ansi.
      * rewrite (HD eq_refl). rewrite (read_dquoted bs false); [reflexivity|destruct bs; discriminate|now apply sep_not; [|left]].
      * apply read_bquoted. now apply sep_not; [|right].
  - right. destruct (quote_false _ _ OK Q) as [P R]. repeat split; try assumption. now apply read_plain with (alnum := alnum).
Qed.

Lemma plain_written alnum fstr ansi n s c : ascii_ok alnum -> ascii_word s = true ->
  dispatch alnum fstr ansi (S n) (JStr s) c = Ok s <-> ~ In (map low s) reserved_names.
Proof.
  intros HA W. destruct (ascii_plain alnum s HA W) as (P & K & L & NS).
  assert (Q : forall x, In x s -> kw_char x = true) by now apply forallb_forall.
  assert (D : ~ In DOT s) by (intros I; apply Q in I; discriminate).
  assert (B : ~ In BS s) by (intros I; apply Q in I; discriminate).
  rewrite name_written by assumption. change reserved_names with reserved_words.
  unfold esc, should_quote. assert (E : seqb s (u "*") = false) by now apply seqb_neq.
  rewrite E, valid_plain, P by exact L. cbn [negb andb orb]. rewrite is_keyword_iff by exact K.
  split.
  - intros H I. apply smem_In in I. rewrite I in H. injection H as H. destruct s as [|x s]; [discriminate|]. injection H as H _.
    specialize (Q x (or_introl eq_refl)). rewrite <- H in Q. destruct ansi; discriminate.
  - intros N. destruct (smem (map low s) reserved_words) eqn:M; [apply smem_In in M; contradiction|reflexivity].
Qed.

(** Double quotes in MySQL's default mode: a string, or unreadable. *)
Lemma dq_string bs s rest t r : read_token bs true ((34 :: double_char 34 s ++ [34]) ++ rest) = Some (t, r) -> exists x, t = TStr x.
Proof.
  cbn [app]. unfold read_token. change (34 =? 39) with false. change (34 =? 34) with true. cbv iota.
  destruct (read_quoted _ _ _) as [[a b]|]; [|discriminate]. intros E. injection E as <- <-. now exists a.
Qed.

(** A plain word and a newline. *)
Lemma newline_word alnum s : ascii_ok alnum -> ascii_word s = true -> ~ In (map low s) reserved_words ->
  should_quote alnum (s ++ [10]) = false.
Proof.
  intros HA H R. destruct (ascii_plain _ _ HA H) as (P & K & L & NS). unfold should_quote.
  assert (V : valid alnum (s ++ [10]) = true).
  { apply plain_shape in P as (c & w & -> & C & W). cbn [app valid]. rewrite letter_eq, C. cbn [andb].
    clear - W. induction w as [|x w IH]; [cbn; apply orb_true_r|]. cbn [forallb] in W. apply andb_true_iff in W as [A B].
    specialize (IH B). cbn [app]. destruct w as [|y w].
    - cbn [app valid_tail]. unfold wordc at 1. rewrite A. cbn. now rewrite orb_true_r.
    - change (wordc alnum x && valid_tail alnum ((y :: w) ++ [10]) = true). unfold wordc at 1. now rewrite A, IH. }
  rewrite V. cbn [negb orb]. apply andb_false_iff. right.
  destruct (is_keyword (s ++ [10])) eqn:Q; [|reflexivity]. exfalso. apply R.
  apply existsb_exists in Q as (w & I & Q). replace (map low s) with w; [exact I|].
  assert (NW : ~ In 10 w).
  { intros X. clear - I X. unfold reserved_words in I. apply in_map_iff in I as (x & <- & I).
    assert (F : forallb (fun x => negb (has_char 10 (u x)))
      ["all"; "and"; "as"; "asc"; "between"; "by"; "case"; "collate"; "constraint"; "create"; "cross"; "desc";
   "distinct"; "except"; "else"; "end"; "false"; "fetch"; "foreign"; "from"; "full"; "group"; "having"; "in";
   "index"; "inner"; "intersect"; "interval"; "is"; "join"; "key"; "lateral"; "left"; "like"; "limit"; "minus";
   "nocase"; "not"; "null"; "offset"; "on"; "or"; "order"; "outer"; "over"; "partition"; "primary";
   "references"; "right"; "rlike"; "select"; "then"; "true"; "union"; "unique"; "using"; "when"; "where";
   "window"; "with"; "within"]%string = true) by reflexivity.
    rewrite forallb_forall in F. specialize (F x I). apply has_char_In in X. now rewrite X in F. }
  clear - Q K NW. revert w Q NW. induction s as [|c s IH]; intros w Q NW.
  - destruct w as [|x w]; [reflexivity|]. cbn in Q. destruct (N.eqb_spec x 10) as [->|]; [exfalso; apply NW; now left|].
    cbn in Q. change (lower_char 10) with 10 in Q. apply andb_true_iff in Q as [Q _]. apply N.eqb_eq in Q. contradiction.
  - cbn [forallb] in K. apply andb_true_iff in K as [Kc K]. destruct w as [|x w].
    + cbn [app kw_prefix] in Q. rewrite Kc in Q. discriminate.
    + cbn [app kw_prefix] in Q. apply andb_true_iff in Q as [E Q]. apply N.eqb_eq in E. cbn [map].
      rewrite (IH K w Q); [|intros X; apply NW; now right]. f_equal. exact E.
Qed.

(** ** Ciphertexts *)
Lemma b64_pad l : (length l mod 3 <> 0)%nat -> In 61 (b64encode l).
Proof.
  induction l as [|a|a b|a b c r IH] using list_ind3; intros H; [exfalso; now apply H| | |].
  - cbn [b64encode In]. auto.
  - cbn [b64encode In]. auto.
  - cbn [b64encode In length] in *. do 4 right. apply IH. intros E. apply H.
    replace (S (S (S (length r)))) with (length r + 1 * 3)%nat by lia. now rewrite Nat.mod_add.
Qed.
Lemma b64_nodot c : b64_alphabet c -> c <> DOT /\ c <> BS /\ c <> 10 /\ c <> 34 /\ c <> 92 /\ c <> 42.
Proof. unfold b64_alphabet, DOT, BS. lia. Qed.

Lemma b64_quoted alnum s : ascii_ok alnum -> (forall c, In c s -> b64_alphabet c) -> In 43 s \/ In 47 s \/ In 61 s ->
  should_quote alnum s = true.
Proof.
  intros HA H X. apply quote_true.
  - intros ->. specialize (H 42 (or_introl eq_refl)). unfold b64_alphabet in H. lia.
  - intros E. assert (N : s <> []) by (intros ->; cbn in X; intuition).
    assert (I : In (last s 0) s).
    { clear - N. destruct s as [|c s]; [congruence|]. clear N. revert c. induction s as [|d s IH]; intros c; [now left|].
      change (last (c :: d :: s) 0) with (last (d :: s) 0). right. apply IH. }
    rewrite E in I. apply H in I. unfold b64_alphabet in I. lia.
  - destruct (plain_word alnum s) eqn:P; [|reflexivity]. exfalso. apply plain_shape in P as (c & w & -> & C & W).
    rewrite forallb_forall in W.
    assert (G : forall x, In x (c :: w) -> x < 128 -> (letter x || digit x || (x =? 95)) = true).
    { intros x [<-|I] L; [apply orb_true_iff in C as [C|C]; rewrite C, ?orb_true_r; reflexivity|]. specialize (W x I). cbv beta in W. now rewrite (HA x L) in W. }
    destruct X as [X|[X|X]]; specialize (G _ X eq_refl); discriminate G.
Qed.
Lemma double_none q s : ~ In q s -> double_char q s = s.
Proof.
  intros H. unfold double_char, replace1. induction s as [|c s IH]; [reflexivity|]. cbn [flat_map].
  rewrite IH by (intros X; apply H; now right). destruct (N.eqb_spec c q); [|reflexivity]. subst. exfalso. apply H. now left.
Qed.

Lemma nbytes_int z : nbytes (str_int z) = length (str_int z).
Proof.
  assert (G : forall s, (forall c, In c s -> c = 45 \/ 48 <= c <= 57) -> nbytes s = length s).
  { induction s as [|c s IH]; intros H; [reflexivity|]. cbn [nbytes fold_right length]. fold (nbytes s).
    rewrite IH by (intros x X; apply H; now right). assert (E : utf8_size c = 1%nat); [|lia].
    unfold utf8_size. specialize (H c (or_introl eq_refl)). destruct (N.ltb_spec c 128); [reflexivity|lia]. }
  apply G. apply str_int_char.
Qed.

Lemma int_comparand P (HP : prim_ok P) alnum key z ct : ascii_ok alnum -> aes_encrypt P key (str_int z) = Ok ct -> (length (str_int z) <= 32)%nat ->
  (forall c, In c ct -> b64_alphabet c) /\ should_quote alnum ct = true /\ double_char 34 ct = ct.
Proof.
  intros HA E L. pose proof (aes_encrypt_inv P key _ _ E) as (b & e & Hb & He & ->).
  assert (A : forall c, In c (b64encode e) -> b64_alphabet c) by apply b64encode_alphabet.
  split; [exact A|]. split; [apply b64_quoted; [exact HA|exact A|]|].
  - right. right. apply b64_pad.
    assert (Le : length e = length (aes_pad b)).
    { destruct (ecb_ok (aes_enc_block P (kdf P key)) (aes_pad b)) as (x & Hx & Lx).
      - intros bl. apply (aes_len P HP).
      - rewrite aes_pad_length. rewrite Nat.mul_comm, Nat.mod_mul by lia. reflexivity.
      - rewrite He in Hx. injection Hx as ->. exact Lx. }
    rewrite Le, aes_pad_length. apply utf8_encode_length in Hb. rewrite nbytes_int in Hb. rewrite Hb.
    assert (Z0 : str_int z <> []) by apply str_int_nonempty. destruct (str_int z) as [|x s]; [congruence|]. cbn [length] in L |- *.
    unfold nblocks. assert (D : ((S (length s) + 15) / 16 = 1 \/ (S (length s) + 15) / 16 = 2)%nat).
    { destruct (Nat.le_gt_cases (S (length s)) 16).
      - left. symmetry. apply Nat.div_unique with (r := (length s)%nat); lia.
      - right. symmetry. apply Nat.div_unique with (r := (length s - 16)%nat); lia. }
    destruct D as [-> | ->]; discriminate.
  - apply double_none. intros X. apply A in X. unfold b64_alphabet in X. lia.
Qed.
