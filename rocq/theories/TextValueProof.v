(** Constants of rewritten INSERT and UPDATE statements and the texts written for them. *)
From Coq Require Import String Ascii List Arith NArith ZArith QArith Bool Lia ZifyBool ZifyNat ZifyN.
From Verif Require Import Base BaseProof CryptoModel CryptoSpec CryptoProof FuzzyModel PaillierModel JsonModel JsonProof DotsModel RewriteModel LikeSpec SqlSpec EncSpec
  RewriteSpec WhereProof RewriteProof StmtSpec SimProof StmtProof UpdateProof SqlLex SqlRead FmtModel FmtSpec FmtLexProof FmtReadProof FmtExprProof FmtNameProof FmtProof
  ScrubModel OperModel OperSpec EndSpec EndMaskProof EndLexProof TextSpec.
Import ListNotations.
Open Scope Z_scope.

(** ** Ciphertexts are base64 *)
Definition b64s (s : pystr) : Prop := forall c, In c s -> b64_alphabet c.
Lemma aes_b64 P (HP : prim_ok P) key s t : aes_encrypt P key s = Ok t -> b64s t.
Proof. intros H. exact (proj1 (aes_shape P HP key s t H)). Qed.
Lemma fuzzy_b64 al P (HP : prim_ok P) key s t : fuzzy_encrypt al P key s = Ok t -> b64s t.
Proof.
  assert (MC : forall ws l, mapM (aes_encrypt P key) ws = Ok l -> b64s (concat l)).
  { intros ws l H c I. apply in_concat in I as (x & X & I). destruct (mapM_In _ _ _ _ H X) as (w & _ & A). now apply (aes_b64 P HP key w x A). }
  unfold fuzzy_encrypt. intros H. destruct (isalnum al s); (destruct (Nat.ltb _ _); [now apply (aes_b64 P HP key s)|]);
    match type of H with context [mapM ?f ?l] => destruct (mapM f l) as [cs|] eqn:M end; try discriminate; cbn [bind] in H; injection H as <-; now apply (MC _ _ M).
Qed.
Lemma b64_no92 s : b64s s -> ~ In 92%N s.
Proof. intros B I. apply B in I. unfold b64_alphabet in I. lia. Qed.
Lemma digits_no92 z : ~ In 92%N (str_int z).
Proof. intros I. apply str_int_char in I. lia. Qed.

(** A base64 text that is no column is put in double quotes. *)
Lemma b64_valid alnum s : ascii_ok alnum -> b64s s -> valid alnum s = true -> valid_name s = true.
Proof.
  intros HA B V. destruct s as [|c w]; [discriminate|]. cbn [valid valid_name] in *. apply andb_true_iff in V as [C V].
  apply andb_true_iff. split; [rewrite letter_eq in C; unfold ident_start; unfold letter in C; lia|].
  assert (B' : b64s w) by (intros x X; apply B; now right). clear C B. induction w as [|d w IH]; [reflexivity|].
  assert (W : wordc alnum d = true /\ (w = [] \/ valid_tail alnum w = true)).
  { destruct w as [|e w]; cbn [valid_tail] in V.
    - split; [|now left]. destruct (wordc alnum d) eqn:Q; [reflexivity|]. exfalso. specialize (B' d (or_introl eq_refl)).
      unfold b64_alphabet in B'. lia.
    - apply andb_true_iff in V as [V1 V2]. auto. }
  destruct W as [W R]. cbn [forallb]. apply andb_true_iff. split.
  - unfold wordc in W. specialize (B' d (or_introl eq_refl)). rewrite HA in W by (unfold b64_alphabet in B'; lia).
    unfold ident_char, ident_start. unfold letter, digit in W. lia.
  - destruct R as [->|R]; [reflexivity|]. apply IH; [exact R|]. intros x X. apply B'. now right.
Qed.
Lemma b64_string alnum s : ascii_ok alnum -> b64s s -> is_column is_keyword s = false -> should_quote alnum s = true.
Proof.
  intros HA B Q. unfold should_quote.
  assert (ND : has_char DOT s = false) by now apply b64_alphabet_nodot.
  unfold is_column in Q. rewrite split_nochar in Q by exact ND. cbn [forallb] in Q. rewrite andb_true_r in Q.
  assert (S : seqb s (u "*") = false). { apply seqb_neq. intros ->. specialize (B 42%N (or_introl eq_refl)). unfold b64_alphabet in B. lia. }
  rewrite S. cbn [negb andb]. destruct (valid alnum s) eqn:V; [|reflexivity]. apply (b64_valid alnum s HA B) in V. rewrite V in Q. cbn [andb] in Q.
  apply negb_false_iff in Q. now rewrite Q, orb_true_r.
Qed.

Section Constants.
Variables (bs : bool) (alnum : N -> bool).
Hypothesis HA : ascii_ok alnum.
Let off : false = true -> true = false.
Proof. discriminate. Qed.
Notation Lw := (Lw bs true).

(** What INSERT and SET write. *)
Inductive wl : json -> const -> Prop :=
| wl_int z : wl (JInt z) (KInt z)
| wl_lit s : (bs = true -> ~ In 92%N s) -> wl (lit s) (KText s).
Inductive wc : json -> const -> Prop :=
| wc_wl j k : wl j k -> wc j k
| wc_str s : b64s s -> is_column is_keyword s = false -> wc (JStr s) (KText s).

Lemma wc_operand j k r : wc j k -> operand is_keyword r j = Ok (cval k).
Proof. intros [? ? [z|s B]|s B Q]; [reflexivity..|]. cbn [operand]. now rewrite Q. Qed.
Lemma wl_insert j k : wl j k -> insert_const is_keyword (val j) = Ok (cval k).
Proof. intros [z|s B]; reflexivity. Qed.

Definition ctoks (k : const) : list token :=
  match k with
  | KInt z => if Z.ltb z 0 then [TSym (u "-"); TNum (str_int (- z))] else [TNum (str_int z)]
  | KText s => [TStr s]
  end.
Lemma constant_toks k rest : constant (ctoks k ++ rest) = Some (k, rest).
Proof.
  destruct k as [z|s]; cbn [ctoks]; [|reflexivity]. destruct (Z.ltb_spec z 0); cbn [app constant].
  - change (seqb (u "-") (u "-")) with true. cbv iota. unfold numval. rewrite parse_str_int. now rewrite Z.opp_involutive.
  - unfold numval. now rewrite parse_str_int.
Qed.
Lemma int_text z : Lw (str_int z) (ctoks (KInt z)).
Proof.
  cbn [ctoks]. destruct (Z.ltb_spec z 0).
  - assert (E : str_int z = u "-" ++ str_int (- z)) by (destruct z; [lia|lia|reflexivity]). rewrite E. apply (Lw_neg bs true false off). lia.
  - now apply (Lw_int bs true false off).
Qed.
Lemma wl_text fstr j k : wl j k -> exists s, literal fstr j = Ok s /\ Lw s (ctoks k).
Proof.
  intros [z|s B].
  - exists (str_int z). split; [reflexivity|apply int_text].
  - exists (quote_str s). split; [reflexivity|]. now apply Lw_str.
Qed.
Lemma wc_text fstr n j k : wc j k -> exists s, dispatch alnum fstr true (S (S n)) j max_prec = Ok s /\ Lw s (ctoks k).
Proof.
  intros [? ? [z|s B]|s B Q].
  - exists (str_int z). split; [reflexivity|apply int_text].
  - exists (quote_str s). split; [|now apply Lw_str]. apply literal_text. cbv. congruence.
  - exists (34%N :: double_char 34 s ++ [34%N]). split; [|apply Lw_dstr; [intros _; now apply b64_no92]].
    change (escape alnum true s = Ok (34%N :: double_char 34 s ++ [34%N])).
    rewrite escape_single; [|intros I; apply B in I; unfold b64_alphabet, DOT in I; lia|intros I; apply B in I; unfold b64_alphabet, BS in I; lia].
    unfold esc. now rewrite (b64_string alnum s HA B Q).
Qed.

(** ** The values of a rewritten INSERT *)
Lemma encrypt_value_wl E k c v ci j : prim_ok (e_P E) -> In ci [SYM; OPEC; FUZ; ARI] ->
  encrypt_value E c k v ci = Ok j -> exists x q, j = val x /\ wl x q.
Proof.
  intros HP I H. unfold encrypt_value in H.
  destruct (match v with JDict d => dgetE d (u "literal") | _ => Ok v end) as [v1|]; [|discriminate]. cbn [bind] in H.
  destruct (encode v1 (c_type c)) as [v2|]; [|discriminate]. cbn [bind] in H.
  assert (W : forall t, b64s t -> exists x q, value_of (RewriteModel.literal_of t) = val x /\ wl x q).
  { intros t B. exists (lit t), (KText t). split; [reflexivity|]. constructor. intros _. now apply b64_no92. }
  destruct I as [<-|[<-|[<-|[<-|[]]]]].
  - change (seqb SYM OPEC) with false in H. change (seqb SYM SYM) with true in H. cbv iota in H.
    destruct (aes_encrypt _ _ _) as [t|] eqn:A; [|discriminate]. injection H as <-. apply W. now apply (aes_b64 _ HP _ _ _ A).
  - change (seqb OPEC OPEC) with true in H. cbv iota in H. destruct (py_int v2) as [z|]; [|discriminate]. cbn [bind] in H.
    destruct (env_ope _ _ _) as [e|]; [|discriminate]. injection H as <-. exists (JInt e), (KInt e). split; [reflexivity|constructor].
  - change (seqb FUZ OPEC) with false in H. change (seqb FUZ SYM) with false in H. change (seqb FUZ FUZ) with true in H. cbv iota in H.
    destruct (fuzzy_encrypt _ _ _ _) as [t|] eqn:A; [|discriminate]. injection H as <-. apply W. now apply (fuzzy_b64 _ _ HP _ _ _ A).
  - change (seqb ARI OPEC) with false in H. change (seqb ARI SYM) with false in H. change (seqb ARI FUZ) with false in H. change (seqb ARI ARI) with true in H.
    cbv iota in H. destruct (c_homo c) as [[[p q]|]|]; [| |discriminate]; (destruct (py_int v2) as [z|]; [|discriminate]); cbn [bind] in H; [|discriminate].
    unfold homo_encrypt in H. destruct (homo_encrypt_num _ _ _ _) as [n|]; [|discriminate]. injection H as <-.
    exists (lit (str_int n)), (KText (str_int n)). split; [reflexivity|]. constructor. intros _. apply digits_no92.
Qed.
Definition wls (js : list json) (ks : list const) : Prop := Forall2 (fun j k => exists x, j = val x /\ wl x k) js ks.
Lemma mapM_wls {A} (f : A -> res json) l js : (forall a j, In a l -> f a = Ok j -> exists x q, j = val x /\ wl x q) -> mapM f l = Ok js -> exists ks, wls js ks.
Proof.
  revert js. induction l as [|a l IH]; intros js H M; cbn [mapM] in M; [injection M as <-; exists []; constructor|].
  destruct (f a) as [j|] eqn:F; [|discriminate]. destruct (mapM f l) as [js'|] eqn:M'; [|discriminate]. injection M as <-.
  destruct (H a j (or_introl eq_refl) F) as (x & q & X). destruct (IH js') as (ks & K); [intros a' j' I; apply H; now right|reflexivity|].
  exists (q :: ks). constructor; [now exists x|exact K].
Qed.
Lemma cjson_wl c v : plain_text bs c v -> c_plain c = true -> wl (cjson v) v.
Proof. destruct v as [z|s]; intros P H; constructor. intros B. now apply P. Qed.
Lemma supp_ciphers c ci : StmtSpec.supported c -> c_plain c = false -> In ci (dkeys (c_enc c)) -> In ci [SYM; OPEC; FUZ; ARI].
Proof.
  intros [S|[S _]] P I; [congruence|]. destruct S as [[_ S]|[_ S]]; specialize (S ci I); [exact S|]. cbn in *. intuition.
Qed.
Lemma values_wls E m cs vs js : prim_ok (e_P E) -> (forall k c, dget (t_cols m) k = Some c -> StmtSpec.supported c) ->
  (forall k v, In (k, v) (combine cs vs) -> exists c, dget (t_cols m) k = Some c /\ plain_text bs c v) ->
  values_loop E m (map JStr cs) (map val (map cjson vs)) = Ok js -> exists ks, wls js ks.
Proof.
  intros HP S. revert vs js. induction cs as [|k cs IH]; intros [|v vs] js H L; cbn [map values_loop] in L;
    try (injection L as <-; exists []; constructor).
  destruct (H k v (or_introl eq_refl)) as (c & Hc & PT).
  destruct (values_col E m (JStr k) (val (cjson v))) as [a|] eqn:V; [|discriminate]. cbn [bind] in L.
  destruct (values_loop E m (map JStr cs) (map val (map cjson vs))) as [b|] eqn:L'; [|discriminate]. injection L as <-.
  destruct (IH vs b) as (ks & K); [intros k' v' I; apply H; now right|exact L'|].
  assert (exists q, wls a q) as (q & Q).
  { unfold values_col in V. cbn [lookup] in V. unfold dgetE in V at 1. rewrite Hc in V. cbn [bind] in V. destruct (c_plain c) eqn:P.
    - injection V as <-. exists [v]. constructor; [|constructor]. exists (cjson v). split; [reflexivity|]. now apply (cjson_wl c).
    - revert V. apply mapM_wls. intros ci j I F. change (getitem (val (cjson v)) (u "value")) with (Ok (cjson v)) in F. cbn [bind] in F.
      apply (encrypt_value_wl E k c (cjson v) ci j HP); [now apply (supp_ciphers c ci (S k c Hc) P)|exact F]. }
  exists (q ++ ks). now apply Forall2_app.
Qed.

(** ** The assignments of a rewritten UPDATE *)
Lemma set_value_wc E M T k c v ci j : prim_ok (e_P E) -> StmtSpec.supported c -> c_plain c = false -> update_ok E k c (cjson v) -> In ci (dkeys (c_enc c)) ->
  where_rw E M T ci (c_key c) (cjson v) = Ok j -> exists q, wc j q.
Proof.
  intros HP S Hp [Hc Hu] Hi R. specialize (Hu Hp). destruct Hu as [Hna Hf].
  unfold const_ok in Hc. rewrite Hp in Hc. destruct S as [S|[S _]]; [congruence|].
  destruct Hc as [(Ty & z & EV & Hz & _)|(Ty & s & EV & Hs)].
  - rewrite EV in *. assert (Hk : In ci [SYM; OPEC; FUZ; ARI]).
    { destruct S as [[_ S]|[T' _]]; [apply S, Hi|]. unfold is_text_type in T'. rewrite Ty in T'. discriminate T'. }
    destruct Hk as [<-|[<-|[<-|[<-|[]]]]].
    + rewrite int_rw_sym in R. destruct (aes_encrypt _ _ _) as [t|] eqn:Ht; [|discriminate]. injection R as <-.
      exists (KText t). apply wc_str; [now apply (aes_b64 _ HP _ _ _ Ht)|]. now apply (int_quoted is_keyword (e_P E) HP (c_key c) z t Hz).
    + rewrite int_rw_ope in R. destruct (env_ope _ _ _) as [e|]; [|discriminate]. injection R as <-. exists (KInt e). apply wc_wl. constructor.
    + destruct (Hf Hi) as [L Np]. cbn [const_text] in L, Np. rewrite int_rw_fuz, fuzzy_pattern_nopct in R by assumption.
      destruct (fuzzy_encrypt _ _ _ _) as [t|] eqn:Ht; [|discriminate]. injection R as <-.
      exists (KText t). apply wc_str; [now apply (fuzzy_b64 _ _ HP _ _ _ Ht)|]. now apply (fuzzy_int_quoted is_keyword (e_alnum E) (e_P E) HP (c_key c) z t L).
    + contradiction.
  - rewrite EV in *. assert (Hk : In ci [SYM; FUZ]).
    { destruct S as [[T' _]|[_ S]]; [|apply S, Hi]. unfold is_text_type in Ty. rewrite T' in Ty. discriminate Ty. }
    destruct Hk as [<-|[<-|[]]].
    + rewrite lit_rw in R. destruct (aes_encrypt _ _ _) as [t|] eqn:Ht; [|discriminate]. injection R as <-.
      exists (KText t). apply wc_wl. constructor. intros _. apply b64_no92. now apply (aes_b64 _ HP _ _ _ Ht).
    + destruct (Hf Hi) as [L Np]. change (const_text (lit s)) with s in L, Np. rewrite lit_rw_fuz, fuzzy_pattern_nopct in R by assumption.
      destruct (fuzzy_encrypt _ _ _ _) as [t|] eqn:Ht; [|discriminate]. injection R as <-.
      exists (KText t). apply wc_wl. constructor. intros _. apply b64_no92. now apply (fuzzy_b64 _ _ HP _ _ _ Ht).
Qed.
Definition wcs (a : list (pystr * json)) (b : list (pystr * const)) : Prop := Forall2 (fun x y => fst x = fst y /\ wc (snd x) (snd y)) a b.
Lemma dset_wcs a b n j k : wcs a b -> wc j k -> exists b', wcs (dset a n j) b'.
Proof.
  intros F W. induction F as [|[x v] [y q] a b [E V] F (b' & IH)]; cbn [dset].
  - exists [(n, k)]. constructor; [split; [reflexivity|exact W]|constructor].
  - cbn [fst snd] in E, V. subst y. destruct (seqb n x).
    + exists ((x, k) :: b). constructor; [split; [reflexivity|exact W]|exact F].
    + exists ((x, q) :: b'). constructor; [split; [reflexivity|exact V]|exact IH].
Qed.
Lemma set_enc_wcs E M T k c v d acc b out : prim_ok (e_P E) -> StmtSpec.supported c -> c_plain c = false -> update_ok E k c (cjson v) ->
  (forall ci, In ci (dkeys d) -> In ci (dkeys (c_enc c))) -> wcs acc b ->
  set_enc E M T (cjson v) (c_key c) d acc = Ok out -> exists b', wcs out b'.
Proof.
  intros HP S P U. revert acc b. induction d as [|[ci n] d IH]; intros acc b I W H; cbn [set_enc] in H; [injection H as <-; eauto|].
  destruct (where_rw E M T ci (c_key c) (cjson v)) as [j|] eqn:R; [|discriminate]. cbn [bind] in H.
  destruct (set_value_wc E M T k c v ci j HP S P U) as (q & Q); [apply I; now left|exact R|].
  destruct (dset_wcs acc b n j q W Q) as (b' & W'). apply (IH (dset acc n j) b'); [intros x X; apply I; now right|exact W'|exact H].
Qed.
Lemma set_loop_wcs E M T m sets acc b out : prim_ok (e_P E) -> (forall k c, dget (t_cols m) k = Some c -> StmtSpec.supported c) ->
  (forall k v, In (k, v) sets -> exists c, dget (t_cols m) k = Some c /\ update_ok E k c (cjson v) /\ plain_text bs c v) -> wcs acc b ->
  set_loop E M T m (map (fun kv => (fst kv, cjson (snd kv))) sets) acc = Ok out -> exists b', wcs out b'.
Proof.
  intros HP S. revert acc b. induction sets as [|[k v] sets IH]; intros acc b H W L; cbn [map set_loop fst snd] in L; [injection L as <-; eauto|].
  destruct (H k v (or_introl eq_refl)) as (c & Hc & U & PT). unfold dgetE in L. rewrite Hc in L. cbn [bind] in L.
  destruct (c_plain c) eqn:P; cbn [bind] in L.
  - destruct (dset_wcs acc b k (cjson v) v W) as (b' & W'); [apply wc_wl; now apply (cjson_wl c)|].
    apply (IH (dset acc k (cjson v)) b'); [intros k' v' X; apply H; now right|exact W'|exact L].
  - destruct (set_enc _ _ _ _ _ _ acc) as [acc'|] eqn:SE; [|discriminate]. cbn [bind] in L.
    destruct (set_enc_wcs E M T k c v (c_enc c) acc b acc' HP (S k c Hc) P U) as (b' & W'); [auto|exact W|exact SE|].
    apply (IH acc' b'); [intros k' v' X; apply H; now right|exact W'|exact L].
Qed.
End Constants.
