(** Lemmas about the rewriting of conditions. *)
From Coq Require Import String Ascii List NArith ZArith QArith Bool Lia ZifyBool ZifyNat ZifyN.
From Verif Require Import Base BaseProof CryptoModel CryptoSpec CryptoProof CryptoProps FuzzyModel LikeSpec FuzzyProof LikeProof
  OpeModel OpeProps PaillierModel JsonModel JsonProof RewriteModel SqlSpec EncSpec.
Import ListNotations.
Open Scope Z_scope.

Lemma bind_Ok {A B} (a : A) (f : A -> res B) : bind (Ok a) f = f a.
Proof. reflexivity. Qed.

(** ** Names *)
Lemma ident_char_nodot c : ident_char c = true -> N.eqb c DOT = false.
Proof. unfold ident_char, ident_start, DOT. lia. Qed.

Lemma valid_name_nodot s : valid_name s = true -> has_char DOT s = false.
Proof.
  destruct s as [|c r]; [discriminate|]. cbn [valid_name]. intros H.
  apply andb_true_iff in H as [H1 H2]. unfold has_char. apply not_true_is_false. intros E.
  apply existsb_exists in E as (x & [<-|Hx] & E).
  - apply N.eqb_eq in E. subst c. discriminate H1.
  - apply N.eqb_eq in E. subst x. rewrite forallb_forall in H2. discriminate (H2 _ Hx).
Qed.

Lemma colname_column kw s : colname kw s -> is_column kw s = true.
Proof.
  intros [V K]. unfold is_column. rewrite split_nochar by (apply valid_name_nodot, V).
  cbn [forallb]. rewrite V, K. reflexivity.
Qed.

Lemma has_char_In c s : has_char c s = true <-> In c s.
Proof.
  unfold has_char. rewrite existsb_exists. split.
  - intros (x & Hx & E). apply N.eqb_eq in E. subst. exact Hx.
  - intros H. exists c. split; [exact H | apply N.eqb_refl].
Qed.

Lemma eq_char_not_column kw s : In EQ s -> has_char DOT s = false -> is_column kw s = false.
Proof.
  intros HE HD. unfold is_column. rewrite split_nochar by exact HD. cbn [forallb].
  rewrite andb_true_r. apply andb_false_intro1.
  destruct s as [|c r]; [reflexivity|]. cbn [valid_name].
  destruct HE as [->|HE]; [reflexivity|]. apply andb_false_intro2, not_true_is_false.
  intros F. rewrite forallb_forall in F. discriminate (F _ HE).
Qed.

(** ** Ciphertexts of short texts are padded, so the formatter quotes them *)
Lemma b64_mod3_eq l : (length l mod 3 <> 0)%nat -> In EQ (b64encode l).
Proof.
  induction l as [|a|a b|a b c r IH] using list_ind3; intros H.
  - cbn [length] in H. lia.
  - cbn [b64encode In]. auto.
  - cbn [b64encode In]. auto.
  - cbn [b64encode In]. right; right; right; right. apply IH. cbn [length] in H. lia.
Qed.

Lemma b64_alphabet_nodot s : (forall x, In x s -> b64_alphabet x) -> has_char DOT s = false.
Proof.
  intros H. apply not_true_is_false. intros E. apply has_char_In in E. apply H in E.
  unfold b64_alphabet, DOT in E. lia.
Qed.

Lemma aes_short_quoted kw P (HP : prim_ok P) k s c :
  aes_encrypt P k s = Ok c -> (1 <= nbytes s <= 32)%nat -> is_column kw c = false.
Proof.
  intros H L. pose proof (aes_shape P HP k s c H) as [A _].
  apply eq_char_not_column; [|apply b64_alphabet_nodot, A].
  apply aes_encrypt_inv in H. destruct H as (b & e & Hb & He & ->).
  apply b64_mod3_eq.
  destruct (ecb_ok (aes_enc_block P (kdf P k)) (aes_pad b)) as (e' & He' & Le).
  - intros bl. apply (aes_len P HP).
  - rewrite aes_pad_length. lia.
  - rewrite He in He'. injection He' as <-. rewrite Le, aes_pad_length.
    rewrite (utf8_encode_length _ _ Hb). unfold nblocks. lia.
Qed.

(** ** A condition looks only at the columns it mentions *)
Definition agree (l : list pystr) (r r' : row) : Prop := forall s, In s l -> dget r s = dget r' s.

Lemma agree_app l l' r r' : agree (l ++ l') r r' <-> agree l r r' /\ agree l' r r'.
Proof.
  unfold agree. split.
  - intros H. split; intros s Hs; apply H, in_or_app; auto.
  - intros [H1 H2] s Hs. apply in_app_or in Hs as [Hs|Hs]; auto.
Qed.

Lemma refs_dict1 kw k x :
  refs kw (JDict [(k, x)]) = if smem k [u "literal"; u "null"] then [] else refs kw x.
Proof. cbn [refs]. apply app_nil_r. Qed.

Lemma operand_agree kw r r' j : agree (refs kw j) r r' -> operand kw r j = operand kw r' j.
Proof.
  intros H. destruct j as [|b|z|q|s|l|d]; try reflexivity.
  cbn [operand refs] in *. destruct (is_column kw s); [|reflexivity].
  rewrite (H s) by (left; reflexivity). reflexivity.
Qed.

Lemma in_set_agree kw r r' j : agree (refs kw j) r r' -> in_set kw r j = in_set kw r' j.
Proof.
  intros H. destruct j as [|b|z|q|s|l|d]; try reflexivity.
  - unfold in_set. rewrite (operand_agree kw r r' _ H). reflexivity.
  - unfold in_set. cbn [refs] in H. induction l as [|x l IH]; [reflexivity|].
    cbn [map concat] in H. apply agree_app in H as [H1 H2].
    cbn [mapM]. rewrite (operand_agree kw r r' x H1), IH by exact H2. reflexivity.
Qed.

Lemma agree2 kw a b r r' : agree (refs kw (JList [a; b])) r r' -> agree (refs kw a) r r' /\ agree (refs kw b) r r'.
Proof.
  cbn [refs map concat]. rewrite !agree_app. tauto.
Qed.

Lemma cond_agree kw r r' j : agree (refs kw j) r r' -> cond kw r j = cond kw r' j.
Proof.
  induction j as [j IH] using json_size_ind; intros H.
  destruct j as [|b|z|q|s|l|d]; try reflexivity.
  destruct d as [|[k x] [|? ?]]; try reflexivity.
  rewrite refs_dict1 in H.
  assert (K : smem k [u "literal"; u "null"] = false \/ cond kw r (JDict [(k, x)]) = cond kw r' (JDict [(k, x)])).
  { destruct (smem k [u "literal"; u "null"]) eqn:E; [right|left; reflexivity].
    apply smem_In in E. destruct E as [<-|[<-|[]]]; reflexivity. }
  destruct K as [K|K]; [|exact K]. rewrite K in H. clear K.
  assert (L : forall l, x = JList l -> mapM (cond kw r) l = mapM (cond kw r') l).
  { intros l ->. apply mapM_ext_in. intros y Hy. apply IH.
    - pose proof (jsize_list y l Hy). pose proof (jsize_dict k (JList l) [(k, JList l)] (or_introl eq_refl)). lia.
    - intros t Ht. apply H. cbn [refs]. apply in_concat. exists (refs kw y). split; [|exact Ht].
      apply in_map, Hy. }
  assert (IHx : cond kw r x = cond kw r' x).
  { apply IH; [apply (jsize_dict k); left; reflexivity | exact H]. }
  clear IH. cbn [cond].
  repeat match goal with
  | |- (if ?b then _ else _) = (if ?b then _ else _) => destruct b eqn:?
  end; try reflexivity.
  all: try solve [rewrite (operand_agree kw r r' _ H); reflexivity].
  - destruct x as [| | | | |[|a [|b [|? ?]]]|]; try reflexivity.
    apply agree2 in H as [Ha Hb].
    rewrite (operand_agree kw r r' a Ha), (operand_agree kw r r' b Hb). reflexivity.
  - destruct x as [| | | | |[|a [|b [|? ?]]]|]; try reflexivity.
    apply agree2 in H as [Ha Hb].
    rewrite (operand_agree kw r r' a Ha), (operand_agree kw r r' b Hb). reflexivity.
  - destruct x as [| | | | |[|a [|b [|? ?]]]|]; try reflexivity.
    apply agree2 in H as [Ha Hb].
    rewrite (operand_agree kw r r' a Ha), (in_set_agree kw r r' b Hb). reflexivity.
  - destruct x as [| | | | |[|a [|b [|c [|? ?]]]]|]; try reflexivity.
    cbn [refs map concat] in H. rewrite !agree_app in H. destruct H as (Ha & Hb & Hc & _).
    rewrite (operand_agree kw r r' a Ha), (operand_agree kw r r' b Hb), (operand_agree kw r r' c Hc).
    reflexivity.
  - rewrite IHx. reflexivity.
  - destruct x; try reflexivity. rewrite (L _ eq_refl). reflexivity.
  - destruct x; try reflexivity. rewrite (L _ eq_refl). reflexivity.
Qed.

(** ** Comparison of ciphertexts *)
Lemma scmp_refl s : scmp s s = Eq.
Proof. induction s as [|x s IH]; [reflexivity|]. cbn [scmp]. rewrite N.compare_refl. exact IH. Qed.
Lemma scmp_eq s t : scmp s t = Eq -> s = t.
Proof.
  revert t; induction s as [|x s IH]; intros [|y t]; cbn [scmp]; try discriminate; [reflexivity|].
  destruct (N.compare_spec x y) as [->| |]; try discriminate. intros H. f_equal. apply IH, H.
Qed.

Lemma nbytes_ascii s : (forall c, In c s -> c < 128)%N -> nbytes s = length s.
Proof.
  induction s as [|c s IH]; intros H; [reflexivity|]. cbn [nbytes fold_right length].
  fold (nbytes s). rewrite IH by (intros x Hx; apply H; right; exact Hx).
  unfold utf8_size. specialize (H c (or_introl eq_refl)). destruct (N.ltb_spec c 128); lia.
Qed.

Lemma str_int_ascii z c : In c (str_int z) -> (c < 128)%N.
Proof. intros H. apply str_int_char in H. lia. Qed.

Lemma str_int_last z : str_int z = [] \/ last (str_int z) 0%N <> 0%N.
Proof.
  right. intros E. pose proof (str_int_nonempty z) as N0.
  assert (In (last (str_int z) 0%N) (str_int z)).
  { destruct (exists_last N0) as (l & a & ->). rewrite last_last. apply in_or_app. right. left. reflexivity. }
  apply str_int_char in H. lia.
Qed.

Lemma str_int_text_ok z : text_ok (str_int z).
Proof.
  split; [|apply str_int_last]. apply forallb_forall. intros c H. apply str_int_ascii in H.
  unfold scalar. lia.
Qed.

Lemma scmp_cases s t : (scmp s t = Eq /\ s = t) \/ (scmp s t <> Eq /\ s <> t).
Proof.
  destruct (scmp s t) eqn:E.
  - left. split; [reflexivity | apply scmp_eq, E].
  - right. split; [discriminate|]. intros ->. rewrite scmp_refl in E. discriminate.
  - right. split; [discriminate|]. intros ->. rewrite scmp_refl in E. discriminate.
Qed.

Lemma holds_eq c : holds (u "eq") c = Some (match c with Eq => true | _ => false end).
Proof. reflexivity. Qed.

Lemma ciph_eq P (HP : prim_ok P) key s t c d :
  text_ok s -> text_ok t -> aes_encrypt P key s = Ok c -> aes_encrypt P key t = Ok d ->
  holds (u "eq") (scmp c d) = holds (u "eq") (scmp s t).
Proof.
  intros [_ Hs] [_ Ht] Hc Hd. pose proof (c02_aux P HP key s t c d Hs Ht Hc Hd) as I.
  rewrite !holds_eq. destruct (scmp_cases c d) as [[E1 E2]|[E1 E2]], (scmp_cases s t) as [[F1 F2]|[F1 F2]].
  - rewrite E1, F1. reflexivity.
  - exfalso. apply F2, I, E2.
  - exfalso. apply E2, I, F2.
  - destruct (scmp c d), (scmp s t); congruence.
Qed.

Lemma str_int_cmp a b : holds (u "eq") (scmp (str_int a) (str_int b)) = holds (u "eq") (Z.compare a b).
Proof.
  rewrite !holds_eq. destruct (scmp_cases (str_int a) (str_int b)) as [[E1 E2]|[E1 E2]].
  - apply str_int_inj in E2. subst b. rewrite E1, Z.compare_refl. reflexivity.
  - destruct (Z.compare_spec a b) as [->|L|L]; [congruence| |];
      destruct (scmp (str_int a) (str_int b)); congruence.
Qed.

Lemma env_ope_total E k z : int64 z -> exists e, env_ope E k z = Ok e.
Proof.
  intros H. exists z. unfold env_ope. rewrite c09_aux. unfold int64 in H.
  replace ((- 2 ^ 63 <=? z) && (z <? 2 ^ 63)) with true; [reflexivity|]. lia.
Qed.

Lemma env_ope_cmp E k a b c d : env_ope E k a = Ok c -> env_ope E k b = Ok d -> (a ?= b) = (c ?= d).
Proof. unfold env_ope, opec_encrypt. apply c07b_aux. Qed.

Lemma Qcmp_inject a b : Qcompare (inject_Z a) (inject_Z b) = Z.compare a b.
Proof. unfold Qcompare, inject_Z. cbn [Qnum Qden]. rewrite !Z.mul_1_r. reflexivity. Qed.

(** ** Reading an encrypted cell *)
Lemma enc_cell_sym E c v w : typed c v -> enc_cell E c SYM v w ->
  v = VNull /\ w = VNull \/
  (exists z t, v = VInt z /\ aes_encrypt (e_P E) (c_key c) (str_int z) = Ok t /\ w = VStr t) \/
  (exists s t, v = VStr s /\ aes_encrypt (e_P E) (c_key c) s = Ok t /\ w = VStr t).
Proof.
  intros _. destruct v as [|z|q|s]; cbn [enc_cell]; intros H.
  - left. auto.
  - right. left. destruct H as [(_ & t & Ht & ->)|[(X & _)|[(X & _)|(X & _)]]]; try discriminate X.
    exists z, t. auto.
  - destruct H.
  - right. right. destruct H as [(_ & t & Ht & ->)|(X & _)]; try discriminate X. exists s, t. auto.
Qed.

Lemma enc_cell_ope E c v w : enc_cell E c OPEC v w ->
  v = VNull /\ w = VNull \/ (exists z e, v = VInt z /\ env_ope E (c_key c) z = Ok e /\ w = VInt e).
Proof.
  destruct v as [|z|q|s]; cbn [enc_cell]; intros H.
  - left. auto.
  - right. destruct H as [(X & _)|[(_ & e & He & ->)|[(X & _)|(X & _)]]]; try discriminate X.
    exists z, e. auto.
  - destruct H.
  - destruct H as [(X & _)|(X & _)]; discriminate X.
Qed.

(** ** The rewriting of one comparison *)
Lemma where_cols_known M t m : dget M t = Some m -> where_cols M (JStr t) = Some (t_cols m).
Proof. intros H. unfold where_cols, lookup, dgetE. rewrite H. reflexivity. Qed.

Lemma cols_truthy_in d k (c : colmeta) : dget d k = Some c -> cols_truthy (Some d) = true.
Proof. destruct d; [discriminate | reflexivity]. Qed.

Lemma eq_rw E M t m k c x ci key n :
  dget M t = Some m -> dget (t_cols m) k = Some c -> c_plain c = false -> dget (c_enc c) SYM = Some n ->
  where_rw E M (JStr t) ci key (JDict [(u "eq", JList [JStr k; x])]) =
  do w <- where_rw E M (JStr t) SYM (c_key c) x; Ok (JDict [(u "eq", JList [JStr n; w])]).
Proof.
  intros Hm Hc Hp Hn. cbn [where_rw]. rewrite (where_cols_known _ _ _ Hm).
  rewrite (cols_truthy_in _ _ _ Hc).
  change (seqb (u "eq") (u "eq")) with true. cbv iota.
  cbn [index nth_error bind col_at lookup]. unfold dgetE. rewrite Hc. cbn [bind]. rewrite Hp, Hn. reflexivity.
Qed.

Lemma cmp_rw E M t m op k c x ci key n :
  smem op [u "gt"; u "lt"; u "gte"; u "lte"] = true ->
  dget M t = Some m -> dget (t_cols m) k = Some c -> c_plain c = false -> c_type c = u "int" ->
  dget (c_enc c) OPEC = Some n ->
  where_rw E M (JStr t) ci key (JDict [(op, JList [JStr k; x])]) =
  do w <- where_rw E M (JStr t) OPEC (c_key c) x; Ok (JDict [(op, JList [JStr n; w])]).
Proof.
  intros Ho Hm Hc Hp Ht Hn. cbn [where_rw]. rewrite (where_cols_known _ _ _ Hm), Ho.
  assert (seqb op (u "eq") = false) as ->.
  { apply smem_In in Ho. destruct Ho as [<-|[<-|[<-|[<-|[]]]]]; reflexivity. }
  cbn [index nth_error bind col_at lookup]. unfold dgetE. rewrite Hc. cbn [bind]. rewrite Hp, Ht, Hn.
  reflexivity.
Qed.

Lemma plain_rw E M t m k x ci key :
  dget M t = Some m ->
  smem k [u "and"; u "or"; u "literal"] = false ->
  (smem k [u "eq"; u "gt"; u "lt"; u "gte"; u "lte"; u "like"] = true ->
   exists c rest, x = JList (JStr c :: rest) /\ plain_col m c) ->
  where_rw E M (JStr t) ci key (JDict [(k, x)]) = Ok (JDict [(k, x)]).
Proof.
  intros Hm Hk Hp. cbn [where_rw]. rewrite (where_cols_known _ _ _ Hm).
  cbn [smem existsb] in Hk, Hp |- *. 
  destruct (seqb k (u "and")); [discriminate|]. destruct (seqb k (u "or")); [discriminate|].
  destruct (seqb k (u "literal")); [discriminate|]. cbn [orb] in *.
  destruct (seqb k (u "eq")).
  { destruct (Hp eq_refl) as (c & rest & -> & cm & Hc & Hpl).
    rewrite (cols_truthy_in _ _ _ Hc).
    cbn [index nth_error bind col_at lookup]. unfold dgetE. rewrite Hc. cbn [bind]. rewrite Hpl. reflexivity. }
  destruct (seqb k (u "gt") || (seqb k (u "lt") || (seqb k (u "gte") || (seqb k (u "lte") || false)))) eqn:G.
  { destruct Hp as (c & rest & -> & cm & Hc & Hpl).
    { destruct (seqb k (u "gt")), (seqb k (u "lt")), (seqb k (u "gte")), (seqb k (u "lte")); try reflexivity; discriminate G. }
    cbn [index nth_error bind col_at lookup]. unfold dgetE. rewrite Hc. cbn [bind]. rewrite Hpl. reflexivity. }
  destruct (seqb k (u "like")).
  { destruct Hp as (c & rest & -> & cm & Hc & Hpl).
    { rewrite !orb_true_r. reflexivity. }
    cbn [index nth_error bind col_at lookup]. unfold dgetE. rewrite Hc. cbn [bind]. rewrite Hpl. reflexivity. }
  reflexivity.
Qed.

Lemma and_or_rw E M table k l ci key :
  smem k [u "and"; u "or"] = true ->
  where_rw E M table ci key (JDict [(k, JList l)]) =
  do l' <- mapM (where_rw E M table ci []) l; Ok (JDict [(k, JList l')]).
Proof. intros H. apply smem_In in H. destruct H as [<-|[<-|[]]]; reflexivity. Qed.

Lemma lit_rw E M table s key :
  where_rw E M table SYM key (lit s) = do t <- aes_encrypt (e_P E) key s; Ok (lit t).
Proof. unfold lit. cbn. destruct (aes_encrypt (e_P E) key s); reflexivity. Qed.

Lemma int_rw_sym E M table z key :
  where_rw E M table SYM key (JInt z) = do t <- aes_encrypt (e_P E) key (str_int z); Ok (JStr t).
Proof. reflexivity. Qed.
Lemma int_rw_ope E M table z key :
  where_rw E M table OPEC key (JInt z) = do t <- env_ope E key z; Ok (JInt t).
Proof. reflexivity. Qed.

(** Physical columns are among [phys]. *)
Lemma phys_In m k c n :
  dget (t_cols m) k = Some c ->
  (c_plain c = true /\ n = k \/ c_plain c = false /\ In n (dvals (c_enc c))) -> In n (phys m).
Proof.
  intros Hc H. unfold phys. apply in_concat. exists (phys_of k c). split.
  - apply in_map_iff. exists (k, c). split; [reflexivity | apply dget_In, Hc].
  - unfold phys_of. destruct H as [[-> ->]|[-> H]]; [left; reflexivity | exact H].
Qed.

Lemma dget_dvals {V} (d : dict V) k v : dget d k = Some v -> In v (dvals d).
Proof. intros H. apply dget_In in H. unfold dvals. change v with (snd (k, v)). apply in_map, H. Qed.

Lemma enc_colname kw m k c ci n : wf_table kw m ->
  dget (t_cols m) k = Some c -> c_plain c = false -> dget (c_enc c) ci = Some n -> is_column kw n = true.
Proof.
  intros W Hc Hp Hn. apply colname_column, (wf_pnames kw m W), (phys_In m k c); [exact Hc|].
  right. split; [exact Hp | apply dget_dvals with ci, Hn].
Qed.
Lemma log_colname kw m k c : wf_table kw m -> dget (t_cols m) k = Some c -> is_column kw k = true.
Proof.
  intros W Hc. apply colname_column, (wf_names kw m W). apply dget_Some_key with c, Hc.
Qed.

Lemma operand_col kw r s v : is_column kw s = true -> dget r s = Some v -> operand kw r (JStr s) = Ok v.
Proof. intros H1 H2. cbn [operand]. rewrite H1, H2. reflexivity. Qed.
Lemma operand_quoted kw r s : is_column kw s = false -> operand kw r (JStr s) = Ok (VStr s).
Proof. intros H1. cbn [operand]. rewrite H1. reflexivity. Qed.
Lemma operand_lit kw r s : operand kw r (lit s) = Ok (VStr s).
Proof. reflexivity. Qed.

Lemma cond_cmp kw r k a b :
  smem k [u "eq"; u "neq"; u "gt"; u "lt"; u "gte"; u "lte"] = true ->
  cond kw r (JDict [(k, JList [a; b])]) =
  do va <- operand kw r a; do vb <- operand kw r b; do c <- vcmp va vb;
  Ok (match c with Some c => holds k c | None => None end).
Proof. intros H. cbn [cond]. rewrite H. reflexivity. Qed.

(** LIKE. *)
Lemma like_rw E M t m k c x ci key n :
  dget M t = Some m -> dget (t_cols m) k = Some c -> c_plain c = false -> dget (c_enc c) FUZ = Some n ->
  where_rw E M (JStr t) ci key (JDict [(u "like", JList [JStr k; x])]) =
  do w <- where_rw E M (JStr t) FUZ (c_key c) x; Ok (JDict [(u "like", JList [JStr n; w])]).
Proof.
  intros Hm Hc Hp Hn. cbn [where_rw]. rewrite (where_cols_known _ _ _ Hm).
  change (seqb (u "like") (u "eq")) with false. change (smem (u "like") [u "gt"; u "lt"; u "gte"; u "lte"]) with false.
  change (seqb (u "like") (u "like")) with true. cbv iota.
  cbn [index nth_error bind col_at lookup]. unfold dgetE. rewrite Hc. cbn [bind]. rewrite Hp, Hn. reflexivity.
Qed.

Lemma lit_rw_fuz E M table s key :
  where_rw E M table FUZ key (lit s) = do t <- fuzzy_pattern (e_alnum E) (e_P E) key s; Ok (lit t).
Proof. unfold lit. cbn. destruct (fuzzy_pattern (e_alnum E) (e_P E) key s); reflexivity. Qed.

Lemma pattern_total E cls ps key : prim_ok (e_P E) -> pattern_ok (e_alnum E) cls ps ->
  exists d, fuzzy_pattern (e_alnum E) (e_P E) key (join [PCT] ps) = Ok d.
Proof.
  intros HP (Hn & Hp & Hc & _). eexists. apply (fuzzy_pattern_ok (e_alnum E) (e_P E) HP key cls ps Hn Hp).
  intros p I. now apply plain_no_pct, Hc.
Qed.

Lemma cond_like kw r a b :
  cond kw r (JDict [(u "like", JList [a; b])]) =
  do va <- operand kw r a; do vb <- operand kw r b;
  match va, vb with
  | VNull, _ | _, VNull => Ok None
  | VStr s, VStr p => Ok (Some (like p s))
  | _, _ => Err DbError
  end.
Proof.
  change (cond kw r (JDict [(u "like", JList [a; b])])) with
    (do va <- operand kw r a; do vb <- operand kw r b; do t <- like_vals va vb; Ok (negated false t)).
  destruct (operand kw r a) as [va|]; [|reflexivity]. destruct (operand kw r b) as [vb|]; [|reflexivity].
  destruct va, vb; reflexivity.
Qed.

Lemma enc_cell_fuz E c v w : enc_cell E c FUZ v w ->
  v = VNull /\ w = VNull \/
  (exists z t, v = VInt z /\ w = VStr t) \/
  (exists s t, v = VStr s /\ fuzzy_encrypt (e_alnum E) (e_P E) (c_key c) s = Ok t /\ w = VStr t).
Proof.
  destruct v as [|z|q|s]; cbn [enc_cell]; intros H.
  - left. auto.
  - right. left. destruct H as [(X & _)|[(X & _)|[(_ & t & Ht & ->)|(X & _)]]]; try discriminate X. exists z, t. auto.
  - destruct H.
  - right. right. destruct H as [(X & _)|(_ & t & Ht & ->)]; try discriminate X. exists s, t. auto.
Qed.

Lemma like_leaf kw E m c cm n cls ps d pr er :
  prim_ok (e_P E) -> wf_table kw m -> dget (t_cols m) c = Some cm -> c_plain cm = false -> dget (c_enc cm) FUZ = Some n ->
  pattern_ok (e_alnum E) cls ps -> is_text_type (c_type cm) ->
  fuzzy_pattern (e_alnum E) (e_P E) (c_key cm) (join [PCT] ps) = Ok d -> enc_row E m pr er ->
  (forall s, dget pr c = Some (VStr s) -> cls = false \/ isalnum (e_alnum E) s = true) ->
  cond kw er (JDict [(u "like", JList [JStr n; lit d])]) = cond kw pr (JDict [(u "like", JList [JStr c; lit (join [PCT] ps)])]).
Proof.
  intros HP W Hc Hp Hn (N0 & P1 & P2 & P3) Ty Hd R C. rewrite !cond_like.
  destruct (R c cm Hc) as (v & Hv & He). rewrite Hp in He. destruct He as [Tv He].
  destruct (He _ _ Hn) as (w & Hw & Ew).
  rewrite (operand_col kw er n w (enc_colname kw m c cm FUZ n W Hc Hp Hn) Hw), !operand_lit.
  rewrite (operand_col kw pr c v (log_colname kw m c cm W Hc) Hv). cbn [bind].
  apply enc_cell_fuz in Ew. destruct Ew as [[-> ->]|[(z & e & -> & ->)|(s0 & e & -> & He0 & ->)]].
  - reflexivity.
  - exfalso. destruct Tv as [Ti _]. unfold is_text_type in Ty. rewrite Ti in Ty. discriminate Ty.
  - do 2 f_equal.
    assert (X : exists pat e', fuzzy_pattern (e_alnum E) (e_P E) (c_key cm) (join [PCT] ps) = Ok pat /\
              fuzzy_encrypt (e_alnum E) (e_P E) (c_key cm) s0 = Ok e' /\ like pat e' = like (join [PCT] ps) s0).
    { destruct cls.
      - destruct (C s0 Hv) as [X|Cs]; [discriminate X|]. apply (like_apart (e_alnum E) (e_P E) HP (c_key cm) true ps s0); auto.
        apply (proj1 (proj2 Tv)).
      - apply (like_symbols (e_alnum E) (e_P E) HP (c_key cm) ps s0); auto. apply (proj1 (proj2 Tv)). }
    destruct X as (pat & e' & X1 & X2 & X3). congruence.
Qed.

Lemma like_letters kw E M t m c cm ps :
  prim_ok (e_P E) -> dget M t = Some m -> wf_table kw m ->
  enc_col m c cm FUZ -> is_text_type (c_type cm) -> pattern_ok (e_alnum E) true ps ->
  let j := JDict [(u "like", JList [JStr c; lit (join [PCT] ps)])] in
  exists j', where_rw E M (JStr t) SYM [] j = Ok j' /\
             forall pr er, enc_row E m pr er -> (forall s, dget pr c = Some (VStr s) -> isalnum (e_alnum E) s = true) ->
                           cond kw er j' = cond kw pr j.
Proof.
  intros HP Hm W (Hc & Hp & n & Hn) Ty Ps j. subst j.
  destruct (pattern_total E true ps (c_key cm) HP Ps) as [d Hd].
  rewrite (like_rw E M t m c cm _ _ _ n Hm Hc Hp Hn), lit_rw_fuz, Hd. cbn [bind].
  eexists; split; [reflexivity|]. intros pr er R A.
  apply (like_leaf kw E m c cm n true ps d pr er HP W Hc Hp Hn Ps Ty Hd R). intros s Hs. right. exact (A s Hs).
Qed.

Lemma leaf_sound kw E M t m k x :
  prim_ok (e_P E) -> dget M t = Some m -> wf_table kw m -> leaf_ok kw (e_alnum E) m k x ->
  exists c', where_rw E M (JStr t) SYM [] (JDict [(k, x)]) = Ok c' /\
             forall pr er, enc_row E m pr er -> cond kw er c' = cond kw pr (JDict [(k, x)]).
Proof.
  intros HP Hm W [(K & Rf & Hc)|[(c & cm & s & -> & -> & (Hc & Hp & n & Hn) & Ty & Tx)
    |[(c & cm & z & -> & -> & (Hc & Hp & n & Hn) & Ty & L)|[(c & cm & z & Ho & -> & (Hc & Hp & n & Hn) & Ty & Z)
    |(c & cm & ps & -> & -> & (Hc & Hp & n & Hn) & Ty & Ps)]]]].
  - exists (JDict [(k, x)]). split; [apply plain_rw with m; assumption|]. intros pr er R.
    apply cond_agree. intros s Hs. destruct (Rf s Hs) as (cm & Hcm & Hpl).
    destruct (R s cm Hcm) as (v & Hv & He). rewrite Hpl in He. congruence.
  - destruct (aes_encrypt_ok (e_P E) HP (c_key cm) s (proj1 Tx)) as [d Hd].
    rewrite (eq_rw E M t m c cm _ _ _ n Hm Hc Hp Hn), lit_rw, Hd. cbn [bind].
    eexists; split; [reflexivity|]. intros pr er R. rewrite !cond_cmp by reflexivity.
    destruct (R c cm Hc) as (v & Hv & He). rewrite Hp in He. destruct He as [Tv He].
    destruct (He _ _ Hn) as (w & Hw & Ew).
    rewrite (operand_col kw er n w (enc_colname kw m c cm SYM n W Hc Hp Hn) Hw), !operand_lit.
    rewrite (operand_col kw pr c v (log_colname kw m c cm W Hc) Hv). cbn [bind].
    apply enc_cell_sym in Ew; [|exact Tv].
    destruct Ew as [[-> ->]|[(z & e & -> & _)|(s0 & e & -> & He0 & ->)]].
    + reflexivity.
    + destruct Tv as [Ti _]. exfalso. unfold is_text_type in Ty. rewrite Ti in Ty. discriminate Ty.
    + cbn [vcmp bind]. f_equal. apply (ciph_eq (e_P E) HP (c_key cm) s0 s e d); try assumption.
      exact (proj2 Tv).
  - destruct (aes_encrypt_ok (e_P E) HP (c_key cm) (str_int z) (proj1 (str_int_text_ok z))) as [d Hd].
    rewrite (eq_rw E M t m c cm _ _ _ n Hm Hc Hp Hn), int_rw_sym, Hd. cbn [bind].
    eexists; split; [reflexivity|]. intros pr er R. rewrite !cond_cmp by reflexivity.
    destruct (R c cm Hc) as (v & Hv & He). rewrite Hp in He. destruct He as [Tv He].
    destruct (He _ _ Hn) as (w & Hw & Ew).
    rewrite (operand_col kw er n w (enc_colname kw m c cm SYM n W Hc Hp Hn) Hw).
    rewrite (operand_col kw pr c v (log_colname kw m c cm W Hc) Hv).
    rewrite (operand_quoted kw er d).
    2:{ apply (aes_short_quoted kw (e_P E) HP (c_key cm) (str_int z)); [exact Hd|].
        rewrite nbytes_ascii by apply str_int_ascii.
        pose proof (str_int_nonempty z). destruct (str_int z); [congruence|]. cbn [length] in *. lia. }
    cbn [operand bind]. apply enc_cell_sym in Ew; [|exact Tv].
    destruct Ew as [[-> ->]|[(z0 & e & -> & He0 & ->)|(s0 & e & -> & He0 & ->)]].
    + reflexivity.
    + cbn [vcmp bind num]. rewrite Qcmp_inject, <- str_int_cmp. f_equal.
      apply (ciph_eq (e_P E) HP (c_key cm) (str_int z0) (str_int z) e d); try assumption; apply str_int_text_ok.
    + exfalso. destruct Tv as [Ti _]. unfold is_text_type in Ti. rewrite Ty in Ti. discriminate Ti.
  - destruct (env_ope_total E (c_key cm) z Z) as [d Hd].
    rewrite (cmp_rw E M t m k c cm _ _ _ n Ho Hm Hc Hp Ty Hn), int_rw_ope, Hd. cbn [bind].
    eexists; split; [reflexivity|]. intros pr er R.
    destruct (R c cm Hc) as (v & Hv & He). rewrite Hp in He. destruct He as [Tv He].
    destruct (He _ _ Hn) as (w & Hw & Ew).
    assert (Ho' : smem k [u "eq"; u "neq"; u "gt"; u "lt"; u "gte"; u "lte"] = true).
    { apply smem_In. apply smem_In in Ho. right. right. exact Ho. }
    rewrite !cond_cmp by exact Ho'.
    rewrite (operand_col kw er n w (enc_colname kw m c cm OPEC n W Hc Hp Hn) Hw).
    rewrite (operand_col kw pr c v (log_colname kw m c cm W Hc) Hv).
    cbn [operand bind]. apply enc_cell_ope in Ew.
    destruct Ew as [[-> ->]|(z0 & e & -> & He0 & ->)]; [reflexivity|].
    cbn [vcmp bind num]. rewrite !Qcmp_inject. f_equal.
    rewrite (env_ope_cmp E (c_key cm) z0 z e d He0 Hd). reflexivity.
  - destruct (pattern_total E false ps (c_key cm) HP Ps) as [d Hd].
    rewrite (like_rw E M t m c cm _ _ _ n Hm Hc Hp Hn), lit_rw_fuz, Hd. cbn [bind].
    eexists; split; [reflexivity|]. intros pr er R.
    apply (like_leaf kw E m c cm n false ps d pr er HP W Hc Hp Hn Ps Ty Hd R).
    intros s Hs. left. reflexivity.
Qed.

Lemma frag_and_or kw al m k l : smem k [u "and"; u "or"] = true ->
  frag_cond kw al m (JDict [(k, JList l)]) <-> forall y, In y l -> frag_cond kw al m y.
Proof.
  intros H. cbn [frag_cond]. rewrite H. induction l as [|y l IH].
  - split; [intros _ y []|auto].
  - rewrite IH. split.
    + intros [H1 H2] z [->|Hz]; auto.
    + intros H1. split; [apply H1; left; reflexivity | intros z Hz; apply H1; right; exact Hz].
Qed.

Lemma cond_and_or kw r k l :
  smem k [u "and"; u "or"] = true ->
  cond kw r (JDict [(k, JList l)]) =
  do ts <- mapM (cond kw r) l;
  Ok (if seqb k (u "and") then fold_left tv_and ts (Some true) else fold_left tv_or ts (Some false)).
Proof. intros H. apply smem_In in H. destruct H as [<-|[<-|[]]]; reflexivity. Qed.

Lemma where_sound kw E M t m j :
  prim_ok (e_P E) -> dget M t = Some m -> wf_table kw m -> frag_cond kw (e_alnum E) m j ->
  exists j', where_rw E M (JStr t) SYM [] j = Ok j' /\
             forall pr er, enc_row E m pr er -> cond kw er j' = cond kw pr j.
Proof.
  intros HP Hm W. induction j as [j IH] using json_size_ind. intros F.
  destruct j as [| | | | | |d]; try (destruct F; fail).
  destruct d as [|[k x] [|? ?]]; try (destruct F; fail).
  destruct (smem k [u "and"; u "or"]) eqn:K.
  - destruct x as [| | | | |l|]; try (cbn [frag_cond] in F; rewrite K in F; destruct F; fail).
    rewrite frag_and_or in F by exact K.
    assert (L : exists l', mapM (where_rw E M (JStr t) SYM []) l = Ok l' /\
              forall pr er, enc_row E m pr er -> mapM (cond kw er) l' = mapM (cond kw pr) l).
    { assert (IH' : forall y, In y l -> exists y', where_rw E M (JStr t) SYM [] y = Ok y' /\
                 forall pr er, enc_row E m pr er -> cond kw er y' = cond kw pr y).
      { intros y Hy. apply IH; [|apply F, Hy].
        pose proof (jsize_list y l Hy). pose proof (jsize_dict k (JList l) [(k, JList l)] (or_introl eq_refl)). lia. }
      clear - IH'. induction l as [|y l IHl].
      - exists []. split; reflexivity.
      - destruct (IH' y (or_introl eq_refl)) as (y' & H1 & H2).
        destruct IHl as (l' & H3 & H4); [intros z Hz; apply IH'; right; exact Hz|].
        exists (y' :: l'). cbn [mapM]. rewrite H1, H3. split; [reflexivity|].
        intros pr er R. rewrite (H2 pr er R), (H4 pr er R). reflexivity. }
    destruct L as (l' & L1 & L2). exists (JDict [(k, JList l')]).
    rewrite and_or_rw by exact K. rewrite L1. split; [reflexivity|]. intros pr er R.
    rewrite !cond_and_or by exact K. rewrite (L2 pr er R). reflexivity.
  - cbn [frag_cond] in F. rewrite K in F. apply leaf_sound; assumption.
Qed.
