(** Proofs about the symmetric ciphers. *)
From Coq Require Import String Ascii List NArith ZArith Bool Arith Lia ZifyBool ZifyNat ZifyN.
From Coq Require Import Init.Byte.
From Verif Require Import Base BaseProof CryptoModel CryptoSpec.
Import ListNotations.
Ltac Zify.zify_post_hook ::= Z.div_mod_to_equations.
Arguments N.add : simpl never.
Arguments N.mul : simpl never.
Arguments N.div : simpl never.
Arguments N.modulo : simpl never.
Arguments N.sub : simpl never.
Arguments N.ltb : simpl never.
Arguments N.leb : simpl never.
Arguments Nat.modulo : simpl never.
Arguments Nat.div : simpl never.
Arguments Nat.sub : simpl never.

Lemma bN_lt b : (bN b < 256)%N.
Proof. unfold bN. pose proof (Byte.to_N_bounded b). lia. Qed.

Lemma Nb_bN b : Nb (bN b) = b.
Proof. destruct b; reflexivity. Qed.

Lemma bN_Nb n : (n < 256)%N -> bN (Nb n) = n.
Proof.
  intros H. unfold Nb, bN. rewrite N.mod_small by exact H.
  destruct (Byte.of_N n) as [b|] eqn:E.
  - apply Byte.to_of_N in E. exact E.
  - apply Byte.of_N_None_iff in E. lia.
Qed.

Lemma bN_inj a b : bN a = bN b -> a = b.
Proof. intros H. rewrite <- (Nb_bN a), H. apply Nb_bN. Qed.

(** ** UTF-8 *)
Lemma cont_Nb n : (n < 64)%N -> cont (Nb (128 + n)) = Some n.
Proof.
  intros H. unfold cont. rewrite bN_Nb by lia.
  destruct ((128 <=? 128 + n) && (128 + n <? 192))%N eqn:E; [f_equal; lia | lia].
Qed.

Lemma utf8_enc1_ok c : scalar c = true <-> exists b, utf8_enc1 c = Ok b.
Proof.
  unfold scalar, utf8_enc1. split.
  - intros H.
    destruct (N.ltb_spec c 128); [eexists; reflexivity|].
    destruct (N.ltb_spec c 2048); [eexists; reflexivity|].
    destruct (N.ltb_spec c 65536).
    + destruct ((55296 <=? c) && (c <? 57344))%N eqn:E; [lia | eexists; reflexivity].
    + destruct (N.ltb_spec c 1114112); [eexists; reflexivity | lia].
  - intros [b H].
    destruct (N.ltb_spec c 128); [lia|].
    destruct (N.ltb_spec c 2048); [lia|].
    destruct (N.ltb_spec c 65536).
    + destruct ((55296 <=? c) && (c <? 57344))%N eqn:E; [discriminate | lia].
    + destruct (N.ltb_spec c 1114112); [lia | discriminate].
Qed.

(** Number of UTF-8 bytes of a code point. *)
Lemma utf8_enc1_size c b : utf8_enc1 c = Ok b -> length b = utf8_size c.
Proof.
  unfold utf8_enc1, utf8_size.
  destruct (c <? 128)%N; [intros [= <-]; reflexivity|].
  destruct (c <? 2048)%N; [intros [= <-]; reflexivity|].
  destruct (c <? 65536)%N.
  - destruct (_ && _)%bool; [discriminate | intros [= <-]; reflexivity].
  - destruct (c <? 1114112)%N; [intros [= <-]; reflexivity | discriminate].
Qed.

Lemma utf8_decode_enc1 c b rest :
  utf8_enc1 c = Ok b ->
  utf8_decode (b ++ rest) = do s <- utf8_decode rest; Ok (c :: s).
Proof.
  unfold utf8_enc1.
  destruct (N.ltb_spec c 128) as [H|H].
  { intros [= <-]. cbn [app utf8_decode]. rewrite bN_Nb by lia.
    destruct (N.ltb_spec c 128); [reflexivity | lia]. }
  destruct (N.ltb_spec c 2048) as [H1|H1].
  { intros [= <-]. cbn [app utf8_decode].
    rewrite bN_Nb by lia.
    destruct (N.ltb_spec (192 + c / 64) 128); [lia|].
    destruct ((194 <=? 192 + c / 64) && (192 + c / 64 <? 224))%N eqn:E; [|lia].
    rewrite cont_Nb by lia.
    replace ((192 + c / 64 - 192) * 64 + c mod 64)%N with c by lia. reflexivity. }
  destruct (N.ltb_spec c 65536) as [H2|H2].
  { destruct ((55296 <=? c) && (c <? 57344))%N eqn:Es; [discriminate|].
    intros [= <-]. cbn [app utf8_decode].
    rewrite bN_Nb by lia.
    destruct (N.ltb_spec (224 + c / 4096) 128); [lia|].
    destruct ((194 <=? 224 + c / 4096) && (224 + c / 4096 <? 224))%N eqn:E; [lia|].
    destruct ((224 <=? 224 + c / 4096) && (224 + c / 4096 <? 240))%N eqn:E1; [|lia].
    rewrite !cont_Nb by lia.
    replace ((224 + c / 4096 - 224) * 4096 + (c / 64) mod 64 * 64 + c mod 64)%N with c by lia.
    destruct ((2048 <=? c)%N && scalar c) eqn:E2; [reflexivity|].
    unfold scalar in E2. lia. }
  destruct (N.ltb_spec c 1114112) as [H3|H3]; [|discriminate].
  intros [= <-]. cbn [app utf8_decode].
  rewrite bN_Nb by lia.
  destruct (N.ltb_spec (240 + c / 262144) 128); [lia|].
  destruct ((194 <=? 240 + c / 262144) && (240 + c / 262144 <? 224))%N eqn:E; [lia|].
  destruct ((224 <=? 240 + c / 262144) && (240 + c / 262144 <? 240))%N eqn:E1; [lia|].
  destruct ((240 <=? 240 + c / 262144) && (240 + c / 262144 <? 245))%N eqn:E2; [|lia].
  rewrite !cont_Nb by lia.
  replace ((240 + c / 262144 - 240) * 262144 + (c / 4096) mod 64 * 4096 + (c / 64) mod 64 * 64 + c mod 64)%N
    with c by lia.
  destruct ((65536 <=? c)%N && scalar c) eqn:E3; [reflexivity|].
  unfold scalar in E3. lia.
Qed.

Lemma utf8_decode_encode_app s b rest :
  utf8_encode s = Ok b ->
  utf8_decode (b ++ rest) = do t <- utf8_decode rest; Ok (s ++ t).
Proof.
  revert b; induction s as [|c s IH]; cbn [utf8_encode]; intros b H.
  - injection H as <-. cbn [app]. destruct (utf8_decode rest); reflexivity.
  - unfold bind in H. destruct (utf8_enc1 c) as [b1|] eqn:E1; [|discriminate].
    destruct (utf8_encode s) as [bs|] eqn:E2; [|discriminate]. injection H as <-.
    rewrite <- app_assoc. rewrite (utf8_decode_enc1 c b1 _ E1).
    rewrite (IH _ eq_refl). destruct (utf8_decode rest); reflexivity.
Qed.

Lemma utf8_decode_encode s b : utf8_encode s = Ok b -> utf8_decode b = Ok s.
Proof.
  intros H. pose proof (utf8_decode_encode_app s b [] H) as E.
  rewrite app_nil_r in E. rewrite E. cbn. rewrite app_nil_r. reflexivity.
Qed.

Lemma utf8_encode_inj s t b : utf8_encode s = Ok b -> utf8_encode t = Ok b -> s = t.
Proof.
  intros Hs Ht. apply utf8_decode_encode in Hs. apply utf8_decode_encode in Ht. congruence.
Qed.

Lemma utf8_encode_ok s : (exists b, utf8_encode s = Ok b) <-> forallb scalar s = true.
Proof.
  induction s as [|c s IH]; cbn [utf8_encode forallb].
  - split; [reflexivity | intros _; eexists; reflexivity].
  - rewrite andb_true_iff, <- IH, utf8_enc1_ok. split.
    + intros [b H]. unfold bind in H. destruct (utf8_enc1 c) as [b1|]; [|discriminate].
      destruct (utf8_encode s) as [bs|]; [|discriminate]. split; eexists; reflexivity.
    + intros [[b1 H1] [b2 H2]]. rewrite H1, H2. eexists; reflexivity.
Qed.

Lemma utf8_encode_app s t bs bt :
  utf8_encode s = Ok bs -> utf8_encode t = Ok bt -> utf8_encode (s ++ t) = Ok (bs ++ bt).
Proof.
  revert bs; induction s as [|c s IH]; cbn [utf8_encode app]; intros bs Hs Ht.
  - injection Hs as <-. exact Ht.
  - unfold bind in *. destruct (utf8_enc1 c) as [b1|]; [|discriminate].
    destruct (utf8_encode s) as [bs'|]; [|discriminate]. injection Hs as <-.
    rewrite (IH bs' eq_refl Ht). rewrite app_assoc. reflexivity.
Qed.

Lemma utf8_encode_prefix s t b :
  utf8_encode (s ++ t) = Ok b ->
  exists bs bt, utf8_encode s = Ok bs /\ utf8_encode t = Ok bt /\ b = bs ++ bt.
Proof.
  revert b; induction s as [|c s IH]; cbn [utf8_encode app]; intros b H.
  - exists [], b. auto.
  - unfold bind in *. destruct (utf8_enc1 c) as [b1|]; [|discriminate].
    destruct (utf8_encode (s ++ t)) as [b2|]; [|discriminate]. injection H as <-.
    destruct (IH b2 eq_refl) as (bs & bt & Hs & Ht & ->). rewrite Hs.
    exists (b1 ++ bs), bt. rewrite app_assoc. auto.
Qed.

Lemma utf8_encode_zeros k : utf8_encode (repeat 0%N k) = Ok (repeat x00 k).
Proof.
  induction k as [|k IH]; cbn [repeat utf8_encode]; [reflexivity|].
  rewrite IH. reflexivity.
Qed.

Lemma utf8_decode_zeros k : utf8_decode (repeat x00 k) = Ok (repeat 0%N k).
Proof. apply utf8_decode_encode, utf8_encode_zeros. Qed.

(** Byte length of a text. *)
Lemma utf8_encode_length s b : utf8_encode s = Ok b -> length b = nbytes s.
Proof.
  revert b; induction s as [|c s IH]; cbn [utf8_encode nbytes fold_right]; intros b H.
  - injection H as <-. reflexivity.
  - unfold bind in H. destruct (utf8_enc1 c) as [b1|] eqn:E1; [|discriminate].
    destruct (utf8_encode s) as [bs|] eqn:E2; [|discriminate]. injection H as <-.
    rewrite app_length, (utf8_enc1_size _ _ E1), (IH _ eq_refl). reflexivity.
Qed.

Lemma nbytes_app s t : nbytes (s ++ t) = nbytes s + nbytes t.
Proof.
  induction s as [|c s IH]; cbn [app nbytes fold_right]; [reflexivity|].
  fold (nbytes (s ++ t)). fold (nbytes s). lia.
Qed.

(** ** Base64 *)
Lemma b64_val_char n : (n < 64)%N -> b64_val (b64_char n) = Some n.
Proof.
  intros H.
  assert (F : forallb (fun m => match b64_val (b64_char (N.of_nat m)) with
                                | Some x => N.eqb x (N.of_nat m) | None => false end)
                      (seq 0 64) = true) by (vm_compute; reflexivity).
  rewrite forallb_forall in F. specialize (F (N.to_nat n)).
  rewrite N2Nat.id in F. assert (I : In (N.to_nat n) (seq 0 64)) by (apply in_seq; lia).
  specialize (F I). destruct (b64_val (b64_char n)); [|discriminate].
  apply N.eqb_eq in F. congruence.
Qed.

(** Characters that may occur in base64 text. *)
Lemma b64_char_alphabet n : (n < 64)%N -> b64_alphabet (b64_char n).
Proof.
  intros H. unfold b64_alphabet, b64_char.
  destruct (N.ltb_spec n 26); [lia|]. destruct (N.ltb_spec n 52); [lia|].
  destruct (N.ltb_spec n 62); [lia|]. destruct (N.eqb_spec n 62); lia.
Qed.

Lemma b64_char_not_eq n : (n < 64)%N -> b64_char n <> EQ.
Proof.
  intros H E. pose proof (b64_val_char n H) as V. rewrite E in V. discriminate.
Qed.

Lemma list_ind3 {A} (Q : list A -> Prop) :
  Q [] -> (forall a, Q [a]) -> (forall a b, Q [a; b]) ->
  (forall a b c r, Q r -> Q (a :: b :: c :: r)) -> forall l, Q l.
Proof.
  intros H0 H1 H2 H3.
  assert (forall n l, length l <= n -> Q l) as G.
  { induction n as [|n IH]; intros l Hl.
    - destruct l; [exact H0 | cbn in Hl; lia].
    - destruct l as [|a [|b [|c r]]]; auto. apply H3. apply IH. cbn [length] in Hl. lia. }
  intros l. apply (G (length l)). lia.
Qed.

Lemma b64_decode_encode l : b64decode (b64encode l) = Ok l.
Proof.
  induction l as [|a|a b|a b c r IH] using list_ind3; [reflexivity|..].
  - cbn [b64encode b64decode]. pose proof (bN_lt a).
    rewrite !b64_val_char by lia. change (b64_val EQ) with (@None N).
    cbn [N.eqb EQ Pos.eqb andb].
    replace ((bN a * 16 / 64 * 64 + (bN a * 16) mod 64) / 16)%N with (bN a) by lia.
    rewrite Nb_bN. reflexivity.
  - cbn [b64encode b64decode]. pose proof (bN_lt a). pose proof (bN_lt b).
    rewrite !b64_val_char by lia. change (b64_val EQ) with (@None N).
    cbn [N.eqb EQ Pos.eqb].
    set (v := ((bN a * 256 + bN b) * 4)%N).
    replace ((v / 4096 * 4096 + (v / 64) mod 64 * 64 + v mod 64) / 4)%N
      with (bN a * 256 + bN b)%N by (subst v; lia).
    replace ((bN a * 256 + bN b) / 256)%N with (bN a) by lia.
    replace ((bN a * 256 + bN b) mod 256)%N with (bN b) by lia.
    rewrite !Nb_bN. reflexivity.
  - cbn [b64encode b64decode]. pose proof (bN_lt a). pose proof (bN_lt b). pose proof (bN_lt c).
    rewrite !b64_val_char by lia.
    set (v := (bN a * 65536 + bN b * 256 + bN c)%N).
    replace (v / 262144 * 262144 + (v / 4096) mod 64 * 4096 + (v / 64) mod 64 * 64 + v mod 64)%N
      with v by (subst v; lia).
    rewrite IH. cbn [bind].
    replace (v / 65536)%N with (bN a) by (subst v; lia).
    replace ((v / 256) mod 256)%N with (bN b) by (subst v; lia).
    replace (v mod 256)%N with (bN c) by (subst v; lia).
    rewrite !Nb_bN. reflexivity.
Qed.

Lemma b64encode_inj a b : b64encode a = b64encode b -> a = b.
Proof.
  intros H. pose proof (b64_decode_encode a). pose proof (b64_decode_encode b). congruence.
Qed.

Lemma b64encode_alphabet l c : In c (b64encode l) -> b64_alphabet c.
Proof.
  revert c. induction l as [|a|a b|a b d r IH] using list_ind3; intros c H.
  - destruct H.
  - pose proof (bN_lt a). cbn [b64encode In] in H.
    repeat (destruct H as [<-|H]; [first [apply b64_char_alphabet; lia | unfold b64_alphabet, EQ; lia]|]).
    destruct H.
  - pose proof (bN_lt a). pose proof (bN_lt b). cbn [b64encode In] in H.
    repeat (destruct H as [<-|H]; [first [apply b64_char_alphabet; lia | unfold b64_alphabet, EQ; lia]|]).
    destruct H.
  - pose proof (bN_lt a). pose proof (bN_lt b). pose proof (bN_lt d).
    cbn [b64encode In] in H.
    repeat (destruct H as [<-|H]; [apply b64_char_alphabet; lia|]).
    apply IH, H.
Qed.

Lemma b64encode_length l : length (b64encode l) = 4 * ((length l + 2) / 3).
Proof.
  induction l as [|a|a b|a b c r IH] using list_ind3; [reflexivity..|].
  cbn [b64encode length]. rewrite IH. lia.
Qed.

(** ** ECB *)
Lemma firstn_app_exact {A} n (a b : list A) : length a = n -> firstn n (a ++ b) = a.
Proof.
  intros <-. rewrite firstn_app, Nat.sub_diag, firstn_all. cbn [firstn]. apply app_nil_r.
Qed.

Lemma skipn_app_exact {A} n (a b : list A) : length a = n -> skipn n (a ++ b) = b.
Proof.
  intros <-. rewrite skipn_app, Nat.sub_diag, skipn_all. reflexivity.
Qed.

Lemma ecb_blocks_length f n l :
  (forall b, length b = 16 -> length (f b) = 16) ->
  length l = 16 * n -> length (ecb_blocks f n l) = 16 * n.
Proof.
  intros Hf. revert l; induction n as [|n IH]; intros l Hl; cbn [ecb_blocks]; [reflexivity|].
  rewrite app_length, Hf, IH; [lia|rewrite skipn_length; lia|].
  rewrite firstn_length. lia.
Qed.

Lemma ecb_blocks_inv f g n l :
  (forall b, length b = 16 -> length (f b) = 16) ->
  (forall b, length b = 16 -> g (f b) = b) ->
  length l = 16 * n -> ecb_blocks g n (ecb_blocks f n l) = l.
Proof.
  intros Hf Hg. revert l; induction n as [|n IH]; intros l Hl; cbn [ecb_blocks].
  - destruct l; [reflexivity | cbn in Hl; lia].
  - assert (L : length (firstn 16 l) = 16) by (rewrite firstn_length; lia).
    assert (L' : length (f (firstn 16 l)) = 16) by (apply Hf, L).
    rewrite (firstn_app_exact 16 _ _ L'), (skipn_app_exact 16 _ _ L').
    rewrite IH by (rewrite skipn_length; lia).
    rewrite (Hg _ L). apply firstn_skipn.
Qed.

Lemma ecb_ok f l :
  (forall b, length b = 16 -> length (f b) = 16) -> length l mod 16 = 0 ->
  exists c, ecb f l = Ok c /\ length c = length l.
Proof.
  intros Hf Hl. unfold ecb. rewrite Hl, Nat.eqb_refl.
  eexists; split; [reflexivity|].
  assert (E : length l = 16 * (length l / 16)) by lia.
  rewrite (ecb_blocks_length f _ l Hf E). lia.
Qed.

Lemma ecb_inv f g l c :
  (forall b, length b = 16 -> length (f b) = 16) ->
  (forall b, length b = 16 -> g (f b) = b) ->
  ecb f l = Ok c -> ecb g c = Ok l.
Proof.
  intros Hf Hg. unfold ecb. destruct (Nat.eqb_spec (length l mod 16) 0) as [Hl|]; [|discriminate].
  intros [= <-]. assert (E : length l = 16 * (length l / 16)) by lia.
  assert (L : length (ecb_blocks f (length l / 16) l) = 16 * (length l / 16))
    by (apply ecb_blocks_length; assumption).
  rewrite L. rewrite Nat.mul_comm, Nat.mod_mul by lia. rewrite Nat.eqb_refl.
  rewrite Nat.div_mul by lia. f_equal. apply ecb_blocks_inv; assumption.
Qed.

(** ** Zero padding *)
Lemma aes_pad_app l : exists k, k < 16 /\ aes_pad l = l ++ repeat x00 k.
Proof.
  unfold aes_pad. destruct (Nat.eqb_spec (length l mod 16) 0) as [H|H].
  - exists 0. cbn [repeat]. rewrite app_nil_r. split; [lia | reflexivity].
  - exists (16 - length l mod 16). split; [lia | reflexivity].
Qed.

(** Number of 16-byte blocks needed for n bytes. *)
Definition nblocks (n : nat) : nat := (n + 15) / 16.

Lemma aes_pad_length l : length (aes_pad l) = 16 * nblocks (length l).
Proof.
  unfold aes_pad, nblocks. destruct (Nat.eqb_spec (length l mod 16) 0) as [H|H].
  - lia.
  - rewrite app_length, repeat_length. lia.
Qed.

Section AES.
Context (P : prim) (HP : prim_ok P).

Lemma aes_encrypt_ok k s :
  forallb scalar s = true -> exists c, aes_encrypt P k s = Ok c.
Proof.
  intros H. apply utf8_encode_ok in H. destruct H as [b Hb].
  unfold aes_encrypt. rewrite Hb. cbn [bind].
  destruct (ecb_ok (aes_enc_block P (kdf P k)) (aes_pad b)) as (c & Hc & _).
  - intros bl. apply (aes_len P HP).
  - rewrite aes_pad_length. rewrite Nat.mul_comm, Nat.mod_mul by lia. reflexivity.
  - rewrite Hc. eexists; reflexivity.
Qed.

Lemma aes_encrypt_inv k s c :
  aes_encrypt P k s = Ok c ->
  exists b e, utf8_encode s = Ok b /\ ecb (aes_enc_block P (kdf P k)) (aes_pad b) = Ok e
              /\ c = b64encode e.
Proof.
  unfold aes_encrypt. destruct (utf8_encode s) as [b|] eqn:E; cbn [bind]; [|discriminate].
  destruct (ecb _ (aes_pad b)) as [e|] eqn:E1; cbn [bind]; [|discriminate].
  intros [= <-]. exists b, e. auto.
Qed.

Lemma aes_encrypt_scalar k s c : aes_encrypt P k s = Ok c -> forallb scalar s = true.
Proof.
  intros H. apply aes_encrypt_inv in H. destruct H as (b & e & Hb & _).
  apply utf8_encode_ok. exists b; exact Hb.
Qed.

Lemma aes_roundtrip k s c :
  aes_encrypt P k s = Ok c -> aes_decrypt P k c = Ok (rstrip 0 s).
Proof.
  intros H. apply aes_encrypt_inv in H. destruct H as (b & e & Hb & He & ->).
  unfold aes_decrypt. rewrite b64_decode_encode. cbn [bind].
  assert (D : ecb (aes_dec_block P (kdf P k)) e = Ok (aes_pad b)).
  { apply (ecb_inv (aes_enc_block P (kdf P k))); [| |exact He].
    - intros bl; apply (aes_len P HP).
    - intros bl; apply (aes_inv P HP). }
  rewrite D. cbn [bind]. unfold aes_unpad.
  destruct (aes_pad_app b) as (j & _ & ->).
  rewrite (utf8_decode_encode_app s b _ Hb), utf8_decode_zeros. cbn [bind].
  rewrite rstrip_app_pad. reflexivity.
Qed.

Lemma ecb_enc_inj k a b e :
  ecb (aes_enc_block P (kdf P k)) a = Ok e -> ecb (aes_enc_block P (kdf P k)) b = Ok e -> a = b.
Proof.
  intros Ha Hb.
  apply (ecb_inv _ (aes_dec_block P (kdf P k))) in Ha;
    [|intros bl; apply (aes_len P HP)|intros bl; apply (aes_inv P HP)].
  apply (ecb_inv _ (aes_dec_block P (kdf P k))) in Hb;
    [|intros bl; apply (aes_len P HP)|intros bl; apply (aes_inv P HP)].
  congruence.
Qed.

Lemma aes_eq_iff k s t c d :
  aes_encrypt P k s = Ok c -> aes_encrypt P k t = Ok d ->
  (c = d <-> rstrip 0 s = rstrip 0 t /\ nblocks (nbytes s) = nblocks (nbytes t)).
Proof.
  intros Hs Ht.
  pose proof (aes_roundtrip k s c Hs) as Rs. pose proof (aes_roundtrip k t d Ht) as Rt.
  apply aes_encrypt_inv in Hs. destruct Hs as (bs & es & Hbs & Hes & ->).
  apply aes_encrypt_inv in Ht. destruct Ht as (bt & et & Hbt & Het & ->).
  rewrite <- (utf8_encode_length _ _ Hbs), <- (utf8_encode_length _ _ Hbt).
  split.
  - intros E. rewrite E in Rs. split; [congruence|].
    apply b64encode_inj in E. subst et.
    pose proof (ecb_enc_inj k _ _ _ Hes Het) as E.
    apply (f_equal (@length byte)) in E. rewrite !aes_pad_length in E. lia.
  - intros [E1 E2]. f_equal.
    assert (aes_pad bs = aes_pad bt) as E; [|rewrite E in Hes; congruence].
    destruct (rstrip_decomp 0 s) as [i Hi]. destruct (rstrip_decomp 0 t) as [j Hj].
    rewrite E1 in Hi. rewrite Hi in Hbs. rewrite Hj in Hbt.
    apply utf8_encode_prefix in Hbs. destruct Hbs as (b1 & z1 & B1 & Z1 & ->).
    apply utf8_encode_prefix in Hbt. destruct Hbt as (b2 & z2 & B2 & Z2 & ->).
    rewrite B1 in B2. injection B2 as <-.
    rewrite utf8_encode_zeros in Z1, Z2. injection Z1 as <-. injection Z2 as <-.
    pose proof (aes_pad_length (b1 ++ repeat x00 i)) as L1.
    pose proof (aes_pad_length (b1 ++ repeat x00 j)) as L2.
    destruct (aes_pad_app (b1 ++ repeat x00 i)) as (m & _ & M).
    destruct (aes_pad_app (b1 ++ repeat x00 j)) as (n & _ & N0).
    rewrite M, N0 in *. rewrite <- !app_assoc, <- !repeat_app in *.
    rewrite !app_length, !repeat_length in *. f_equal. f_equal. lia.
Qed.

Lemma aes_shape k s c :
  aes_encrypt P k s = Ok c ->
  (forall x, In x c -> b64_alphabet x) /\
  length c = 4 * ((16 * ((nbytes s + 15) / 16) + 2) / 3).
Proof.
  intros H. apply aes_encrypt_inv in H. destruct H as (b & e & Hb & He & ->).
  split; [intros x; apply b64encode_alphabet|].
  rewrite b64encode_length.
  destruct (ecb_ok (aes_enc_block P (kdf P k)) (aes_pad b)) as (e' & He' & L).
  - intros bl; apply (aes_len P HP).
  - rewrite aes_pad_length. rewrite Nat.mul_comm, Nat.mod_mul by lia. reflexivity.
  - rewrite He' in He. injection He as ->. rewrite L, aes_pad_length.
    rewrite (utf8_encode_length _ _ Hb). reflexivity.
Qed.

(** ** AESCipherBytes *)
Lemma ascii_utf8 s : (forall c, In c s -> c < 128)%N -> utf8_encode s = Ok (map Nb s).
Proof.
  induction s as [|c s IH]; cbn [utf8_encode map]; intros H; [reflexivity|].
  rewrite IH by (intros x Hx; apply H; right; exact Hx).
  unfold utf8_enc1. destruct (N.ltb_spec c 128); [reflexivity|].
  specialize (H c (or_introl eq_refl)). lia.
Qed.

Lemma map_bN_Nb s : (forall c, In c s -> c < 128)%N -> map bN (map Nb s) = s.
Proof.
  induction s as [|c s IH]; cbn [map]; intros H; [reflexivity|].
  rewrite bN_Nb by (specialize (H c (or_introl eq_refl)); lia).
  rewrite IH by (intros x Hx; apply H; right; exact Hx). reflexivity.
Qed.

Lemma str_pad_length s : length (str_pad s) mod 16 = 0 /\ length (str_pad s) > length s.
Proof. unfold str_pad. rewrite app_length, repeat_length. lia. Qed.

Lemma bytes_unpad_pad l (k : nat) :
  0 < k -> k <= 16 -> bytes_unpad (l ++ repeat (Nb (N.of_nat k)) k) = Ok l.
Proof.
  intros H0 H1. unfold bytes_unpad. rewrite rev_app_distr.
  assert (R : rev (repeat (Nb (N.of_nat k)) k) = Nb (N.of_nat k) :: repeat (Nb (N.of_nat k)) (k - 1)).
  { destruct k as [|k]; [lia|].
    generalize (Nb (N.of_nat (S k))) as x. intros x.
    clear. assert (forall n, rev (repeat x n) = repeat x n) as G.
    { induction n as [|n IH]; [reflexivity|]. cbn [repeat rev]. rewrite IH.
      clear. induction n as [|n IH]; [reflexivity|]. cbn [repeat app]. rewrite IH. reflexivity. }
    rewrite G. cbn [repeat]. replace (S k - 1) with k by lia. reflexivity. }
  rewrite R. cbn [app]. rewrite bN_Nb by lia. rewrite Nat2N.id.
  destruct (Nat.eqb_spec k 0); [lia|]. f_equal.
  rewrite app_length, repeat_length.
  replace (length l + k - k) with (length l) by lia.
  rewrite firstn_app, Nat.sub_diag, firstn_all. cbn [firstn]. apply app_nil_r.
Qed.

Lemma str_pad_ascii s : (forall c, In c s -> c < 128)%N -> (forall c, In c (str_pad s) -> c < 128)%N.
Proof.
  intros H c Hc. unfold str_pad in Hc. apply in_app_iff in Hc. destruct Hc as [Hc|Hc].
  - apply H, Hc.
  - apply repeat_spec in Hc. subst. lia.
Qed.

Lemma b64_alphabet_ascii c : b64_alphabet c -> (c < 128)%N.
Proof. unfold b64_alphabet. lia. Qed.

Lemma aesb_decrypt_of k s e :
  (forall c, In c s -> c < 128)%N ->
  ecb (aes_enc_block P (kdfb P k)) (map Nb (str_pad s)) = Ok e ->
  aesb_decrypt P k e = b64decode s.
Proof.
  intros Hs He. unfold aesb_decrypt.
  apply (ecb_inv _ (aes_dec_block P (kdfb P k))) in He;
    [|intros bl; apply (aes_len P HP)|intros bl; apply (aes_inv P HP)].
  rewrite He. cbn [bind]. unfold str_pad. rewrite map_app.
  assert (M : map Nb (repeat (N.of_nat (16 - length s mod 16)) (16 - length s mod 16))
              = repeat (Nb (N.of_nat (16 - length s mod 16))) (16 - length s mod 16)).
  { generalize (N.of_nat (16 - length s mod 16)). generalize (16 - length s mod 16).
    intros n x. induction n as [|n IH]; [reflexivity|]. cbn [repeat map]. rewrite IH. reflexivity. }
  rewrite M, bytes_unpad_pad by lia. cbn [bind]. unfold b64decode_bytes.
  rewrite map_bN_Nb by exact Hs. reflexivity.
Qed.

Lemma aesb_ecb_ok k s :
  (forall c, In c s -> c < 128)%N ->
  exists e, utf8_encode (str_pad s) = Ok (map Nb (str_pad s)) /\
            ecb (aes_enc_block P (kdfb P k)) (map Nb (str_pad s)) = Ok e.
Proof.
  intros Hs.
  destruct (ecb_ok (aes_enc_block P (kdfb P k)) (map Nb (str_pad s))) as (e & He & _).
  - intros bl; apply (aes_len P HP).
  - rewrite map_length. apply str_pad_length.
  - exists e. split; [apply ascii_utf8, str_pad_ascii, Hs | exact He].
Qed.

Lemma aesb_roundtrip_bytes k b :
  exists e, aesb_encrypt P k (RBytes b) = Ok e /\ aesb_decrypt P k e = Ok b.
Proof.
  assert (A : forall c, In c (b64encode b) -> (c < 128)%N).
  { intros c Hc. apply b64_alphabet_ascii, (b64encode_alphabet b), Hc. }
  destruct (aesb_ecb_ok k (b64encode b) A) as (e & H1 & H2).
  exists e. unfold aesb_encrypt. rewrite H1. cbn [bind]. split; [exact H2|].
  rewrite (aesb_decrypt_of k _ e A H2). apply b64_decode_encode.
Qed.

Lemma aesb_str_decrypt k s :
  (forall c, In c s -> c < 128)%N ->
  exists e, aesb_encrypt P k (RStr s) = Ok e /\ aesb_decrypt P k e = b64decode s.
Proof.
  intros A. destruct (aesb_ecb_ok k s A) as (e & H1 & H2).
  exists e. unfold aesb_encrypt. rewrite H1. cbn [bind]. split; [exact H2|].
  apply (aesb_decrypt_of k s e A H2).
Qed.

(** ** SM4 *)
Lemma hex_val_char n : (n < 16)%N -> hex_val (hex_char n) = Some n.
Proof.
  intros H. unfold hex_val, hex_char.
  destruct (N.ltb_spec n 10).
  - destruct ((48 <=? n + 48) && (n + 48 <=? 57))%N eqn:E; [f_equal|]; lia.
  - destruct ((48 <=? n - 10 + 97) && (n - 10 + 97 <=? 57))%N eqn:E; [lia|].
    destruct ((97 <=? n - 10 + 97) && (n - 10 + 97 <=? 102))%N eqn:E1; [f_equal|]; lia.
Qed.

Lemma hex_decode_encode l : hex_decode (hex_encode l) = Ok l.
Proof.
  induction l as [|b l IH]; [reflexivity|]. cbn [hex_encode hex_decode].
  pose proof (bN_lt b). rewrite !hex_val_char by lia. rewrite IH. cbn [bind].
  replace (bN b / 16 * 16 + bN b mod 16)%N with (bN b) by lia. rewrite Nb_bN. reflexivity.
Qed.

Lemma sm4_roundtrip k s :
  forallb scalar s = true ->
  exists c, sm4_encrypt P k s = Ok c /\ sm4_decrypt P k c = Ok s.
Proof.
  intros H. apply utf8_encode_ok in H. destruct H as [b Hb].
  unfold sm4_encrypt, sm4_decrypt, sm4_crypt_enc, sm4_crypt_dec. rewrite Hb. cbn [bind].
  destruct (ecb_ok (sm4_enc_block P (kdf P k)) (pkcs7_pad b)) as (c & Hc & _).
  - intros bl; apply (sm4_len P HP).
  - unfold pkcs7_pad. rewrite app_length, repeat_length. lia.
  - rewrite Hc. cbn [bind]. eexists; split; [reflexivity|].
    rewrite hex_decode_encode. cbn [bind].
    apply (ecb_inv _ (sm4_dec_block P (kdf P k))) in Hc;
      [|intros bl; apply (sm4_len P HP)|intros bl; apply (sm4_inv P HP)].
    rewrite Hc. cbn [bind]. unfold pkcs7_pad. rewrite bytes_unpad_pad by lia. cbn [bind].
    apply utf8_decode_encode, Hb.
Qed.

Lemma sm4_injective k s t c :
  sm4_encrypt P k s = Ok c -> sm4_encrypt P k t = Ok c -> s = t.
Proof.
  intros Hs Ht.
  assert (G : forall x, sm4_encrypt P k x = Ok c -> sm4_decrypt P k c = Ok x).
  { intros x Hx. assert (S0 : forallb scalar x = true).
    { apply utf8_encode_ok. unfold sm4_encrypt in Hx.
      destruct (utf8_encode x) as [b|]; [exists b; reflexivity | discriminate]. }
    destruct (sm4_roundtrip k x S0) as (c' & H1 & H2). rewrite Hx in H1. injection H1 as <-. exact H2. }
  pose proof (G s Hs). pose proof (G t Ht). congruence.
Qed.
End AES.

(** The instances used in examples satisfy the assumption. *)
Lemma prim_id_ok : prim_ok prim_id.
Proof. constructor; cbn; auto. Qed.

Lemma rotl_length n b : n <= 16 -> length b = 16 -> length (rotl n b) = 16.
Proof.
  intros Hn Hb. unfold rotl. rewrite app_length, skipn_length, firstn_length. lia.
Qed.

Lemma rotl_inv n b : n < 16 -> length b = 16 -> rotl (16 - n) (rotl n b) = b.
Proof.
  intros Hn Hb. unfold rotl.
  assert (L : length (skipn n b) = 16 - n) by (rewrite skipn_length; lia).
  rewrite skipn_app, firstn_app, L, Nat.sub_diag.
  rewrite (skipn_all2 (skipn n b)) by lia. rewrite (firstn_all2 (skipn n b)) by lia.
  cbn [skipn firstn app]. rewrite app_nil_r. apply firstn_skipn.
Qed.

Lemma prim_rot_ok : prim_ok prim_rot.
Proof.
  constructor; intros k b Hb; cbn.
  - apply rotl_length; [|exact Hb].
    pose proof (Nat.mod_upper_bound (N.to_nat (bN (hd x00 k))) 16). lia.
  - apply rotl_inv; [|exact Hb]. apply Nat.mod_upper_bound. lia.
  - apply rotl_length; [|exact Hb].
    pose proof (Nat.mod_upper_bound (N.to_nat (bN (hd x00 k))) 16). lia.
  - apply rotl_inv; [|exact Hb]. apply Nat.mod_upper_bound. lia.
Qed.
