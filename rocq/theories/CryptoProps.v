(** Properties C01-C05 and C17-C19: symmetric ciphertexts, column widths, LIKE.
    Statements use the code model (CryptoModel, WidthModel, FuzzyModel) and the
    vocabulary of CryptoSpec and LikeSpec. *)
From Coq Require Import String Ascii List NArith ZArith Bool Arith Lia.
From Coq Require Import Init.Byte.
From Verif Require Import Base BaseProof CryptoModel CryptoSpec CryptoProof WidthModel WidthProof
  FuzzyModel LikeSpec FuzzyProof LikeProof.
Import ListNotations.

(** ** C01 *)
Lemma c01_aux P (HP : prim_ok P) key s :
  forallb scalar s = true ->
  exists c r, aes_encrypt P key s = Ok c /\ aes_decrypt P key c = Ok r /\ without_trailing_nuls s r.
Proof.
  intros H. destruct (aes_encrypt_ok P HP key s H) as [c Hc].
  exists c, (rstrip 0 s). split; [exact Hc|]. split; [apply (aes_roundtrip P HP), Hc|].
  destruct (rstrip_decomp 0 s) as [n Hn]. exists n. split; [exact Hn|]. apply rstrip_end.
Qed.

(** Encryption succeeds on every text without lone surrogates, and decryption gives back the
    text without its trailing NULs. *)
Theorem C01_symmetric_roundtrip : forall P, prim_ok P -> forall key s,
  forallb scalar s = true ->
  exists c r, aes_encrypt P key s = Ok c /\ aes_decrypt P key c = Ok r /\ without_trailing_nuls s r.
Proof. exact c01_aux. Qed.
Print Assumptions C01_symmetric_roundtrip.

Lemma c01b_aux P (HP : prim_ok P) key s c :
  aes_encrypt P key s = Ok c -> (aes_decrypt P key c = Ok s <-> s = [] \/ last s 0%N <> 0%N).
Proof.
  intros Hc. rewrite (aes_roundtrip P HP key s c Hc). split.
  - intros [= E]. rewrite <- E. apply rstrip_end.
  - intros H. f_equal. apply rstrip_fix, H.
Qed.

(** The value comes back unchanged exactly when it does not end in NUL. *)
Theorem C01_symmetric_roundtrip_exact : forall P, prim_ok P -> forall key s c,
  aes_encrypt P key s = Ok c ->
  (aes_decrypt P key c = Ok s <-> s = [] \/ last s 0%N <> 0%N).
Proof. exact c01b_aux. Qed.
Print Assumptions C01_symmetric_roundtrip_exact.

Lemma c01c_aux P (HP : prim_ok P) key s : 
  (exists c, aes_encrypt P key s = Ok c) <-> forallb scalar s = true.
Proof.
  split.
  - intros [c Hc]. apply (aes_encrypt_scalar P key s c Hc).
  - apply (aes_encrypt_ok P HP).
Qed.

(** Encryption answers exactly on texts that UTF-8 can represent. *)
Theorem C01_symmetric_total : forall P, prim_ok P -> forall key s,
  (exists c, aes_encrypt P key s = Ok c) <-> forallb scalar s = true.
Proof. exact c01c_aux. Qed.
Print Assumptions C01_symmetric_total.

Example C01_example :
  let s := u "a longer value, 42" ++ [233; 20013; 128512]%N in
  exists c, aes_encrypt prim_rot (u "abcd") s = Ok c /\ aes_decrypt prim_rot (u "abcd") c = Ok s
            /\ length c = 44.
Proof. cbv zeta. eexists. split; [vm_compute; reflexivity|]. split; vm_compute; reflexivity. Qed.

(** ** C02 *)
Theorem C02_ciphertext_equality : forall P, prim_ok P -> forall key s t c d,
  aes_encrypt P key s = Ok c -> aes_encrypt P key t = Ok d ->
  (c = d <-> rstrip 0 s = rstrip 0 t /\ blocks (nbytes s) = blocks (nbytes t)).
Proof. exact aes_eq_iff. Qed.
Print Assumptions C02_ciphertext_equality.

Lemma c02_aux P (HP : prim_ok P) key s t c d :
  (s = [] \/ last s 0%N <> 0%N) -> (t = [] \/ last t 0%N <> 0%N) ->
  aes_encrypt P key s = Ok c -> aes_encrypt P key t = Ok d -> (c = d <-> s = t).
Proof.
  intros Hs Ht Hc Hd. rewrite (aes_eq_iff P HP key s t c d Hc Hd).
  rewrite (rstrip_fix 0 s Hs), (rstrip_fix 0 t Ht). split; [tauto | intros ->; auto].
Qed.

(** What WHERE col = v relies on. *)
Theorem C02_equality_is_value_equality : forall P, prim_ok P -> forall key s t c d,
  (s = [] \/ last s 0%N <> 0%N) -> (t = [] \/ last t 0%N <> 0%N) ->
  aes_encrypt P key s = Ok c -> aes_encrypt P key t = Ok d -> (c = d <-> s = t).
Proof. exact c02_aux. Qed.
Print Assumptions C02_equality_is_value_equality.

Lemma c02_refuted_aux P (HP : prim_ok P) key :
  exists s t c, s <> t /\ aes_encrypt P key s = Ok c /\ aes_encrypt P key t = Ok c.
Proof.
  destruct (aes_encrypt_ok P HP key (u "a") eq_refl) as [c Hc].
  destruct (aes_encrypt_ok P HP key (u "a" ++ [0%N]) eq_refl) as [d Hd].
  exists (u "a"), (u "a" ++ [0%N]), c. split; [discriminate|]. split; [exact Hc|].
  assert (c = d) as ->; [|exact Hd].
  apply (aes_eq_iff P HP key _ _ c d Hc Hd). split; reflexivity.
Qed.

(** Without the condition on NULs the claim is false: under every key "a" and "a\0" collide. *)
Theorem C02_nul_refuted : forall P, prim_ok P -> forall key,
  exists s t c, s <> t /\ aes_encrypt P key s = Ok c /\ aes_encrypt P key t = Ok c.
Proof. exact c02_refuted_aux. Qed.
Print Assumptions C02_nul_refuted.

Example C02_example :
  exists c d, aes_encrypt prim_rot (u "k") (u "alice") = Ok c /\
              aes_encrypt prim_rot (u "k") (u "alicf") = Ok d /\ seqb c d = false.
Proof. do 2 eexists. split; [vm_compute; reflexivity|]. split; vm_compute; reflexivity. Qed.

(** ** C03 *)
Theorem C03_ciphertext_shape : forall P, prim_ok P -> forall key s c,
  aes_encrypt P key s = Ok c ->
  (forall x, In x c -> b64_alphabet x) /\
  length c = 4 * ((16 * ((nbytes s + 15) / 16) + 2) / 3).
Proof. exact aes_shape. Qed.
Print Assumptions C03_ciphertext_shape.

Example C03_example :
  exists c, aes_encrypt prim_id (u "k") (u "it's 100% \ ok") = Ok c /\ length c = 24.
Proof. eexists. split; vm_compute; reflexivity. Qed.

(** ** C04 *)
Theorem C04_width_enough : forall P, prim_ok P -> forall K n key s c,
  K = u "char" \/ K = u "varchar" -> nbytes s <= n -> aes_encrypt P key s = Ok c ->
  length c <= snd (get_type_and_len K n).
Proof. exact width_enough. Qed.
Print Assumptions C04_width_enough.

(** The width is the exact ciphertext length of a full value unless n is a multiple of 16. *)
Theorem C04_width_tight : forall P, prim_ok P -> forall K n key s c,
  K = u "char" \/ K = u "varchar" -> nbytes s = n -> n mod 16 <> 0 -> aes_encrypt P key s = Ok c ->
  length c = snd (get_type_and_len K n).
Proof. exact width_tight. Qed.
Print Assumptions C04_width_tight.

(** Counted in characters the claim is false for every declared width from 6 up. *)
Theorem C04_width_characters_refuted : forall P, prim_ok P -> forall K n key,
  K = u "char" \/ K = u "varchar" -> 6 <= n ->
  exists s c, length s = n /\ aes_encrypt P key s = Ok c /\ snd (get_type_and_len K n) < length c.
Proof. exact width_characters_refuted. Qed.
Print Assumptions C04_width_characters_refuted.

(** A CHAR column stays within the CHAR limit of 255, otherwise it becomes VARCHAR. *)
Theorem C04_char_limit : forall K n,
  K = u "char" \/ K = u "varchar" ->
  fst (get_type_and_len K n) = u "varchar" \/
  (fst (get_type_and_len K n) = K /\ snd (get_type_and_len K n) <= 254).
Proof. exact width_char_type. Qed.
Print Assumptions C04_char_limit.

Example C04_example :
  get_type_and_len (u "varchar") 40 = (u "varchar", 64) /\
  get_type_and_len (u "char") 200 = (u "varchar", 280).
Proof. vm_compute. split; reflexivity. Qed.

(** ** C05 *)
Lemma c05_aux alnum P (HP : prim_ok P) key v :
  forallb scalar v = true ->
  fuzzy_type_fixed = varchar_decl 2000 /\
  exists c, fuzzy_encrypt alnum P key v = Ok c /\
            (length c <= 2000 <-> length v <= (if isalnum alnum v then 85 else 84)).
Proof. intros H. split; [reflexivity | apply (fuzzy_capacity alnum P HP), H]. Qed.

Theorem C05_fuzzy_capacity : forall alnum P, prim_ok P -> forall key v,
  forallb scalar v = true ->
  fuzzy_type_fixed = varchar_decl 2000 /\
  exists c, fuzzy_encrypt alnum P key v = Ok c /\
            (length c <= 2000 <-> length v <= (if isalnum alnum v then 85 else 84)).
Proof. exact c05_aux. Qed.
Print Assumptions C05_fuzzy_capacity.

Lemma c05n_aux P (HP : prim_ok P) key :
  (exists e, element_type (u "INT") = Some e /\ dget e (u "symmetric") = Some (Fixed (varchar_decl 300))) /\
  (forall K, K = u "FLOAT" \/ K = u "DOUBLE" ->
     exists e, element_type K = Some e /\ dget e (u "symmetric") = Some (Fixed (varchar_decl 1000))) /\
  (forall s c, aes_encrypt P key s = Ok c -> (length c <= 300 <-> nbytes s <= 224)) /\
  (forall s c, aes_encrypt P key s = Ok c -> (length c <= 1000 <-> nbytes s <= 736)) /\
  (forall z, (Z.abs z < 10 ^ 223)%Z -> exists c, aes_encrypt P key (str_int z) = Ok c /\ length c <= 300).
Proof.
  split; [eexists; split; reflexivity|]. split.
  { intros K [-> | ->]; eexists; split; reflexivity. }
  split; [apply (sym_fits_300 P HP)|]. split; [apply (sym_fits_1000 P HP)|].
  apply (int_digits_fit P HP).
Qed.

Theorem C05_numeric_capacity : forall P, prim_ok P -> forall key,
  (exists e, element_type (u "INT") = Some e /\ dget e (u "symmetric") = Some (Fixed (varchar_decl 300))) /\
  (forall K, K = u "FLOAT" \/ K = u "DOUBLE" ->
     exists e, element_type K = Some e /\ dget e (u "symmetric") = Some (Fixed (varchar_decl 1000))) /\
  (forall s c, aes_encrypt P key s = Ok c -> (length c <= 300 <-> nbytes s <= 224)) /\
  (forall s c, aes_encrypt P key s = Ok c -> (length c <= 1000 <-> nbytes s <= 736)) /\
  (forall z, (Z.abs z < 10 ^ 223)%Z -> exists c, aes_encrypt P key (str_int z) = Ok c /\ length c <= 300).
Proof. exact c05n_aux. Qed.
Print Assumptions C05_numeric_capacity.

Example C05_example :
  (exists c, fuzzy_encrypt ascii_alnum prim_id (u "k") (repeat 97%N 85) = Ok c /\ length c = 1992) /\
  (exists c, fuzzy_encrypt ascii_alnum prim_id (u "k") (repeat 97%N 86) = Ok c /\ length c = 2016) /\
  (exists c, fuzzy_encrypt ascii_alnum prim_id (u "k") (repeat 45%N 85) = Ok c /\ length c = 2016).
Proof. split; [|split]; (eexists; split; [vm_compute; reflexivity|]; vm_compute; reflexivity). Qed.

(** ** C17 *)
(** For a pattern s, s%, %s or %s% whose text s has at least three characters and is of the
    same character class as the value, MySQL's answer on ciphertexts is its answer on the
    plaintexts. *)
Theorem C17_like_exact : forall alnum P, prim_ok P -> forall key l r s v,
  forallb scalar v = true -> forallb textc s = true -> 3 <= length s ->
  forallb plainc s = true -> isalnum alnum s = isalnum alnum v ->
  exists pat c,
    fuzzy_pattern alnum P key (pct l ++ s ++ pct r) = Ok pat /\
    fuzzy_encrypt alnum P key v = Ok c /\
    like pat c = like (pct l ++ s ++ pct r) v.
Proof. exact like_exact. Qed.
Print Assumptions C17_like_exact.

Lemma c17_sub_aux alnum P (HP : prim_ok P) key s v :
  forallb scalar v = true -> forallb textc s = true -> 3 <= length s ->
  forallb plainc s = true -> isalnum alnum s = isalnum alnum v ->
  exists pat c,
    fuzzy_pattern alnum P key ([PCT] ++ s ++ [PCT]) = Ok pat /\
    fuzzy_encrypt alnum P key v = Ok c /\
    (like pat c = true <-> substring s v).
Proof.
  intros H1 H2 H3 H4 H5. destruct (like_exact alnum P HP key true true s v H1 H2 H3 H4 H5) as (pat & c & E1 & E2 & E3).
  exists pat, c. split; [exact E1|]. split; [exact E2|]. rewrite E3.
  cbn [pct]. change ([PCT] ++ s ++ [PCT]) with (join [PCT] [[]; s; []]).
  rewrite (like_parts [[]; s; []] v).
  - change [[]; s; []] with (map (fun x : list N => x) (one_part true true s)).
    rewrite (one_part_pmatch true true s (fun x => x)) by reflexivity.
    split; intros (a & b & E & _) || intros (a & b & E); exists a, b; auto.
    split; [exact E|]. split; discriminate.
  - discriminate.
  - intros p [<-|[<-|[<-|[]]]]; auto.
Qed.

(** LIKE '%s%' finds exactly the values that contain s. *)
Theorem C17_like_substring : forall alnum P, prim_ok P -> forall key s v,
  forallb scalar v = true -> forallb textc s = true -> 3 <= length s ->
  forallb plainc s = true -> isalnum alnum s = isalnum alnum v ->
  exists pat c,
    fuzzy_pattern alnum P key ([PCT] ++ s ++ [PCT]) = Ok pat /\
    fuzzy_encrypt alnum P key v = Ok c /\
    (like pat c = true <-> substring s v).
Proof. exact c17_sub_aux. Qed.
Print Assumptions C17_like_substring.

(** A search text of one or two characters raises instead of answering wrongly. *)
Theorem C17_short_rejected : forall alnum P key ps p,
  ps <> [] -> (forall q, In q ps -> has_char PCT q = false) ->
  In p ps -> 0 < length p < 3 ->
  exists e, fuzzy_pattern alnum P key (join [PCT] ps) = Err e.
Proof. exact fuzzy_short_rejected. Qed.
Print Assumptions C17_short_rejected.

Example C17_example :
  let test p v :=
    match fuzzy_pattern ascii_alnum prim_rot (u "k") p, fuzzy_encrypt ascii_alnum prim_rot (u "k") v with
    | Ok p', Ok c => Some (like p' c)
    | _, _ => None
    end in
  test (u "%alic%") (u "xxalice7") = Some true /\ test (u "%alic%") (u "xxalbice") = Some false /\
  test (u "%alice") (u "xxalice7") = Some false /\ test (u "alice") (u "alice") = Some true /\
  test (u "%a-b%") (u "xa-bx") = Some true /\ test (u "%ab%") (u "abc") = None.
Proof. vm_compute. repeat split. Qed.

(** ** C18 *)
(** No matching row is lost. *)
Theorem C18_like_complete : forall alnum P, prim_ok P -> forall key cls ps v,
  ps <> [] ->
  (forall p, In p ps -> p = [] \/ (3 <= length p /\ forallb textc p = true /\ isalnum alnum p = cls)) ->
  (forall p, In p ps -> forallb plainc p = true) ->
  forallb scalar v = true -> isalnum alnum v = cls ->
  like (join [PCT] ps) v = true ->
  exists pat c, fuzzy_pattern alnum P key (join [PCT] ps) = Ok pat /\
                fuzzy_encrypt alnum P key v = Ok c /\ like pat c = true.
Proof. exact like_complete. Qed.
Print Assumptions C18_like_complete.

(** What a returned row satisfies, exactly: the parts stand in the value in their order, the first and the last at its
    ends, and each starts at most two characters (one, if the texts are not alphanumeric) before the end of the part before
    it.  On the plaintexts none may start before that end. *)
Theorem C18_like_overlap : forall alnum P, prim_ok P -> forall key cls ps v,
  ps <> [] ->
  (forall p, In p ps -> p = [] \/ (3 <= length p /\ forallb textc p = true /\ isalnum alnum p = cls)) ->
  (forall p, In p ps -> forallb plainc p = true) ->
  forallb scalar v = true -> isalnum alnum v = cls ->
  (exists pat c, fuzzy_pattern alnum P key (join [PCT] ps) = Ok pat /\ fuzzy_encrypt alnum P key v = Ok c /\
     (like pat c = true <-> laid_out (if cls then 2 else 1) ps v)) /\
  (like (join [PCT] ps) v = true <-> laid_out 0 ps v).
Proof.
  intros alnum P HP key cls ps v Hn Hp Hc Hv Cv. split; [exact (like_overlap alnum P HP key cls ps v Hn Hp Hc Hv Cv)|].
  exact (like_laid ps v Hn Hc).
Qed.
Print Assumptions C18_like_overlap.

(** So the answer is exact if no part begins with the last two characters (the last character) of the part before it, or
    fewer of them. *)
Theorem C18_like_exact : forall alnum P, prim_ok P -> forall key cls ps v,
  ps <> [] ->
  (forall p, In p ps -> p = [] \/ (3 <= length p /\ forallb textc p = true /\ isalnum alnum p = cls)) ->
  (forall p, In p ps -> forallb plainc p = true) ->
  forallb scalar v = true -> isalnum alnum v = cls ->
  all_apart (if cls then 2 else 1) (filter nonempty ps) ->
  exists pat c, fuzzy_pattern alnum P key (join [PCT] ps) = Ok pat /\ fuzzy_encrypt alnum P key v = Ok c /\
    like pat c = like (join [PCT] ps) v.
Proof. exact like_apart. Qed.
Print Assumptions C18_like_exact.

Lemma c18_overlap_aux :
  exists key pat v pat' c,
    fuzzy_pattern ascii_alnum prim_id key pat = Ok pat' /\
    fuzzy_encrypt ascii_alnum prim_id key v = Ok c /\
    like pat' c = true /\ like pat v = false.
Proof.
  exists (u "k"), (u "%abc%bcd%"), (u "abcd"). do 2 eexists.
  split; [vm_compute; reflexivity|]. split; [vm_compute; reflexivity|]. split; vm_compute; reflexivity.
Qed.

(** Overlapping parts give false positives. *)
Theorem C18_overlap_refuted :
  exists key pat v pat' c,
    fuzzy_pattern ascii_alnum prim_id key pat = Ok pat' /\
    fuzzy_encrypt ascii_alnum prim_id key v = Ok c /\
    like pat' c = true /\ like pat v = false.
Proof. exact c18_overlap_aux. Qed.
Print Assumptions C18_overlap_refuted.

(** If every part contains a character that is no letter or digit, the answer is exact for every text. *)
Theorem C18_like_symbols : forall alnum P, prim_ok P -> forall key ps v,
  pattern_ok alnum false ps -> forallb scalar v = true ->
  exists pat c, fuzzy_pattern alnum P key (join [PCT] ps) = Ok pat /\ fuzzy_encrypt alnum P key v = Ok c /\
    like pat c = like (join [PCT] ps) v.
Proof. intros alnum P HP key ps v (Hn & Hp & Hc & AP) Hv. exact (like_symbols alnum P HP key ps v Hn Hp Hc Hv AP). Qed.
Print Assumptions C18_like_symbols.

(** If some part is of another character class than the value, the encrypted pattern never matches. *)
Theorem C18_other_class : forall alnum P, prim_ok P -> forall key ps v p,
  (forall q, In q ps -> q = [] \/ (3 <= length q /\ forallb textc q = true)) ->
  (forall q, In q ps -> forallb plainc q = true) ->
  forallb scalar v = true -> In p ps -> p <> [] -> isalnum alnum p <> isalnum alnum v ->
  exists pat c, fuzzy_pattern alnum P key (join [PCT] ps) = Ok pat /\ fuzzy_encrypt alnum P key v = Ok c /\ like pat c = false.
Proof. exact like_other_class. Qed.
Print Assumptions C18_other_class.

Lemma c18_class_aux :
  exists key pat v pat' c,
    fuzzy_pattern ascii_alnum prim_id key pat = Ok pat' /\
    fuzzy_encrypt ascii_alnum prim_id key v = Ok c /\
    like pat' c = false /\ like pat v = true.
Proof.
  exists (u "k"), (u "%hello%"), (u "hello world"). do 2 eexists.
  split; [vm_compute; reflexivity|]. split; [vm_compute; reflexivity|]. split; vm_compute; reflexivity.
Qed.

(** So rows are lost: 'hello world' is not found by '%hello%'. *)
Theorem C18_class_mismatch_refuted :
  exists key pat v pat' c,
    fuzzy_pattern ascii_alnum prim_id key pat = Ok pat' /\
    fuzzy_encrypt ascii_alnum prim_id key v = Ok c /\
    like pat' c = false /\ like pat v = true.
Proof. exact c18_class_aux. Qed.
Print Assumptions C18_class_mismatch_refuted.

Example C18_example :
  let ps := [u ""; u "abc"; u "xyz"; u "end"] in
  like (join [PCT] ps) (u "0abcd1xyz2the3end") = true /\
  exists p c, fuzzy_pattern ascii_alnum prim_rot (u "k") (join [PCT] ps) = Ok p /\
              fuzzy_encrypt ascii_alnum prim_rot (u "k") (u "0abcd1xyz2the3end") = Ok c /\
              like p c = true.
Proof.
  split; [vm_compute; reflexivity|]. do 2 eexists.
  split; [vm_compute; reflexivity|]. split; vm_compute; reflexivity.
Qed.
(** In 'abcd' the parts abc and bcd overlap by two characters, in 'abcbcd' they do not. *)
Example C18_overlap_example :
  (laid_out 2 [u ""; u "abc"; u "bcd"; u ""] (u "abcd")) /\ ~ laid_out 0 [u ""; u "abc"; u "bcd"; u ""] (u "abcd") /\
  laid_out 0 [u ""; u "abc"; u "bcd"; u ""] (u "abcbcd") /\ not (apart 2 (u "abc") (u "bcd")) /\ apart 2 (u "abc") (u "xyz").
Proof.
  split; [|split; [|split; [|split]]].
  - split; [now exists [], (u "abcd")|]. right. split; [discriminate|]. exists 0. split; [cbn; lia|]. split; [now exists [], (u "d")|].
    right. split; [discriminate|]. exists 1. split; [cbn; lia|]. split; [now exists (u "a"), []|]. left. split; [reflexivity|exact I].
  - rewrite <- (like_laid [u ""; u "abc"; u "bcd"; u ""]); [vm_compute; discriminate|discriminate|]. intros p [<-|[<-|[<-|[<-|[]]]]]; reflexivity.
  - rewrite <- (like_laid [u ""; u "abc"; u "bcd"; u ""]); [vm_compute; reflexivity|discriminate|]. intros p [<-|[<-|[<-|[<-|[]]]]]; reflexivity.
  - intros H. specialize (H (u "bc") (u "a") (u "d") eq_refl eq_refl (le_n 2)). discriminate.
  - intros x a b E1 E2 L. destruct x as [|x1 [|x2 [|x3 x]]]; [reflexivity| | |cbn in L; lia].
    + destruct a as [|a1 [|a2 [|a3 a]]]; try discriminate. injection E1 as _ _ <-. discriminate E2. 
      exfalso. injection E1 as _ _ _ E1. destruct a; discriminate.
    + injection E2 as <- _ _. destruct a as [|a1 [|a2 [|a3 a]]]; try discriminate. exfalso. injection E1 as _ _ _ E1. destruct a; discriminate.
Qed.

(** ** C19 *)
Theorem C19_bytes_roundtrip : forall P, prim_ok P -> forall key b,
  exists e, aesb_encrypt P key (RBytes b) = Ok e /\ aesb_decrypt P key e = Ok b.
Proof. exact aesb_roundtrip_bytes. Qed.
Print Assumptions C19_bytes_roundtrip.

(** A str argument is not encoded before encryption but decoded after decryption: an ASCII
    text comes back base64-decoded. *)
Theorem C19_bytes_str_argument : forall P, prim_ok P -> forall key s,
  (forall c, In c s -> c < 128)%N ->
  exists e, aesb_encrypt P key (RStr s) = Ok e /\ aesb_decrypt P key e = b64decode s.
Proof. exact aesb_str_decrypt. Qed.
Print Assumptions C19_bytes_str_argument.

Lemma c19_str_refuted P (HP : prim_ok P) key :
  exists e x, aesb_encrypt P key (RStr (u "hello")) = Ok e /\ aesb_decrypt P key e = Err x.
Proof.
  destruct (aesb_str_decrypt P HP key (u "hello")) as (e & H1 & H2).
  { intros c Hc. vm_compute in Hc. repeat (destruct Hc as [<-|Hc]; [lia|]). destruct Hc. }
  exists e. eexists. split; [exact H1|]. rewrite H2. reflexivity.
Qed.

Theorem C19_bytes_str_refuted : forall P, prim_ok P -> forall key,
  exists e x, aesb_encrypt P key (RStr (u "hello")) = Ok e /\ aesb_decrypt P key e = Err x.
Proof. exact c19_str_refuted. Qed.
Print Assumptions C19_bytes_str_refuted.

Theorem C19_sm4_roundtrip : forall P, prim_ok P -> forall key s,
  forallb scalar s = true ->
  exists c, sm4_encrypt P key s = Ok c /\ sm4_decrypt P key c = Ok s.
Proof. exact sm4_roundtrip. Qed.
Print Assumptions C19_sm4_roundtrip.

(** Unlike the AES column, SM4 separates all values, trailing NULs included. *)
Theorem C19_sm4_injective : forall P, prim_ok P -> forall key s t c,
  sm4_encrypt P key s = Ok c -> sm4_encrypt P key t = Ok c -> s = t.
Proof. exact sm4_injective. Qed.
Print Assumptions C19_sm4_injective.

Example C19_example :
  (exists c, sm4_encrypt prim_rot (u "k") (u "secret" ++ [0; 233]%N) = Ok c /\
             sm4_decrypt prim_rot (u "k") c = Ok (u "secret" ++ [0; 233]%N)) /\
  (exists e, aesb_encrypt prim_rot [x03] (RBytes [x00; xff; x00]) = Ok e /\
             aesb_decrypt prim_rot [x03] e = Ok [x00; xff; x00]) /\
  prim_ok prim_rot.
Proof.
  split; [eexists; split; vm_compute; reflexivity|].
  split; [eexists; split; vm_compute; reflexivity|]. exact prim_rot_ok.
Qed.
