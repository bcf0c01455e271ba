(** UPDATE and DELETE through the proxy. *)
From Coq Require Import String Ascii List NArith ZArith QArith Bool Lia ZifyBool ZifyNat ZifyN.
From Verif Require Import Base BaseProof CryptoModel CryptoSpec CryptoProof CryptoProps WidthProof FuzzyModel
  FuzzyProof OpeModel OpeProps PaillierModel JsonModel RewriteModel SqlSpec EncSpec JsonProof WhereProof
  StmtSpec SimProof StmtProof.
Import ListNotations.
Open Scope Z_scope.

(** ** WHERE *)
Lemma where_opt_sound kw E (M : dbmeta) t m w :
  prim_ok (e_P E) -> dget M t = Some m -> wf_table kw m -> where_ok kw (e_alnum E) m w ->
  exists w', optM (where_rw E M (JStr t) SYM []) w = Ok w' /\
    forall pr er, enc_row E m pr er -> selected kw w pr = selected kw w' er.
Proof.
  intros HP Hm W Hw. destruct w as [c|].
  - destruct (where_sound kw E M t m c HP Hm W Hw) as (c' & R & S). exists (Some c').
    cbn [optM]. rewrite R. split; [reflexivity|]. intros pr er H. cbn [selected]. rewrite (S pr er H). reflexivity.
  - exists None. split; reflexivity.
Qed.

(** ** DELETE *)
Lemma delete_sim kw E (M : dbmeta) t m w pt et :
  prim_ok (e_P E) -> wf_meta kw M -> dget M t = Some m -> where_ok kw (e_alnum E) m w -> tab_rel E m pt et ->
  exists w', rewrite_query E M (delete_stmt t w) = Ok (delete_stmt (t_anon m) w', JStr t, s_empty) /\
    res_rel (tab_rel E m) (exec_delete kw pt w) (exec_delete kw et w').
Proof.
  intros HP HM Hm Hw [T1 T2 T3].
  destruct (where_opt_sound kw E M t m w HP Hm (wm_table kw M HM t m Hm) Hw) as (w' & R & S).
  exists w'. split; [apply rewrite_delete; assumption|].
  unfold exec_delete. apply (res_rel_bind (Forall2 (enc_row E m))).
  - apply filterM_rel; [exact T3|]. intros a b H. rewrite (S a b H). reflexivity.
  - intros a b H. constructor; assumption.
Qed.

(** ** UPDATE: the new values *)
Lemma int64_length z : int64 z -> (length (str_int z) <= 20)%nat.
Proof.
  intros H. unfold int64 in H. apply (str_int_len z 19); [|lia].
  change (Z.of_nat 19) with 19. change (10 ^ 19) with 10000000000000000000.
  change (2 ^ 63) with 9223372036854775808 in H. lia.
Qed.

Lemma int_quoted kw P (HP : prim_ok P) key z t :
  int64 z -> aes_encrypt P key (str_int z) = Ok t -> is_column kw t = false.
Proof.
  intros Hz H. apply (aes_short_quoted kw P HP key (str_int z) t H).
  rewrite nbytes_ascii by apply str_int_ascii. pose proof (int64_length z Hz). pose proof (str_int_nonempty z).
  destruct (str_int z); [congruence|]. cbn [length] in *. lia.
Qed.

Lemma fuzzy_pattern_nopct al P key s :
  ~ In PCT s -> (3 <= length s)%nat -> fuzzy_pattern al P key s = fuzzy_encrypt al P key s.
Proof.
  intros H L. unfold fuzzy_pattern.
  rewrite split_nochar by (apply not_true_is_false; intros X; apply has_char_In in X; exact (H X)).
  cbn [mapM]. unfold fuzzy_part. destruct s as [|c s]; [cbn [length] in L; lia|].
  destruct (Nat.ltb_spec (length (c :: s)) 3); [lia|].
  destruct (fuzzy_encrypt al P key (c :: s)); reflexivity.
Qed.

Lemma aes_short_eq P (HP : prim_ok P) k s c :
  aes_encrypt P k s = Ok c -> (1 <= nbytes s <= 32)%nat -> In EQ c.
Proof.
  intros H L. apply aes_encrypt_inv in H. destruct H as (b & e & Hb & He & ->).
  apply b64_mod3_eq.
  destruct (ecb_ok (aes_enc_block P (kdf P k)) (aes_pad b)) as (e' & He' & Le).
  - intros bl. apply (aes_len P HP).
  - rewrite aes_pad_length. lia.
  - rewrite He in He'. injection He' as <-. rewrite Le, aes_pad_length.
    rewrite (utf8_encode_length _ _ Hb). unfold nblocks. lia.
Qed.

Lemma mapM_In {A B} (f : A -> res B) l l' y : mapM f l = Ok l' -> In y l' -> exists x, In x l /\ f x = Ok y.
Proof.
  revert l'; induction l as [|a l IH]; intros l' H Hy; cbn [mapM] in H.
  - injection H as <-. destruct Hy.
  - destruct (f a) as [b|] eqn:Ea; [|discriminate]. destruct (mapM f l) as [bs|] eqn:El; [|discriminate].
    cbn [bind] in H. injection H as <-. destruct Hy as [<-|Hy].
    + exists a. split; [left; reflexivity | exact Ea].
    + destruct (IH bs eq_refl Hy) as (x & Hx & Ex). exists x. split; [right; exact Hx | exact Ex].
Qed.

Lemma fuzzy_int_quoted kw al P (HP : prim_ok P) key z t :
  (3 <= length (str_int z))%nat -> fuzzy_encrypt al P key (str_int z) = Ok t -> is_column kw t = false.
Proof.
  intros L H.
  assert (G : forall k l, (2 <= k <= 3)%nat -> mapM (aes_encrypt P key) (windows k (str_int z)) = Ok l ->
    is_column kw (concat l) = false).
  { intros k l Hk Hl. apply eq_char_not_column.
    - destruct (str_int z) as [|x s] eqn:Ez; [cbn [length] in L; lia|].
      rewrite windows_cons in Hl by (cbn [length] in L; lia). cbn [mapM] in Hl.
      destruct (aes_encrypt P key (firstn k (x :: s))) as [c|] eqn:Ec; [|discriminate].
      destruct (mapM (aes_encrypt P key) (windows k s)) as [cs|]; [|discriminate]. cbn [bind] in Hl.
      injection Hl as <-. cbn [concat]. apply in_or_app. left. apply (aes_short_eq P HP key _ _ Ec).
      rewrite nbytes_ascii.
      + rewrite firstn_length. cbn [length] in *. lia.
      + intros y Hy. apply (str_int_ascii z). rewrite Ez. rewrite <- (firstn_skipn k (x :: s)). apply in_or_app. auto.
    - apply b64_alphabet_nodot. intros y Hy. apply in_concat in Hy as (c & Hc & Hy).
      destruct (mapM_In _ _ _ _ Hl Hc) as (w & _ & Ew).
      destruct (aes_shape P HP key w c Ew) as [A _]. apply A, Hy. }
  unfold fuzzy_encrypt in H. destruct (isalnum al (str_int z)).
  - destruct (Nat.ltb_spec (length (str_int z)) 3); [lia|].
    destruct (mapM (aes_encrypt P key) (windows 3 (str_int z))) as [l|] eqn:El; [|discriminate].
    injection H as <-. apply (G 3%nat l); [lia | exact El].
  - destruct (Nat.ltb_spec (length (str_int z)) 2); [lia|].
    destruct (mapM (aes_encrypt P key) (windows 2 (str_int z))) as [l|] eqn:El; [|discriminate].
    injection H as <-. apply (G 2%nat l); [lia | exact El].
Qed.

Lemma int_rw_fuz E M table z key :
  where_rw E M table FUZ key (JInt z) =
  do t <- fuzzy_pattern (e_alnum E) (e_P E) key (str_int z); Ok (JStr t).
Proof. reflexivity. Qed.
Lemma lit_rw_fuz E M table s key :
  where_rw E M table FUZ key (lit s) = do t <- fuzzy_pattern (e_alnum E) (e_P E) key s; Ok (lit t).
Proof. unfold lit. cbn. destruct (fuzzy_pattern (e_alnum E) (e_P E) key s); reflexivity. Qed.

Lemma set_value_ok kw E M T k c v ci :
  prim_ok (e_P E) -> supported c -> c_plain c = false -> update_ok E k c v -> In ci (dkeys (c_enc c)) ->
  exists j w, where_rw E M T ci (c_key c) v = Ok j /\ (forall r, operand kw r j = Ok w) /\
              enc_cell E c ci (const_sql v) w.
Proof.
  intros HP S Hp [Hc Hu] Hi. specialize (Hu Hp). destruct Hu as [Hna Hf].
  unfold const_ok in Hc. rewrite Hp in Hc. destruct S as [S|[S _]]; [congruence|].
  destruct Hc as [(Ty & z & -> & Hz & _)|(Ty & s & -> & Hs)].
  - assert (Hk : In ci [SYM; OPEC; FUZ; ARI]).
    { destruct S as [[_ S]|[T' _]]; [apply S, Hi|].
      unfold is_text_type in T'. rewrite Ty in T'. discriminate T'. }
    destruct Hk as [<-|[<-|[<-|[<-|[]]]]].
    + destruct (aes_encrypt_ok (e_P E) HP (c_key c) (str_int z) (proj1 (str_int_text_ok z))) as [t Ht].
      rewrite int_rw_sym, Ht. eexists _, (VStr t). split; [reflexivity|]. split.
      * intros r. apply operand_quoted, (int_quoted kw (e_P E) HP (c_key c) z t Hz Ht).
      * left. eauto.
    + destruct (env_ope_total E (c_key c) z Hz) as [e He]. rewrite int_rw_ope, He.
      eexists _, (VInt e). split; [reflexivity|]. split; [reflexivity|]. right. left. eauto.
    + destruct (Hf Hi) as [L Np]. cbn [const_text] in L, Np.
      destruct (fuzzy_encrypt_ok (e_alnum E) (e_P E) HP (c_key c) (str_int z) (proj1 (str_int_text_ok z))) as [t Ht].
      rewrite int_rw_fuz, fuzzy_pattern_nopct, Ht by assumption. eexists _, (VStr t). split; [reflexivity|]. split.
      * intros r. apply operand_quoted, (fuzzy_int_quoted kw (e_alnum E) (e_P E) HP (c_key c) z t L Ht).
      * right. right. left. eauto.
    + contradiction.
  - assert (Hk : In ci [SYM; FUZ]).
    { destruct S as [[T' _]|[_ S]]; [|apply S, Hi].
      unfold is_text_type in Ty. rewrite T' in Ty. discriminate Ty. }
    destruct Hk as [<-|[<-|[]]].
    + destruct (aes_encrypt_ok (e_P E) HP (c_key c) s (proj1 Hs)) as [t Ht].
      rewrite lit_rw, Ht. eexists _, (VStr t). split; [reflexivity|]. split; [reflexivity|]. left. eauto.
    + destruct (Hf Hi) as [L Np]. change (const_text (lit s)) with s in L, Np.
      destruct (fuzzy_encrypt_ok (e_alnum E) (e_P E) HP (c_key c) s (proj1 Hs)) as [t Ht].
      rewrite lit_rw_fuz, fuzzy_pattern_nopct, Ht by assumption.
      eexists _, (VStr t). split; [reflexivity|]. split; [reflexivity|]. right. eauto.
Qed.

(** [a]: the assignments, [b]: the values they give in every row. *)
Definition gives (kw : pystr -> bool) (a : pystr * json) (b : pystr * sqlv) : Prop :=
  fst a = fst b /\ forall r, operand kw r (snd a) = Ok (snd b).

Lemma gives_keys kw a b : Forall2 (gives kw) a b -> dkeys a = dkeys b.
Proof. induction 1 as [|x y a b [H _] F IH]; [reflexivity|]. cbn [dkeys map]. f_equal; assumption. Qed.

Lemma set_enc_ok kw E M T k c v d acc :
  prim_ok (e_P E) -> supported c -> c_plain c = false -> update_ok E k c v ->
  (forall ci, In ci (dkeys d) -> In ci (dkeys (c_enc c))) ->
  NoDup (dkeys acc ++ dvals d) ->
  exists jch wch, set_enc E M T v (c_key c) d acc = Ok (acc ++ jch) /\ Forall2 (gives kw) jch wch /\
    dkeys wch = dvals d /\
    forall ci n, In (ci, n) d -> exists w, In (n, w) wch /\ enc_cell E c ci (const_sql v) w.
Proof.
  intros HP S Hp Hu. revert acc. induction d as [|[ci n] d IH]; intros acc Hd ND.
  - exists [], []. cbn [set_enc]. rewrite app_nil_r. split; [reflexivity|]. split; [constructor|].
    split; [reflexivity|]. intros ci n [].
  - destruct (set_value_ok kw E M T k c v ci HP S Hp Hu) as (j & w & J1 & J2 & J3).
    { apply Hd. left. reflexivity. }
    cbn [set_enc]. rewrite J1. cbn [bind]. cbn [dvals map snd] in ND. change (map snd d) with (dvals d) in ND.
    rewrite dset_fresh.
    2:{ intros X. apply NoDup_app_inv in ND as (_ & _ & D). apply (D n X). left. reflexivity. }
    destruct (IH (acc ++ [(n, j)])) as (jch & wch & H1 & H2 & H3 & H4).
    { intros x Hx. apply Hd. right. exact Hx. }
    { rewrite dkeys_app. cbn [dkeys map fst]. rewrite <- app_assoc. exact ND. }
    rewrite H1. exists ((n, j) :: jch), ((n, w) :: wch). rewrite <- app_assoc. split; [reflexivity|].
    split; [constructor; [split; [reflexivity | exact J2] | exact H2]|].
    split; [cbn [dkeys map fst dvals snd]; f_equal; exact H3|].
    intros ci' n' [[= <- <-]|X].
    + exists w. split; [left; reflexivity | exact J3].
    + destruct (H4 _ _ X) as (w' & W1 & W2). exists w'. split; [right; exact W1 | exact W2].
Qed.

Lemma set_loop_ok kw E (M : dbmeta) T m sets acc :
  prim_ok (e_P E) -> wf_table kw m -> (forall k c, dget (t_cols m) k = Some c -> supported c) ->
  (forall k v, In (k, v) sets -> exists c, dget (t_cols m) k = Some c /\ update_ok E k c v) ->
  (forall l, incl l (t_cols m) -> map fst l = dkeys sets -> NoDup (dkeys acc ++ concat (map phys_kc l))) ->
  exists jchs wchs,
    set_loop E M T m sets acc = Ok (acc ++ concat jchs) /\
    Forall2 (gives kw) (concat jchs) (concat wchs) /\
    Forall2 (fun kv ch => exists c, dget (t_cols m) (fst kv) = Some c /\ const_ok E (fst kv) c (snd kv) /\
                                    chunk_ok E (fst kv) c (const_sql (snd kv)) ch) sets wchs.
Proof.
  intros HP W S. revert acc. induction sets as [|[k v] sets IH]; intros acc H ND.
  - exists [], []. cbn [set_loop concat]. rewrite app_nil_r. split; [reflexivity|]. split; constructor.
  - destruct (H k v (or_introl eq_refl)) as (c & Hc & Hu).
    assert (exists l0, incl l0 (t_cols m) /\ map fst l0 = dkeys sets) as (l0 & I0 & K0).
    { assert (H' : forall k v, In (k, v) sets -> exists c, dget (t_cols m) k = Some c /\ update_ok E k c v)
        by (intros k' v' X; apply H; right; exact X).
      clear -H'. induction sets as [|[k v] sets IH]; [exists []; split; [intros x [] | reflexivity]|].
      destruct IH as (l & I & K); [intros k' v' X; apply (H' k' v'); right; exact X|].
      destruct (H' k v (or_introl eq_refl)) as (c & Hc & _). exists ((k, c) :: l). split.
      - intros x [<-|X]; [apply dget_In, Hc | apply I, X].
      - cbn [map fst dkeys]. f_equal. exact K. }
    assert (ND0 : NoDup (dkeys acc ++ phys_of k c ++ concat (map phys_kc l0))).
    { apply (ND ((k, c) :: l0)); [|cbn [map fst dkeys]; f_equal; exact K0].
      intros x [<-|X]; [apply dget_In, Hc | apply I0, X]. }
    assert (exists jch wch,
      (if c_plain c then Ok (dset acc k v) else set_enc E M T v (c_key c) (c_enc c) acc) = Ok (acc ++ jch) /\
      Forall2 (gives kw) jch wch /\ chunk_ok E k c (const_sql v) wch) as (jch & wch & J1 & J2 & J3).
    { rewrite app_assoc in ND0. apply NoDup_app_inv in ND0 as (ND0 & _ & _).
      unfold chunk_ok, phys_of in *. destruct (c_plain c) eqn:Hp.
      - exists [(k, v)], [(k, const_sql v)]. rewrite dset_fresh.
        2:{ intros X. apply NoDup_app_inv in ND0 as (_ & _ & D). apply (D k X). left. reflexivity. }
        split; [reflexivity|]. split.
        + constructor; [|constructor]. split; [reflexivity|]. intros r. cbn [snd].
          apply operand_const, const_ok_constant with E k c, (proj1 Hu).
        + split; [reflexivity|]. split; [reflexivity | discriminate].
      - destruct (set_enc_ok kw E M T k c v (c_enc c) acc HP (S k c Hc) Hp Hu) as (jch & wch & H1 & H2 & H3 & H4);
          [auto | exact ND0 |].
        exists jch, wch. split; [exact H1|]. split; [exact H2|]. split; [exact H3|]. split; [discriminate | auto]. }
    cbn [set_loop]. unfold dgetE. rewrite Hc. cbn [bind]. rewrite J1. cbn [bind].
    destruct (IH (acc ++ jch)) as (jchs & wchs & H1 & H2 & H3).
    { intros k' v' X. apply H. right. exact X. }
    { intros l I K. rewrite dkeys_app, (gives_keys kw jch wch J2), (proj1 J3), <- app_assoc.
      apply (ND ((k, c) :: l)); [|cbn [map fst dkeys]; f_equal; exact K].
      intros x [<-|X]; [apply dget_In, Hc | apply I, X]. }
    exists (jch :: jchs), (wch :: wchs). cbn [concat]. rewrite H1, <- app_assoc. split; [reflexivity|].
    split; [apply Forall2_app; assumption|]. constructor; [|exact H3].
    exists c. cbn [fst snd]. split; [exact Hc|]. split; [exact (proj1 Hu) | exact J3].
Qed.

(** ** UPDATE: one row *)
Lemma assign_ok kw old a b r : Forall2 (gives kw) a b -> NoDup (dkeys a) ->
  (forall c, In c (dkeys a) -> is_column kw c = true /\ dmem old c = true) ->
  exists r', assign kw old a r = Ok r' /\
    forall x, dget r' x = match dget b x with Some v => Some v | None => dget r x end.
Proof.
  intros F. revert r. induction F as [|[c j] [c' v] a b [G1 G2] F IH]; intros r ND H.
  - exists r. split; [reflexivity|]. intros x. reflexivity.
  - cbn [fst snd] in G1, G2. subst c'. cbn [assign]. rewrite G2. cbn [bind].
    destruct (H c (or_introl eq_refl)) as [-> ->]. cbn [andb].
    cbn [dkeys map fst] in ND. inversion ND as [|? ? N1 N2]; subst.
    destruct (IH (dset r c v) N2) as (r' & R1 & R2).
    { intros x X. apply H. right. exact X. }
    exists r'. split; [exact R1|]. intros x. rewrite R2. cbn [dget].
    destruct (seqb_spec x c) as [->|Hx].
    + rewrite dget_dset_same.
      assert (dget b c = None) as ->; [|reflexivity].
      apply dget_None. change (map fst a) with (dkeys a) in N1. rewrite (gives_keys kw a b F) in N1. exact N1.
    + rewrite dget_dset_other by congruence. reflexivity.
Qed.

Lemma dget_in_keys {V} (d : dict V) k : In k (dkeys d) -> exists v, dget d k = Some v.
Proof.
  intros H. destruct (dget d k) as [v|] eqn:X; [eauto|]. apply dget_None in X. contradiction.
Qed.

Lemma update_row kw E m sets wchs pr er pr' er' : wf_table kw m -> NoDup (dkeys sets) ->
  Forall2 (fun kv ch => exists c, dget (t_cols m) (fst kv) = Some c /\ const_ok E (fst kv) c (snd kv) /\
                                  chunk_ok E (fst kv) c (const_sql (snd kv)) ch) sets wchs ->
  enc_row E m pr er ->
  (forall x, dget pr' x = match dget (map (fun kv => (fst kv, const_sql (snd kv))) sets) x with
                          | Some v => Some v | None => dget pr x end) ->
  (forall x, dget er' x = match dget (concat wchs) x with Some v => Some v | None => dget er x end) ->
  enc_row E m pr' er'.
Proof.
  intros W ND F R Hp He k c Hc.
  set (pg := map (fun kv => (fst kv, const_sql (snd kv))) sets) in *.
  assert (Kpg : dkeys pg = dkeys sets) by (unfold pg, dkeys; rewrite map_map; reflexivity).
  pose proof (chunks_NoDup kw E m sets wchs W ND F) as NDc.
  destruct (R k c Hc) as (v0 & Hv0 & R0).
  destruct (in_dec pystr_eq_dec k (dkeys sets)) as [I|I].
  - apply in_map_iff in I as ((k0 & v) & E0 & I). cbn [fst] in E0. subst k0.
    assert (Hpg : dget pg k = Some (const_sql v)).
    { apply dget_NoDup; [rewrite Kpg; exact ND|]. unfold pg. apply in_map_iff. exists (k, v). auto. }
    exists (const_sql v). rewrite Hp, Hpg. split; [reflexivity|].
    destruct (Forall2_In_l _ _ _ _ F I) as (ch & Hch & c0 & Hc0 & Cok & K1 & K2 & K3).
    cbn [fst snd] in *. rewrite Hc in Hc0. injection Hc0 as <-.
    destruct (c_plain c) eqn:Hpl.
    + rewrite He.
      assert (dget (concat wchs) k = Some (const_sql v)) as ->; [|reflexivity].
      apply dget_NoDup; [exact NDc|]. apply in_concat. exists ch. split; [exact Hch|].
      rewrite (K2 eq_refl). left. reflexivity.
    + split; [apply const_ok_typed with E k; assumption|]. intros ci n Hn.
      destruct (K3 eq_refl ci n (dget_In _ _ _ Hn)) as (w & Hw & Ew).
      exists w. split; [|exact Ew]. rewrite He.
      assert (dget (concat wchs) n = Some w) as ->; [|reflexivity].
      apply dget_NoDup; [exact NDc|]. apply in_concat. exists ch. auto.
  - exists v0. rewrite Hp.
    assert (dget pg k = None) as -> by (apply dget_None; rewrite Kpg; exact I). split; [exact Hv0|].
    assert (A : forall n, In n (phys_of k c) -> dget er' n = dget er n).
    { intros n Hn. rewrite He. assert (dget (concat wchs) n = None) as ->; [|reflexivity].
      apply dget_None. rewrite dkeys_concat. intros X.
      apply in_concat in X as (l & Hl & Xn). apply in_map_iff in Hl as (ch & <- & Hch).
      destruct (Forall2_In_r _ _ _ _ F Hch) as (kv & Hkv & c' & Hc' & _ & K1 & _).
      rewrite K1 in Xn. destruct (phys_disjoint kw m k c (fst kv) c' n W Hc Hc' Hn Xn) as [-> _].
      apply I. unfold dkeys. apply in_map, Hkv. }
    unfold phys_of in A. destruct (c_plain c) eqn:Hpl.
    + rewrite A by (left; reflexivity). exact R0.
    + destruct R0 as [R1 R2]. split; [exact R1|]. intros ci n Hn.
      rewrite A by (apply dget_dvals with ci, Hn). apply R2, Hn.
Qed.

Lemma update_sim kw E (M : dbmeta) t m sets w pt et :
  prim_ok (e_P E) -> wf_meta kw M -> dget M t = Some m -> NoDup (dkeys sets) ->
  (forall k v, In (k, v) sets -> exists c, dget (t_cols m) k = Some c /\ update_ok E k c v) ->
  where_ok kw (e_alnum E) m w -> tab_rel E m pt et ->
  exists sets' w', rewrite_query E M (update_stmt t sets w) = Ok (update_stmt (t_anon m) sets' w', JStr t, s_empty) /\
    res_rel (tab_rel E m) (exec_update kw pt sets w) (exec_update kw et sets' w').
Proof.
  intros HP HM Hm ND Hs Hw [T1 T2 T3]. pose proof (wm_table kw M HM t m Hm) as W.
  destruct (where_opt_sound kw E M t m w HP Hm W Hw) as (w' & R & S).
  destruct (set_loop_ok kw E M (JStr t) m sets [] HP W (fun k c => wm_supp kw M HM t m k c Hm) Hs)
    as (jchs & wchs & H1 & H2 & H3).
  { intros l I K. cbn [dkeys map app]. apply (concat_map_sub phys_kc (t_cols m)).
    - apply NoDup_map_inv' with (f := fst), (wf_log kw m W).
    - apply (wf_phys kw m W).
    - apply NoDup_map_inv' with (f := fst). rewrite K. exact ND.
    - exact I. }
  exists (concat jchs), w'. split.
  { apply rewrite_update; [exact Hm| |exact R]. unfold set_rw. rewrite (lookup_table _ _ _ Hm). cbn [bind].
    rewrite H1. reflexivity. }
  pose proof (chunks_NoDup kw E m sets wchs W ND H3) as NDc.
  unfold exec_update. apply (res_rel_bind (Forall2 (enc_row E m))).
  2:{ intros a b H. constructor; assumption. }
  apply (mapM_rel (enc_row E m)); [exact T3|]. intros pr er HR. rewrite (S pr er HR).
  destruct (selected kw w' er) as [[|]|e]; cbn [bind]; [|exact HR|reflexivity].
  destruct (assign_ok kw pr sets (map (fun kv => (fst kv, const_sql (snd kv))) sets) pr) as (pr' & P1 & P2).
  { assert (G : forall kv, In kv sets -> constant (snd kv)).
    { intros [k v] X. destruct (Hs k v X) as (c & _ & U). apply const_ok_constant with E k c, (proj1 U). }
    clear -G. induction sets as [|kv sets IH]; [constructor|]. cbn [map]. constructor.
    - split; [reflexivity|]. intros r. cbn [snd]. apply operand_const, G. left. reflexivity.
    - apply IH. intros x X. apply G. right. exact X. }
  { exact ND. }
  { intros k Hk. apply in_map_iff in Hk as ((k0 & v) & E0 & Hk). cbn [fst] in E0. subst k0.
    destruct (Hs k v Hk) as (c & Hc & _). split.
    - apply colname_column, (wf_names kw m W), (dget_Some_key _ _ _ Hc).
    - destruct (HR k c Hc) as (v0 & Hv0 & _). unfold dmem. rewrite Hv0. reflexivity. }
  destruct (assign_ok kw er (concat jchs) (concat wchs) er) as (er' & P3 & P4).
  { exact H2. }
  { rewrite (gives_keys kw _ _ H2). exact NDc. }
  { intros n Hn. rewrite (gives_keys kw _ _ H2), dkeys_concat in Hn.
    apply in_concat in Hn as (l & Hl & Xn). apply in_map_iff in Hl as (ch & <- & Hch).
    destruct (Forall2_In_r _ _ _ _ H3 Hch) as (kv & Hkv & c & Hc & _ & K1 & _). rewrite K1 in Xn.
    split.
    - apply colname_column, (wf_pnames kw m W). unfold phys. apply in_concat. exists (phys_of (fst kv) c).
      split; [|exact Xn]. apply in_map_iff. exists (fst kv, c). split; [reflexivity|]. apply dget_In, Hc.
    - destruct (HR (fst kv) c Hc) as (v0 & _ & R0). unfold phys_of in Xn. unfold dmem.
      destruct (c_plain c) eqn:Hp.
      + destruct Xn as [<-|[]]. rewrite R0. reflexivity.
      + apply in_map_iff in Xn as ((ci & n0) & E0 & Xn). cbn [snd] in E0. subst n0.
        destruct (proj2 R0 ci n) as (w0 & Hw0 & _).
        * apply dget_NoDup; [apply (wf_enc kw m W (fst kv) c Hc) | exact Xn].
        * rewrite Hw0. reflexivity. }
  rewrite P1, P3. cbn [res_rel]. apply update_row with kw sets wchs pr er; assumption.
Qed.
