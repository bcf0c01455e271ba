(** The declarations of CREATE TABLE, word for word (C31). *)
From Coq Require Import String Ascii List NArith ZArith QArith Bool Lia.
From Verif Require Import Base BaseProof CryptoModel PaillierModel JsonModel RewriteModel WidthModel SqlSpec EncSpec StmtSpec
  CreateModel CreateSpec CreateProof.
Import ListNotations.
Open Scope Z_scope.

Lemma no_default_text col f : no_default col -> default_text col f = Ok [].
Proof. destruct col; cbn; try tauto. intro H. unfold default_text, get. rewrite H. reflexivity. Qed.

Lemma enc_parts_text E fresh col key nul pk ty arg : no_default col -> forall parts i ds enc j,
  enc_parts E fresh col key nul pk parts [(ty, arg)] i = Ok (ds, enc, j) ->
  Forall2 (fun kv (d : decl) => exists t, enc_type_text ty arg (snd kv) = Ok t /\ snd d = t ++ nul ++ (if seqb (fst kv) SYM then pk else [])) parts ds.
Proof.
  intro ND. induction parts as [|[k v] r IH]; intros i ds enc j H; cbn [enc_parts] in H.
  - injection H as <- <- <-. constructor.
  - inv H. invp H as [[ds' enc'] j'] by B0. injection H as <- <- <-.
    cbn [enc_types] in B. rewrite (no_default_text _ _ ND) in B. cbn [bind] in B. invp B as tx by B1. injection B as <-.
    cbn [app]. constructor; [|exact (IH _ _ _ _ B0)].
    exists tx. cbn [fst snd]. split; [exact B1|]. rewrite app_nil_r. reflexivity.
Qed.

Lemma option_part_text on fresh ci ty nul i ds enc j :
  option_part on fresh ci ty nul (Ok []) i = Ok (ds, enc, j) ->
  ds = map (fun cn => (snd cn, ty ++ nul)) enc /\ (forall cn, In cn enc -> fst cn = ci).
Proof.
  unfold option_part. destruct on; cbn [bind]; intros [= <- <- <-]; cbn [map snd].
  - rewrite app_nil_r. split; [reflexivity|]. intros cn [<-|[]]. reflexivity.
  - split; [reflexivity|]. intros cn [].
Qed.

Lemma nullable_text_eq d s : nullable_text (JDict d) = Ok s -> s = nullable_of (JDict d).
Proof.
  unfold nullable_text, nullable_of. cbn [contains bind]. unfold dmem, flag, get. cbn [bind].
  destruct (dget d (u "nullable")) as [x|]; cbn [bind]; [|congruence]. destruct (truthy x); congruence.
Qed.

Lemma part_decls {T} (P : pystr -> pystr) nul pk (parts : list (pystr * T)) : forall (ds : list decl) (names : list pystr),
  Forall2 (fun kv (d : decl) => snd d = P (fst kv) ++ nul ++ (if seqb (fst kv) SYM then pk else [])) parts ds ->
  map fst ds = names ->
  ds = map (fun cn => (snd cn, P (fst cn) ++ nul ++ (if seqb (fst cn) SYM then pk else []))) (combine (map fst parts) names).
Proof.
  intros ds names F. revert names. induction F as [|kv [n x] r r' H F IH]; intros names <-; [reflexivity|].
  cbn [map combine fst snd] in *. rewrite <- (IH _ eq_refl). rewrite H. reflexivity.
Qed.

Lemma map_option ci ty nul pk (e : list (pystr * pystr)) t arg : seqb ci SYM = false -> phys_type ci t arg = ty -> (forall cn, In cn e -> fst cn = ci) ->
  map (fun cn => (snd cn, ty ++ nul)) e =
  map (fun cn => (snd cn, phys_type (fst cn) t arg ++ nul ++ (if seqb (fst cn) SYM then pk else []))) e.
Proof.
  intros S T H. apply map_ext_in. intros cn I. rewrite (H cn I), S, T, app_nil_r. reflexivity.
Qed.

Lemma create_column_text E fresh enc col i k ty arg ds n c j : col_def col k ty arg -> no_default col ->
  (dget enc k <> None -> In ty [u "int"; u "varchar"; u "char"; u "float"; u "double"]) ->
  create_column E fresh enc col i = Ok (ds, n, c, j) -> ds = decl_of E col k ty arg c.
Proof.
  intros (d & -> & Dn & Dt) ND HT H. unfold create_column in H.
  invp H as ai by A1. invp H as p by A2. invp H as name by A3. invp A3 as nm by A4.
  apply getitem_eq in A4 as (d' & [= <-] & X). rewrite Dn in X. injection X as <-. injection A3 as <-.
  invp H as ty' by A5. apply getitem_eq in A5 as (d' & [= <-] & X). rewrite Dt in X. injection X as <-.
  invp H as nul by A6. invp H as com by A7. invp H as comment by A8.
  apply nullable_text_eq in A6. apply flag_asked in A1, A2.
  set (pk := if p then u " primary key" ++ (if ai then u " auto_increment " else []) else []) in H.
  assert (PK : pk = key_text (JDict d)) by (unfold pk, key_text; rewrite A1, A2; reflexivity).
  assert (forall x, (do tys <- items (JDict [(ty, arg)]); x tys) = (x [(ty, arg)] : res (list decl * pystr * colmeta * nat))) as IT by reflexivity.
  destruct (dget enc k) as [o|] eqn:Ho; rewrite IT in H; clear IT.
  - destruct (element_type (upper ty)) as [parts|] eqn:HP; [|discriminate]. specialize (HT ltac:(discriminate)).
    invp H as key by C1.
    invp H as [[ds1 e1] i1] by B4.
    invp H as fz by C3.
    invp H as sk by C5. invp H as [[ds2 e2] i2] by B7.
    invp H as ar by B8. invp H as hk by C6. invp H as [[ds3 e3] i3] by B10. invp H as homo by C7.
    invp H as s4 by B12. invp H as s4k by C8. invp H as [[ds4 e4] i4] by B14. invp H as sm by C9.
    injection H as <- <- <- <-.
    rewrite (no_default_text _ _ ND) in B7. rewrite (no_default_text _ _ ND) in B10. rewrite (no_default_text _ _ ND) in B14.
    pose proof (enc_parts_text _ _ _ _ _ _ _ _ ND _ _ _ _ _ B4) as F1.
    destruct (enc_parts_one _ _ _ _ _ _ _ _ _ _ _ _ _ B4) as (_ & -> & M1 & _).
    destruct (option_part_text _ _ _ _ _ _ _ _ _ B7) as (-> & G2).
    destruct (option_part_text _ _ _ _ _ _ _ _ _ B10) as (-> & G3).
    destruct (option_part_text _ _ _ _ _ _ _ _ _ B14) as (-> & G4).
    unfold decl_of. cbn [c_plain c_enc]. rewrite !map_app, <- A6, <- PK.
    f_equal; [|f_equal; [|f_equal]].
    + apply (part_decls (fun ci => phys_type ci ty arg)); [|exact M1].
      assert (A : forall kv, In kv parts -> forall t, enc_type_text ty arg (snd kv) = Ok t -> t = phys_type (fst kv) ty arg)
        by (intros kv Hk t; apply (parts_text ty arg parts HP HT kv t Hk)).
      clear -F1 A. induction F1 as [|kv d r r' (t & T & R) F IH]; constructor.
      * rewrite R. f_equal. apply A; [left; reflexivity|exact T].
      * apply IH. intros kv' Hk. apply A. right. exact Hk.
    + apply (map_option FUZ); [reflexivity|reflexivity|exact G2].
    + apply (map_option ARI); [reflexivity|reflexivity|exact G3].
    + apply (map_option SM4C); [reflexivity|reflexivity|exact G4].
  - cbn [plain_types] in H. rewrite (no_default_text _ _ ND) in H. cbn [bind] in H. injection H as <- <- <- <-.
    unfold decl_of, typed_text. cbn [c_plain]. rewrite <- A6, <- PK. rewrite app_nil_r. destruct (truthy arg).
    + rewrite <- !app_assoc. reflexivity.
    + reflexivity.
Qed.

Lemma create_columns_text E fresh enc : forall cols defs kv i ds kv' j,
  Forall2 (fun col d => col_def col (d_name d) (snd (fst d)) (snd d)) cols defs ->
  Forall no_default cols ->
  (forall d, In d defs -> dget enc (d_name d) <> None -> In (snd (fst d)) [u "int"; u "varchar"; u "char"; u "float"; u "double"]) ->
  NoDup (dkeys kv ++ map d_name defs) ->
  create_columns E fresh enc cols kv i = Ok (ds, kv', j) ->
  exists new, kv' = kv ++ new /\ dkeys new = map d_name defs /\
    ds = concat (map (fun x => decl_of E (fst (fst x)) (d_name (snd (fst x))) (snd (fst (snd (fst x)))) (snd (snd (fst x))) (snd (snd x)))
                     (combine (combine cols defs) new)).
Proof.
  induction cols as [|col r IH]; intros defs kv i ds kv' j F ND HT N H; inversion F; subst; cbn [create_columns] in H.
  - injection H as <- <- <-. exists []. cbn. rewrite app_nil_r. repeat split.
  - rename y into d. rename l' into defs. invp H as [[[ds1 n] c] i1] by B. invp H as [[ds2 kv2] j2] by B'. injection H as <- <- <-.
    inversion ND as [|? ? ND1 ND2]; subst.
    destruct (create_column_ok _ _ _ _ _ _ _ _ _ _ _ _ H2 B) as (-> & _ & _).
    pose proof (create_column_text _ _ _ _ _ _ _ _ _ _ _ _ H2 ND1 (HT d (or_introl eq_refl)) B) as ->.
    assert (Nk : ~ In (d_name d) (dkeys kv)).
    { cbn [map] in N. intro X. apply NoDup_remove_2 in N. apply N, in_or_app. left. exact X. }
    rewrite (dset_new _ _ _ Nk) in B'.
    destruct (IH defs (kv ++ [(d_name d, c)]) i1 ds2 kv2 j2 H4 ND2 (fun x X => HT x (or_intror X))
                ltac:(unfold dkeys in *; rewrite (map_app fst kv), <- app_assoc; exact N) B') as (new & -> & K & ->).
    exists ((d_name d, c) :: new). rewrite <- app_assoc. repeat split. unfold dkeys in *. cbn [map fst]. rewrite K. reflexivity.
Qed.

Lemma create_declarations E fresh anon meta j enc q n m t cols cons defs :
  rewrite_table E fresh anon meta j enc = Ok (q, n, m) -> create_of j t cols cons ->
  Forall2 (fun col d => col_def col (fst (fst d)) (snd (fst d)) (snd d)) cols defs ->
  NoDup (map (fun d => fst (fst d)) defs) -> Forall no_default cols ->
  (forall d, In d defs -> dget enc (fst (fst d)) <> None -> In (snd (fst d)) [u "int"; u "varchar"; u "char"; u "float"; u "double"]) ->
  exists ks tail, q = create_text anon
    (concat (map (fun x => decl_of E (fst (fst x)) (fst (fst (snd (fst x)))) (snd (fst (snd (fst x)))) (snd (snd (fst x))) (snd (snd x)))
                 (combine (combine cols defs) (t_cols m)))) ks tail.
Proof.
  intros H C D N ND HT. destruct (create_shape _ _ _ _ _ _ _ _ _ _ _ _ H C) as (-> & A & ds & i & ks & tail & H1 & H2 & ->).
  destruct (create_columns_text E fresh enc cols defs [] 0 ds (t_cols m) i D ND HT N H1) as (new & Ek & _ & ->).
  cbn [app] in Ek. rewrite Ek. exists ks, tail. reflexivity.
Qed.
