(** Proofs about CREATE TABLE (C31, C32). *)
From Coq Require Import String Ascii List NArith ZArith QArith Bool Lia.
From Verif Require Import Base BaseProof CryptoModel PaillierModel JsonModel RewriteModel WidthModel SqlSpec EncSpec StmtSpec
  CreateModel CreateSpec.
Import ListNotations.
Open Scope Z_scope.

(** Taking a successful computation apart. *)
Ltac inv H :=
  match type of H with
  | bind ?m _ = Ok _ => let E := fresh "B" in destruct m eqn:E; cbn [bind] in H; [|discriminate H]
  end.
Tactic Notation "invp" hyp(H) "as" simple_intropattern(p) "by" ident(E) :=
  match type of H with
  | bind ?m _ = Ok _ => destruct m as [p|] eqn:E; cbn [bind] in H; [|discriminate H]
  end; cbv beta iota in H.

Lemma as_str_eq v s : as_str v = Ok s -> v = JStr s.
Proof. destruct v; cbn; congruence. Qed.
Lemma getitem_eq v k x : getitem v k = Ok x -> exists d, v = JDict d /\ dget d k = Some x.
Proof.
  destruct v; cbn; try discriminate. unfold dgetE. destruct (dget d k) eqn:G; [|discriminate].
  intros [= <-]. eauto.
Qed.
Lemma flag_asked o k b : flag o (u k) = Ok b -> b = asked o k.
Proof.
  unfold flag, get, asked. destruct o; cbn; try discriminate.
  destruct (dget d (u k)); cbn; intros [= <-]; reflexivity.
Qed.

Lemma enc_types_one E col key n nul pk v ty arg ds :
  enc_types E col key n nul pk v [(ty, arg)] = Ok ds ->
  exists t rest, enc_type_text ty arg v = Ok t /\ ds = [(n, t ++ rest)].
Proof.
  cbn [enc_types]. intro H. inv H. inv H. injection H as <-.
  eexists _, _. split; [reflexivity|]. reflexivity.
Qed.

Lemma enc_parts_one E fresh col key nul pk ty arg : forall parts i ds enc j,
  enc_parts E fresh col key nul pk parts [(ty, arg)] i = Ok (ds, enc, j) ->
  j = (i + length parts)%nat /\ enc = combine (map fst parts) (map fresh (seq i (length parts))) /\
  map fst ds = map fresh (seq i (length parts)) /\
  Forall2 (fun kv d => exists t rest, enc_type_text ty arg (snd kv) = Ok t /\ snd d = t ++ rest) parts ds.
Proof.
  induction parts as [|[k v] r IH]; intros i ds enc j H; cbn [enc_parts] in H.
  - injection H as <- <- <-. cbn. rewrite Nat.add_0_r. repeat split. constructor.
  - inv H. invp H as [[ds' enc'] j'] by B0. injection H as <- <- <-.
    destruct (IH _ _ _ _ B0) as (-> & -> & M & F). apply enc_types_one in B as (t & rest & T & ->).
    cbn [length seq map fst combine app]. rewrite M. repeat split; [lia|].
    constructor; [|exact F]. exists t, rest. split; [exact T|reflexivity].
Qed.

Lemma option_part_eq on fresh ci ty nul dflt i ds enc j :
  option_part on fresh ci ty nul dflt i = Ok (ds, enc, j) ->
  j = (i + if on then 1 else 0)%nat /\ enc = (if on then [(ci, fresh i)] else []) /\
  map fst ds = dvals enc /\ (on = true -> exists rest, ds = [(fresh i, ty ++ rest)]) /\ (on = false -> ds = []).
Proof.
  unfold option_part. destruct on; intro H.
  - inv H. injection H as <- <- <-. repeat split; try lia; try discriminate. eauto.
  - injection H as <- <- <-. repeat split; try lia; try discriminate.
Qed.

Lemma plain_types_one E col name nul pk ty arg ds t :
  plain_types E col name nul pk [(ty, arg)] = Ok (ds, t) ->
  t = ty /\ exists rest, ds = [(name, ty ++ (if truthy arg then u "(" ++ py_str E arg ++ u ")" else []) ++ rest)].
Proof.
  cbn [plain_types]. intro H. inv H. cbn [bind] in H. injection H as <- <-. split; [reflexivity|].
  unfold typed_text. destruct (truthy arg).
  - eexists. rewrite <- ?app_assoc. reflexivity.
  - eexists. rewrite app_nil_l. reflexivity.
Qed.

(** element_type lists the parts that the specification names. *)
Lemma element_parts ty parts : element_type (upper ty) = Some parts ->
  map fst parts = base_parts ty /\
  (parts = [(OPEC, Fixed (u "BIGINT")); (SYM, Fixed (u "VARCHAR(300)"))] \/ parts = [(SYM, TypeAndLen)] \/
   parts = [(OPEC, Fixed (u "DECIMAL(65)")); (SYM, Fixed (u "VARCHAR(1000)"))]).
Proof.
  unfold element_type, base_parts. change (map _ ty) with (upper ty). set (T := upper ty).
  cbn [smem existsb]. rewrite orb_false_r.
  destruct (seqb T (u "INT")) eqn:A.
  - apply seqb_eq in A. rewrite A. intros [= <-]. split; [reflexivity|]. left. reflexivity.
  - destruct (seqb T (u "VARCHAR") || seqb T (u "CHAR"))%bool.
    + intros [= <-]. split; [reflexivity|]. right. left. reflexivity.
    + destruct (seqb T (u "FLOAT") || seqb T (u "DOUBLE"))%bool; [|discriminate].
      intros [= <-]. split; [reflexivity|]. right. right. reflexivity.
Qed.

Lemma parts_text ty arg parts : element_type (upper ty) = Some parts ->
  In ty [u "int"; u "varchar"; u "char"; u "float"; u "double"] ->
  forall kv t, In kv parts -> enc_type_text ty arg (snd kv) = Ok t -> t = phys_type (fst kv) ty arg.
Proof.
  intros HP HT kv t Hk Ht.
  assert (W : forall arg t, (enc_type_text (u "varchar") arg TypeAndLen = Ok t -> t = phys_type SYM (u "varchar") arg) /\
                            (enc_type_text (u "char") arg TypeAndLen = Ok t -> t = phys_type SYM (u "char") arg)).
  { clear. intros arg t. split; unfold enc_type_text;
    (destruct (truthy arg); [|discriminate]); 
    [change (seqb (u "varchar") (u "char") || seqb (u "varchar") (u "varchar"))%bool with true
    |change (seqb (u "char") (u "char") || seqb (u "char") (u "varchar"))%bool with true];
    cbv iota; (destruct arg; try discriminate); (destruct (z <? 0); [discriminate|]);
    unfold phys_type;
    [change (smem SYM [FUZ; SM4C]) with false; change (seqb SYM ARI) with false; change (seqb SYM OPEC) with false;
     change (seqb (u "varchar") (u "int")) with false; change (smem (u "varchar") [u "float"; u "double"]) with false
    |change (smem SYM [FUZ; SM4C]) with false; change (seqb SYM ARI) with false; change (seqb SYM OPEC) with false;
     change (seqb (u "char") (u "int")) with false; change (smem (u "char") [u "float"; u "double"]) with false];
    cbv iota; destruct (get_type_and_len _ _); intros [= <-]; reflexivity. }
  assert (G : forall t0 arg t, enc_type_text ty arg (Fixed t0) = Ok t -> t = t0).
  { clear. intros t0 arg t. unfold enc_type_text. destruct (truthy arg); congruence. }
  destruct HT as [<-|[<-|[<-|[<-|[<-|[]]]]]];
  [change (element_type (upper (u "int"))) with (Some [(OPEC, Fixed (u "BIGINT")); (SYM, Fixed (u "VARCHAR(300)"))]) in HP
  |change (element_type (upper (u "varchar"))) with (Some [(SYM, TypeAndLen)]) in HP
  |change (element_type (upper (u "char"))) with (Some [(SYM, TypeAndLen)]) in HP
  |change (element_type (upper (u "float"))) with (Some [(OPEC, Fixed (u "DECIMAL(65)")); (SYM, Fixed (u "VARCHAR(1000)"))]) in HP
  |change (element_type (upper (u "double"))) with (Some [(OPEC, Fixed (u "DECIMAL(65)")); (SYM, Fixed (u "VARCHAR(1000)"))]) in HP];
  injection HP as <-; cbn [In] in Hk.
  - destruct Hk as [<-|[<-|[]]]; cbn [snd fst] in *; rewrite (G _ _ _ Ht); reflexivity.
  - destruct Hk as [<-|[]]. apply W, Ht.
  - destruct Hk as [<-|[]]. apply W, Ht.
  - destruct Hk as [<-|[<-|[]]]; cbn [snd fst] in *; rewrite (G _ _ _ Ht); reflexivity.
  - destruct Hk as [<-|[<-|[]]]; cbn [snd fst] in *; rewrite (G _ _ _ Ht); reflexivity.
Qed.

Lemma combine_keys {V} (a : list pystr) : forall b : list V, length a = length b -> map fst (combine a b) = a.
Proof. induction a; destruct b; cbn; intro L; try discriminate; [reflexivity|]. rewrite IHa by lia. reflexivity. Qed.
Lemma combine_vals {V} (a : list pystr) : forall b : list V, length a = length b -> map snd (combine a b) = b.
Proof. induction a; destruct b; cbn; intro L; try discriminate; [reflexivity|]. rewrite IHa by lia. reflexivity. Qed.

Lemma Forall2_map_l {A B C} (f : A -> B) (R : B -> C -> Prop) l m :
  Forall2 (fun x y => R (f x) y) l m -> Forall2 R (map f l) m.
Proof. induction 1; constructor; assumption. Qed.

(** The names a column draws. *)
Definition drawn (fresh : nat -> pystr) (i j : nat) (c : colmeta) : Prop :=
  if c_plain c then j = i else dvals (c_enc c) = map fresh (seq i (j - i)) /\ (i <= j)%nat.

Lemma Forall2_app2 {A B} (R : A -> B -> Prop) a b c d : Forall2 R a b -> Forall2 R c d -> Forall2 R (a ++ c) (b ++ d).
Proof. induction 1; cbn; [auto|]. intro. constructor; auto. Qed.

Lemma create_column_ok E fresh enc col i k ty arg ds n c j : col_def col k ty arg ->
  create_column E fresh enc col i = Ok (ds, n, c, j) -> n = k /\ described E enc k ty arg c ds /\ drawn fresh i j c.
Proof.
  intros (d & -> & Dn & Dt) H. unfold create_column in H.
  invp H as ai by A1. invp H as p by A2. invp H as name by A3. invp A3 as nm by A4.
  apply getitem_eq in A4 as (d' & [= <-] & X). rewrite Dn in X. injection X as <-. injection A3 as <-.
  invp H as ty' by A5. apply getitem_eq in A5 as (d' & [= <-] & X). rewrite Dt in X. injection X as <-.
  invp H as nul by A6. invp H as com by A7. invp H as comment by A8.
  assert (forall x, (do tys <- items (JDict [(ty, arg)]); x tys) = (x [(ty, arg)] : res (list decl * pystr * colmeta * nat))) as IT by reflexivity.
  destruct (dget enc k) as [o|] eqn:Ho; rewrite IT in H; clear IT.
  - destruct (element_type (upper ty)) as [parts|] eqn:HP; [|discriminate].
    invp H as key by C1. invp C1 as kx by C2. destruct (getitem_eq _ _ _ C2) as (od & -> & Hk). apply as_str_eq in C1. subst kx.
    invp H as [[ds1 e1] i1] by B4.
    invp H as fz by C3. invp C3 as fx by C4. apply getitem_eq in C4 as (d' & [= <-] & Hf). injection C3 as <-.
    invp H as sk by C5. invp H as [[ds2 e2] i2] by B7.
    invp H as ar by B8. invp H as hk by C6. invp H as [[ds3 e3] i3] by B10. invp H as homo by C7.
    invp H as s4 by B12. invp H as s4k by C8. invp H as [[ds4 e4] i4] by B14. invp H as sm by C9.
    injection H as <- <- <- <-. split; [reflexivity|].
    destruct (enc_parts_one _ _ _ _ _ _ _ _ _ _ _ _ _ B4) as (-> & -> & M1 & F1).
    destruct (option_part_eq _ _ _ _ _ _ _ _ _ _ B7) as (-> & -> & M2 & F2 & G2).
    destruct (option_part_eq _ _ _ _ _ _ _ _ _ _ B10) as (-> & -> & M3 & F3 & G3).
    destruct (option_part_eq _ _ _ _ _ _ _ _ _ _ B14) as (-> & -> & M4 & F4 & G4).
    assert (Ff : truthy fx = asked (JDict od) "fuzzy") by (cbn [asked]; rewrite Hf; reflexivity).
    apply flag_asked in B8. apply flag_asked in B12. rewrite Ff in *. rewrite B8, B12 in *.
    assert (L1 : length (map fst parts) = length (map fresh (seq i (length parts)))) by (rewrite !map_length, seq_length; reflexivity).
    destruct (element_parts ty parts HP) as (EP & _).
    set (bf := asked (JDict od) "fuzzy") in *. set (ba := asked (JDict od) "arithmetic") in *. set (bs := asked (JDict od) "sm4") in *.
    split.
    + split; [reflexivity|]. split.
      * unfold phys_of. cbn [c_plain c_enc]. unfold dvals, decl in *. rewrite !map_app, M1, M2, M3, M4. unfold dvals.
        rewrite (combine_vals _ _ L1). reflexivity.
      * rewrite Ho. split; [reflexivity|]. split; [exists od; split; [reflexivity|exact Hk]|].
        cbn [c_enc]. split.
        -- unfold dkeys. rewrite !map_app, (combine_keys _ _ L1), EP. unfold wanted_parts. fold bf ba bs.
           f_equal. destruct bf, ba, bs; reflexivity.
        -- intro HT. apply Forall2_app2; [|apply Forall2_app2; [|apply Forall2_app2]].
           ++ clear - F1 HP HT. remember (length parts) as n eqn:Hn.
              assert (A : forall kv, In kv parts -> forall t, enc_type_text ty arg (snd kv) = Ok t -> t = phys_type (fst kv) ty arg)
                by (intros kv Hk t; apply (parts_text ty arg parts HP HT kv t Hk)).
              clear HP HT. subst n. revert i. induction F1 as [|[k v] d r r' (t & rest & T & R) F IH]; intro i; cbn; constructor.
              ** exists rest. cbn [fst]. rewrite R. f_equal. apply (A (k, v)); [left; reflexivity|exact T].
              ** apply IH. intros kv Hk. apply A. right. exact Hk.
           ++ destruct bf; [destruct (F2 eq_refl) as (rest & ->) | rewrite (G2 eq_refl)]; constructor; [|constructor].
              exists rest. reflexivity.
           ++ destruct ba; [destruct (F3 eq_refl) as (rest & ->) | rewrite (G3 eq_refl)]; constructor; [|constructor].
              exists rest. reflexivity.
           ++ destruct bs; [destruct (F4 eq_refl) as (rest & ->) | rewrite (G4 eq_refl)]; constructor; [|constructor].
              exists rest. reflexivity.
    + unfold drawn. cbn [c_plain c_enc]. unfold dvals. rewrite !map_app, (combine_vals _ _ L1).
      split; [|lia].
      replace (i + length parts + (if bf then 1 else 0) + (if ba then 1 else 0) + (if bs then 1 else 0) - i)%nat
        with (length parts + ((if bf then 1 else 0) + ((if ba then 1 else 0) + (if bs then 1 else 0))))%nat by lia.
      rewrite !seq_app, !map_app. f_equal.
      destruct bf, ba, bs; cbn [map seq snd app]; rewrite ?Nat.add_0_r; reflexivity.
  - invp H as [ds1 t1] by B4. injection H as <- <- <- <-. split; [reflexivity|].
    destruct (plain_types_one _ _ _ _ _ _ _ _ _ B4) as (-> & rest & ->). split.
    + split; [reflexivity|]. split; [reflexivity|]. rewrite Ho. split; [reflexivity|]. split; [reflexivity|]. eauto.
    + reflexivity.
Qed.

Definition def := (pystr * pystr * json)%type.
Definition d_name (d : def) : pystr := fst (fst d).
Definition enc_names (c : colmeta) : list pystr := if c_plain c then [] else dvals (c_enc c).

Lemma dset_new {V} (d : dict V) k v : ~ In k (dkeys d) -> dset d k v = d ++ [(k, v)].
Proof.
  induction d as [|[k' v'] r IH]; cbn; intro N; [reflexivity|].
  destruct (seqb k k') eqn:S; [apply seqb_eq in S; subst; tauto|]. rewrite IH by tauto. reflexivity.
Qed.

Lemma seq_app' i j k : (i <= j)%nat -> (j <= k)%nat -> seq i (j - i) ++ seq j (k - j) = seq i (k - i).
Proof.
  intros A B. replace (k - i)%nat with ((j - i) + (k - j))%nat by lia. rewrite seq_app. f_equal. f_equal. lia.
Qed.

Lemma create_columns_ok E fresh enc : forall cols defs kv i ds kv' j,
  Forall2 (fun col d => col_def col (d_name d) (snd (fst d)) (snd d)) cols defs ->
  NoDup (dkeys kv ++ map d_name defs) ->
  create_columns E fresh enc cols kv i = Ok (ds, kv', j) ->
  exists ents : list ((pystr * colmeta) * list decl),
    kv' = kv ++ map fst ents /\ ds = concat (map snd ents) /\
    Forall2 (fun d e => fst (fst e) = d_name d /\
                        described E enc (d_name d) (snd (fst d)) (snd d) (snd (fst e)) (snd e)) defs ents /\
    concat (map (fun e => enc_names (snd (fst e))) ents) = map fresh (seq i (j - i)) /\ (i <= j)%nat.
Proof.
  induction cols as [|col r IH]; intros defs kv i ds kv' j F N H; inversion F; subst; cbn [create_columns] in H.
  - injection H as <- <- <-. exists []. cbn. rewrite app_nil_r, Nat.sub_diag. repeat split. constructor. lia.
  - rename y into d. rename l' into defs. invp H as [[[ds1 n] c] i1] by B. invp H as [[ds2 kv2] j2] by B'. injection H as <- <- <-.
    destruct (create_column_ok _ _ _ _ _ _ _ _ _ _ _ _ H2 B) as (-> & Dc & Dr).
    assert (Nk : ~ In (d_name d) (dkeys kv)).
    { cbn [map] in N. intro X. apply NoDup_remove_2 in N. apply N, in_or_app. left. exact X. }
    rewrite (dset_new _ _ _ Nk) in B'.
    destruct (IH defs (kv ++ [(d_name d, c)]) i1 ds2 kv2 j2 H4 ltac:(unfold dkeys in *; rewrite (map_app fst kv), <- app_assoc; exact N) B') as (ents & -> & -> & Fe & Ce & L).
    exists (((d_name d, c), ds1) :: ents). cbn [map fst snd concat]. rewrite <- app_assoc. repeat split; cbn [fst snd].
    + constructor; [split; [reflexivity|exact Dc]|exact Fe].
    + rewrite Ce. unfold drawn in Dr. unfold enc_names. destruct (c_plain c).
      * subst i1. reflexivity.
      * destruct Dr as (-> & L1). rewrite <- map_app, seq_app' by lia. reflexivity.
    + unfold drawn in Dr. destruct (c_plain c); [subst; lia|]. destruct Dr. lia.
Qed.

Lemma mapM_F2 {A B} (f : A -> res B) (R : A -> B -> Prop) : (forall x y, f x = Ok y -> R x y) ->
  forall l m, mapM f l = Ok m -> Forall2 R l m.
Proof.
  intro G. induction l as [|x r IH]; cbn [mapM]; intros m H.
  - injection H as <-. constructor.
  - inv H. inv H. injection H as <-. constructor; auto.
Qed.

Lemma Forall2_In_r {A B} (R : A -> B -> Prop) l m : Forall2 R l m ->
  forall y, In y m -> exists x, In x l /\ R x y.
Proof.
  induction 1; cbn; [tauto|]. intros z [<-|Z]; [eauto|]. destruct (IHForall2 z Z) as (w & W & Rw). eauto.
Qed.

(** The statement as a whole. *)
Lemma create_shape E fresh anon meta j enc q n m t cols cons :
  rewrite_table E fresh anon meta j enc = Ok (q, n, m) -> create_of j t cols cons ->
  n = t /\ t_anon m = anon /\ exists ds i ks tail,
    create_columns E fresh enc cols [] 0 = Ok (ds, t_cols m, i) /\
    mapM (fun c => constraint_key c (t_cols m) meta) cons = Ok ks /\ q = create_text anon ds ks tail.
Proof.
  intros H (top & ct & -> & H1 & H2 & H3 & H4). unfold rewrite_table in H.
  cbn [contains bind] in H. unfold dmem in H. rewrite H1 in H. cbn [negb] in H.
  cbn [getitem] in H. unfold dgetE in H. rewrite H1 in H. cbn [bind getitem] in H. unfold dgetE in H. rewrite H2 in H. cbn [bind as_str] in H.
  destruct (dget ct (u "columns")) as [jc|]; [|cbn in H; discriminate H]. cbn [bind] in H.
  assert (HC : (match jc with JList l => l | x => [x] end) = cols) by (destruct jc; cbn in H3; try tauto; congruence).
  rewrite HC in H. invp H as [[ds kv] i] by B1.
  unfold get in H at 1. cbn [bind] in H. invp H as cl by B2.
  assert (cl = cons).
  { destruct (dget ct (u "constraint")) as [x|]; cbn [listed] in H4.
    - destruct x; try tauto; cbn in B2; congruence.
    - cbn in B2. congruence. }
  subst cl. invp H as ks by B3. invp H as e1 by B4. invp H as e2 by B5. invp H as e3 by B6. invp H as e4 by B7.
  injection H as <- <- <-. split; [reflexivity|]. split; [reflexivity|].
  exists ds, i, ks, (e1 ++ e2 ++ e3 ++ u ";"). cbn [t_cols]. rewrite ?B3. repeat split.
Qed.

Lemma described_keys E enc : forall defs (ents : list ((pystr * colmeta) * list decl)),
  Forall2 (fun d e => fst (fst e) = d_name d /\
     described E enc (d_name d) (snd (fst d)) (snd d) (snd (fst e)) (snd e)) defs ents ->
  map (fun e => fst (fst e)) ents = map d_name defs /\
  map fst (concat (map snd ents)) = concat (map (fun kc => phys_of (fst kc) (snd kc)) (map fst ents)).
Proof.
  induction 1 as [|d e defs ents (A & D) F (I1 & I2)]; [split; reflexivity|]. cbn [map concat].
  split; [f_equal; [exact A|exact I1]|]. destruct D as (_ & D & _). unfold decl in *. rewrite map_app, I2, D. f_equal. change (fst (fst e)) with (d_name d) || (rewrite <- A; reflexivity).
Qed.

(** C31 *)
Lemma create_schema E fresh anon meta j enc q n m t cols cons defs :
  rewrite_table E fresh anon meta j enc = Ok (q, n, m) -> create_of j t cols cons ->
  Forall2 (fun col d => col_def col (fst (fst d)) (snd (fst d)) (snd d)) cols defs ->
  NoDup (map (fun d => fst (fst d)) defs) ->
  n = t /\ t_anon m = anon /\ dkeys (t_cols m) = map (fun d => fst (fst d)) defs /\
  exists dss ks tail, q = create_text anon (concat dss) ks tail /\ map fst (concat dss) = phys m /\
    Forall2 (fun d kcds => described E enc (fst (fst d)) (snd (fst d)) (snd d) (snd (fst kcds)) (snd kcds))
            defs (combine (t_cols m) dss) /\ length dss = length defs.
Proof.
  intros H C D N. destruct (create_shape _ _ _ _ _ _ _ _ _ _ _ _ H C) as (-> & A & ds & i & ks & tail & H1 & H2 & ->).
  destruct (create_columns_ok E fresh enc cols defs [] 0 ds (t_cols m) i D N H1) as (ents & Ek & -> & F & Cn & L).
  destruct (described_keys _ _ _ _ F) as (K1 & K2). cbn [app] in Ek.
  split; [reflexivity|]. split; [exact A|]. split.
  - rewrite Ek. unfold dkeys. rewrite map_map. exact K1.
  - exists (map snd ents), ks, tail. split; [reflexivity|]. split; [|split].
    + unfold phys. rewrite Ek. exact K2.
    + rewrite Ek. clear -F. induction F as [|d e defs ents (A & D) F IH]; cbn [map combine]; constructor; assumption.
    + rewrite map_length. clear -F. induction F; cbn; congruence.
Qed.

Lemma NoDup_map_inj {A B} (f : A -> B) l : (forall x y, f x = f y -> x = y) -> NoDup l -> NoDup (map f l).
Proof.
  intros I. induction 1; cbn; constructor; [|assumption]. intro X. apply in_map_iff in X as (y & E & Y).
  apply I in E. congruence.
Qed.

Lemma app_NoDup {A} (a b : list A) : NoDup a -> NoDup b -> (forall x, In x a -> ~ In x b) -> NoDup (a ++ b).
Proof.
  induction 1 as [|x a Hx N IH]; cbn; intros Nb D; [exact Nb|]. constructor.
  - rewrite in_app_iff. intros [X|X]; [tauto|]. apply (D x); [left; reflexivity|exact X].
  - apply IH; [exact Nb|]. intros y Y. apply D. right. exact Y.
Qed.
Lemma NoDup_app_l {A} (a b : list A) : NoDup (a ++ b) -> NoDup a.
Proof. induction a as [|x a IH]; cbn; [constructor|]. inversion 1; subst. constructor; [|auto]. intro X. apply H2, in_or_app. auto. Qed.
Lemma NoDup_app_r {A} (a b : list A) : NoDup (a ++ b) -> NoDup b.
Proof. induction a as [|x a IH]; cbn; [auto|]. inversion 1; subst. auto. Qed.
Lemma NoDup_app_disj {A} (a b : list A) x : NoDup (a ++ b) -> In x a -> ~ In x b.
Proof.
  induction a as [|y a IH]; cbn; [tauto|]. inversion 1; subst. intros [<-|X]; [|auto].
  intro Y. apply H2, in_or_app. auto.
Qed.

Lemma phys_mixed : forall l : list (pystr * colmeta),
  NoDup (map fst l) -> NoDup (concat (map (fun kc => enc_names (snd kc)) l)) ->
  (forall k, In k (map fst l) -> ~ In k (concat (map (fun kc => enc_names (snd kc)) l))) ->
  NoDup (concat (map (fun kc => phys_of (fst kc) (snd kc)) l)) /\
  (forall n, In n (concat (map (fun kc => phys_of (fst kc) (snd kc)) l)) ->
             In n (map fst l) \/ In n (concat (map (fun kc => enc_names (snd kc)) l))).
Proof.
  induction l as [|[k c] r IH]; cbn [map concat fst snd]; intros N1 N2 D; [split; [constructor|cbn; tauto]|].
  inversion N1; subst.
  destruct IH as (I1 & I2); [assumption|eapply NoDup_app_r; eassumption| |].
  { intros x X Y. apply (D x); [right; exact X|]. apply in_or_app. right. exact Y. }
  assert (HP : phys_of k c = if c_plain c then [k] else enc_names c) by (unfold phys_of, enc_names; destruct (c_plain c); reflexivity).
  split.
  - apply app_NoDup; [| exact I1|].
    + rewrite HP. destruct (c_plain c); [repeat constructor; cbn; tauto|]. eapply NoDup_app_l; eassumption.
    + intros x X Y. apply I2 in Y. rewrite HP in X. destruct (c_plain c) eqn:P.
      * destruct X as [<-|[]]. destruct Y as [Y|Y]; [tauto|]. apply (D k); [left; reflexivity|]. apply in_or_app. auto.
      * destruct Y as [Y|Y].
        -- apply (D x); [right; exact Y|]. apply in_or_app. auto.
        -- exact (NoDup_app_disj _ _ x N2 X Y).
  - intros n Hn. apply in_app_or in Hn as [Hn|Hn].
    + rewrite HP in Hn. destruct (c_plain c).
      * destruct Hn as [<-|[]]. left. left. reflexivity.
      * right. apply in_or_app. auto.
    + destruct (I2 n Hn); [left; right; assumption | right; apply in_or_app; auto].
Qed.

Lemma wanted_NoDup ty o : NoDup (wanted_parts ty o).
Proof.
  unfold wanted_parts, base_parts.
  destruct (smem _ _), (asked o "fuzzy"), (asked o "arithmetic"), (asked o "sm4");
  repeat (constructor; [cbn; intuition discriminate|]); constructor.
Qed.

Lemma create_wf kw E fresh anon meta j enc q n m t cols cons defs :
  rewrite_table E fresh anon meta j enc = Ok (q, n, m) -> create_of j t cols cons ->
  Forall2 (fun col d => col_def col (fst (fst d)) (snd (fst d)) (snd d)) cols defs ->
  NoDup (map (fun d => fst (fst d)) defs) ->
  (forall a b, fresh a = fresh b -> a = b) ->
  (forall a, ~ In (fresh a) (map (fun d => fst (fst d)) defs)) ->
  NoDup (phys m) /\
  ((forall d, In d defs -> colname kw (fst (fst d))) -> (forall a, colname kw (fresh a)) -> wf_table kw m).
Proof.
  intros H C D N I X. destruct (create_shape _ _ _ _ _ _ _ _ _ _ _ _ H C) as (-> & A & ds & i & ks & tail & H1 & H2 & ->).
  destruct (create_columns_ok E fresh enc cols defs [] 0 ds (t_cols m) i D N H1) as (ents & Ek & -> & F & Cn & L).
  destruct (described_keys _ _ _ _ F) as (K1 & K2). cbn [app] in Ek.
  assert (K : map fst (t_cols m) = map (fun d => fst (fst d)) defs) by (rewrite Ek, map_map; exact K1).
  assert (EN : concat (map (fun kc => enc_names (snd kc)) (t_cols m)) = map fresh (seq 0 (i - 0)))
    by (rewrite Ek, map_map; exact Cn).
  destruct (phys_mixed (t_cols m)) as (P1 & P2).
  - rewrite K. exact N.
  - rewrite EN. apply NoDup_map_inj; [exact I|apply seq_NoDup].
  - intros k Hk Y. rewrite EN in Y. apply in_map_iff in Y as (a & <- & _). rewrite K in Hk. exact (X a Hk).
  - split; [exact P1|]. intros V1 V2. constructor.
    + unfold dkeys. rewrite K. exact N.
    + exact P1.
    + intros k Hk. unfold dkeys in Hk. rewrite K in Hk. apply in_map_iff in Hk as (d & <- & Hd). apply V1, Hd.
    + intros x Hx. apply P2 in Hx as [Hx|Hx].
      * rewrite K in Hx. apply in_map_iff in Hx as (d & <- & Hd). apply V1, Hd.
      * rewrite EN in Hx. apply in_map_iff in Hx as (a & <- & _). apply V2.
    + intros k c Hk. apply dget_In in Hk. rewrite Ek in Hk. apply in_map_iff in Hk as ([[k' c'] ds'] & Ee & He). cbn [fst] in Ee. injection Ee as -> ->.
      destruct (Forall2_In_r _ _ _ F _ He) as (d & _ & _ & Dd). cbn [fst snd] in Dd.
      destruct Dd as (_ & _ & Dd). destruct (dget enc (d_name d)) as [o|].
      * destruct Dd as (_ & _ & -> & _). apply wanted_NoDup.
      * destruct Dd as (_ & -> & _). constructor.
Qed.

Lemma create_supported E fresh anon meta j enc q n m t cols cons defs :
  rewrite_table E fresh anon meta j enc = Ok (q, n, m) -> create_of j t cols cons ->
  Forall2 (fun col d => col_def col (fst (fst d)) (snd (fst d)) (snd d)) cols defs ->
  NoDup (map (fun d => fst (fst d)) defs) ->
  (forall d o, In d defs -> dget enc (fst (fst d)) = Some o -> asked o "sm4" = false /\
     (snd (fst d) = u "int" \/ In (snd (fst d)) [u "char"; u "varchar"] /\ asked o "arithmetic" = false)) ->
  forall k c, dget (t_cols m) k = Some c -> supported c.
Proof.
  intros H C D N T k c Hk.
  destruct (create_shape _ _ _ _ _ _ _ _ _ _ _ _ H C) as (-> & A & ds & i & ks & tail & H1 & H2 & ->).
  destruct (create_columns_ok E fresh enc cols defs [] 0 ds (t_cols m) i D N H1) as (ents & Ek & -> & F & Cn & L).
  apply dget_In in Hk. rewrite Ek in Hk. cbn [app] in Hk. apply in_map_iff in Hk as ([[k' c'] ds'] & Ee & He). cbn [fst] in Ee. injection Ee as -> ->.
  destruct (Forall2_In_r _ _ _ F _ He) as (d & Hd & _ & Dd). cbn [fst snd] in Dd.
  destruct Dd as (Ty & _ & Dd). destruct (dget enc (d_name d)) as [o|] eqn:Ho.
  - destruct Dd as (_ & _ & W & _). destruct (T d o Hd Ho) as (S4 & Tt). right.
    unfold wanted_parts in W. rewrite S4 in W. rewrite Ty.
    destruct Tt as [Ti|(Ti & Ar)].
    + rewrite Ti in *. change (base_parts (u "int")) with [OPEC; SYM] in W. rewrite W. split; [|right; left; reflexivity].
      left. split; [reflexivity|]. intros ci Hc. cbn [app In] in Hc. rewrite app_nil_r in Hc.
      destruct (asked o "fuzzy"), (asked o "arithmetic"); cbn [app In] in Hc |- *; intuition.
    + rewrite Ar in W.
      assert (base_parts (snd (fst d)) = [SYM] /\ is_text_type (snd (fst d))) as (Bp & It)
        by (destruct Ti as [<-|[<-|[]]]; split; reflexivity).
      rewrite Bp in W. rewrite W. split; [|left; reflexivity]. right. split; [exact It|].
      intros ci Hc. rewrite !app_nil_r in Hc. destruct (asked o "fuzzy"); cbn [app In] in Hc |- *; intuition.
  - left. apply Dd.
Qed.

(** C32 *)
Lemma enc_column_ok cols k n : enc_column cols (JStr k) = Ok n <-> key_column cols k n.
Proof.
  unfold enc_column, key_column. destruct (dget cols k) as [c|]; split.
  - intro H. exists c. split; [reflexivity|]. destruct (c_plain c); [congruence|].
    unfold dgetE in H. destruct (dget (c_enc c) SYM); congruence.
  - intros (c' & [= <-] & H). destruct (c_plain c); [congruence|]. unfold dgetE. rewrite H. reflexivity.
  - discriminate.
  - intros (c' & X & _). discriminate.
Qed.
Lemma enc_columns_ok cols cs ks : names_of cs ks ->
  forall ns, get_enc_columns cs cols = Ok ns <-> Forall2 (key_column cols) ks ns.
Proof.
  intros Hn ns.
  assert (G : forall ks ns, mapM (enc_column cols) (map JStr ks) = Ok ns <-> Forall2 (key_column cols) ks ns).
  { clear. induction ks as [|k r IH]; intro ns; cbn [map mapM]; split.
    - intros [= <-]. constructor.
    - inversion 1. reflexivity.
    - intro H. inv H. inv H. injection H as <-. constructor; [exact (proj1 (enc_column_ok _ _ _) B)|exact (proj1 (IH _) eq_refl)].
    - inversion 1; subst. apply enc_column_ok in H2. rewrite H2. cbn [bind]. apply IH in H4. rewrite H4. reflexivity. }
  unfold get_enc_columns. destruct Hn as [->|(k & -> & ->)]; [apply G|]. apply (G [k]).
Qed.

Lemma constraint_step d n cname kd ref columns cols meta :
  get (JDict d) (u "name") = Ok n ->
  (if truthy n then do s <- as_str n; Ok (u "CONSTRAINT " ++ s ++ u " ") else Ok []) = Ok cname ->
  match dget d (u "foreign_key") with
  | Some x => x
  | None => match dget d (u "primary_key") with Some x => x | None => JNull end
  end = JDict kd ->
  get (JDict kd) (u "references") = Ok ref -> get (JDict kd) (u "columns") = Ok columns ->
  constraint_key (JDict d) cols meta =
  do phrase <- (if truthy ref then reference_phrase ref meta else Ok []);
  do enc <- get_enc_columns columns cols;
  Ok (cname ++ (if truthy ref then u "FOREIGN KEY" else u "PRIMARY KEY") ++
      u "(" ++ join (u ",") enc ++ u ")" ++ phrase).
Proof.
  intros H1 H2 H3 H4 H5. unfold constraint_key. rewrite H1. cbn [bind]. rewrite H2. cbn [bind].
  cbn [contains]. unfold get at 1. cbn [bind]. unfold dmem.
  assert (G : forall b : res json, b = Ok (JDict kd) -> (do cons <- b;
    match cons with
    | JNull => Err AssertionError
    | _ => do ref <- get cons (u "references");
      do phrase <- (if truthy ref then reference_phrase ref meta else Ok []);
      do columns <- get cons (u "columns"); do enc <- get_enc_columns columns cols;
      Ok (cname ++ (if truthy ref then u "FOREIGN KEY" else u "PRIMARY KEY") ++ u "(" ++ join (u ",") enc ++ u ")" ++ phrase)
    end) = do phrase <- (if truthy ref then reference_phrase ref meta else Ok []);
      do enc <- get_enc_columns columns cols;
      Ok (cname ++ (if truthy ref then u "FOREIGN KEY" else u "PRIMARY KEY") ++ u "(" ++ join (u ",") enc ++ u ")" ++ phrase)).
  { intros b ->. cbn [bind]. rewrite H4. cbn [bind]. rewrite H5. reflexivity. }
  apply G. cbn [getitem]. unfold dgetE. destruct (dget d (u "foreign_key")); rewrite H3; reflexivity.
Qed.

Lemma primary_key_eq o cs cols meta : constraint_key (primary_con o cs) cols meta =
  do ns <- get_enc_columns cs cols; Ok (con_text o ++ u "PRIMARY KEY(" ++ join (u ",") ns ++ u ")").
Proof.
  unfold primary_con.
  rewrite (constraint_step _ (match o with Some s => JStr s | None => JNull end) (con_text o)
             [(u "columns", cs)] JNull cs); [|destruct o as [[|c s]|]; reflexivity ..].
  cbn [truthy bind]. destruct (get_enc_columns cs cols); [|reflexivity]. cbn [bind]. rewrite app_nil_r. reflexivity.
Qed.

Lemma foreign_key_eq o cs t rs more cols meta : constraint_key (foreign_con o cs t rs more) cols meta =
  do M <- (match meta with Some M => Ok M | None => Err KeyError end);
  do m <- dgetE M t;
  do rns <- get_enc_columns rs (t_cols m);
  do ns <- get_enc_columns cs cols;
  Ok (con_text o ++ u "FOREIGN KEY(" ++ join (u ",") ns ++ u ") REFERENCES " ++ t_anon m ++ u "(" ++ join (u ",") rns ++ u ")").
Proof.
  unfold foreign_con. set (ref := JDict [(u "table", JStr t); (u "columns", rs)]).
  rewrite (constraint_step _ (match o with Some s => JStr s | None => JNull end) (con_text o)
             ([(u "columns", cs); (u "references", ref)] ++ more) ref cs); [|destruct o as [[|c s]|]; reflexivity ..].
  change (truthy ref) with true. cbv iota. unfold reference_phrase.
  destruct meta as [M|]; [|reflexivity]. cbn [bind].
  change (getitem ref (u "table")) with (Ok (JStr t)). cbn [bind lookup].
  destruct (dgetE M t) as [m|]; [|reflexivity]. cbn [bind].
  change (getitem ref (u "columns")) with (Ok rs). cbn [bind].
  destruct (get_enc_columns rs (t_cols m)); [|reflexivity]. cbn [bind].
  destruct (get_enc_columns cs cols); [|reflexivity]. cbn [bind]. rewrite <- ?app_assoc. reflexivity.
Qed.

Lemma con_rewritten_ok c cols meta txt : key_con c ->
  constraint_key c cols meta = Ok txt <-> con_rewritten cols meta c txt.
Proof.
  intros [(o & cs & ks & Hn & ->)|(o & cs & ks & t & rs & rks & more & Hn & Hr & ->)].
  - rewrite primary_key_eq. split.
    + intro H. invp H as ns by B. injection H as <-. apply (primary_rewritten cols meta o cs ks ns Hn).
      apply (enc_columns_ok cols cs ks Hn), B.
    + intro H. inversion H as [o' cs' ks' ns N' F E1 E2|o' cs' ks' ns t rs rks rns more M m N' R' ? ? F G E1 E2].
      * assert (o' = o /\ cs' = cs) as (-> & ->)
          by (unfold primary_con in E1; destruct o, o'; cbn [con_name app] in E1; try discriminate E1; injection E1; intros; subst; auto).
        rewrite (proj2 (enc_columns_ok cols cs ks' N' ns) F). reflexivity.
      * unfold primary_con, foreign_con in E1. destruct o, o'; discriminate E1.
  - rewrite foreign_key_eq. split.
    + intro H. invp H as M by B. invp H as m by B1. invp H as rns by B2. invp H as ns by B3. injection H as <-.
      apply (foreign_rewritten cols meta o cs ks ns t rs rks rns more M m Hn Hr).
      * destruct meta; congruence.
      * unfold dgetE in B1. destruct (dget M t); congruence.
      * apply (enc_columns_ok cols cs ks Hn), B3.
      * apply (enc_columns_ok (t_cols m) rs rks Hr), B2.
    + intro H. inversion H as [o' cs' ks' ns N' F E1 E2|o' cs' ks' ns t' rs' rks' rns more' M m N' R' EM Em F G E1 E2].
      * unfold primary_con, foreign_con in E1. destruct o, o'; discriminate E1.
      * assert (o' = o /\ cs' = cs /\ t' = t /\ rs' = rs) as (-> & -> & -> & ->)
          by (unfold foreign_con in E1; destruct o, o'; cbn [con_name app] in E1; try discriminate E1; injection E1; intros; subst; auto).
        rewrite EM. cbn [bind]. unfold dgetE. rewrite Em. cbn [bind].
        rewrite (proj2 (enc_columns_ok (t_cols m) rs rks' R' rns) G). cbn [bind].
        rewrite (proj2 (enc_columns_ok cols cs ks' N' ns) F). reflexivity.
Qed.

Lemma create_constraints E fresh anon meta j enc q n m t cols cons :
  rewrite_table E fresh anon meta j enc = Ok (q, n, m) -> create_of j t cols cons -> Forall key_con cons ->
  exists ds ks tail, q = create_text anon ds ks tail /\ Forall2 (con_rewritten (t_cols m) meta) cons ks.
Proof.
  intros H C K. destruct (create_shape _ _ _ _ _ _ _ _ _ _ _ _ H C) as (-> & A & ds & i & ks & tail & H1 & H2 & ->).
  exists ds, ks, tail. split; [reflexivity|]. clear - H2 K. revert ks H2.
  induction K as [|c r Kc K IH]; cbn [mapM]; intros ks H.
  - injection H as <-. constructor.
  - invp H as x by B. invp H as xs by B1. injection H as <-. constructor.
    + apply con_rewritten_ok; [exact Kc|exact B].
    + apply IH. reflexivity.
Qed.

(** Other constraints, unknown tables. *)
Lemma mapM_err {A B} (f : A -> res B) x e : forall l, In x l -> f x = Err e -> exists e', mapM f l = Err e'.
Proof.
  induction l as [|y r IH]; cbn [In mapM]; [tauto|]. intros [->|X] F.
  - rewrite F. eexists. reflexivity.
  - destruct (IH X F) as (e' & ->). destruct (f y); eexists; reflexivity.
Qed.
Lemma create_fails E fresh anon meta j enc t cols cons c : create_of j t cols cons -> In c cons ->
  (forall kv, exists e, constraint_key c kv meta = Err e) ->
  exists e, rewrite_table E fresh anon meta j enc = Err e.
Proof.
  intros C Hc F. destruct (rewrite_table E fresh anon meta j enc) as [[[q n] m]|e] eqn:H; [|eauto].
  destruct (create_shape _ _ _ _ _ _ _ _ _ _ _ _ H C) as (-> & A & ds & i & ks & tail & H1 & H2 & ->).
  destruct (F (t_cols m)) as (e & He).
  destruct (mapM_err (fun c => constraint_key c (t_cols m) meta) c e cons Hc He) as (e' & X).
  rewrite X in H2. discriminate H2.
Qed.
Lemma other_constraint d kv meta : dget d (u "primary_key") = None -> dget d (u "foreign_key") = None ->
  exists e, constraint_key (JDict d) kv meta = Err e.
Proof.
  intros P F. unfold constraint_key, get. cbn [bind]. rewrite P. cbn [contains bind]. unfold dmem. rewrite F. cbn [bind].
  destruct (truthy _); [|eexists; reflexivity]. destruct (as_str _); eexists; reflexivity.
Qed.
Lemma unknown_reference o cs t rs more kv meta :
  (match meta with Some M => dget M t | None => None end) = None ->
  constraint_key (foreign_con o cs t rs more) kv meta = Err KeyError.
Proof.
  intro H. rewrite foreign_key_eq. destruct meta as [M|]; [|reflexivity]. cbn [bind]. unfold dgetE. rewrite H. reflexivity.
Qed.

(** Other column options have no effect. *)
Lemma dget_other {V} d (k k' : pystr) (v : V) : seqb k' k = false -> dget ((k, v) :: d) k' = dget d k'.
Proof. cbn [dget]. intros ->. reflexivity. Qed.

Definition col_keys := [u "name"; u "type"; u "nullable"; u "primary_key"; u "auto_increment"; u "comment"].
Lemma plain_types_ext E d d' name nul pk tys : (forall f, default_text (JDict d') f = default_text (JDict d) f) ->
  plain_types E (JDict d') name nul pk tys = plain_types E (JDict d) name nul pk tys.
Proof.
  intro H. induction tys as [|[a b] r IH]; [reflexivity|]. cbn [plain_types]. rewrite H, IH. reflexivity.
Qed.
Lemma enc_parts_ext E fresh d d' key nul pk parts tys i : (forall f, default_text (JDict d') f = default_text (JDict d) f) ->
  enc_parts E fresh (JDict d') key nul pk parts tys i = enc_parts E fresh (JDict d) key nul pk parts tys i.
Proof.
  intro H. assert (G : forall n pk v, enc_types E (JDict d') key n nul pk v tys = enc_types E (JDict d) key n nul pk v tys).
  { intros n pk' v. induction tys as [|[a b] r IH]; [reflexivity|]. cbn [enc_types]. rewrite H, IH. reflexivity. }
  revert i. induction parts as [|[a v] r IH]; intro i; [reflexivity|]. cbn [enc_parts]. rewrite G, IH. reflexivity.
Qed.
Lemma create_column_ext E fresh enc d d' i : (forall s, smem s col_keys = true -> dget d' s = dget d s) ->
  (forall f, default_text (JDict d') f = default_text (JDict d) f) ->
  create_column E fresh enc (JDict d') i = create_column E fresh enc (JDict d) i.
Proof.
  intros G H.
  unfold create_column, flag, nullable_text, flag, getitem, dgetE, contains, dmem, get.
  rewrite (G (u "auto_increment") eq_refl), (G (u "primary_key") eq_refl), (G (u "name") eq_refl), (G (u "type") eq_refl),
    (G (u "nullable") eq_refl), (G (u "comment") eq_refl).
  repeat match goal with |- bind ?m _ = bind ?m _ => destruct m; cbn [bind]; [|reflexivity] end.
  match goal with |- context [dget enc ?n] => destruct (dget enc n) end; repeat match goal with |- bind ?m _ = bind ?m _ => destruct m; cbn [bind]; [|reflexivity] end.
  - match goal with |- match ?l with _ => _ end = _ => destruct l as [|[t0 ?] ?] end; [reflexivity|]. destruct (element_type (upper t0)); [|reflexivity].
    repeat match goal with |- bind ?m _ = bind ?m _ => destruct m; cbn [bind]; [|reflexivity] end.
    rewrite (enc_parts_ext _ _ _ _ _ _ _ _ _ _ H).
    match goal with |- bind ?m _ = bind ?m _ => destruct m as [[[? ?] ?]|]; cbn [bind]; [|reflexivity] end.
    repeat (rewrite ?H;
            match goal with
            | |- bind ?m _ = bind ?m _ => destruct m as [[[? ?] ?]|]; cbn [bind]; [|reflexivity]
            | |- bind ?m _ = bind ?m _ => destruct m; cbn [bind]; [|reflexivity]
            end).
    reflexivity.
  - rewrite (plain_types_ext _ _ _ _ _ _ _ H). reflexivity.
Qed.
Lemma column_option_lost E fresh enc d k x i :
  smem k [u "name"; u "type"; u "nullable"; u "primary_key"; u "auto_increment"; u "comment"; u "default"] = false ->
  create_column E fresh enc (JDict ((k, x) :: d)) i = create_column E fresh enc (JDict d) i.
Proof.
  intro H. assert (N : forall s, smem s [u "name"; u "type"; u "nullable"; u "primary_key"; u "auto_increment"; u "comment"; u "default"] = true ->
      dget ((k, x) :: d) s = dget d s).
  { intros s Hs. apply dget_other. destruct (seqb s k) eqn:S; [|reflexivity]. apply seqb_eq in S. subst. congruence. }
  apply create_column_ext.
  - intros s Hs. apply N. apply smem_In in Hs. apply smem_In. unfold col_keys in Hs. cbn [In] in *. tauto.
  - intro f. unfold default_text, get. rewrite (N (u "default") eq_refl). reflexivity.
Qed.

(** Defaults (C70). *)
Lemma default_falsy E fresh enc d v i : truthy v = false -> dget d (u "default") = None ->
  create_column E fresh enc (JDict ((u "default", v) :: d)) i = create_column E fresh enc (JDict d) i.
Proof.
  intros F N. apply create_column_ext.
  - intros s Hs. apply dget_other. destruct (seqb s (u "default")) eqn:S; [|reflexivity]. apply seqb_eq in S. subst s. discriminate Hs.
  - intro f. unfold default_text, get. rewrite N. change (dget ((u "default", v) :: d) (u "default")) with (Some v).
    cbn [bind]. rewrite F. reflexivity.
Qed.
Lemma element_nonempty t parts : element_type t = Some parts -> parts <> [].
Proof. unfold element_type. repeat match goal with |- context [if ?b then _ else _] => destruct b end; intros [= <-]; discriminate. Qed.
Lemma default_bad E fresh enc d v i : dget d (u "default") = Some v -> truthy v = true ->
  (forall s, default_of v <> JStr s) -> exists e, create_column E fresh enc (JDict d) i = Err e.
Proof.
  intros D T S. destruct (create_column E fresh enc (JDict d) i) as [p|e] eqn:H; [exfalso|eauto].
  assert (DT : forall f, default_text (JDict d) f = do t <- f (default_of v); Ok (u " DEFAULT " ++ t)).
  { intro f. unfold default_text, get. rewrite D. cbn [bind]. rewrite T. reflexivity. }
  unfold create_column in H.
  invp H as ai by B1. invp H as pk by B2. invp H as name by B3. invp H as ty by B4. invp H as nul by B5. invp H as com by B6. invp H as cm by B7.
  destruct (dget enc name) as [o|].
  - invp H as tys by B8. destruct tys as [|[t0 v0] tys]; [discriminate H|].
    destruct (element_type (upper t0)) as [parts|] eqn:EP; [|discriminate H]. invp H as key by B9.
    pose proof (element_nonempty _ _ EP) as NP. destruct parts as [|[k v1] parts]; [congruence|].
    cbn [enc_parts enc_types] in H. rewrite DT in H.
    assert (X : exists e, aes_default E key (default_of v) = Err e).
    { unfold aes_default. destruct (default_of v) eqn:DV; try (eexists; reflexivity). exfalso. apply (S s eq_refl). }
    destruct X as (e & X). rewrite X in H. discriminate H.
  - invp H as tys by B8. destruct tys as [|[t0 v0] tys]; [discriminate H|]. cbn [plain_types] in H. rewrite DT in H.
    assert (X : exists e, as_str (default_of v) = Err e).
    { unfold as_str. destruct (default_of v) eqn:DV; try (eexists; reflexivity). exfalso. apply (S s eq_refl). }
    destruct X as (e & X). rewrite X in H. discriminate H.
Qed.
Lemma default_encrypted E fresh enc d v s o i ds n c j : dget d (u "default") = Some v -> truthy v = true ->
  default_of v = JStr s -> create_column E fresh enc (JDict d) i = Ok (ds, n, c, j) -> dget enc n = Some o ->
  exists t txt r, aes_encrypt (e_P E) (c_key c) s = Ok t /\ ds = (fresh i, txt ++ u " DEFAULT " ++ t) :: r.
Proof.
  intros D T S H Ho.
  assert (DT : forall f, default_text (JDict d) f = do t <- f (default_of v); Ok (u " DEFAULT " ++ t)).
  { intro f. unfold default_text, get. rewrite D. cbn [bind]. rewrite T. reflexivity. }
  unfold create_column in H.
  invp H as ai by B1. invp H as pk by B2. invp H as name by B3. invp H as ty by B4. invp H as nul by B5. invp H as com by B6. invp H as cm by B7.
  destruct (dget enc name) as [o'|] eqn:Ho'.
  - invp H as tys by B8. destruct tys as [|[t0 v0] tys]; [discriminate H|].
    destruct (element_type (upper t0)) as [parts|] eqn:EP; [|discriminate H]. invp H as key by B9.
    pose proof (element_nonempty _ _ EP) as NP. destruct parts as [|[k v1] parts]; [congruence|].
    cbn [enc_parts enc_types] in H. rewrite DT, S in H. unfold aes_default at 1 in H.
    destruct (aes_encrypt (e_P E) key s) as [t|] eqn:A; [|discriminate H]. cbn [bind] in H.
    destruct (enc_type_text t0 v0 v1) as [ty1|]; [|discriminate H]. cbn [bind] in H.
    destruct (enc_types E (JDict d) key (fresh i) nul _ v1 tys) as [r1|]; [|discriminate H]. cbn [bind] in H.
    match type of H with context [enc_parts ?a ?b ?c ?d ?e ?f ?g ?h ?i] =>
      destruct (enc_parts a b c d e f g h i) as [[[r2 e2] i2]|]; [|discriminate H] end. cbn [bind] in H.
    repeat (match type of H with
      | bind ?m _ = _ => destruct m as [[[? ?] ?]|]; cbn [bind] in H; [|discriminate H]
      | bind ?m _ = _ => destruct m; cbn [bind] in H; [|discriminate H]
      end).
    injection H as <- <- <- <-. cbn [c_key app]. eexists t, _, _. split; [exact A|].
    match goal with |- (_, ty1 ++ ?x ++ ?y ++ _) :: _ = _ => f_equal; f_equal;
      instantiate (1 := ty1 ++ x ++ y); rewrite <- !app_assoc; reflexivity end.
  - invp H as tys by B8. destruct (plain_types E (JDict d) name nul _ tys) as [[? ?]|]; [|discriminate H].
    cbn [bind] in H. destruct tys; [discriminate H|]. injection H as <- <- <- <-. congruence.
Qed.
