(** Proofs about the whole system (C81). *)
From Coq Require Import String Ascii List NArith ZArith QArith Bool Arith Lia ZifyBool ZifyNat ZifyN.
From Verif Require Import Base BaseProof CryptoModel CryptoSpec JsonModel RewriteModel WidthModel SqlSpec EncSpec StmtSpec
  SimProof StmtProof UpdateProof SelectProof HistoryProof CreateModel CreateSpec CreateProof DeclProof
  MetaModel MetaSpec MetaProof ExecModel ExecSpec ExecProof SysSpec.
Import ListNotations.
Open Scope Z_scope.

(** ** Reading the text of CREATE TABLE *)
(** The depth after a text without a comma outside parentheses. *)
Fixpoint level (depth : nat) (s : pystr) : option nat :=
  match s with
  | [] => Some depth
  | c :: r =>
    if N.eqb c 40 then level (S depth) r
    else if N.eqb c 41 then match depth with O => None | S d => level d r end
    else if (N.eqb c 44 && Nat.eqb depth 0)%bool then None
    else level depth r
  end.
Lemma level_app d s s' d1 : level d s = Some d1 -> level d (s ++ s') = level d1 s'.
Proof.
  revert d. induction s as [|c r IH]; intros d H; cbn in H |- *; [congruence|].
  destruct (N.eqb c 40); [apply IH, H|]. destruct (N.eqb c 41); [destruct d; [discriminate|apply IH, H]|].
  destruct (N.eqb c 44 && Nat.eqb d 0)%bool; [discriminate|apply IH, H].
Qed.
Lemma definitions_level r : forall s d cur d1, level d s = Some d1 ->
  definitions d cur (s ++ r) = definitions d1 (rev s ++ cur) r.
Proof.
  induction s as [|c s IH]; intros d cur d1 H; cbn [level definitions app rev] in *; [injection H as ->; reflexivity|].
  rewrite <- app_assoc. cbn [app].
  destruct (N.eqb c 40); [apply IH, H|]. destruct (N.eqb c 41); [destruct d; [discriminate|apply IH, H]|].
  destruct (N.eqb c 44 && Nat.eqb d 0)%bool; [discriminate|apply IH, H].
Qed.
Definition flat (s : pystr) : Prop := level 0 s = Some 0%nat.
Lemma flat_app a b : flat a -> flat b -> flat (a ++ b).
Proof. unfold flat. intros A B. rewrite (level_app _ _ _ _ A). exact B. Qed.
Lemma quiet_level s : (forall c, In c s -> c <> 40%N /\ c <> 41%N /\ c <> 44%N) -> forall d, level d s = Some d.
Proof.
  induction s as [|c s IH]; intros H d; [reflexivity|]. cbn [level].
  destruct (H c (or_introl eq_refl)) as (A & B & C).
  apply N.eqb_neq in A, B, C. rewrite A, B, C. cbn [andb]. apply IH. intros x X. apply H. right. exact X.
Qed.
Lemma definitions_join tail : forall ds, ds <> [] -> Forall flat ds -> definitions 0 [] (join (u ",") ds ++ u ")" ++ tail) = ds.
Proof.
  induction ds as [|d ds IH]; intros N F; [congruence|]. inversion F as [|? ? F1 F2]; subst.
  destruct ds as [|d' ds].
  - cbn [join]. rewrite (definitions_level _ d 0 [] 0%nat F1), app_nil_r. cbn. rewrite rev_involutive. reflexivity.
  - change (join (u ",") (d :: d' :: ds)) with (d ++ u "," ++ join (u ",") (d' :: ds)). rewrite <- !app_assoc.
    rewrite (definitions_level _ d 0 [] 0%nat F1), app_nil_r.
    change (definitions 0 (rev d) (u "," ++ join (u ",") (d' :: ds) ++ u ")" ++ tail))
      with (rev (rev d) :: definitions 0 [] (join (u ",") (d' :: ds) ++ u ")" ++ tail)).
    rewrite rev_involutive, IH; [reflexivity|discriminate|exact F2].
Qed.

Lemma ident_quiet c : ident_char c = true -> c <> 32%N /\ c <> 40%N /\ c <> 41%N /\ c <> 44%N.
Proof. intro H. repeat split; intros ->; discriminate H. Qed.
Lemma start_quiet c : ident_start c = true -> c <> 32%N /\ c <> 40%N /\ c <> 41%N /\ c <> 44%N.
Proof. intro H. repeat split; intros ->; discriminate H. Qed.
Lemma name_quiet s : valid_name s = true -> forall c, In c s -> c <> 32%N /\ c <> 40%N /\ c <> 41%N /\ c <> 44%N.
Proof.
  destruct s as [|a s]; [discriminate|]. cbn [valid_name]. intro H. apply andb_true_iff in H as (H1 & H2).
  intros c [<-|X]; [apply start_quiet, H1|]. rewrite forallb_forall in H2. apply ident_quiet, H2, X.
Qed.
Lemma name_level s : valid_name s = true -> forall d, level d s = Some d.
Proof. intro V. apply quiet_level. intros c X. destruct (name_quiet s V c X) as (_ & A). exact A. Qed.
Lemma int_level z d : level d (str_int z) = Some d.
Proof. apply quiet_level. intros c X. destruct (str_int_char z c X) as [->|?]; lia. Qed.
Lemma paren_flat s : level 1 s = Some 1%nat -> flat (u "(" ++ s ++ u ")").
Proof. unfold flat. intro H. change (level 1 (s ++ u ")") = Some 0%nat). rewrite (level_app _ _ _ _ H). reflexivity. Qed.
Lemma names_level : forall l, (forall n, In n l -> valid_name n = true) -> level 1 (join (u ",") l) = Some 1%nat.
Proof.
  induction l as [|a [|b l] IH]; intro H; [reflexivity|apply name_level, H; left; reflexivity|].
  change (join (u ",") (a :: b :: l)) with (a ++ u "," ++ join (u ",") (b :: l)).
  rewrite (level_app 1 a _ 1%nat) by (apply name_level, H; left; reflexivity).
  change (level 1 (u "," ++ join (u ",") (b :: l))) with (level 1 (join (u ",") (b :: l))).
  apply IH. intros n X. apply H. right. exact X.
Qed.
Lemma first_word_name s t : valid_name s = true -> (exists x, t = 32%N :: x \/ t = 40%N :: x) -> first_word (s ++ t) = s.
Proof.
  intros V H. pose proof (name_quiet s V) as Q. clear V.
  induction s as [|c s IH]; cbn [app first_word].
  - destruct H as (x & [->| ->]); reflexivity.
  - destruct (Q c (or_introl eq_refl)) as (A & B & _). apply N.eqb_neq in A, B. rewrite A, B. cbn [orb].
    f_equal. apply IH. intros y Y. apply Q. right. exact Y.
Qed.

Lemma nullable_flat col : flat (nullable_of col).
Proof.
  unfold nullable_of. destruct col; try reflexivity. destruct (dget d (u "nullable")); [|reflexivity].
  destruct (truthy j); reflexivity.
Qed.
Lemma key_flat col : flat (key_text col).
Proof. unfold key_text. destruct (asked col "primary_key"), (asked col "auto_increment"); reflexivity. Qed.
Lemma width_level ty n : valid_name ty = true -> forall k m, get_type_and_len ty n = (k, m) -> forall d, level d k = Some d.
Proof.
  intros V k m. unfold get_type_and_len. destruct (_ || _)%bool; [|intros [= <- <-]; apply name_level, V].
  destruct (Nat.ltb _ _); intros [= <- _] d; [reflexivity|apply name_level, V].
Qed.
Lemma phys_flat ci ty arg : valid_name ty = true -> flat (phys_type ci ty arg).
Proof.
  intro V. unfold phys_type. destruct (smem ci [FUZ; SM4C]); [reflexivity|]. destruct (seqb ci ARI); [reflexivity|].
  destruct (seqb ci OPEC); [destruct (seqb ty (u "int")); reflexivity|].
  destruct (seqb ty (u "int")); [reflexivity|]. destruct (smem ty [u "float"; u "double"]); [reflexivity|].
  destruct arg; try reflexivity. destruct (get_type_and_len ty (Z.to_nat z)) as [k n] eqn:G.
  apply flat_app; [exact (width_level ty _ V k n G 0%nat)|]. apply paren_flat, int_level.
Qed.
Lemma arg_flat E arg : type_arg arg -> flat (if truthy arg then u "(" ++ py_str E arg ++ u ")" else []).
Proof.
  intros [->|(z & ->)]; [reflexivity|]. destruct (truthy (JInt z)); [|reflexivity]. apply paren_flat, int_level.
Qed.
(** A declaration is flat and begins with the name of its column. *)
Lemma decl_flat E col k ty arg c : valid_name ty = true -> type_arg arg -> (forall n, In n (phys_of k c) -> valid_name n = true) ->
  forall d, In d (decl_of E col k ty arg c) -> flat (fst d ++ u " " ++ snd d) /\ valid_name (fst d) = true.
Proof.
  intros V A N d H. unfold decl_of, phys_of in *.
  assert (G : forall n x, valid_name n = true -> flat x -> flat (n ++ u " " ++ x)).
  { intros n x Vn X. apply flat_app; [apply (name_level n Vn)|]. apply flat_app; [reflexivity|exact X]. }
  destruct (c_plain c).
  - destruct H as [<-|[]]. cbn [fst snd]. specialize (N k (or_introl eq_refl)). split; [|exact N].
    apply (G _ _ N). apply flat_app; [apply (name_level ty V)|]. apply flat_app; [apply arg_flat, A|].
    apply flat_app; [apply nullable_flat|apply key_flat].
  - apply in_map_iff in H as (cn & <- & I). cbn [fst snd]. specialize (N (snd cn) (in_map snd _ _ I)). split; [|exact N].
    apply (G _ _ N). apply flat_app; [apply phys_flat, V|]. apply flat_app; [apply nullable_flat|].
    destruct (seqb (fst cn) SYM); [apply key_flat|reflexivity].
Qed.

Lemma until_paren_name s t : valid_name s = true -> until_paren (s ++ u "(" ++ t) = s.
Proof.
  intro V. change (u "(" ++ t) with (40%N :: t). apply until_paren_app. intro X.
  destruct (name_quiet s V _ X) as (_ & A & _). congruence.
Qed.

Lemma read_create_text anon (ds : list (pystr * pystr)) ks tail : valid_name anon = true -> ds <> [] ->
  (forall d, In d ds -> flat (fst d ++ u " " ++ snd d) /\ valid_name (fst d) = true /\ ~ In (fst d) constraint_words) ->
  (forall k, In k ks -> flat k /\ In (first_word k) constraint_words) ->
  read_create (create_text anon ds ks tail) = Some (anon, map fst ds).
Proof.
  intros V N D K. unfold read_create, create_text. set (p := u "CREATE TABLE IF NOT EXISTS ").
  rewrite firstn_app, firstn_all, Nat.sub_diag, app_nil_r, seqb_refl.
  rewrite skipn_app, skipn_all, Nat.sub_diag, skipn_O, app_nil_l.
  rewrite (until_paren_name anon _ V). f_equal. f_equal.
  assert (SK : forall t, skipn (S (length anon)) (anon ++ u "(" ++ t) = t).
  { intro t. change (u "(" ++ t) with ([40%N] ++ t). rewrite app_assoc.
    replace (S (length anon)) with (length (anon ++ [40%N])) by (rewrite app_length; cbn; lia).
    rewrite skipn_app, skipn_all, Nat.sub_diag. reflexivity. }
  rewrite SK.
  set (dt := map (fun d => fst d ++ u " " ++ snd d) ds).
  assert (J : join (u ",") dt ++ match ks with [] => [] | _ => u "," ++ join (u ",") ks end ++ u ")" ++ tail
              = join (u ",") (dt ++ ks) ++ u ")" ++ tail).
  { rewrite app_assoc. f_equal. assert (Nd : dt <> []) by (unfold dt; destruct ds; [congruence|discriminate]).
    clearbody dt. clear -Nd. destruct ks as [|k ks]; [rewrite !app_nil_r; reflexivity|].
    induction dt as [|a [|b l] IH]; [congruence|reflexivity|].
    change (join (u ",") (a :: b :: l)) with (a ++ u "," ++ join (u ",") (b :: l)).
    change ((a :: b :: l) ++ k :: ks) with (a :: (b :: l) ++ k :: ks).
    change (join (u ",") (a :: (b :: l) ++ k :: ks)) with (a ++ u "," ++ join (u ",") ((b :: l) ++ k :: ks)).
    rewrite <- IH by discriminate. rewrite <- !app_assoc. reflexivity. }
  rewrite J, definitions_join.
  - rewrite map_app, filter_app. unfold dt. rewrite map_map.
    assert (A : filter (fun w => negb (smem w constraint_words)) (map (fun x => first_word (fst x ++ u " " ++ snd x)) ds) = map fst ds).
    { clear -D. induction ds as [|d ds IH]; [reflexivity|]. cbn [map filter].
      destruct (D d (or_introl eq_refl)) as (_ & Vd & Nd).
      rewrite first_word_name; [|exact Vd|exists (snd d); left; reflexivity].
      assert (S : smem (fst d) constraint_words = false).
      { destruct (smem (fst d) constraint_words) eqn:S; [|reflexivity]. apply smem_In in S. contradiction. }
      match goal with |- context [smem ?x constraint_words] => replace (smem x constraint_words) with false by (symmetry; exact S) end.
      cbn [negb]. f_equal. apply IH. intros x X. apply D. right. exact X. }
    assert (B : filter (fun w => negb (smem w constraint_words)) (map first_word ks) = []).
    { clear -K. induction ks as [|k ks IH]; [reflexivity|]. cbn [map filter].
      destruct (K k (or_introl eq_refl)) as (_ & I). apply smem_In in I. rewrite I. cbn [negb]. apply IH.
      intros x X. apply K. right. exact X. }
    exact (eq_trans (f_equal2 (@app pystr) A B) (app_nil_r _)).
  - unfold dt. destruct ds; [congruence|discriminate].
  - apply Forall_app. split; apply Forall_forall.
    + intros x X. unfold dt in X. apply in_map_iff in X as (d & <- & I). apply (D d I).
    + intros x X. apply (K x X).
Qed.

(** ** Constraints *)
Lemma key_column_phys kw m k n : wf_table kw m -> key_column (t_cols m) k n -> valid_name n = true.
Proof.
  intros W (c & G & H). destruct (wf_pnames kw m W n) as (V & _); [|exact V].
  unfold phys. apply in_concat. exists (phys_of k c). split.
  - apply in_map_iff. exists (k, c). split; [reflexivity|apply dget_In, G].
  - unfold phys_of. destruct (c_plain c); [left; congruence|].
    apply dget_In in H. exact (in_map snd _ _ H).
Qed.
Lemma enc_columns_names kw m cs ks ns : wf_table kw m -> names_of cs ks -> get_enc_columns cs (t_cols m) = Ok ns ->
  forall n, In n ns -> valid_name n = true.
Proof.
  intros W N H n I. apply (enc_columns_ok _ _ _ N) in H.
  destruct (Forall2_In_r _ _ _ H n I) as (k & _ & K). exact (key_column_phys kw m k n W K).
Qed.
Lemma con_text_flat o : (forall s, o = Some s -> valid_name s = true) -> flat (con_text o).
Proof.
  intro V. destruct o as [[|c s]|]; try reflexivity. cbn [con_text].
  apply flat_app; [reflexivity|]. apply flat_app; [apply (name_level _ (V _ eq_refl))|reflexivity].
Qed.
Lemma con_word o rest w : (forall s, o = Some s -> valid_name s = true) -> first_word rest = w -> In w constraint_words ->
  In (first_word (con_text o ++ rest)) constraint_words.
Proof.
  intros V R I. destruct o as [[|c s]|]; cbn [con_text app]; try (rewrite R; exact I).
  right. right. left. reflexivity.
Qed.
Lemma con_flat kw c m meta k : named_con c -> wf_table kw m ->
  (forall M t m', meta = Some M -> dget M t = Some m' -> wf_table kw m' /\ valid_name (t_anon m') = true) ->
  constraint_key c (t_cols m) meta = Ok k -> flat k /\ In (first_word k) constraint_words.
Proof.
  intros [(o & cs & ks & V & N & ->)|(o & cs & ks & t & rs & rks & more & V & N & N' & ->)] W WM H.
  - rewrite primary_key_eq in H. invp H as ns by B. injection H as <-. split.
    + apply flat_app; [apply con_text_flat, V|].
      change (flat (u "PRIMARY KEY" ++ (u "(" ++ join (u ",") ns ++ u ")"))). apply flat_app; [reflexivity|].
      apply paren_flat, names_level. exact (enc_columns_names kw m cs ks ns W N B).
    + apply (con_word o _ (u "PRIMARY") V); [reflexivity|left; reflexivity].
  - rewrite foreign_key_eq in H. invp H as M by B1. invp H as m' by B2. invp H as rns by B3. invp H as ns by B4. injection H as <-.
    destruct meta as [M'|]; [|discriminate]. injection B1 as ->.
    unfold dgetE in B2. destruct (dget M t) as [m''|] eqn:G; [|discriminate]. injection B2 as ->.
    destruct (WM M t m' eq_refl G) as (W' & VA). split.
    + apply flat_app; [apply con_text_flat, V|].
      change (flat (u "FOREIGN KEY" ++ u "(" ++ join (u ",") ns ++ u ")" ++ u " REFERENCES " ++ t_anon m' ++ (u "(" ++ join (u ",") rns ++ u ")"))).
      apply flat_app; [reflexivity|].
      replace (u "(" ++ join (u ",") ns ++ u ")" ++ u " REFERENCES " ++ t_anon m' ++ (u "(" ++ join (u ",") rns ++ u ")"))
        with ((u "(" ++ join (u ",") ns ++ u ")") ++ u " REFERENCES " ++ t_anon m' ++ (u "(" ++ join (u ",") rns ++ u ")"))
        by (rewrite <- !app_assoc; reflexivity).
      apply flat_app; [apply paren_flat, names_level; exact (enc_columns_names kw m cs ks ns W N B4)|].
      apply flat_app; [reflexivity|]. apply flat_app; [apply (name_level _ VA)|].
      apply paren_flat, names_level. exact (enc_columns_names kw m' rs rks rns W' N' B3).
    + apply (con_word o _ (u "FOREIGN") V); [reflexivity|right; left; reflexivity].
Qed.

(** ** The server and the plaintext database create the tables that the metadata describes *)
Lemma distinct_ok l : NoDup l -> distinct l = true.
Proof.
  induction 1 as [|x l N D IH]; [reflexivity|]. cbn [distinct]. rewrite IH, andb_true_r.
  destruct (smem x l) eqn:S; [|reflexivity]. apply smem_In in S. contradiction.
Qed.
Lemma concat_decl_in E : forall (l : list (json * def)) (kcs : list (pystr * colmeta)) d,
  In d (concat (map (fun x => decl_of E (fst (fst x)) (fst (fst (snd (fst x)))) (snd (fst (snd (fst x)))) (snd (snd (fst x))) (snd (snd x))) (combine l kcs))) ->
  exists col x kc, In (col, x) l /\ In ((col, x), kc) (combine l kcs) /\ In d (decl_of E col (fst (fst x)) (snd (fst x)) (snd x) (snd kc)).
Proof.
  intros l kcs d H. apply in_concat in H as (ds & H & I). apply in_map_iff in H as ([[col x] kc] & <- & J).
  exists col, x, kc. split; [exact (in_combine_l _ _ _ _ J)|]. split; [exact J|exact I].
Qed.
Lemma combine_same {A B C} (f : B -> C) (g : A -> C) : forall (l : list A) (m : list B) a b,
  map g l = map f m -> In (a, b) (combine l m) -> g a = f b.
Proof.
  induction l as [|x l IH]; intros [|y m] a b E H; cbn in *; try tauto; try discriminate.
  injection E as E1 E2. destruct H as [[= <- <-]|H]; [exact E1|exact (IH m a b E2 H)].
Qed.

Lemma decl_names E col k ty arg c : map fst (decl_of E col k ty arg c) = phys_of k c.
Proof. unfold decl_of, phys_of. destruct (c_plain c); [reflexivity|]. rewrite map_map. reflexivity. Qed.

Lemma create_read kw E fresh anon meta j enc q n m t cols cons (defs : list def) :
  rewrite_table E fresh anon meta j enc = Ok (q, n, m) -> create_of j t cols cons ->
  Forall2 (fun col x => col_def col (fst (fst x)) (snd (fst x)) (snd x)) cols defs ->
  defs <> [] -> NoDup (map (fun x => fst (fst x)) defs) -> Forall no_default cols -> Forall named_con cons ->
  (forall x, In x defs -> fresh_name kw (fst (fst x)) /\ valid_name (snd (fst x)) = true /\ type_arg (snd x)) ->
  (forall a, fresh_name kw (fresh a)) -> (forall a b, fresh a = fresh b -> a = b) ->
  (forall a, ~ In (fresh a) (map (fun x => fst (fst x)) defs)) ->
  (forall x o, In x defs -> dget enc (fst (fst x)) = Some o -> asked o "sm4" = false /\
     (snd (fst x) = u "int" \/ In (snd (fst x)) [u "char"; u "varchar"] /\ asked o "arithmetic" = false)) ->
  valid_name anon = true ->
  (forall M t' m', meta = Some M -> dget M t' = Some m' -> wf_table kw m' /\ valid_name (t_anon m') = true) ->
  read_create q = Some (anon, phys m).
Proof.
  intros H C D NE N ND NC Df Fr Inj Av Sup VA WM.
  destruct (create_wf kw _ _ _ _ _ _ _ _ _ _ _ _ _ H C D N Inj Av) as (P1 & W).
  specialize (W (fun x X => proj1 (proj1 (Df x X))) (fun a => proj1 (Fr a))).
  destruct (create_shape _ _ _ _ _ _ _ _ _ _ _ _ H C) as (_ & _ & ds & i & ks & tail & H1 & H2 & ->).
  assert (HT : forall x, In x defs -> dget enc (d_name x) <> None -> In (snd (fst x)) [u "int"; u "varchar"; u "char"; u "float"; u "double"]).
  { intros x X G. unfold d_name in G. destruct (dget enc (fst (fst x))) as [o|] eqn:G'; [|congruence].
    destruct (Sup x o X G') as (_ & [->|([<-|[<-|[]]] & _)]); cbn; tauto. }
  destruct (create_columns_text E fresh enc cols defs [] 0 ds (t_cols m) i D ND HT N H1) as (new & Ek & Kn & Ed).
  cbn [app] in Ek. rewrite <- Ek in Ed, Kn. clear new Ek.
  destruct (create_columns_ok E fresh enc cols defs [] 0 ds (t_cols m) i D N H1) as (ents & Ek & Ed2 & F & Cn & L).
  destruct (described_keys _ _ _ _ F) as (K1 & K2). cbn [app] in Ek.
  assert (PH : map fst ds = phys m) by (rewrite Ed2, K2; unfold phys; rewrite Ek; reflexivity).
  rewrite <- PH. apply read_create_text; [exact VA| | |].
  - intros ->. cbn [map] in PH. destruct defs as [|x defs]; [congruence|].
    assert (X : In (d_name x) (dkeys (t_cols m))) by (rewrite Kn; left; reflexivity).
    apply in_map_iff in X as ([k c] & Ex & I). cbn [fst] in Ex.
    rewrite Ek in I. apply in_map_iff in I as ([kc ds'] & Ekc & Ie). cbn [fst] in Ekc. subst kc.
    destruct (Forall2_In_r _ _ _ F _ Ie) as (dd & Hd & Nm & Dd). cbn [fst snd] in *.
    assert (PO : phys_of k c = []).
    { destruct (phys_of k c) as [|p l] eqn:PO; [reflexivity|]. exfalso.
      assert (Y : In p (phys m)); [|rewrite <- PH in Y; exact Y].
      unfold phys. apply in_concat. exists (phys_of k c). split; [|rewrite PO; left; reflexivity].
      apply in_map_iff. exists (k, c). split; [reflexivity|]. rewrite Ek. apply in_map_iff. exists (k, c, ds'). auto. }
    unfold phys_of in PO. destruct (c_plain c) eqn:PL; [discriminate|].
    destruct Dd as (_ & _ & Dd). destruct (dget enc (d_name dd)) as [o|].
    + destruct Dd as (_ & _ & Wp & _). destruct (c_enc c); [|discriminate PO].
      cbn in Wp. unfold wanted_parts, base_parts in Wp. destruct (smem _ _); discriminate Wp.
    + destruct Dd as (Dd & _). congruence.
  - intros d Hd. rewrite Ed in Hd. apply (concat_decl_in E (combine cols defs)) in Hd as (col & x & [k c] & I1 & I2 & I3).
    cbn [snd] in I3. apply in_combine_r in I1. destruct (Df x I1) as ((Vx & Nx) & Vt & Va).
    assert (Ik : In (k, c) (t_cols m)) by exact (in_combine_r _ _ _ _ I2).
    assert (Ex : fst (fst x) = k).
    { assert (LEN : length cols = length defs) by (clear -D; induction D; cbn; congruence).
      pose proof (combine_same fst (fun cx : json * def => d_name (snd cx)) (combine cols defs) (t_cols m) (col, x) (k, c)) as Q.
      cbn [snd fst] in Q. unfold d_name in Q. apply Q; [|exact I2].
      unfold dkeys in Kn. rewrite Kn. clear -LEN. revert defs LEN.
      induction cols as [|a cols IH]; intros [|b defs] LEN; cbn in *; try discriminate; [reflexivity|].
      f_equal. apply IH. lia. }
    rewrite Ex in *.
    assert (PN : forall n, In n (phys_of k c) -> In n (phys m)).
    { intros n' I. unfold phys. apply in_concat. exists (phys_of k c). split; [|exact I].
      apply in_map_iff. exists (k, c). auto. }
    destruct (decl_flat E col k (snd (fst x)) (snd x) c Vt Va (fun n' I => proj1 (wf_pnames kw m W n' (PN n' I))) d I3) as (Fd & Vd).
    split; [exact Fd|]. split; [exact Vd|].
    assert (Id : In (fst d) (phys_of k c)) by (rewrite <- (decl_names E col k (snd (fst x)) (snd x) c); exact (in_map fst _ _ I3)).
    unfold phys_of in Id. destruct (c_plain c) eqn:PL.
    + destruct Id as [<-|[]]. exact Nx.
    + assert (Z : In (fst d) (concat (map (fun e => enc_names (snd (fst e))) ents))).
      { rewrite Ek in Ik. apply in_map_iff in Ik as (e & Ee & Ie). apply in_concat. exists (enc_names c).
        split; [apply in_map_iff; exists e; rewrite Ee; auto|]. unfold enc_names. rewrite PL. exact Id. }
      rewrite Cn in Z. apply in_map_iff in Z as (a & <- & _). apply (Fr a).
  - intros k Hk. clear -H2 Hk W WM NC.
    revert ks H2 Hk. induction NC as [|c r Nc NC IH]; cbn [mapM]; intros ks H Hk.
    + injection H as <-. destruct Hk.
    + invp H as x by B. invp H as xs by B1. injection H as <-. destruct Hk as [<-|Hk].
      * exact (con_flat kw c m meta x Nc W WM B).
      * exact (IH xs eq_refl Hk).
Qed.

(** ** The invariant *)
Lemma db_meta_get d db t : dget (db_meta d db) t = in_memory d db t.
Proof.
  unfold in_memory, db_meta. destruct (self_meta d) as [|e r]; [reflexivity|].
  unfold store, dbmeta, dict in *. destruct (dget (e :: r) db); reflexivity.
Qed.
Lemma db_meta_nodup d db : Inv d -> NoDup (dkeys (db_meta d db)).
Proof.
  intro I. pose proof (inv_nodup d I db) as N. unfold db_meta. destruct (self_meta d) as [|e r]; [constructor|].
  unfold store, dbmeta, dict in *. destruct (dget (e :: r) db) as [T|]; [apply N; reflexivity|constructor].
Qed.
Record SInv (kw : pystr -> bool) (E : env) (d : delta) (S P : dbs) : Prop := {
  si_inv : Inv d;
  si_table : forall db t m, in_memory d db t = Some m -> wf_table kw m;
  si_supp : forall db t m k c, in_memory d db t = Some m -> dget (t_cols m) k = Some c -> supported c;
  si_inj : forall db t t' m m', in_memory d db t = Some m -> in_memory d db t' = Some m' -> t_anon m = t_anon m' -> t = t';
  si_anon : forall db t m, in_memory d db t = Some m -> valid_name (t_anon m) = true;
  si_rel : forall db t m, in_memory d db t = Some m ->
    exists pt et, dget (db_of P db) t = Some pt /\ dget (db_of S db) (t_anon m) = Some et /\ tab_rel E m pt et;
  si_known : forall db t, dget (db_of P db) t <> None -> in_memory d db t <> None }.
Lemma si_meta kw E d S P db : SInv kw E d S P -> wf_meta kw (db_meta d db).
Proof.
  intro I. constructor.
  - apply db_meta_nodup, (si_inv _ _ _ _ _ I).
  - intros t m. rewrite db_meta_get. apply (si_table _ _ _ _ _ I).
  - intros t m k c. rewrite db_meta_get. apply (si_supp _ _ _ _ _ I).
  - intros t t' m m'. rewrite !db_meta_get. apply (si_inj _ _ _ _ _ I).
Qed.
Lemma si_db_rel kw E d S P db : SInv kw E d S P -> db_rel E (db_meta d db) (db_of P db) (db_of S db).
Proof. intros I t m. rewrite db_meta_get. apply (si_rel _ _ _ _ _ I). Qed.
Lemma db_of_set S n D n' : db_of (dset S n D) n' = if seqb n' n then D else db_of S n'.
Proof. unfold db_of. rewrite dget_dset. destruct (seqb n' n); reflexivity. Qed.

(** ** The effect of a statement *)
Lemma the_table_eq D t n tb : the_table D t = Ok (n, tb) -> dget D n = Some tb.
Proof. unfold the_table. destruct t; try discriminate. destruct (dget D s) eqn:G; [|discriminate]. intros [= <- <-]. exact G. Qed.
Lemma exec_effect kw D j D' l : exec kw D j = Ok (D', l) ->
  (forall t, dget D' t <> None -> dget D t <> None) /\ (l = [] \/ D' = D).
Proof.
  assert (K : forall n tb tb', dget D n = Some tb -> forall t, dget (dset D n tb') t <> None -> dget D t <> None).
  { intros n tb tb' G t. rewrite dget_dset. destruct (seqb t n) eqn:S; [|auto]. apply seqb_eq in S. subst. congruence. }
  unfold exec. destruct j; try discriminate.
  destruct (dget d (u "insert")) as [t|]; [|destruct (dget d (u "update")) as [t|]; [|destruct (dget d (u "delete")) as [t|]; [|
    destruct (dget d (u "select")) as [sel|]; [|discriminate]]]].
  - intro H. invp H as [n tb] by B. apply the_table_eq in B.
    destruct (dget d (u "columns")) as [[]|]; try discriminate.
    destruct (dget d (u "query")) as [[| | | | | |[|[k [| | | | |vals|]] [|]]]|]; try discriminate.
    destruct (seqb k (u "select")); [|discriminate].
    invp H as tb' by B1. injection H as <- <-. split; [exact (K n tb tb' B)|left; reflexivity].
  - intro H. invp H as [n tb] by B. apply the_table_eq in B. destruct (dget d (u "set")) as [[]|]; try discriminate.
    invp H as tb' by B1. injection H as <- <-. split; [exact (K n tb tb' B)|left; reflexivity].
  - intro H. invp H as [n tb] by B. apply the_table_eq in B.
    invp H as tb' by B1. injection H as <- <-. split; [exact (K n tb tb' B)|left; reflexivity].
  - destruct (dget d (u "from")) as [t|]; [|discriminate]. intro H. invp H as [n tb] by B. invp H as rs by B1.
    injection H as <- <-. split; [auto|right; reflexivity].
Qed.

Lemma frag_known kw E M j : frag_stmt kw E M j -> (exists t m, dget M t = Some m) /\
  (forall D, plain_server kw D j = exec kw D j) /\ no_drop j /\ type_of j <> None.
Proof.
  intros [t m cs vs Hm _ _ _|t m sets w Hm _ _ _|t m w Hm _|t m sel w o l off Hm _ _ _ _]; (split; [eauto|]);
    try (destruct w); try (destruct o, l, off); (split; [reflexivity|split; [reflexivity|discriminate]]).
Qed.
Lemma no_drop_exec kw D j : no_drop j -> server kw D (SJson j) = exec kw D j.
Proof.
  unfold no_drop, server, exec_any. destruct j; try reflexivity. intro H. destruct (dget d (u "drop")); [discriminate|reflexivity].
Qed.
Lemma frag_rewrites kw E M pdb edb j : prim_ok (e_P E) -> wf_meta kw M -> frag_stmt kw E M j -> db_rel E M pdb edb ->
  exists j' T st, rewrite_query E M j = Ok (j', T, st).
Proof.
  intros HP HM F D. destruct F as [t m cs vs Hm ND L H|t m sets w Hm ND H Hw|t m w Hm Hw|t m sel w o l off Hm Hv Hs Hw Ho];
  destruct (D t m Hm) as (pt & et & D1 & D2 & D3).
  - destruct (insert_sim kw E M t m cs vs pt et HP HM Hm ND L H D3) as (? & ? & ? & ? & R & _). eauto.
  - destruct (update_sim kw E M t m sets w pt et HP HM Hm ND H Hw D3) as (? & ? & R & _). eauto.
  - destruct (delete_sim kw E M t m w pt et HP HM Hm Hw D3) as (? & R & _). eauto.
  - destruct (select_sim kw E M t m sel w o l off pt et HP HM Hm Hv Hs Hw Ho D3) as (? & ? & ? & ? & R & _). eauto.
Qed.

Lemma bind_ok {A B} (a : A) (f : A -> res B) : bind (Ok a) f = f a.
Proof. reflexivity. Qed.

Section Steps.
Variables (kw : pystr -> bool) (E : env) (text : sent -> pystr) (rest : delta -> sent -> json -> res sent).
Hypothesis HP : prim_ok (e_P E).
Let step := sys_step kw E text rest.
Let pstep := plain_step kw.
Definition step_ok (d : delta) (S P : dbs) (e : event) : Prop :=
  snd (step (d, S) e) = snd (pstep P e) /\
  SInv kw E (fst (fst (step (d, S) e))) (snd (fst (step (d, S) e))) (fst (pstep P e)).

(** *** Statements *)
Lemma call_kind rnd d r j ty j' T st x : q_enc r = None -> q_parsed r = Ok j -> q_type r = Ok ty ->
  In ty [QInsert; QUpdate; QDelete; QSelect] -> rewrite_query (with_rnd E rnd) (db_meta d (q_db r)) j = Ok (j', T, st) ->
  (ty = QSelect -> substrb (u " SUM(") (text (SJson j')) = false /\ substrb (u " AVG(") (text (SJson j')) = false) ->
  call (with_rnd E rnd) (inject text rest) MySQL None d r (reports x) =
  match ty with
  | QSelect => match x with
               | Ok (_, l) => (d, Ok (Some l, T, st), [Execute (SJson j'); Fetch; Close])
               | Err e => (d, Err e, [Execute (SJson j'); Fetch])
               end
  | _ => (d, Ok (None, T, st), [Execute (SJson j'); Commit; Close])
  end.
Proof.
  intros QE QP QT TT R Q. unfold call. rewrite QT.
  assert (DI : dispatch (with_rnd E rnd) MySQL None d r = (d, Ok (SJson j', T, st))).
  { unfold dispatch. rewrite QP, QE, R. reflexivity. }
  rewrite DI.
  destruct TT as [<-|[<-|[<-|[<-|[]]]]]; cbn [in_sql_types negb].
  - destruct x as [[D l]|e]; reflexivity.
  - destruct x as [[D l]|e]; reflexivity.
  - destruct x as [[D l]|e]; reflexivity.
  - assert (IQ : match T with JDict _ => Ok (SJson j') | _ => inject text rest d (SJson j') T end = Ok (SJson j')).
    { destruct (Q eq_refl) as (Q1 & Q2). unfold inject. rewrite Q1, Q2. destruct T; reflexivity. }
    rewrite IQ. destruct x as [[D l]|e]; reflexivity.
Qed.

Lemma call_stmt rnd d r j ty j' T st x : q_enc r = None -> q_parsed r = Ok j -> q_type r = Ok ty ->
  type_of j = Some ty -> rewrite_query (with_rnd E rnd) (db_meta d (q_db r)) j = Ok (j', T, st) ->
  (ty = QSelect -> substrb (u " SUM(") (text (SJson j')) = false /\ substrb (u " AVG(") (text (SJson j')) = false) ->
  call (with_rnd E rnd) (inject text rest) MySQL None d r (reports x) =
  match ty with
  | QSelect => match x with
               | Ok (_, l) => (d, Ok (Some l, T, st), [Execute (SJson j'); Fetch; Close])
               | Err e => (d, Err e, [Execute (SJson j'); Fetch])
               end
  | _ => (d, Ok (None, T, st), [Execute (SJson j'); Commit; Close])
  end.
Proof.
  intros QE QP QT TY R Q. apply (call_kind rnd d r j ty j' T st x QE QP QT); [|exact R|exact Q].
  revert TY. unfold type_of. destruct j as [| | | | | |[|[k v] l]]; try discriminate.
    destruct (seqb k (u "insert")); [intros [= <-]; cbn; tauto|]. destruct (seqb k (u "update")); [intros [= <-]; cbn; tauto|].
    destruct (seqb k (u "delete")); [intros [= <-]; cbn; tauto|]. destruct (seqb k (u "select")); [intros [= <-]; cbn; tauto|discriminate].
Qed.

Lemma stmt_step d S P rnd r j ty : SInv kw E d S P ->
  q_enc r = None -> q_parsed r = Ok j -> type_of j = Some ty -> q_type r = Ok ty -> q_ciphertext r = false ->
  frag_stmt kw (with_rnd E rnd) (db_meta d (q_db r)) j ->
  (ty = QSelect -> forall j' t st, rewrite_query (with_rnd E rnd) (db_meta d (q_db r)) j = Ok (j', t, st) ->
     substrb (u " SUM(") (text (SJson j')) = false /\ substrb (u " AVG(") (text (SJson j')) = false) ->
  step_ok d S P (Ask rnd r).
Proof.
  intros I QE QP TY QT QC F Q. set (E' := with_rnd E rnd) in *. set (M := db_meta d (q_db r)) in *.
  assert (HP' : prim_ok (e_P E')) by exact HP.
  pose proof (si_meta _ _ _ _ _ (q_db r) I) as WM. fold M in WM.
  pose proof (si_db_rel _ _ _ _ _ (q_db r) I) as DR. fold M in DR.
  pose proof (proj1 (db_rel_rnd E M rnd _ _) DR) as DR'. fold E' in DR'.
  destruct (frag_rewrites kw E' M _ _ j HP' WM F DR') as (j' & T & st & R).
  destruct (frag_known _ _ _ _ F) as ((t0 & m0 & Hm0) & PS & NDj & _).
  pose proof (rewrite_no_drop _ _ _ _ _ _ R NDj) as NDj'.
  pose proof (step_sim kw E' M _ _ j HP' WM F DR') as X. unfold same_step, proxy in X. rewrite R, bind_ok in X.
  assert (Q' : ty = QSelect -> substrb (u " SUM(") (text (SJson j')) = false /\ substrb (u " AVG(") (text (SJson j')) = false)
    by (intro Y; exact (Q Y j' T st R)).
  pose proof (fun x => call_stmt rnd d r j ty j' T st x QE QP QT TY R Q') as CS. fold E' in CS.
  assert (SF : sent_for E text rest rnd d r = Some (SJson j')).
  { unfold sent_for. fold E'. rewrite CS. destruct ty; reflexivity. }
  assert (KD : exists TT, dget (self_meta d) (q_db r) = Some TT /\ M = TT).
  { unfold M in *. rewrite db_meta_get in Hm0. unfold in_memory in Hm0. unfold db_meta.
    destruct (dget (self_meta d) (q_db r)) as [TT|] eqn:G; [|discriminate]. exists TT. split; [reflexivity|].
    destruct (self_meta d); [discriminate|]. unfold store, dbmeta, dict in *. rewrite G. reflexivity. }
  destruct KD as (TT & KD & ->). clear Hm0.
  unfold step_ok, step, pstep, sys_step, plain_step. cbn [fst snd]. rewrite SF, (no_drop_exec kw _ _ NDj').
  unfold invoke. fold E'. rewrite QP, bind_ok, PS. rewrite CS, QT. set (x := exec kw (db_of S (q_db r)) j') in *.
  set (px := exec kw (db_of P (q_db r)) j) in *.
  (* the databases afterwards *)
  assert (ST : forall db t m, in_memory d db t = Some m ->
     exists pt et, dget (db_of (dset P (q_db r) (state_after (db_of P (q_db r)) px)) db) t = Some pt /\
                   dget (db_of (dset S (q_db r) (state_after (db_of S (q_db r)) x)) db) (t_anon m) = Some et /\ tab_rel E m pt et).
  { intros db t m H. rewrite !db_of_set. destruct (seqb db (q_db r)) eqn:Sdb; [|apply (si_rel _ _ _ _ _ I), H].
    apply seqb_eq in Sdb. subst db.
    assert (HM : dget TT t = Some m) by (unfold in_memory in H; rewrite KD in H; exact H).
    destruct px as [[P' rs]|e] eqn:PX; destruct x as [[S' rs0]|e0] eqn:SX; cbn [bind res_rel state_after] in X |- *.
    - destruct (decrypt_result E' TT T st rs0) as [out|e1]; cbn [bind res_rel fst snd] in X; [|contradiction].
      destruct X as (_ & X). apply (proj2 (db_rel_rnd E TT rnd _ _)) in X. exact (X t m HM).
    - contradiction.
    - destruct (decrypt_result E' TT T st rs0) as [out|e1] eqn:DD; cbn [bind res_rel fst snd] in X; [contradiction|].
      destruct (proj2 (exec_effect kw _ _ _ _ SX)) as [->| ->]; [discriminate DD|]. apply (si_rel _ _ _ _ _ I), H.
    - apply (si_rel _ _ _ _ _ I), H. }
  assert (KN : forall db t, dget (db_of (dset P (q_db r) (state_after (db_of P (q_db r)) px)) db) t <> None -> in_memory d db t <> None).
  { intros db t. rewrite db_of_set. destruct (seqb db (q_db r)) eqn:Sdb; [|apply (si_known _ _ _ _ _ I)].
    apply seqb_eq in Sdb. subst db. intro H. apply (si_known _ _ _ _ _ I).
    destruct px as [[P' rs]|e] eqn:PX; cbn [state_after] in H; [|exact H]. exact (proj1 (exec_effect kw _ _ _ _ PX) t H). }
  assert (SI : SInv kw E d (dset S (q_db r) (state_after (db_of S (q_db r)) x)) (dset P (q_db r) (state_after (db_of P (q_db r)) px))).
  { constructor; try apply I; assumption. }
  destruct (match ty with QSelect => true | _ => false end) eqn:IS.
  - assert (ty = QSelect) as -> by (destruct ty; congruence).
    destruct px as [[P' rs]|e] eqn:PX; destruct x as [[S' rs0]|e0] eqn:SX; cbn [bind res_rel] in X.
    + destruct (decrypt_result E' TT T st rs0) as [out|e1] eqn:DD; cbn [bind res_rel fst snd] in X; [|contradiction].
      destruct X as (<- & _). rewrite bind_ok. unfold dgetE. rewrite KD, bind_ok. destruct rs0 as [|row rs0].
      * injection DD as <-. split; [reflexivity|exact SI].
      * rewrite QC, DD, bind_ok. split; [reflexivity|exact SI].
    + contradiction.
    + destruct (decrypt_result E' TT T st rs0) as [out|e1] eqn:DD; cbn [bind res_rel fst snd] in X; [contradiction|].
      subst e1. rewrite bind_ok. unfold dgetE. rewrite KD, bind_ok. destruct rs0 as [|row rs0]; [discriminate DD|].
      rewrite QC, DD. split; [reflexivity|exact SI].
    + subst e0. split; [reflexivity|exact SI].
  - destruct ty; try discriminate IS; rewrite bind_ok; unfold dgetE; rewrite KD, bind_ok; (split; [reflexivity|exact SI]).
Qed.

(** *** DROP TABLE *)
Lemma without_same {V} (D : dict V) n : dget (without D n) n = None.
Proof.
  induction D as [|[k v] D IH]; [reflexivity|]. cbn [without filter fst]. destruct (seqb k n) eqn:S; cbn [negb]; [exact IH|].
  cbn [dget]. rewrite seqb_sym, S. exact IH.
Qed.
Lemma without_other {V} (D : dict V) n k : k <> n -> dget (without D n) k = dget D k.
Proof.
  intro N. induction D as [|[k' v] D IH]; [reflexivity|]. cbn [without filter fst dget]. destruct (seqb k' n) eqn:S; cbn [negb].
  - apply seqb_eq in S. subst k'. apply seqb_neq in N. rewrite N. exact IH.
  - cbn [dget]. destruct (seqb k k'); [reflexivity|exact IH].
Qed.
Lemma drop_known E0 M n m : dget M n = Some m ->
  exists j' T st, rewrite_query E0 M (JDict [(u "drop", JDict [(u "table", JStr n)])]) = Ok (j', T, st).
Proof.
  intro G. unfold rewrite_query.
  change (find_table table_key _) with (Ok (JDict [(u "table", JStr n)])). cbn [bind].
  match goal with |- context [clauses_rw E0 M ?T ?J ?nn clause_keys ?j s_empty] =>
    assert (X : clauses_rw E0 M T J nn clause_keys j s_empty = Ok (JDict [(u "drop", JDict [(u "table", JStr (t_anon m))])], s_empty)) end.
  { match goal with |- clauses_rw E0 M ?T ?J ?nn clause_keys ?j s_empty = _ =>
      change (clauses_rw E0 M T J nn (u "drop" :: skipn 11 clause_keys) j s_empty = Ok (JDict [(u "drop", JDict [(u "table", JStr (t_anon m))])], s_empty));
      change (clauses_rw E0 M T J nn (u "drop" :: skipn 11 clause_keys) j s_empty) with
        (bind (bind (drop_rw M T) (fun y => Ok (JDict (dset [(u "drop", T)] (u "drop") y), s_empty)))
          (fun p => match p with (j', st') => clauses_rw E0 M T J nn (skipn 11 clause_keys) j' st' end)) end.
    unfold drop_rw. cbn [mapM snd fst lookup]. unfold dgetE. rewrite G. reflexivity. }
  rewrite X. cbn [bind]. eauto.
Qed.
Lemma server_drop D n : server kw D (SJson (JDict [(u "drop", JDict [(u "table", JStr n)])])) =
  if dmem D n then Ok (without D n, []) else Err DbError.
Proof. reflexivity. Qed.
Lemma drop_mem d db n db' t' : Inv d -> in_memory (fst (delete_delta MySQL None d db n)) db' t' =
  if same db' t' db n then None else in_memory d db' t'.
Proof.
  intro I. destruct (same db' t' db n) eqn:S.
  - apply same_eq in S as (-> & ->). apply drop_memory, (inv_nodup d I).
  - apply drop_other. intros [= -> ->]. rewrite same_refl in S. discriminate.
Qed.

Lemma drop_step d S P rnd r n m : SInv kw E d S P ->
  q_enc r = None -> q_type r = Ok QDrop -> q_parsed r = Ok (JDict [(u "drop", JDict [(u "table", JStr n)])]) ->
  in_memory d (q_db r) n = Some m -> step_ok d S P (Ask rnd r).
Proof.
  intros I QE QT QP G.
  pose proof G as G'. rewrite <- db_meta_get in G'.
  destruct (drop_known (with_rnd E rnd) _ n m G') as (j' & T & st & R).
  destruct (drop_rewritten _ _ _ _ _ _ R) as (m' & Gm & -> & ->). rewrite G' in Gm. injection Gm as <-.
  assert (KD : exists TT, dget (self_meta d) (q_db r) = Some TT)
    by (unfold in_memory in G; destruct (dget (self_meta d) (q_db r)); [eauto|discriminate]).
  destruct KD as (TT & KD).
  pose proof (inv_step d (Drop (q_db r) n) (si_inv _ _ _ _ _ I) Logic.I) as I'. cbn [meta_step] in I'.
  assert (CS : forall x, call (with_rnd E rnd) (inject text rest) MySQL None d r (reports x) =
    (fst (delete_delta MySQL None d (q_db r) n), Ok (None, JDict [(u "table", JStr n)], st),
     [Execute (SJson (JDict [(u "drop", JDict [(u "table", JStr (t_anon m))])])); Close])).
  { intro x. unfold call. rewrite QT. cbn [in_sql_types negb].
    assert (DI : dispatch (with_rnd E rnd) MySQL None d r =
      (d, Ok (SJson (JDict [(u "drop", JDict [(u "table", JStr (t_anon m))])]), JDict [(u "table", JStr n)], st)))
      by (unfold dispatch; rewrite QP, QE, R; reflexivity).
    rewrite DI. destruct x as [[D l]|e]; cbn [reports a_cursor a_exec]; unfold forget; cbn [getitem];
      change (dgetE [(u "table", JStr n)] (u "table")) with (Ok (JStr n)); unfold delete_delta; rewrite KD; reflexivity. }
  assert (KD' : dget (self_meta (fst (delete_delta MySQL None d (q_db r) n))) (q_db r) <> None).
  { unfold delete_delta. rewrite KD. cbn [persist fst]. unfold self_meta at 1. cbn [d_inst d_class].
    pose proof (self_mutate d (dset (self_meta d) (q_db r) (dpop TT n))) as Z. unfold self_meta at 1 in Z. rewrite Z.
    rewrite dget_dset_same. discriminate. }
  destruct (si_rel _ _ _ _ _ I _ _ _ G) as (pt & et & D1 & D2 & D3).
  assert (SF : sent_for E text rest rnd d r = Some (SJson (JDict [(u "drop", JDict [(u "table", JStr (t_anon m))])])))
    by (unfold sent_for; rewrite CS; reflexivity).
  unfold step_ok, step, pstep, sys_step, plain_step. cbn [fst snd]. rewrite SF, server_drop.
  assert (MS : dmem (db_of S (q_db r)) (t_anon m) = true) by (unfold dmem; rewrite D2; reflexivity).
  assert (MP : dmem (db_of P (q_db r)) n = true) by (unfold dmem; rewrite D1; reflexivity).
  rewrite MS. unfold invoke. rewrite CS, bind_ok. unfold dgetE.
  destruct (dget (self_meta (fst (delete_delta MySQL None d (q_db r) n))) (q_db r)) as [T'|] eqn:GT; [|congruence].
  rewrite !bind_ok, QP, QT, !bind_ok.
  change (plain_server kw (db_of P (q_db r)) (JDict [(u "drop", JDict [(u "table", JStr n)])]))
    with (if dmem (db_of P (q_db r)) n then Ok (without (db_of P (q_db r)) n, []) else Err DbError : res (db * rows)).
  rewrite MP. cbn [state_after fst snd]. split; [reflexivity|].
  pose proof (fun db' t' => drop_mem d (q_db r) n db' t' (si_inv _ _ _ _ _ I)) as DM.
  assert (SUB : forall db t mm, in_memory (fst (delete_delta MySQL None d (q_db r) n)) db t = Some mm ->
     in_memory d db t = Some mm /\ (db, t) <> (q_db r, n)).
  { intros db t mm. rewrite DM. destruct (same db t (q_db r) n) eqn:Sm; [discriminate|]. intro H. split; [exact H|].
    intros [= -> ->]. rewrite same_refl in Sm. discriminate. }
  constructor.
  - exact I'.
  - intros db t mm H. apply SUB in H as (H & _). exact (si_table _ _ _ _ _ I _ _ _ H).
  - intros db t mm k c H. apply SUB in H as (H & _). exact (si_supp _ _ _ _ _ I _ _ _ _ _ H).
  - intros db t t' m1 m2 H1 H2. apply SUB in H1 as (H1 & _). apply SUB in H2 as (H2 & _). exact (si_inj _ _ _ _ _ I _ _ _ _ _ H1 H2).
  - intros db t mm H. apply SUB in H as (H & _). exact (si_anon _ _ _ _ _ I _ _ _ H).
  - intros db t mm H. apply SUB in H as (H & Ne). destruct (si_rel _ _ _ _ _ I _ _ _ H) as (pt' & et' & Z1 & Z2 & Z3).
    exists pt', et'. rewrite !db_of_set. destruct (seqb db (q_db r)) eqn:Sdb; [|auto].
    apply seqb_eq in Sdb. subst db. rewrite !without_other; [auto| |congruence].
    intro X. apply Ne. f_equal. exact (si_inj _ _ _ _ _ I _ _ _ _ _ H G X).
  - intros db t. rewrite DM, db_of_set. unfold same. destruct (seqb db (q_db r)) eqn:Sdb; cbn [andb]; [|apply (si_known _ _ _ _ _ I)].
    apply seqb_eq in Sdb. subst db. destruct (seqb t n) eqn:St.
    + apply seqb_eq in St. subst t. rewrite without_same. congruence.
    + rewrite without_other by (intros ->; rewrite seqb_refl in St; discriminate). apply (si_known _ _ _ _ _ I).
Qed.

(** *** CREATE TABLE *)
Lemma names_read : forall cols (defs : list def),
  Forall2 (fun col x => col_def col (fst (fst x)) (snd (fst x)) (snd x)) cols defs ->
  mapM column_name cols = Ok (map (fun x => fst (fst x)) defs).
Proof.
  induction 1 as [|col x cols defs (d0 & -> & A & _) F IH]; [reflexivity|]. cbn [mapM map column_name]. rewrite A. cbn [bind].
  rewrite IH. reflexivity.
Qed.
Lemma plain_create D j t cols cons (defs : list def) : create_of j t cols cons ->
  Forall2 (fun col x => col_def col (fst (fst x)) (snd (fst x)) (snd x)) cols defs ->
  plain_server kw D j = if dmem D t then Err DbError else new_table D t (map (fun x => fst (fst x)) defs).
Proof.
  intros (top & ct & -> & A & B & C & _) F. unfold plain_server. rewrite A, B.
  assert (HC : (match dget ct (u "columns") with Some (JList l) => l | Some x => [x] | None => [] end) = cols).
  { destruct (dget ct (u "columns")) as [[]|]; cbn [listed] in C; try contradiction; congruence. }
  rewrite HC, (names_read _ _ F). reflexivity.
Qed.

Lemma create_step d S P rnd r enc j t cols cons (defs : list def) q m : SInv kw E d S P ->
    q_enc r = Some enc -> q_type r = Ok QCreate -> q_parsed r = Ok j -> create_of j t cols cons ->
    Forall2 (fun col x => col_def col (fst (fst x)) (snd (fst x)) (snd x)) cols defs ->
    defs <> [] -> NoDup (map (fun x => fst (fst x)) defs) -> Forall no_default cols -> Forall named_con cons ->
    (forall x, In x defs -> fresh_name kw (fst (fst x)) /\ valid_name (snd (fst x)) = true /\ type_arg (snd x)) ->
    (forall a, fresh_name kw (q_fresh r a)) -> (forall a b, q_fresh r a = q_fresh r b -> a = b) ->
    (forall a, ~ In (q_fresh r a) (map (fun x => fst (fst x)) defs)) ->
    (forall x o, In x defs -> dget enc (fst (fst x)) = Some o -> asked o "sm4" = false /\
       (snd (fst x) = u "int" \/ In (snd (fst x)) [u "char"; u "varchar"] /\ asked o "arithmetic" = false)) ->
    valid_name (q_anon r) = true -> dget (db_of S (q_db r)) (q_anon r) = None ->
    in_memory d (q_db r) t = None ->
    rewrite_table (with_rnd E rnd) (q_fresh r) (q_anon r) (dget (self_meta d) (q_db r)) j enc = Ok (q, t, m) ->
    step_ok d S P (Ask rnd r).
Proof.
  intros I QE QT QP C D NE N ND NC Df Fr Inj Av Sup VA Fa Ab R.
  set (E' := with_rnd E rnd) in *.
  assert (WM : forall M t' m', dget (self_meta d) (q_db r) = Some M -> dget M t' = Some m' -> wf_table kw m' /\ valid_name (t_anon m') = true).
  { intros M t' m' H1 H2. assert (IM : in_memory d (q_db r) t' = Some m') by (unfold in_memory; rewrite H1; exact H2).
    split; [exact (si_table _ _ _ _ _ I _ _ _ IM)|exact (si_anon _ _ _ _ _ I _ _ _ IM)]. }
  pose proof (create_read kw _ _ _ _ _ _ _ _ _ _ _ _ _ R C D NE N ND NC Df Fr Inj Av Sup VA WM) as RD.
  destruct (create_wf kw _ _ _ _ _ _ _ _ _ _ _ _ _ R C D N Inj Av) as (PN & W).
  specialize (W (fun x X => proj1 (proj1 (Df x X))) (fun a => proj1 (Fr a))).
  pose proof (create_supported _ _ _ _ _ _ _ _ _ _ _ _ _ R C D N Sup) as SU.
  destruct (create_schema _ _ _ _ _ _ _ _ _ _ _ _ _ R C D N) as (_ & AN & KC & _).
  set (d1 := fst (update_delta MySQL None d (q_db r) t m)) in *.
  assert (UD : update_delta MySQL None d (q_db r) t m = (d1, None)) by reflexivity.
  assert (CS : forall D0 l, call E' (inject text rest) MySQL None d r (reports (Ok (D0, l))) =
    (d1, Ok (None, JDict [(u "table", JStr t)], s_empty), [Execute (SText q); Commit; Close])).
  { intros D0 l. unfold call. rewrite QT. cbn [in_sql_types negb].
    assert (DI : dispatch E' MySQL None d r = (d1, Ok (SText q, JDict [(u "table", JStr t)], s_empty)))
      by (unfold dispatch; rewrite QP, QE, R, UD; reflexivity).
    rewrite DI. reflexivity. }
  assert (SF : sent_for E text rest rnd d r = Some (SText q)) by (unfold sent_for; fold E'; rewrite CS; reflexivity).
  assert (SX : server kw (db_of S (q_db r)) (SText q) =
    Ok (dset (db_of S (q_db r)) (q_anon r) {| tb_cols := phys m; tb_rows := [] |}, [])).
  { unfold server. rewrite RD. unfold dmem. rewrite Fa. unfold new_table. rewrite (distinct_ok _ PN). reflexivity. }
  assert (PT : dget (db_of P (q_db r)) t = None).
  { destruct (dget (db_of P (q_db r)) t) eqn:G; [|reflexivity]. exfalso.
    apply (si_known _ _ _ _ _ I (q_db r) t); [congruence|exact Ab]. }
  unfold step_ok, step, pstep, sys_step, plain_step. cbn [fst snd]. rewrite SF, SX.
  unfold invoke. fold E'. rewrite CS, bind_ok. unfold dgetE.
  destruct (dget (self_meta d1) (q_db r)) as [T'|] eqn:GT; [|exfalso; exact (created_db _ _ _ _ _ _ GT)].
  rewrite !bind_ok, QP, QT, !bind_ok, (plain_create _ _ _ _ _ _ C D). unfold dmem. rewrite PT. unfold new_table.
  rewrite (distinct_ok _ N). cbn [state_after fst snd]. split; [reflexivity|].
  pose proof (create_memory MySQL None d (q_db r) t m) as CM. fold d1 in CM.
  assert (CN : t_cols m <> []).
  { intro X. rewrite X in KC. destruct defs; [congruence|discriminate KC]. }
  assert (I' : Inv d1) by (apply (inv_step d (Create (q_db r) t m) (si_inv _ _ _ _ _ I)); split; [exact Ab|split; [exact CN|exact (wf_log kw m W)]]).
  assert (NA : forall t' m', in_memory d (q_db r) t' = Some m' -> t_anon m' <> t_anon m).
  { intros t' m' H X. destruct (si_rel _ _ _ _ _ I _ _ _ H) as (_ & et & _ & Z & _). rewrite X, AN, Fa in Z. discriminate. }
  constructor.
  - exact I'.
  - intros db t' m'. rewrite CM. destruct (same db t' (q_db r) t); [intros [= <-]; exact W|apply (si_table _ _ _ _ _ I)].
  - intros db t' m' k c. rewrite CM. destruct (same db t' (q_db r) t); [intros [= <-]; apply SU|apply (si_supp _ _ _ _ _ I)].
  - intros db t1 t2 m1 m2 H1 H2 EA. rewrite CM in H1, H2.
    destruct (same db t1 (q_db r) t) eqn:S1, (same db t2 (q_db r) t) eqn:S2.
    + apply same_eq in S1 as (_ & ->). apply same_eq in S2 as (_ & ->). reflexivity.
    + apply same_eq in S1 as (-> & ->). injection H1 as <-. exfalso. exact (NA _ _ H2 (eq_sym EA)).
    + apply same_eq in S2 as (-> & ->). injection H2 as <-. exfalso. exact (NA _ _ H1 EA).
    + exact (si_inj _ _ _ _ _ I _ _ _ _ _ H1 H2 EA).
  - intros db t' m'. rewrite CM. destruct (same db t' (q_db r) t); [intros [= <-]; rewrite AN; exact VA|apply (si_anon _ _ _ _ _ I)].
  - intros db t' m' H. rewrite CM in H. rewrite !db_of_set. destruct (same db t' (q_db r) t) eqn:Sm.
    + apply same_eq in Sm as (-> & ->). injection H as <-. rewrite seqb_refl. rewrite AN, !dget_dset_same.
      eexists _, _. split; [reflexivity|]. split; [reflexivity|]. constructor; [symmetry; exact KC|reflexivity|constructor].
    + destruct (si_rel _ _ _ _ _ I _ _ _ H) as (pt & et & Z1 & Z2 & Z3). exists pt, et.
      destruct (seqb db (q_db r)) eqn:Sdb; [|auto]. apply seqb_eq in Sdb. subst db.
      rewrite !dget_dset_other; [auto| |].
      * rewrite <- AN. intro X. exact (NA _ _ H (eq_sym X)).
      * intros ->. rewrite same_refl in Sm. discriminate.
  - intros db t'. rewrite CM, db_of_set. unfold same. destruct (seqb db (q_db r)) eqn:Sdb; cbn [andb]; [|apply (si_known _ _ _ _ _ I)].
    apply seqb_eq in Sdb. subst db. rewrite dget_dset. destruct (seqb t' t); [congruence|apply (si_known _ _ _ _ _ I)].
Qed.

(** *** Restart *)
Lemma reboot_step d S P : SInv kw E d S P -> step_ok d S P Reboot.
Proof.
  intro I. unfold step_ok, step, pstep, sys_step, plain_step. cbn [fst snd]. split; [reflexivity|].
  pose proof (inv_restart d (si_inv _ _ _ _ _ I)) as RM. unfold after_restart in RM.
  assert (SUB : forall db t m, in_memory (restart d) db t = Some m -> exists m0, in_memory d db t = Some m0 /\ m = persisted m0).
  { intros db t m. rewrite RM. destruct (in_memory d db t) as [m0|]; [|discriminate]. intros [= <-]. eauto. }
  constructor.
  - exact (inv_step d Restart (si_inv _ _ _ _ _ I) Logic.I).
  - intros db t m H. apply SUB in H as (m0 & H & ->). destruct (si_table _ _ _ _ _ I _ _ _ H). constructor; assumption.
  - intros db t m k c H. apply SUB in H as (m0 & H & ->). exact (si_supp _ _ _ _ _ I _ _ _ _ _ H).
  - intros db t t' m m' H H'. apply SUB in H as (m0 & H & ->). apply SUB in H' as (m1 & H' & ->).
    exact (si_inj _ _ _ _ _ I _ _ _ _ _ H H').
  - intros db t m H. apply SUB in H as (m0 & H & ->). exact (si_anon _ _ _ _ _ I _ _ _ H).
  - intros db t m H. apply SUB in H as (m0 & H & ->). destruct (si_rel _ _ _ _ _ I _ _ _ H) as (pt & et & A & B & [C1 C2 C3]).
    exists pt, et. split; [exact A|]. split; [exact B|]. constructor; [exact C1|exact C2|exact C3].
  - intros db t H. rewrite RM. pose proof (si_known _ _ _ _ _ I db t H) as X. destruct (in_memory d db t); [discriminate|exact X].
Qed.

Lemma any_step d S P e : SInv kw E d S P ->
  match e with Ask rnd q => good kw E text d S rnd q | Reboot => True end -> step_ok d S P e.
Proof.
  intros I G. destruct e as [rnd r|]; [|apply reboot_step, I]. destruct G.
  - eapply create_step; eassumption.
  - eapply drop_step; eassumption.
  - eapply stmt_step; eassumption.
Qed.

Lemma sys_sim : forall h d S P, SInv kw E d S P -> good_run kw E text rest (d, S) h ->
  sys_run kw E text rest (d, S) h = plain_run kw P h.
Proof.
  induction h as [|e h IH]; intros d S P I G; [reflexivity|]. cbn [good_run] in G. destruct G as (G & GR).
  destruct (any_step d S P e I G) as (A & B). cbn [sys_run plain_run].
  unfold step, pstep in A, B. destruct (sys_step kw E text rest (d, S) e) as [[d' S'] y]. destruct (plain_step kw P e) as [P' y'].
  cbn [fst snd] in A, B, GR. subst y'. rewrite (IH d' S' P' B GR). reflexivity.
Qed.
Lemma sys_inv : forall h d S P, SInv kw E d S P -> good_run kw E text rest (d, S) h ->
  SInv kw E (fst (sys_after kw E text rest (d, S) h)) (snd (sys_after kw E text rest (d, S) h)) (fold_left (fun P e => fst (plain_step kw P e)) h P).
Proof.
  induction h as [|e h IH]; intros d S P I G; [exact I|]. cbn [good_run] in G. destruct G as (G & GR).
  destruct (any_step d S P e I G) as (_ & B). unfold sys_after. cbn [fold_left].
  unfold step, pstep in B. destruct (sys_step kw E text rest (d, S) e) as [[d' S'] y]. cbn [fst snd] in B, GR |- *.
  apply (IH d' S' _ B GR).
Qed.
Lemma si_fresh : SInv kw E fresh_install [] [].
Proof.
  constructor; try discriminate.
  - exact inv_fresh.
  - intros db t H. exfalso. apply H. reflexivity.
Qed.
End Steps.
