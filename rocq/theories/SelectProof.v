(** SELECT through the proxy. *)
From Coq Require Import String Ascii List NArith ZArith QArith Bool Lia ZifyBool ZifyNat ZifyN.
From Verif Require Import Base BaseProof CryptoModel CryptoSpec CryptoProof CryptoProps FuzzyModel
  OpeModel OpeProps PaillierModel JsonModel RewriteModel SqlSpec EncSpec JsonProof WhereProof
  StmtSpec SimProof StmtProof UpdateProof.
Import ListNotations.
Open Scope Z_scope.

(** ** Decrypting one cell *)
Definition dec (E : env) (M : dbmeta) (T : json) (name state : pystr) (w : sqlv) : res sqlv :=
  if seqb state PLAIN then Ok w else decrypt_cell E M T name state w.

Lemma decrypt_cell_simple E (M : dbmeta) t m k c s w :
  dget M t = Some m -> has_char DOT k = false -> dget (t_cols m) k = Some c -> w <> VNull ->
  decrypt_cell E M (JStr t) k s w = do x <- decrypt_state E c s w; decode E x (c_type c).
Proof.
  intros Hm Hk Hc Hw. unfold decrypt_cell. rewrite Hk. cbn [bind]. rewrite (lookup_table _ _ _ Hm). cbn [bind].
  unfold dgetE. rewrite Hc. cbn [bind]. destruct w; [congruence|reflexivity..].
Qed.

Lemma decode_int_str E z : decode E (VStr (str_int z)) (u "int") = Ok (VInt z).
Proof.
  unfold decode. change (smem (u "int") [u "int"; u "float"; u "double"]) with true. cbv iota.
  unfold py_eval. rewrite parse_str_int, (seqb_refl (str_int z)). reflexivity.
Qed.
Lemma decode_int_num E z : decode E (VInt z) (u "int") = Ok (VInt z).
Proof. reflexivity. Qed.
Lemma decode_text E v ty : is_text_type ty -> decode E v ty = Ok v.
Proof. unfold is_text_type, decode. intros ->. reflexivity. Qed.

Lemma dec_sym E (M : dbmeta) t m k c v w :
  prim_ok (e_P E) -> dget M t = Some m -> has_char DOT k = false -> dget (t_cols m) k = Some c ->
  typed c v -> enc_cell E c SYM v w -> dec E M (JStr t) k SYM w = Ok v.
Proof.
  intros HP Hm Hk Hc Ty Hw. unfold dec. change (seqb SYM PLAIN) with false. cbv iota.
  destruct (enc_cell_sym E c v w Ty Hw) as [[-> ->]|[(z & x & -> & Ex & ->)|(s & x & -> & Ex & ->)]].
  - reflexivity.
  - rewrite (decrypt_cell_simple E M t m k c) by (assumption || discriminate).
    unfold decrypt_state. change (seqb SYM SYM) with true. cbv iota.
    rewrite (aes_roundtrip (e_P E) HP _ _ _ Ex). cbn [bind].
    rewrite rstrip_fix by apply (proj2 (str_int_text_ok z)). destruct Ty as [-> _]. apply decode_int_str.
  - rewrite (decrypt_cell_simple E M t m k c) by (assumption || discriminate).
    unfold decrypt_state. change (seqb SYM SYM) with true. cbv iota.
    rewrite (aes_roundtrip (e_P E) HP _ _ _ Ex). cbn [bind].
    destruct Ty as [T1 T2]. rewrite rstrip_fix by apply (proj2 T2). apply decode_text, T1.
Qed.

Lemma dec_ope E (M : dbmeta) t m k c v w :
  dget M t = Some m -> has_char DOT k = false -> dget (t_cols m) k = Some c -> c_type c = u "int" ->
  enc_cell E c OPEC v w -> dec E M (JStr t) k OPEC w = Ok v.
Proof.
  intros Hm Hk Hc Ty Hw. unfold dec. change (seqb OPEC PLAIN) with false. cbv iota.
  destruct (enc_cell_ope E c v w Hw) as [[-> ->]|(z & e & -> & Ez & ->)]; [reflexivity|].
  rewrite (decrypt_cell_simple E M t m k c) by (assumption || discriminate).
  unfold decrypt_state. change (seqb OPEC SYM) with false. change (seqb OPEC OPEC) with true. cbv iota.
  cbn [cell_int bind]. unfold env_ope_dec, opec_decrypt.
  unfold env_ope, opec_encrypt in Ez. rewrite (c06_aux _ _ _ _ _ _ _ Ez). cbn [bind]. rewrite Ty. reflexivity.
Qed.

(** ** One output column *)
(** The plaintext item, the rewritten item, the recorded name, type and cipher. *)
Record ocol := { oc_p : json; oc_e : json; oc_name : pystr; oc_type : pystr; oc_state : pystr }.
Definition ocol_ok (kw : pystr -> bool) (E : env) (M : dbmeta) (t : pystr) (m : tmeta) (o : ocol) : Prop :=
  forall pr er, enc_row E m pr er ->
  exists v w, project kw pr (oc_p o) = Ok v /\ project kw er (oc_e o) = Ok w /\
              dec E M (JStr t) (oc_name o) (oc_state o) w = Ok v.

Definition push_all (st : sstate) (os : list ocol) : sstate :=
  {| s_cols := s_cols st ++ map oc_name os; s_types := s_types st ++ map oc_type os;
     s_state := s_state st ++ map oc_state os |}.
Lemma push_all_nil st : push_all st [] = st.
Proof. destruct st. unfold push_all. cbn. rewrite !app_nil_r. reflexivity. Qed.
Lemma push_all_cons st o os : push_all st (o :: os) = push_all (s_push st (oc_name o) (oc_type o) (oc_state o)) os.
Proof. unfold push_all, s_push. cbn. rewrite <- !app_assoc. reflexivity. Qed.

Lemma decrypt_row_cons E M T n ns s ss v vs : decrypt_row E M T (n :: ns) (s :: ss) (v :: vs) =
  do x <- dec E M T n s v; do xs <- decrypt_row E M T ns ss vs; Ok (x :: xs).
Proof. reflexivity. Qed.

Lemma ocols_row kw E M t m os pr er : Forall (ocol_ok kw E M t m) os -> enc_row E m pr er ->
  exists vs ws, mapM (project kw pr) (map oc_p os) = Ok vs /\ mapM (project kw er) (map oc_e os) = Ok ws /\
    decrypt_row E M (JStr t) (map oc_name os) (map oc_state os) ws = Ok vs.
Proof.
  intros F HR. induction F as [|o os H F (vs & ws & H1 & H2 & H3)].
  - exists [], []. auto.
  - destruct (H pr er HR) as (v & w & P1 & P2 & P3). exists (v :: vs), (w :: ws).
    cbn [map mapM]. rewrite P1, P2, H1, H2. cbn [bind]. split; [reflexivity|]. split; [reflexivity|].
    rewrite decrypt_row_cons, P3, H3. reflexivity.
Qed.

Lemma ocols_rows kw E M t m os prs ers : Forall (ocol_ok kw E M t m) os -> Forall2 (enc_row E m) prs ers ->
  (do rs <- mapM (fun r => mapM (project kw r) (map oc_e os)) ers;
   decrypt_result E M (JStr t) (push_all s_empty os) rs) =
  mapM (fun r => mapM (project kw r) (map oc_p os)) prs.
Proof.
  intros F FR. induction FR as [|pr er prs ers HR FR IH]; [reflexivity|].
  destruct (ocols_row kw E M t m os pr er F HR) as (vs & ws & H1 & H2 & H3).
  cbn [mapM]. rewrite H1, H2. cbn [bind]. rewrite <- IH.
  destruct (mapM (fun r => mapM (project kw r) (map oc_e os)) ers) as [rs|e]; [|reflexivity].
  cbn [bind]. unfold decrypt_result. cbn [mapM push_all s_cols s_state app s_empty] in *. rewrite H3. reflexivity.
Qed.

(** The column [k], read from the physical column of cipher [ci]. *)
Definition phys_name (ci k : pystr) (c : colmeta) : pystr :=
  if c_plain c then k else match dget (c_enc c) ci with Some n => n | None => [] end.
Definition col_state (ci : pystr) (c : colmeta) : pystr := if c_plain c then PLAIN else ci.

Lemma sym_name c : supported c -> c_plain c = false -> exists n, dget (c_enc c) SYM = Some n.
Proof.
  intros [S|[_ S]] Hp; [congruence|]. apply dget_in_keys, S.
Qed.

Lemma colname_nodot kw k : colname kw k -> has_char DOT k = false.
Proof. intros [V _]. apply valid_name_nodot, V. Qed.
Lemma colname_nostar kw k : colname kw k -> seqb k (u "*") = false.
Proof. intros [V _]. apply seqb_neq. intros ->. discriminate V. Qed.

Lemma read_sym kw E (M : dbmeta) t m k c pr er :
  prim_ok (e_P E) -> wf_meta kw M -> dget M t = Some m -> dget (t_cols m) k = Some c -> enc_row E m pr er ->
  exists v w, operand kw pr (JStr k) = Ok v /\ operand kw er (JStr (phys_name SYM k c)) = Ok w /\
              dec E M (JStr t) k (col_state SYM c) w = Ok v.
Proof.
  intros HP HM Hm Hc HR. pose proof (wm_table kw M HM t m Hm) as W.
  pose proof (log_colname kw m k c W Hc) as Lk.
  destruct (HR k c Hc) as (v & Hv & R). exists v.
  unfold phys_name, col_state. destruct (c_plain c) eqn:Hp.
  - exists v. rewrite !(operand_col kw _ k v) by assumption. auto.
  - destruct R as [Ty R]. destruct (sym_name c (wm_supp kw M HM t m k c Hm Hc) Hp) as [n Hn]. rewrite Hn.
    destruct (R SYM n Hn) as (w & Hw & Ew). exists w.
    rewrite (operand_col kw pr k v) by assumption.
    rewrite (operand_col kw er n w) by (exact Hw || apply (enc_colname kw m k c SYM n W Hc Hp Hn)).
    split; [reflexivity|]. split; [reflexivity|]. apply (dec_sym E M t m k c); try assumption.
    apply (colname_nodot kw), (wf_names kw m W), (dget_Some_key _ _ _ Hc).
Qed.

(** ** The select list *)
Lemma project_str kw r s : project kw r (JStr s) = operand kw r (JStr s).
Proof. reflexivity. Qed.
Lemma project_val kw r x : project kw r (val x) = operand kw r x.
Proof. reflexivity. Qed.

Section Select.
  Context (kw : pystr -> bool) (E : env) (M : dbmeta) (t : pystr) (m : tmeta)
          (HP : prim_ok (e_P E)) (HM : wf_meta kw M) (Hm : dget M t = Some m).
  Let W : wf_table kw m := wm_table kw M HM t m Hm.

  (** Output columns with a plaintext item [p] and rewritten item [e]. *)
  Definition mk (p e : pystr -> json) (kc : pystr * colmeta) : ocol :=
    {| oc_p := p (fst kc); oc_e := e (phys_name SYM (fst kc) (snd kc)); oc_name := fst kc;
       oc_type := c_type (snd kc); oc_state := col_state SYM (snd kc) |}.
  Lemma mk_ok p e k c : (p = JStr \/ p = fun s => val (JStr s)) -> (e = JStr \/ e = fun s => val (JStr s)) ->
    dget (t_cols m) k = Some c -> ocol_ok kw E M t m (mk p e (k, c)).
  Proof.
    intros Hpp Hee Hc pr er HR. destruct (read_sym kw E M t m k c pr er HP HM Hm Hc HR) as (v & w & H1 & H2 & H3).
    exists v, w. cbn [mk oc_p oc_e oc_name oc_state fst snd].
    destruct Hpp as [->| ->], Hee as [->| ->]; auto.
  Qed.

  Lemma select_name_ok k c st : dget (t_cols m) k = Some c ->
    select_str M (JStr t) SYM k st =
    Ok (JStr (phys_name SYM k c), s_push st k (c_type c) (col_state SYM c)).
  Proof.
    intros Hc. assert (Hk : colname kw k) by (apply (wf_names kw m W), (dget_Some_key _ _ _ Hc)).
    unfold select_str. rewrite (colname_nostar kw k Hk). unfold select_name, split_dot.
    rewrite (colname_nodot kw k Hk). cbn [bind]. rewrite (lookup_table _ _ _ Hm). cbn [bind].
    unfold dgetE. rewrite Hc. cbn [bind]. unfold phys_name, col_state.
    destruct (c_plain c) eqn:Hp; [reflexivity|].
    destruct (sym_name c (wm_supp kw M HM t m k c Hm Hc) Hp) as [n Hn]. rewrite Hn. reflexivity.
  Qed.

  Lemma star_cols_ok cols st : incl cols (t_cols m) ->
    star_cols M SYM false t m (JStr t) cols st =
    Ok (map (fun kc => JStr (phys_name SYM (fst kc) (snd kc))) cols, push_all st (map (mk JStr JStr) cols)).
  Proof.
    revert st. induction cols as [|[k c] cols IH]; intros st I.
    - cbn [star_cols map]. rewrite push_all_nil. reflexivity.
    - cbn [star_cols star_prefix bind]. unfold star_col.
      assert (Hc : dget (t_cols m) k = Some c).
      { apply dget_NoDup; [apply (wf_log kw m W) | apply I; left; reflexivity]. }
      cbn [map]. rewrite push_all_cons. cbn [mk oc_name oc_type oc_state fst snd].
      unfold phys_name at 1, col_state at 1. destruct (c_plain c) eqn:Hp.
      + cbn [bind app]. rewrite IH by (intros x X; apply I; right; exact X). reflexivity.
      + destruct (sym_name c (wm_supp kw M HM t m k c Hm Hc) Hp) as [n Hn]. rewrite Hn.
        unfold dgetE. rewrite Hn. cbn [bind app]. rewrite IH by (intros x X; apply I; right; exact X). reflexivity.
  Qed.

  Lemma select_star_ok :
    select_rw M (JStr t) SYM (JStr (u "*")) s_empty =
    Ok (JList (map oc_e (map (mk JStr JStr) (t_cols m))), push_all s_empty (map (mk JStr JStr) (t_cols m))).
  Proof.
    cbn [select_rw]. unfold select_str. change (seqb (u "*") (u "*")) with true. cbv iota.
    unfold select_star. cbn [star_tables length Nat.ltb Nat.leb]. rewrite (lookup_table _ _ _ Hm). cbn [bind].
    rewrite star_cols_ok by (intros x X; exact X). cbn [bind]. rewrite app_nil_r, map_map. reflexivity.
  Qed.

  Lemma select_one_ok k c : dget (t_cols m) k = Some c ->
    select_rw M (JStr t) SYM (val (JStr k)) s_empty =
    Ok (val (JStr (phys_name SYM k c)), push_all s_empty [mk (fun s => val (JStr s)) (fun s => val (JStr s)) (k, c)]).
  Proof.
    intros Hc. unfold val. cbn [select_rw]. unfold is_count_star.
    change (seqb (u "value") (u "count")) with false. cbn [andb].
    change (dget func_ciphers (u "value")) with (@None pystr). change (seqb (u "value") (u "add")) with false. cbv iota.
    rewrite (select_name_ok k c s_empty Hc). reflexivity.
  Qed.

  Lemma select_list_ok (l : list (pystr * colmeta)) : (forall k c, In (k, c) l -> dget (t_cols m) k = Some c) ->
    select_rw M (JStr t) SYM (JList (map (fun kc => val (JStr (fst kc))) l)) s_empty =
    Ok (JList (map oc_e (map (mk (fun s => val (JStr s)) JStr) l)),
        push_all s_empty (map (mk (fun s => val (JStr s)) JStr) l)).
  Proof.
    intros H. cbn [select_rw].
    match goal with |- (do x <- ?F (map _ l) s_empty; _) = _ =>
      assert (forall st, F (map (fun kc => val (JStr (fst kc))) l) st =
        Ok (map oc_e (map (mk (fun s => val (JStr s)) JStr) l),
            push_all st (map (mk (fun s => val (JStr s)) JStr) l))) as -> end; [|reflexivity].
    induction l as [|[k c] l IH]; intros st.
    - cbn [map]. rewrite push_all_nil. reflexivity.
    - cbn [map fst val]. change (seqb (u "value") (u "value")) with true. cbv iota.
      cbn [select_rw]. rewrite (select_name_ok k c st) by (apply H; left; reflexivity). cbn [bind].
      rewrite IH by (intros k' c' X; apply H; right; exact X). cbn [bind].
      rewrite push_all_cons. reflexivity.
  Qed.
End Select.

(** ** ORDER BY *)
Definition ope_rel (E : env) (c : colmeta) (v w : sqlv) : Prop :=
  v = VNull /\ w = VNull \/ (exists z e, v = VInt z /\ env_ope E (c_key c) z = Ok e /\ w = VInt e).

Lemma vle_ope E c v w v' w' : ope_rel E c v w -> ope_rel E c v' w' -> vle v v' = vle w w'.
Proof.
  intros [[-> ->]|(z & e & -> & Ez & ->)] [[-> ->]|(z' & e' & -> & Ez' & ->)]; try reflexivity.
  cbn [vle num]. unfold Qle_bool, inject_Z. cbn [Qnum Qden]. rewrite !Z.mul_1_r.
  pose proof (env_ope_cmp E (c_key c) z z' e e' Ez Ez') as H. unfold Z.leb. rewrite H. reflexivity.
Qed.

Lemma read_ope E m k c n pr er : enc_row E m pr er ->
  dget (t_cols m) k = Some c -> c_plain c = false -> dget (c_enc c) OPEC = Some n ->
  exists v w, dget pr k = Some v /\ dget er n = Some w /\ enc_cell E c OPEC v w /\ ope_rel E c v w.
Proof.
  intros HR Hc Hp Hn. destruct (HR k c Hc) as (v & Hv & R). rewrite Hp in R.
  destruct (proj2 R OPEC n Hn) as (w & Hw & Ew). exists v, w. split; [exact Hv|]. split; [exact Hw|].
  split; [exact Ew | exact (enc_cell_ope E c v w Ew)].
Qed.

Lemma forallb_F2 {A B} (R : A -> B -> Prop) f g l l' :
  Forall2 R l l' -> (forall a b, R a b -> f a = true /\ g b = true) -> forallb f l = true /\ forallb g l' = true.
Proof.
  intros F H. induction F as [|a b l l' Hab F [IH1 IH2]]; [auto|]. destruct (H a b Hab) as [H1 H2].
  cbn [forallb]. rewrite H1, H2, IH1, IH2. auto.
Qed.

Lemma order_sim kw E (M : dbmeta) t m o : wf_meta kw M -> dget M t = Some m -> order_ok m o ->
  exists o', optM (orderby_rw M (JStr t)) o = Ok o' /\
    forall prs ers, Forall2 (enc_row E m) prs ers ->
    res_rel (Forall2 (enc_row E m)) (order_rows kw o prs) (order_rows kw o' ers).
Proof.
  intros HM Hm Ho. pose proof (wm_table kw M HM t m Hm) as W.
  destruct o as [j|]; [|exists None; split; [reflexivity | intros prs ers F; exact F]].
  destruct Ho as [(k & (c & Hc & Hp) & Hj)|(k & c & (Hc & Hp & n & Hn) & Ty & ->)].
  - assert (Lk : is_column kw k = true) by (apply (log_colname kw m k c W Hc)).
    assert (HF : forall prs ers, Forall2 (enc_row E m) prs ers ->
      forallb (fun r => dmem r k) prs = true /\ forallb (fun r => dmem r k) ers = true).
    { intros prs ers F. apply (forallb_F2 _ _ _ _ _ F). intros a b HR.
      destruct (HR k c Hc) as (v & Hv & R). rewrite Hp in R. unfold dmem. rewrite Hv, R. auto. }
    assert (HS : forall a a' b b', enc_row E m a a' -> enc_row E m b b' ->
      vle (cell a k) (cell b k) = vle (cell a' k) (cell b' k)).
    { intros a a' b b' HR HR'. destruct (HR k c Hc) as (v & Hv & R). rewrite Hp in R.
      destruct (HR' k c Hc) as (v' & Hv' & R'). rewrite Hp in R'. unfold cell. rewrite Hv, R, Hv', R'. reflexivity. }
    exists (Some j). destruct Hj as [->|(s & ->)].
    + split.
      { cbn [optM]. unfold orderby_rw. rewrite (lookup_table _ _ _ Hm). cbn [bind].
        change (getitem (JDict [(u "value", JStr k)]) (u "value")) with (Ok (JStr k)). cbn [bind lookup].
        unfold dgetE. rewrite Hc. cbn [bind]. rewrite Hp. reflexivity. }
      intros prs ers F. destruct (HF prs ers F) as [F1 F2]. cbn [order_rows].
      change (seqb (u "value") (u "value")) with true. rewrite Lk, F1, F2. cbn [andb res_rel].
      apply sort_by_rel; [exact HS | exact F].
    + split.
      { cbn [optM]. unfold orderby_rw. rewrite (lookup_table _ _ _ Hm). cbn [bind].
        change (getitem (JDict [(u "value", JStr k); (u "sort", JStr s)]) (u "value")) with (Ok (JStr k)).
        cbn [bind lookup]. unfold dgetE. rewrite Hc. cbn [bind]. rewrite Hp. reflexivity. }
      intros prs ers F. destruct (HF prs ers F) as [F1 F2]. cbn [order_rows].
      change (seqb (u "value") (u "value")) with true. change (seqb (u "sort") (u "sort")) with true.
      rewrite Lk, F1, F2. cbn [andb res_rel].
      destruct (seqb s (u "desc")); apply sort_by_rel; try exact F; [|exact HS].
      intros a a' b b' HR HR'. apply HS; assumption.
  - assert (Lk : is_column kw k = true) by (apply (log_colname kw m k c W Hc)).
    assert (Ln : is_column kw n = true) by (apply (enc_colname kw m k c OPEC n W Hc Hp Hn)).
    exists (Some (JDict [(u "value", JStr n)])). split.
    { cbn [optM]. unfold orderby_rw. rewrite (lookup_table _ _ _ Hm). cbn [bind].
      change (getitem (JDict [(u "value", JStr k)]) (u "value")) with (Ok (JStr k)). cbn [bind lookup].
      unfold dgetE. rewrite Hc. cbn [bind]. rewrite Hp, Hn. reflexivity. }
    intros prs ers F. cbn [order_rows]. change (seqb (u "value") (u "value")) with true. rewrite Lk, Ln.
    destruct (forallb_F2 (enc_row E m) (fun r => dmem r k) (fun r => dmem r n) prs ers F) as [F1 F2].
    { intros a b HR. destruct (read_ope E m k c n a b HR Hc Hp Hn) as (v & w & Hv & Hw & _).
      unfold dmem. rewrite Hv, Hw. auto. }
    unfold row in F1, F2. rewrite F1, F2. cbn [andb res_rel]. apply sort_by_rel; [|exact F].
    intros a a' b b' HR HR'. destruct (read_ope E m k c n a a' HR Hc Hp Hn) as (v & w & Hv & Hw & _ & R).
    destruct (read_ope E m k c n b b' HR' Hc Hp Hn) as (v' & w' & Hv' & Hw' & _ & R').
    unfold cell. rewrite Hv, Hw, Hv', Hw'. apply (vle_ope E c); assumption.
Qed.

(** ** MIN and MAX *)
Lemma extreme_rel (R : sqlv -> sqlv -> Prop) better l l' :
  (forall v w, R v w -> v = VNull <-> w = VNull) -> R VNull VNull ->
  (forall v w v' w', R v w -> R v' w' -> better v v' = better w w') ->
  Forall2 R l l' -> R (extreme better l) (extreme better l').
Proof.
  intros HN R0 HB F. induction F as [|v w l l' H F IH]; [exact R0|].
  assert (X : forall v l, extreme better (v :: l) =
    match v with
    | VNull => extreme better l
    | _ => match extreme better l with VNull => v | w => if better v w then v else w end
    end) by (intros [] ?; reflexivity).
  rewrite !X. destruct (HN v w H) as [N1 N2].
  destruct (HN _ _ IH) as [M1 M2]. pose proof (HB v w _ _ H IH) as B.
  destruct (extreme better l) as [|a|a|a] eqn:El; destruct (extreme better l') as [|a'|a'|a'] eqn:El';
    try (specialize (M1 eq_refl); discriminate); try (specialize (M2 eq_refl); discriminate);
  destruct v as [|b|b|b]; destruct w as [|b'|b'|b'];
    try (specialize (N1 eq_refl); discriminate); try (specialize (N2 eq_refl); discriminate);
    try exact IH; try exact H; cbv beta iota in B |- *; cbv zeta; rewrite B; match goal with |- R (if ?x then _ else _) _ => destruct x end; assumption.
Qed.

Lemma decrypt_rows E M T st ps es :
  Forall2 (fun p e => decrypt_row E M T (s_cols st) (s_state st) e = Ok p) ps es ->
  decrypt_result E M T st es = Ok ps.
Proof.
  induction 1 as [|p e ps es H F IH]; [reflexivity|]. unfold decrypt_result in *. cbn [mapM].
  rewrite H, IH. reflexivity.
Qed.

(** ** The whole statement *)
Definition max_better (f : pystr) (a b : sqlv) : bool := if seqb f (u "max") then vle b a else vle a b.

Lemma aggregate_minmax kw rows f c : In f [u "max"; u "min"] ->
  aggregate kw rows (val (JDict [(f, JStr c)])) =
  Some (do l <- mapM (fun r => operand kw r (JStr c)) rows; Ok (extreme (max_better f) l)).
Proof. intros [<-|[<-|[]]]; reflexivity. Qed.
Lemma aggregate_val kw rows k : aggregate kw rows (val (JStr k)) = None.
Proof. reflexivity. Qed.

Lemma select_minmax_rw M (T : json) f k j st st' : In f [u "max"; u "min"] ->
  select_str M T OPEC k st = Ok (j, st') ->
  select_rw M T SYM (val (JDict [(f, JStr k)])) st = Ok (val (JDict [(f, j)]), st').
Proof.
  intros [<-|[<-|[]]] H; unfold val; cbn [select_rw is_count_star].
  - change (dget func_ciphers (u "value")) with (@None pystr). change (seqb (u "value") (u "add")) with false. cbv iota.
    change (seqb (u "max") (u "count")) with false. cbn [andb].
    change (dget func_ciphers (u "max")) with (Some OPEC). cbv iota. rewrite H. reflexivity.
  - change (dget func_ciphers (u "value")) with (@None pystr). change (seqb (u "value") (u "add")) with false. cbv iota.
    change (seqb (u "min") (u "count")) with false. cbn [andb].
    change (dget func_ciphers (u "min")) with (Some OPEC). cbv iota. rewrite H. reflexivity.
Qed.

Definition sel_sim (kw : pystr -> bool) (E : env) (M : dbmeta) (t : pystr) (m : tmeta) (sel : json) : Prop :=
  exists sel' st, select_rw M (JStr t) SYM sel s_empty = Ok (sel', st) /\
  forall w w' o o' l off pt et, tab_rel E m pt et ->
    (forall pr er, enc_row E m pr er -> selected kw w pr = selected kw w' er) ->
    (forall prs ers, Forall2 (enc_row E m) prs ers ->
       res_rel (Forall2 (enc_row E m)) (order_rows kw o prs) (order_rows kw o' ers)) ->
    exec_select kw pt sel w o l off =
    do rs <- exec_select kw et sel' w' o' l off; decrypt_result E M (JStr t) st rs.

(** A plain select list. *)
Lemma plain_list_sim kw E M t m sel sel' os : Forall (ocol_ok kw E M t m) os ->
  (forall rows, aggregate kw rows sel = None) -> (forall rows, aggregate kw rows sel' = None) ->
  (forall tb, tb_cols tb = dkeys (t_cols m) ->
     match sel with
     | JStr s => if seqb s (u "*") then map JStr (tb_cols tb) else [sel]
     | JList js => js
     | _ => [sel]
     end = map oc_p os) ->
  (forall tb, match sel' with
     | JStr s => if seqb s (u "*") then map JStr (tb_cols tb) else [sel']
     | JList js => js
     | _ => [sel']
     end = map oc_e os) ->
  select_rw M (JStr t) SYM sel s_empty = Ok (sel', push_all s_empty os) ->
  sel_sim kw E M t m sel.
Proof.
  intros F A1 A2 I1 I2 R. exists sel', (push_all s_empty os). split; [exact R|].
  intros w w' o o' l off pt et [T1 T2 T3] Hw Ho. unfold exec_select. rewrite (I1 pt T1), (I2 et).
  pose proof (filterM_rel (enc_row E m) (selected kw w) (selected kw w') _ _ T3 Hw) as HF.
  destruct (filterM (selected kw w) (tb_rows pt)) as [prs|e], (filterM (selected kw w') (tb_rows et)) as [ers|e'];
    cbn [res_rel] in HF; try contradiction; cbn [bind]; [|congruence].
  rewrite A1, A2. pose proof (Ho prs ers HF) as HO.
  destruct (order_rows kw o prs) as [prs1|e], (order_rows kw o' ers) as [ers1|e'];
    cbn [res_rel] in HO; try contradiction; cbn [bind]; [|congruence].
  pose proof (limit_rel (enc_row E m) off l prs1 ers1 HO) as HL.
  destruct (limit_rows off l prs1) as [prs2|e], (limit_rows off l ers1) as [ers2|e'];
    cbn [res_rel] in HL; try contradiction; cbn [bind]; [|congruence].
  symmetry. apply (ocols_rows kw E M t m os prs2 ers2 F HL).
Qed.

(** An aggregate. *)
Lemma agg_sim kw E M t m sel sel' st fp fe :
  (forall rows, aggregate kw rows sel = Some (fp rows)) -> (forall rows, aggregate kw rows sel' = Some (fe rows)) ->
  select_rw M (JStr t) SYM sel s_empty = Ok (sel', st) ->
  (forall prs ers, Forall2 (enc_row E m) prs ers -> exists v w, fp prs = Ok v /\ fe ers = Ok w /\
     decrypt_row E M (JStr t) (s_cols st) (s_state st) [w] = Ok [v]) ->
  sel_sim kw E M t m sel.
Proof.
  intros A1 A2 R H. exists sel', st. split; [exact R|].
  intros w w' o o' l off pt et [T1 T2 T3] Hw Ho. unfold exec_select.
  pose proof (filterM_rel (enc_row E m) (selected kw w) (selected kw w') _ _ T3 Hw) as HF.
  destruct (filterM (selected kw w) (tb_rows pt)) as [prs|e], (filterM (selected kw w') (tb_rows et)) as [ers|e'];
    cbn [res_rel] in HF; try contradiction; cbn [bind]; [|congruence].
  rewrite A1, A2. destruct (H prs ers HF) as (x & y & -> & -> & D). cbn [bind].
  pose proof (limit_rel (fun p e => decrypt_row E M (JStr t) (s_cols st) (s_state st) e = Ok p) off l [[x]] [[y]]) as HL.
  specialize (HL (Forall2_cons _ _ D (Forall2_nil _))).
  destruct (limit_rows off l [[x]]) as [ps|e], (limit_rows off l [[y]]) as [es|e'];
    cbn [res_rel] in HL; try contradiction; cbn [bind]; [|congruence].
  symmetry. apply decrypt_rows, HL.
Qed.

Lemma mapM_total_rel {A B C D} (R : A -> B -> Prop) (S : C -> D -> Prop) f g l l' :
  Forall2 R l l' -> (forall a b, R a b -> exists c d, f a = Ok c /\ g b = Ok d /\ S c d) ->
  exists cs ds, mapM f l = Ok cs /\ mapM g l' = Ok ds /\ Forall2 S cs ds.
Proof.
  intros F H. induction F as [|a b l l' Hab F (cs & ds & H1 & H2 & H3)].
  - exists [], []. repeat split. constructor.
  - destruct (H a b Hab) as (c & d & K1 & K2 & K3). exists (c :: cs), (d :: ds). cbn [mapM].
    rewrite K1, K2, H1, H2. repeat split. constructor; assumption.
Qed.

Lemma select_list_sim kw E (M : dbmeta) t m sel : prim_ok (e_P E) -> wf_meta kw M -> dget M t = Some m ->
  select_ok m sel -> sel_sim kw E M t m sel.
Proof.
  intros HP HM Hm Hs. pose proof (wm_table kw M HM t m Hm) as W.
  destruct Hs as [->|[(k & Hk & ->)|[(ks & Hks & ->)|[->|(f & k & Hf & -> & Hk)]]]].
  - (* every column *)
    apply (plain_list_sim kw E M t m _ (JList (map oc_e (map (mk JStr JStr) (t_cols m)))) (map (mk JStr JStr) (t_cols m))).
    + apply Forall_forall. intros o Ho. apply in_map_iff in Ho as ((k & c) & <- & Ho).
      apply (mk_ok kw E M t m HP HM Hm); auto. apply dget_NoDup; [apply (wf_log kw m W) | exact Ho].
    + reflexivity.
    + reflexivity.
    + intros tb ->. change (seqb (u "*") (u "*")) with true. cbv iota. unfold dkeys. rewrite !map_map. reflexivity.
    + reflexivity.
    + apply (select_star_ok kw M t m HM Hm).
  - destruct (dget_in_keys _ _ Hk) as (c & Hc).
    apply (plain_list_sim kw E M t m _ (val (JStr (phys_name SYM k c)))
             [mk (fun s => val (JStr s)) (fun s => val (JStr s)) (k, c)]).
    + constructor; [|constructor]. apply (mk_ok kw E M t m HP HM Hm); auto.
    + reflexivity.
    + reflexivity.
    + reflexivity.
    + reflexivity.
    + apply (select_one_ok kw M t m HM Hm k c Hc).
  - assert (exists l, map fst l = ks /\ forall k c, In (k, c) l -> dget (t_cols m) k = Some c) as (l & <- & Hl).
    { clear -Hks. induction ks as [|k ks IH]; [exists []; split; [reflexivity | intros k c []]|].
      destruct IH as (l & Kl & Hl); [intros x X; apply Hks; right; exact X|].
      destruct (dget_in_keys _ _ (Hks k (or_introl eq_refl))) as (c & Hc).
      exists ((k, c) :: l). cbn [map fst]. rewrite Kl. split; [reflexivity|].
      intros k' c' [[= <- <-]|X]; [exact Hc | apply Hl, X]. }
    rewrite map_map.
    apply (plain_list_sim kw E M t m _ (JList (map oc_e (map (mk (fun s => val (JStr s)) JStr) l)))
             (map (mk (fun s => val (JStr s)) JStr) l)).
    + apply Forall_forall. intros o Ho. apply in_map_iff in Ho as ((k & c) & <- & Ho).
      apply (mk_ok kw E M t m HP HM Hm); auto.
    + reflexivity.
    + reflexivity.
    + intros tb _. rewrite map_map. reflexivity.
    + reflexivity.
    + apply (select_list_ok kw M t m HM Hm l Hl).
  - (* COUNT *)
    apply (agg_sim kw E M t m _ (val (JDict [(u "count", JStr (u "*"))]))
             (s_push s_empty (u "count") (u "int") PLAIN)
             (fun rows => Ok (VInt (Z.of_nat (length rows)))) (fun rows => Ok (VInt (Z.of_nat (length rows))))).
    + reflexivity.
    + reflexivity.
    + reflexivity.
    + intros prs ers F. eexists _, _. split; [reflexivity|]. split; [reflexivity|].
      rewrite (Forall2_len _ _ _ F). reflexivity.
  - destruct Hk as [(c & Hc & Hp)|(c & (Hc & Hp & n & Hn) & Ty)].
    + assert (Nk : colname kw k) by (apply (wf_names kw m W), (dget_Some_key _ _ _ Hc)).
      apply (agg_sim kw E M t m _ (val (JDict [(f, JStr k)])) (s_push s_empty k (c_type c) PLAIN)
        (fun rows => do l <- mapM (fun r => operand kw r (JStr k)) rows; Ok (extreme (max_better f) l))
        (fun rows => do l <- mapM (fun r => operand kw r (JStr k)) rows; Ok (extreme (max_better f) l))).
      * intros rows. apply aggregate_minmax, Hf.
      * intros rows. apply aggregate_minmax, Hf.
      * apply select_minmax_rw; [exact Hf|].
        unfold select_str. rewrite (colname_nostar kw k Nk). unfold select_name, split_dot.
        rewrite (colname_nodot kw k Nk). cbn [bind]. rewrite (lookup_table _ _ _ Hm). cbn [bind].
        unfold dgetE. rewrite Hc. cbn [bind]. rewrite Hp. reflexivity.
      * intros prs ers F.
        destruct (mapM_total_rel (enc_row E m) eq (fun r => operand kw r (JStr k)) (fun r => operand kw r (JStr k)) prs ers F)
          as (cs & ds & H1 & H2 & H3).
        { intros a b HR. destruct (HR k c Hc) as (v & Hv & R). rewrite Hp in R. exists v, v.
          rewrite !(operand_col kw _ k v) by (assumption || apply colname_column, Nk). auto. }
        assert (cs = ds) as -> by (clear -H3; induction H3; congruence).
        rewrite H1, H2. cbn [bind]. eexists _, _. split; [reflexivity|]. split; [reflexivity|]. reflexivity.
    + assert (Nk : colname kw k) by (apply (wf_names kw m W), (dget_Some_key _ _ _ Hc)).
      apply (agg_sim kw E M t m _ (val (JDict [(f, JStr n)])) (s_push s_empty k (c_type c) OPEC)
        (fun rows => do l <- mapM (fun r => operand kw r (JStr k)) rows; Ok (extreme (max_better f) l))
        (fun rows => do l <- mapM (fun r => operand kw r (JStr n)) rows; Ok (extreme (max_better f) l))).
      * intros rows. apply aggregate_minmax, Hf.
      * intros rows. apply aggregate_minmax, Hf.
      * apply select_minmax_rw; [exact Hf|].
        unfold select_str. rewrite (colname_nostar kw k Nk). unfold select_name, split_dot.
        rewrite (colname_nodot kw k Nk). cbn [bind]. rewrite (lookup_table _ _ _ Hm). cbn [bind].
        unfold dgetE. rewrite Hc. cbn [bind]. rewrite Hp, Hn. reflexivity.
      * intros prs ers F.
        destruct (mapM_total_rel (enc_row E m) (fun v w => enc_cell E c OPEC v w)
                    (fun r => operand kw r (JStr k)) (fun r => operand kw r (JStr n)) prs ers F)
          as (cs & ds & H1 & H2 & H3).
        { intros a b HR. destruct (read_ope E m k c n a b HR Hc Hp Hn) as (v & w & Hv & Hw & Ew & _).
          exists v, w. rewrite (operand_col kw a k v), (operand_col kw b n w); auto.
          - apply (enc_colname kw m k c OPEC n W Hc Hp Hn).
          - apply colname_column, Nk. }
        rewrite H1, H2. cbn [bind]. eexists _, _. split; [reflexivity|]. split; [reflexivity|].
        cbn [s_push s_cols s_state s_empty app]. rewrite decrypt_row_cons.
        rewrite (dec_ope E M t m k c (extreme (max_better f) cs)); try assumption.
        -- reflexivity.
        -- apply (colname_nodot kw k Nk).
        -- apply (extreme_rel (fun v w => enc_cell E c OPEC v w)); [| reflexivity | | exact H3].
           ++ intros v w Hvw. destruct (enc_cell_ope E c v w Hvw) as [[-> ->]|(z & e & -> & _ & ->)]; [tauto|].
              split; discriminate.
           ++ intros v w v' w' H H'. unfold max_better.
              destruct (seqb f (u "max")); apply (vle_ope E c); apply enc_cell_ope; assumption.
Qed.

Lemma select_sim kw E (M : dbmeta) t m sel w o l off pt et :
  prim_ok (e_P E) -> wf_meta kw M -> dget M t = Some m -> substrb (u "value") t = false ->
  select_ok m sel -> where_ok kw (e_alnum E) m w -> order_ok m o -> tab_rel E m pt et ->
  exists sel' w' o' st,
    rewrite_query E M (select_stmt t sel w o l off) = Ok (select_stmt (t_anon m) sel' w' o' l off, JStr t, st) /\
    exec_select kw pt sel w o l off =
    do rs <- exec_select kw et sel' w' o' l off; decrypt_result E M (JStr t) st rs.
Proof.
  intros HP HM Hm Hv Hs Hw Ho HT.
  destruct (where_opt_sound kw E M t m w HP Hm (wm_table kw M HM t m Hm) Hw) as (w' & W1 & W2).
  destruct (order_sim kw E M t m o HM Hm Ho) as (o' & O1 & O2).
  destruct (select_list_sim kw E M t m sel HP HM Hm Hs) as (sel' & st & S1 & S2).
  exists sel', w', o', st. split; [apply rewrite_select; assumption|]. apply S2; assumption.
Qed.
