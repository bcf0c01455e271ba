(** Proofs about joins and table names. *)
From Coq Require Import String Ascii List NArith ZArith QArith Bool Lia ZifyBool ZifyNat ZifyN.
From Verif Require Import Base BaseProof CryptoModel CryptoSpec CryptoProof CryptoProps FuzzyModel
  OpeModel OpeProps PaillierModel JsonModel RewriteModel SqlSpec EncSpec JsonProof WhereProof
  StmtSpec RewriteSpec SimProof StmtProof UpdateProof SelectProof HistoryProof RewriteProof QueryProof.
Import ListNotations.
Open Scope Z_scope.

(** ** C30 *)
Lemma dget_app {V} (a b : dict V) k : dget (a ++ b) k = match dget a k with Some v => Some v | None => dget b k end.
Proof. induction a as [|[x v] a IH]; [reflexivity|]. cbn [app dget]. destruct (seqb k x); [reflexivity | exact IH]. Qed.

Lemma qualify_same t r c : dget (qualify t r) (t ++ DOT :: c) = dget r c.
Proof.
  induction r as [|[x v] r IH]; [reflexivity|]. cbn [qualify map fst snd dget]. fold (qualify t r).
  destruct (seqb_spec (t ++ DOT :: c) (t ++ DOT :: x)) as [H|H], (seqb_spec c x) as [H'|H'].
  - reflexivity.
  - apply app_inv_head in H. congruence.
  - congruence.
  - exact IH.
Qed.

Lemma split_qname t c : has_char DOT t = false -> has_char DOT c = false -> split DOT (t ++ DOT :: c) = [t; c].
Proof. intros H1 H2. rewrite split_app by exact H1. rewrite split_nochar by exact H2. reflexivity. Qed.

Lemma qualify_other t t' r c : has_char DOT t = false -> has_char DOT t' = false -> t <> t' ->
  dget (qualify t r) (t' ++ DOT :: c) = None.
Proof.
  intros H1 H2 N0. induction r as [|[x v] r IH]; [reflexivity|]. cbn [qualify map fst snd dget]. fold (qualify t r).
  destruct (seqb_spec (t' ++ DOT :: c) (t ++ DOT :: x)) as [H|H]; [|exact IH]. exfalso. apply N0.
  assert (X : split DOT (t' ++ DOT :: c) = split DOT (t ++ DOT :: x)) by (rewrite H; reflexivity).
  rewrite !split_app in X by assumption. congruence.
Qed.

Lemma side_left t0 r0 t1 r1 c v : has_char DOT t0 = false -> dget r0 c = Some v ->
  dget (side_by_side t0 r0 t1 r1) (t0 ++ DOT :: c) = Some v.
Proof. intros H H1. unfold side_by_side. rewrite dget_app, qualify_same, H1. reflexivity. Qed.
Lemma side_right t0 r0 t1 r1 c v : has_char DOT t0 = false -> has_char DOT t1 = false -> t0 <> t1 ->
  dget r1 c = Some v -> dget (side_by_side t0 r0 t1 r1) (t1 ++ DOT :: c) = Some v.
Proof. intros H H' N0 H1. unfold side_by_side. rewrite dget_app, qualify_other, qualify_same by assumption. exact H1. Qed.

Lemma qname_column kw t c : colname kw t -> colname kw c -> is_column kw (t ++ DOT :: c) = true.
Proof.
  intros [V K] [V' K']. unfold is_column. rewrite split_qname by (apply valid_name_nodot; assumption).
  cbn [forallb]. rewrite V, K, V', K'. reflexivity.
Qed.

Lemma cond_eq_names kw r a b va vb : is_column kw a = true -> is_column kw b = true ->
  dget r a = Some va -> dget r b = Some vb ->
  cond kw r (JDict [(u "eq", JList [JStr a; JStr b])]) =
  do c <- vcmp va vb; Ok (match c with Some c => holds (u "eq") c | None => None end).
Proof.
  intros A B Va Vb. cbn [cond]. change (smem (u "eq") [u "eq"; u "neq"; u "gt"; u "lt"; u "gte"; u "lte"]) with true. cbv iota.
  rewrite (operand_col kw r a va A Va), (operand_col kw r b vb B Vb). reflexivity.
Qed.

Lemma qcmp_int a b : Qcompare (inject_Z a) (inject_Z b) = Z.compare a b.
Proof. unfold Qcompare, inject_Z. cbn [Qnum Qden]. rewrite !Z.mul_1_r. reflexivity. Qed.

Lemma sym_eq_cells E c0 c1 v0 w0 v1 w1 : prim_ok (e_P E) -> c_key c0 = c_key c1 ->
  (c_type c0 = u "int" <-> c_type c1 = u "int") ->
  typed c0 v0 -> typed c1 v1 -> enc_cell E c0 SYM v0 w0 -> enc_cell E c1 SYM v1 w1 ->
  (do c <- vcmp w0 w1; Ok (match c with Some c => holds (u "eq") c | None => None end)) =
  (do c <- vcmp v0 v1; Ok (match c with Some c => holds (u "eq") c | None => None end)).
Proof.
  intros HP K Ti T0 T1 H0 H1.
  destruct (enc_cell_sym E c0 v0 w0 T0 H0) as [[-> ->]|[(z0 & x0 & -> & E0 & ->)|(s0 & x0 & -> & E0 & ->)]];
  destruct (enc_cell_sym E c1 v1 w1 T1 H1) as [[-> ->]|[(z1 & x1 & -> & E1 & ->)|(s1 & x1 & -> & E1 & ->)]];
    try reflexivity; cbn [vcmp bind num]; rewrite K in E0.
  - rewrite qcmp_int. rewrite (ciph_eq (e_P E) HP (c_key c1) _ _ _ _ (str_int_text_ok z0) (str_int_text_ok z1) E0 E1).
    f_equal. rewrite !holds_eq. destruct (scmp_cases (str_int z0) (str_int z1)) as [[X Y]|[X Y]].
    + apply str_int_inj in Y. subst. rewrite X, Z.compare_refl. reflexivity.
    + destruct (Z.compare_spec z0 z1) as [Z0|Z0|Z0]; [congruence| |];
        destruct (scmp (str_int z0) (str_int z1)); congruence.
  - exfalso. destruct T0 as [T0 _], T1 as [T1 _]. apply Ti in T0. rewrite T0 in T1. discriminate T1.
  - exfalso. destruct T0 as [T0 _], T1 as [T1 _]. apply Ti in T1. rewrite T1 in T0. discriminate T0.
  - f_equal. destruct T0 as [_ T0], T1 as [_ T1]. apply (ciph_eq (e_P E) HP (c_key c1)); assumption.
Qed.

Lemma join_sound kw E (M : dbmeta) t0 m0 c0 k0 t1 m1 c1 k1 j :
  prim_ok (e_P E) -> wf_meta kw M -> dget M t0 = Some m0 -> dget M t1 = Some m1 -> t0 <> t1 ->
  colname kw t0 -> colname kw t1 -> colname kw (t_anon m0) -> colname kw (t_anon m1) ->
  dget (t_cols m0) c0 = Some k0 -> dget (t_cols m1) c1 = Some k1 ->
  (c_plain k0 = true /\ c_plain k1 = true) \/
  (c_plain k0 = false /\ c_plain k1 = false /\ c_key k0 = c_key k1 /\ (c_type k0 = u "int" <-> c_type k1 = u "int")) ->
  In j origin_keys ->
  exists on',
    from_rw E M (JList [JStr t0; JDict [(j, JStr t1); (u "on", join_cond t0 c0 t1 c1)]]) =
      Ok (JList [JStr (t_anon m0); JDict [(j, JStr (t_anon m1)); (u "on", on')]]) /\
    forall pr0 er0 pr1 er1, enc_row E m0 pr0 er0 -> enc_row E m1 pr1 er1 ->
      cond kw (side_by_side (t_anon m0) er0 (t_anon m1) er1) on' =
      cond kw (side_by_side t0 pr0 t1 pr1) (join_cond t0 c0 t1 c1).
Proof.
  intros HP HM Hm0 Hm1 N0 N_t0 N_t1 N_a0 N_a1 Hc0 Hc1 Hk Hj.
  pose proof (wm_table kw M HM t0 m0 Hm0) as W0. pose proof (wm_table kw M HM t1 m1 Hm1) as W1.
  assert (Na : t_anon m0 <> t_anon m1).
  { intros X. apply N0. apply (wm_anon kw M HM t0 t1 m0 m1 Hm0 Hm1 X). }
  pose proof (wf_names kw m0 W0 c0 (dget_Some_key _ _ _ Hc0)) as N_c0.
  pose proof (wf_names kw m1 W1 c1 (dget_Some_key _ _ _ Hc1)) as N_c1.
  assert (S : forall k m c t, dget M t = Some m -> dget (t_cols m) c = Some k -> exists n,
     (if c_plain k then Ok c else dgetE (c_enc k) SYM) = Ok n /\ colname kw n /\
     (if c_plain k then n = c else dget (c_enc k) SYM = Some n)).
  { intros k m c t Hm Hc. pose proof (wm_table kw M HM t m Hm) as W. destruct (c_plain k) eqn:Hp.
    - exists c. split; [reflexivity|]. split; [apply (wf_names kw m W), (dget_Some_key _ _ _ Hc)|reflexivity].
    - destruct (sym_name k (wm_supp kw M HM t m c k Hm Hc) Hp) as [n Hn]. exists n. unfold dgetE. rewrite Hn.
      split; [reflexivity|]. split; [|reflexivity]. apply (wf_pnames kw m W), (phys_In m c k); [exact Hc|].
      right. split; [exact Hp | apply dget_dvals with SYM, Hn]. }
  destruct (S k0 m0 c0 t0 Hm0 Hc0) as (n0 & S0 & Nn0 & P0). destruct (S k1 m1 c1 t1 Hm1 Hc1) as (n1 & S1 & Nn1 & P1).
  exists (JDict [(u "eq", JList [JStr (t_anon m0 ++ DOT :: n0); JStr (t_anon m1 ++ DOT :: n1)])]). split.
  - assert (Wj : where_rw E M (JList []) SYM [] (join_cond t0 c0 t1 c1) =
        Ok (JDict [(u "eq", JList [JStr (t_anon m0 ++ DOT :: n0); JStr (t_anon m1 ++ DOT :: n1)])])).
    { change (where_rw E M (JList []) SYM [] (join_cond t0 c0 t1 c1)) with
        (where_join M SYM (qname t0 c0) (qname t1 c1)).
      unfold where_join, split_table_col, qname.
      rewrite !split_qname by (eapply colname_nodot; eassumption). cbn [bind].
      unfold dgetE at 1. rewrite Hm0. cbn [bind]. unfold dgetE at 1. rewrite Hc0. cbn [bind].
      unfold dgetE at 1. rewrite Hm1. cbn [bind]. unfold dgetE at 1. rewrite Hc1. cbn [bind].
      rewrite S0, S1. reflexivity. }
    cbn [from_rw mapM]. unfold dgetE at 1. rewrite Hm0. cbn [bind]. unfold from_join. cbn [mapM fst snd].
    assert (smem j join_list = true) as ->.
    { destruct Hj as [<-|[<-|[<-|[<-|[]]]]]; reflexivity. }
    rewrite (lookup_table _ _ _ Hm1). cbn [bind].
    change (smem (u "on") join_list) with false. change (seqb (u "on") (u "on")) with true. cbv iota.
    rewrite Wj. reflexivity.
  - intros pr0 er0 pr1 er1 R0 R1. destruct (R0 c0 k0 Hc0) as (v0 & V0 & Q0). destruct (R1 c1 k1 Hc1) as (v1 & V1 & Q1).
    pose proof (colname_nodot kw _ N_t0). pose proof (colname_nodot kw _ N_t1).
    pose proof (colname_nodot kw _ N_a0). pose proof (colname_nodot kw _ N_a1).
    unfold join_cond, qname. rewrite (cond_eq_names kw (side_by_side t0 pr0 t1 pr1) _ _ v0 v1);
      [|apply qname_column; assumption|apply qname_column; assumption|apply side_left; assumption|apply side_right; assumption].
    destruct Hk as [[Hp0 Hp1]|(Hp0 & Hp1 & K & Ti)]; rewrite Hp0 in Q0, P0; rewrite Hp1 in Q1, P1.
    + subst n0 n1. rewrite (cond_eq_names kw _ _ _ v0 v1);
        [reflexivity|apply qname_column; assumption|apply qname_column; assumption|apply side_left; assumption|apply side_right; assumption].
    + destruct Q0 as [T0 Q0], Q1 as [T1 Q1]. destruct (Q0 SYM n0 P0) as (w0 & X0 & Y0). destruct (Q1 SYM n1 P1) as (w1 & X1 & Y1).
      rewrite (cond_eq_names kw _ _ _ w0 w1);
        [|apply qname_column; assumption|apply qname_column; assumption|apply side_left; assumption|apply side_right; assumption].
      apply (sym_eq_cells E k0 k1); assumption.
Qed.

(** ** C33 *)
Lemma multi_insert E (M : dbmeta) t m rows : dget M t = Some m ->
  rewrite_query E M (JDict [(u "insert", JStr t); (u "values", rows)]) =
  Ok (JDict [(u "insert", JStr (t_anon m)); (u "values", rows)], JStr t, s_empty).
Proof.
  intros Hm. apply anonymous_ok in Hm. unfold rewrite_query.
  change (find_table table_key _) with (Ok (JStr t)). cbn [bind].
  match goal with |- context [clauses_rw _ _ _ _ ?n _ _ _] => generalize n as nested end. intros nested.
  match goal with |- context [clauses_rw _ _ _ ?s _ _ _ _] => generalize s at 1 as source end. intros source.
  unfold clause_keys. step cl_insert Hm. do 16 skip. reflexivity.
Qed.

(** ** C34 *)
Lemma prefixb_In p s c : prefixb p s = true -> In c p -> In c s.
Proof.
  revert s. induction p as [|x p IH]; intros [|y s] H I0; try (destruct I0; fail); try discriminate H.
  cbn [prefixb] in H. apply andb_true_iff in H as [H1 H2]. apply N.eqb_eq in H1. subst y.
  destruct I0 as [->|I0]; [left; reflexivity | right; apply IH; assumption].
Qed.
Lemma substrb_In p s c : substrb p s = true -> In c p -> In c s.
Proof.
  induction s as [|y s IH]; intros H I0; cbn [substrb] in H; apply orb_true_iff in H as [H|H].
  - apply (prefixb_In p [] c H I0).
  - discriminate H.
  - apply (prefixb_In p (y :: s) c H I0).
  - right. apply IH; assumption.
Qed.
Lemma seqb_sym a b : seqb a b = seqb b a.
Proof. destruct (seqb_spec a b), (seqb_spec b a); congruence. Qed.

Lemma name_no_join t k : valid_name t = true -> In k [u "inner join"; u "left join"; u "right join"] -> substrb k t = false.
Proof.
  intros V Hk. destruct (substrb k t) eqn:X; [|reflexivity]. exfalso.
  assert (In 32%N t) as Y.
  { apply (substrb_In k t 32%N X). destruct Hk as [<-|[<-|[<-|[]]]]; cbn; tauto. }
  destruct t as [|c t]; [discriminate|]. cbn [valid_name] in V. apply andb_true_iff in V as [V1 V2].
  destruct Y as [->|Y]; [discriminate V1|]. rewrite forallb_forall in V2. specialize (V2 _ Y). discriminate V2.
Qed.

Lemma descend_str keys t : valid_name t = true ->
  (forall k, In k keys -> In k [u "inner join"; u "left join"; u "right join"]) -> descend keys (JStr t) = Ok (JStr t).
Proof.
  intros V. induction keys as [|k keys IH]; intros H; [reflexivity|]. cbn [descend contains bind].
  rewrite (name_no_join t k V) by (apply H; left; reflexivity). apply IH. intros x X. apply H. right. exact X.
Qed.
Lemma dmem_other {V} (d : dict V) k : ~ In k (dkeys d) -> dmem d k = false.
Proof. intros H. unfold dmem. destruct (dget d k) eqn:X; [|reflexivity]. exfalso. apply H, (dget_Some_key _ _ _ X). Qed.
Lemma descend_dict keys d : (forall k, In k keys -> ~ In k (dkeys d)) -> descend keys (JDict d) = Ok (JDict d).
Proof.
  induction keys as [|k keys IH]; intros H; [reflexivity|]. cbn [descend contains bind].
  rewrite (dmem_other d k) by (apply H; left; reflexivity). apply IH. intros x X. apply H. right. exact X.
Qed.

Lemma descend_join k v rest r : In k origin_keys -> (forall x, In x (dkeys rest) -> ~ In x origin_keys) ->
  (forall keys, (forall x, In x keys -> In x [u "inner join"; u "left join"; u "right join"]) -> descend keys v = Ok r) ->
  descend origin_keys (JDict ((k, v) :: rest)) = Ok r.
Proof.
  intros Hk Hr Hv.
  assert (M1 : forall x, In x origin_keys -> x <> k -> dmem ((k, v) :: rest) x = false).
  { intros x X N0. apply dmem_other. intros [Y|Y]; [cbn [fst] in Y; congruence | apply (Hr x Y X)]. }
  assert (M2 : dmem ((k, v) :: rest) k = true) by (unfold dmem; cbn [dget]; rewrite seqb_refl; reflexivity).
  assert (G : getitem (JDict ((k, v) :: rest)) k = Ok v) by (cbn [getitem]; unfold dgetE; cbn [dget]; rewrite seqb_refl; reflexivity).
  unfold origin_keys in *.
  destruct Hk as [<-|[<-|[<-|[<-|[]]]]]; cbn [descend contains bind];
    repeat (rewrite M1 by (cbn [In]; first [tauto | discriminate])); rewrite M2; cbv iota; rewrite G; cbn [bind].
  - apply (Hv [u "inner join"; u "left join"; u "right join"]). auto.
  - apply (Hv [u "left join"; u "right join"]). cbn [In]. tauto.
  - apply (Hv [u "right join"]). cbn [In]. tauto.
  - apply (Hv []). intros x [].
Qed.

Lemma origin_one x name t q : from_item x name t -> valid_name t = true ->
  origin_item q x = Ok (if seqb q name then JStr t else JStr []).
Proof.
  intros F V.
  assert (Al : forall a, descend origin_keys (JDict [(u "value", JStr t); (u "name", JStr a)]) =
                         Ok (JDict [(u "value", JStr t); (u "name", JStr a)])).
  { intros a. apply descend_dict. intros k Hk [X|[X|[]]]; cbn [fst] in X; subst k;
      destruct Hk as [Y|[Y|[Y|[Y|[]]]]]; discriminate Y. }
  assert (Fin : forall a, origin_item q (JDict [(u "value", JStr t); (u "name", JStr a)]) = Ok (if seqb q a then JStr t else JStr [])).
  { intros a. cbn [origin_item]. rewrite Al. cbn [bind]. change (dget _ (u "name")) with (Some (JStr a)). cbv iota beta.
    rewrite (seqb_sym a q). destruct (seqb q a); reflexivity. }
  destruct F as [t|t a|k t rest Hk Hr|k t a rest Hk Hr].
  - cbn [origin_item]. unfold origin_str. reflexivity.
  - apply Fin.
  - cbn [origin_item]. rewrite (descend_join k (JStr t) rest (JStr t) Hk Hr).
    + reflexivity.
    + intros keys H. apply descend_str; assumption.
  - cbn [origin_item]. rewrite (descend_join k _ rest (JDict [(u "value", JStr t); (u "name", JStr a)]) Hk Hr).
    + specialize (Fin a). cbn [origin_item] in Fin. rewrite Al in Fin. exact Fin.
    + intros keys H. apply descend_dict. intros x Hx [X|[X|[]]]; cbn [fst] in X; subst x;
      destruct (H _ Hx) as [Y|[Y|[Y|[]]]]; discriminate Y.
Qed.

Lemma origin_all items binds q :
  Forall2 (fun x nt => from_item x (fst nt) (snd nt)) items binds -> NoDup (map fst binds) ->
  (forall n t, In (n, t) binds -> valid_name t = true) ->
  get_origin_table q (JList items) = Ok (JStr (match dget binds q with Some t => t | None => [] end)).
Proof.
  intros F ND HV. cbn [get_origin_table].
  assert (G : forall acc, (dget binds q <> None -> True) ->
    origin_list q items acc = Ok (match dget binds q with Some t => JStr t | None => acc end)).
  { clear -F ND HV. induction F as [|x [n t] items binds H F IH]; intros acc _; [reflexivity|].
    cbn [origin_list]. cbn [fst snd] in H. cbn [map fst] in ND. inversion ND as [|? ? N1 N2]; subst.
    pose proof (HV n t (or_introl eq_refl)) as V. rewrite (origin_one x n t q H V). cbn [bind dget].
    destruct (seqb_spec q n) as [->|N0].
    - destruct t as [|a t]; [discriminate V|]. cbn [truthy]. rewrite IH; [|exact N2| |auto].
      + destruct (dget binds n) eqn:X; [|reflexivity]. exfalso. apply N1. apply dget_Some_key in X. exact X.
      + intros n' t' X. apply (HV n' t'). right. exact X.
    - cbn [truthy]. apply IH; [exact N2| |auto]. intros n' t' X. apply (HV n' t'). right. exact X. }
  rewrite G by auto. destruct (dget binds q); reflexivity.
Qed.
