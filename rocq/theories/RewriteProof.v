(** Proofs about single clauses. *)
From Coq Require Import String Ascii List NArith ZArith QArith Bool Lia ZifyBool ZifyNat ZifyN.
From Verif Require Import Base BaseProof CryptoModel CryptoSpec CryptoProof CryptoProps FuzzyModel
  OpeModel OpeProps PaillierModel JsonModel RewriteModel SqlSpec EncSpec JsonProof WhereProof
  StmtSpec RewriteSpec SimProof StmtProof UpdateProof SelectProof HistoryProof.
Import ListNotations.
Open Scope Z_scope.

(** ** C21 *)
Lemma masked_ok kw E (M : dbmeta) t m j :
  prim_ok (e_P E) -> dget M t = Some m -> frag_cond kw (e_alnum E) m j ->
  exists j', where_rw E M (JStr t) SYM [] j = Ok j' /\ masked kw E m j j'.
Proof.
  intros HP Hm. induction j as [j IH] using json_size_ind. intros F.
  destruct j as [| | | | | |d]; try (destruct F; fail).
  destruct d as [|[k x] [|? ?]]; try (destruct F; fail).
  destruct (smem k [u "and"; u "or"]) eqn:K.
  - destruct x as [| | | | |l|]; try (cbn [frag_cond] in F; rewrite K in F; destruct F; fail).
    rewrite frag_and_or in F by exact K.
    assert (exists l', mapM (where_rw E M (JStr t) SYM []) l = Ok l' /\ Forall2 (masked kw E m) l l') as (l' & H1 & H2).
    { assert (IH' : forall y, In y l -> exists y', where_rw E M (JStr t) SYM [] y = Ok y' /\ masked kw E m y y').
      { intros y Hy. apply IH; [|apply F, Hy]. pose proof (jsize_list y l Hy). pose proof (jsize_dict k (JList l) [(k, JList l)] (or_introl eq_refl)). lia. }
      clear -IH'. induction l as [|y l IHl]; [exists []; split; [reflexivity|constructor]|].
      destruct (IH' y (or_introl eq_refl)) as (y' & Y1 & Y2).
      destruct IHl as (l' & L1 & L2); [intros z Hz; apply IH'; right; exact Hz|].
      exists (y' :: l'). cbn [mapM]. rewrite Y1, L1. split; [reflexivity | constructor; assumption]. }
    exists (JDict [(k, JList l')]). rewrite and_or_rw, H1 by exact K. split; [reflexivity|].
    apply masked_join; assumption.
  - cbn [frag_cond] in F. rewrite K in F.
    destruct F as [(K' & Rf & Hc)|[(c & cm & s & -> & -> & (Hc & Hp & n & Hn) & Ty & Tx)
      |[(c & cm & z & -> & -> & (Hc & Hp & n & Hn) & Ty & L)|[(c & cm & z & Ho & -> & (Hc & Hp & n & Hn) & Ty & Z)
      |(c & cm & ps & -> & -> & (Hc & Hp & n & Hn) & Ty & Ps)]]]].
    + exists (JDict [(k, x)]). split; [apply plain_rw with m; assumption|]. apply masked_plain, Rf.
    + destruct (aes_encrypt_ok (e_P E) HP (c_key cm) s (proj1 Tx)) as [d Hd].
      rewrite (eq_rw E M t m c cm _ _ _ n Hm Hc Hp Hn), lit_rw, Hd. eexists; split; [reflexivity|].
      apply masked_text with cm; assumption.
    + destruct (aes_encrypt_ok (e_P E) HP (c_key cm) (str_int z) (proj1 (str_int_text_ok z))) as [d Hd].
      rewrite (eq_rw E M t m c cm _ _ _ n Hm Hc Hp Hn), int_rw_sym, Hd. eexists; split; [reflexivity|].
      apply masked_int with cm; assumption.
    + destruct (env_ope_total E (c_key cm) z Z) as [e He].
      rewrite (cmp_rw E M t m k c cm _ _ _ n Ho Hm Hc Hp Ty Hn), int_rw_ope, He. eexists; split; [reflexivity|].
      apply masked_order with cm; assumption.
    + destruct (pattern_total E false ps (c_key cm) HP Ps) as [d Hd].
      rewrite (like_rw E M t m c cm _ _ _ n Hm Hc Hp Hn), lit_rw_fuz, Hd. eexists; split; [reflexivity|].
      apply masked_like with cm; assumption.
Qed.

(** Operators the rewriting does not know. *)
Lemma unknown_operator_kept E M table ci key k x :
  smem k [u "eq"; u "gt"; u "lt"; u "gte"; u "lte"; u "like"; u "and"; u "or"; u "literal"] = false ->
  where_rw E M table ci key (JDict [(k, x)]) = Ok (JDict [(k, x)]).
Proof.
  cbn [smem existsb where_rw]. intros H.
  repeat (apply orb_false_iff in H; destruct H as [? H]).
  repeat match goal with X : seqb k _ = false |- _ => rewrite X; clear X end. reflexivity.
Qed.

Lemma nonint_order_kept E (M : dbmeta) t m op c cm x ci key :
  dget M t = Some m -> smem op [u "gt"; u "lt"; u "gte"; u "lte"] = true ->
  dget (t_cols m) c = Some cm -> c_type cm <> u "int" ->
  where_rw E M (JStr t) ci key (JDict [(op, JList [JStr c; x])]) = Ok (JDict [(op, JList [JStr c; x])]).
Proof.
  intros Hm Ho Hc Ty. cbn [where_rw]. rewrite (where_cols_known _ _ _ Hm), Ho.
  assert (seqb op (u "eq") = false) as ->.
  { apply smem_In in Ho. destruct Ho as [<-|[<-|[<-|[<-|[]]]]]; reflexivity. }
  cbn [index nth_error bind col_at lookup]. unfold dgetE. rewrite Hc. cbn [bind].
  assert (seqb (c_type cm) (u "int") = false) as -> by (apply seqb_neq, Ty).
  destruct (c_plain cm); reflexivity.
Qed.

Lemma float_constant_clear E (M : dbmeta) t m c cm n q :
  dget M t = Some m -> dget (t_cols m) c = Some cm -> c_plain cm = false -> dget (c_enc cm) SYM = Some n ->
  where_rw E M (JStr t) SYM [] (JDict [(u "eq", JList [JStr c; JFloat q])]) =
  Ok (JDict [(u "eq", JList [JStr n; JFloat q])]).
Proof. intros Hm Hc Hp Hn. rewrite (eq_rw E M t m c cm _ _ _ n Hm Hc Hp Hn). reflexivity. Qed.

Lemma order_constant_clear E (M : dbmeta) t m op c cm n z :
  smem op [u "gt"; u "lt"; u "gte"; u "lte"] = true ->
  dget M t = Some m -> dget (t_cols m) c = Some cm -> c_plain cm = false -> c_type cm = u "int" ->
  dget (c_enc cm) OPEC = Some n -> int64 z ->
  where_rw E M (JStr t) SYM [] (JDict [(op, JList [JStr c; JInt z])]) =
  Ok (JDict [(op, JList [JStr n; JInt z])]).
Proof.
  intros Ho Hm Hc Hp Ty Hn Z. rewrite (cmp_rw E M t m op c cm _ _ _ n Ho Hm Hc Hp Ty Hn), int_rw_ope.
  unfold env_ope. rewrite c09_aux. unfold int64 in Z.
  assert ((- 2 ^ 63 <=? z) && (z <? 2 ^ 63) = true) as -> by lia. reflexivity.
Qed.

(** ** Errors in the clause loop *)
Lemma clause_err E M table source nested k r d x e st :
  dget d k = Some x -> seqb k (u "from") = false -> clause_rw E M table source k d x st = Err e ->
  clauses_rw E M table source nested (k :: r) (JDict d) st = Err e.
Proof. intros H F C. cbn [clauses_rw]. rewrite H, F. cbn [bind]. rewrite C. reflexivity. Qed.

(** ** C22 *)
Lemma rewrite_insert_eq E (M : dbmeta) t m cs vs : dget M t = Some m ->
  rewrite_query E M (insert_stmt t cs vs) =
  do pcs <- mapM (columns_col m) (map JStr cs);
  do l <- values_loop E m (map JStr cs) (map val vs);
  Ok (JDict [(u "insert", JStr (t_anon m)); (u "columns", JList (concat pcs));
             (u "query", JDict [(u "select", JList l)])], JStr t, s_empty).
Proof.
  intros Hm.
  assert (Hc : columns_rw M (JStr t) (JList (map JStr cs)) =
               do pcs <- mapM (columns_col m) (map JStr cs); Ok (JList (concat pcs))).
  { unfold columns_rw. rewrite (lookup_table _ _ _ Hm). reflexivity. }
  assert (Hv : values_rw E M (JStr t) (insert_stmt t cs vs) (JList (map val vs)) =
               do l <- values_loop E m (map JStr cs) (map val vs); Ok (JList l)).
  { unfold values_rw. rewrite (lookup_table _ _ _ Hm). cbn [bind].
    change (getitem (insert_stmt t cs vs) (u "columns")) with (Ok (JList (map JStr cs))). reflexivity. }
  pose proof (anonymous_ok M t m Hm) as Ha.
  destruct (mapM (columns_col m) (map JStr cs)) as [pcs|e]; cbn [bind] in Hc |- *.
  - destruct (values_loop E m (map JStr cs) (map val vs)) as [l|e]; cbn [bind] in Hv |- *.
    + apply (rewrite_insert E M t m); assumption.
    + unfold rewrite_query. unfold insert_stmt at 1.
      change (find_table table_key _) with (Ok (JStr t)). cbn [bind]. unfold clause_keys.
      match goal with |- context [clauses_rw _ _ _ _ ?n _ _ _] => generalize n as nested end. intros nested.
      unfold insert_stmt at 2. step cl_insert Ha. do 8 skip. step cl_columns Hc. skip.
      erewrite clause_err; [reflexivity|reflexivity|reflexivity|]. rewrite cl_query.
      match goal with |- (do y <- inner ?f ?d ?k; _) = _ =>
        assert (inner f d k = do y <- f (JList (map val vs));
          Ok (JDict [(u "insert", JStr (t_anon m)); (u "columns", JList (concat pcs));
                     (u "query", JDict [(u "select", y)])])) as Hi end.
      { generalize (values_rw E M (JStr t) (insert_stmt t cs vs)) as f. intros f.
        change (inner f (JDict [(u "insert", JStr (t_anon m)); (u "columns", JList (concat pcs));
                                (u "query", JDict [(u "select", JList (map val vs))])]) (u "query") =
          do y <- f (JList (map val vs));
          Ok (JDict [(u "insert", JStr (t_anon m)); (u "columns", JList (concat pcs)); (u "query", JDict [(u "select", y)])])).
        cbn [inner].
        change (seqb (u "query") (u "insert")) with false. change (seqb (u "query") (u "columns")) with false.
        change (seqb (u "query") (u "query")) with true. change (seqb (u "select") (u "select")) with true. cbv iota.
        destruct (f (JList (map val vs))); reflexivity. }
      rewrite Hi. cbn [bind].
      rewrite Hv. reflexivity.
  - unfold rewrite_query. unfold insert_stmt at 1.
    change (find_table table_key _) with (Ok (JStr t)). cbn [bind]. unfold clause_keys.
    match goal with |- context [clauses_rw _ _ _ _ ?n _ _ _] => generalize n as nested end. intros nested.
    unfold insert_stmt at 2. step cl_insert Ha. do 8 skip.
    erewrite clause_err; [reflexivity|reflexivity|reflexivity|]. rewrite cl_columns, Hc. reflexivity.
Qed.

Lemma values_pairs E m k v cs0 l0 :
  columns_col m (JStr k) = Ok cs0 -> values_col E m (JStr k) (val v) = Ok l0 ->
  exists ps, cs0 = map fst ps /\ l0 = map snd ps /\ pairs_ok E m (k, v) ps.
Proof.
  unfold columns_col, values_col, pairs_ok. cbn [lookup fst snd]. unfold dgetE at 1 2.
  destruct (dget (t_cols m) k) as [c|] eqn:Hc; [|discriminate]. cbn [bind]. destruct (c_plain c) eqn:Hp.
  - intros [= <-] [= <-]. exists [(JStr k, val v)]. split; [reflexivity|]. split; [reflexivity|].
    exists c. rewrite Hp. auto.
  - intros [= <-] H.
    assert (G : forall (d : dict pystr) l, mapM (fun enc => do v0 <- getitem (val v) (u "value"); encrypt_value E c k v0 enc) (dkeys d) = Ok l ->
      exists ps, map JStr (dvals d) = map fst ps /\ l = map snd ps /\
        Forall2 (fun ci p => encrypt_value E c k v ci = Ok (snd p)) (dkeys d) ps).
    { clear H. induction d as [|[ci n] d IH]; intros l H.
      - injection H as <-. exists []. repeat split. constructor.
      - cbn [dkeys map fst mapM] in H. change (getitem (val v) (u "value")) with (Ok v) in H. cbn [bind] in H.
        destruct (encrypt_value E c k v ci) as [w|] eqn:Ew; [|discriminate]. cbn [bind] in H.
        change (map fst d) with (dkeys d) in H.
        destruct (mapM (fun enc => encrypt_value E c k v enc) (dkeys d)) as [l'|] eqn:El; [|discriminate].
        injection H as <-. destruct (IH l' El) as (ps & P1 & P2 & P3).
        exists ((JStr n, w) :: ps). cbn [dvals map fst snd dkeys]. change (map snd d) with (dvals d).
        rewrite P1, P2. repeat split. constructor; [exact Ew | exact P3]. }
    destruct (G (c_enc c) l0 H) as (ps & P1 & P2 & P3). exists ps. split; [exact P1|]. split; [exact P2|].
    exists c. rewrite Hp. split; [reflexivity|]. split; [symmetry; exact P1 | exact P3].
Qed.

Lemma insert_pairs E (M : dbmeta) t m cs vs j' T st :
  dget M t = Some m -> length cs = length vs ->
  rewrite_query E M (insert_stmt t cs vs) = Ok (j', T, st) ->
  exists pss, Forall2 (pairs_ok E m) (combine cs vs) pss /\
    j' = JDict [(u "insert", JStr (t_anon m)); (u "columns", JList (map fst (concat pss)));
                (u "query", JDict [(u "select", JList (map snd (concat pss)))])].
Proof.
  intros Hm L. rewrite (rewrite_insert_eq E M t m cs vs Hm).
  destruct (mapM (columns_col m) (map JStr cs)) as [pcs|e] eqn:Hc; [|discriminate]. cbn [bind].
  destruct (values_loop E m (map JStr cs) (map val vs)) as [l|e] eqn:Hv; [|discriminate]. cbn [bind].
  intros [= <- _ _].
  assert (exists pss, Forall2 (pairs_ok E m) (combine cs vs) pss /\ concat pcs = map fst (concat pss) /\
                      l = map snd (concat pss)) as (pss & H1 & H2 & H3).
  { revert vs pcs l L Hc Hv. induction cs as [|k cs IH]; intros [|v vs] pcs l L Hc Hv; try discriminate.
    - injection Hc as <-. injection Hv as <-. exists []. repeat split. constructor.
    - cbn [map mapM] in Hc. cbn [map values_loop] in Hv.
      destruct (columns_col m (JStr k)) as [cs0|] eqn:C0; [|discriminate]. cbn [bind] in Hc.
      destruct (mapM (columns_col m) (map JStr cs)) as [pcs'|] eqn:C1; [|discriminate]. injection Hc as <-.
      destruct (values_col E m (JStr k) (val v)) as [l0|] eqn:V0; [|discriminate]. cbn [bind] in Hv.
      destruct (values_loop E m (map JStr cs) (map val vs)) as [l'|] eqn:V1; [|discriminate]. injection Hv as <-.
      destruct (values_pairs E m k v cs0 l0 C0 V0) as (ps & P1 & P2 & P3).
      destruct (IH vs pcs' l') as (pss & Q1 & Q2 & Q3); [cbn [length] in L; congruence|reflexivity|exact V1|].
      exists (ps :: pss). cbn [combine concat]. rewrite !map_app, Q2, Q3, P1, P2. repeat split.
      constructor; assumption. }
  exists pss. rewrite H2, H3. auto.
Qed.

Lemma extra_values_dropped E (M : dbmeta) t m cs vs extra :
  dget M t = Some m -> length cs = length vs ->
  rewrite_query E M (insert_stmt t cs (vs ++ extra)) = rewrite_query E M (insert_stmt t cs vs).
Proof.
  intros Hm L. rewrite !(rewrite_insert_eq E M t m) by exact Hm.
  assert (values_loop E m (map JStr cs) (map val (vs ++ extra)) = values_loop E m (map JStr cs) (map val vs)) as ->;
    [|reflexivity].
  revert vs L. induction cs as [|k cs IH]; intros [|v vs] L; try discriminate; [destruct extra; reflexivity|].
  cbn [map app values_loop]. destruct (values_col E m (JStr k) (val v)); [|reflexivity]. cbn [bind].
  rewrite IH by (cbn [length] in L; congruence). reflexivity.
Qed.

Lemma extra_values_rejected kw (D : db) t tb cs vs :
  dget D t = Some tb -> (length cs <> length vs)%nat -> exists e, exec kw D (insert_stmt t cs vs) = Err e.
Proof.
  intros Ht L. unfold insert_stmt. rewrite (exec_ins kw D t tb Ht). unfold exec_insert.
  destruct (mapM (insert_const kw) (map val vs)) as [ws|e] eqn:Hw; [|eexists; reflexivity]. cbn [bind].
  apply mapM_Ok_length in Hw. rewrite map_length in Hw.
  assert (exists e, assoc_row (map JStr cs) ws = Err e) as [e ->]; [|eexists; reflexivity].
  rewrite Hw in L || rewrite <- Hw in L. clear Hw. revert ws L. induction cs as [|c cs IH]; intros [|w ws] L; cbn [map assoc_row].
  - cbn [length] in L. congruence.
  - eexists; reflexivity.
  - eexists; reflexivity.
  - destruct (IH ws) as [e ->]; [cbn [length] in L; congruence|]. eexists; reflexivity.
Qed.

Lemma insert_values kw E M t m cs vs :
  prim_ok (e_P E) -> wf_meta kw M -> dget M t = Some m -> length cs = length vs ->
  (forall k v, In (k, v) (combine cs vs) -> exists c, dget (t_cols m) k = Some c /\ const_ok E k c v) ->
  exists chs js,
    rewrite_query E M (insert_stmt t cs vs) =
      Ok (JDict [(u "insert", JStr (t_anon m)); (u "columns", JList (map JStr (map fst (concat chs))));
                 (u "query", JDict [(u "select", JList js)])], JStr t, s_empty) /\
    mapM (insert_const kw) js = Ok (map snd (concat chs)) /\
    Forall2 (fun kv ch => exists c, dget (t_cols m) (fst kv) = Some c /\
                                    chunk_ok E (fst kv) c (const_sql (snd kv)) ch) (combine cs vs) chs.
Proof.
  intros HP HM Hm L H.
  destruct (values_loop_ok kw E m cs vs HP (fun k c => wm_supp kw M HM t m k c Hm) L H)
    as (js & ws & pcs & chs & H1 & H2 & H3 & H4 & H5 & H6 & H7).
  exists chs, js. rewrite (rewrite_insert_eq E M t m cs vs Hm), H1, H3. cbn [bind]. rewrite H4.
  assert (map fst (concat chs) = concat (map dkeys chs)) as -> by (symmetry; apply dkeys_concat || (rewrite <- dkeys_concat; reflexivity)).
  split; [reflexivity|]. split.
  - rewrite H2. f_equal. rewrite H5. clear -H6. revert ws H6. generalize (concat (map dkeys chs)) as l.
    induction l as [|x l IH]; intros [|w ws] H; try discriminate; [reflexivity|].
    cbn [combine map snd]. f_equal. apply IH. cbn [length] in H. congruence.
  - clear -H7. induction H7 as [|kv ch l l' (c & C1 & _ & C2) F IH]; constructor; eauto.
Qed.

(** ** C24 *)
Lemma enc_cell_fun E c ci v w w' : ci <> ARI -> enc_cell E c ci v w -> enc_cell E c ci v w' -> w = w'.
Proof.
  intros NA. unfold enc_cell. destruct v as [|z|q|s]; [congruence| | |].
  - intros [(C & t & A & B)|[(C & t & A & B)|[(C & t & A & B)|(C & _)]]]; subst ci;
    intros [(C' & t' & A' & B')|[(C' & t' & A' & B')|[(C' & t' & A' & B')|(C' & _)]]];
      try discriminate C'; try congruence.
  - contradiction.
  - intros [(C & t & A & B)|(C & t & A & B)]; subst ci;
    intros [(C' & t' & A' & B')|(C' & t' & A' & B')]; try discriminate C'; congruence.
Qed.

Lemma assoc_ext {V} (a b : dict V) : dkeys a = dkeys b -> NoDup (dkeys a) ->
  (forall n, In n (dkeys a) -> exists w, In (n, w) a /\ In (n, w) b) -> a = b.
Proof.
  revert b. induction a as [|[n v] a IH]; intros [|[n' v'] b] K ND H; try discriminate; [reflexivity|].
  cbn [dkeys map fst] in K, ND. unfold dkeys in *. injection K as <- K. inversion ND as [|? ? N1 N2]; subst.
  assert (Hb : forall x, In (n, x) b -> False).
  { intros x Hx. apply N1. rewrite K. change n with (fst (n, x)). apply in_map, Hx. }
  assert (Ha : forall x, In (n, x) a -> False).
  { intros x Hx. apply N1. change n with (fst (n, x)). apply in_map, Hx. }
  destruct (H n (or_introl eq_refl)) as (w & [[= ->]|W1] & [[= ->]|W2]); try (exfalso; eauto; fail).
  f_equal. apply IH; [exact K|exact N2|]. intros x Hx. destruct (H x (or_intror Hx)) as (y & [Y1|Y1] & [Y2|Y2]);
    try (injection Y1 as <- <-; contradiction); try (injection Y2 as <- <-; contradiction). eauto.
Qed.

Lemma NoDup_left {A} (a b : list A) : NoDup (a ++ b) -> NoDup a.
Proof.
  induction a as [|x a IH]; intros H; [constructor|]. cbn [app] in H. inversion H as [|? ? H1 H2]; subst.
  constructor; [|apply IH, H2]. intros X. apply H1, in_or_app. left. exact X.
Qed.
Lemma NoDup_right {A} (a b : list A) : NoDup (a ++ b) -> NoDup b.
Proof. induction a as [|x a IH]; intros H; [exact H|]. cbn [app] in H. inversion H; subst. auto. Qed.

Lemma dvals_NoDup kw m k c : wf_table kw m -> dget (t_cols m) k = Some c -> c_plain c = false -> NoDup (dvals (c_enc c)).
Proof.
  intros W Hc Hp. pose proof (wf_phys kw m W) as X. unfold phys in X.
  assert (In (phys_of k c) (map (fun kc => phys_of (fst kc) (snd kc)) (t_cols m))) as Y.
  { apply in_map_iff. exists (k, c). split; [reflexivity | apply dget_In, Hc]. }
  unfold phys_of in Y at 1. rewrite Hp in Y. clear -X Y.
  induction (map (fun kc => phys_of (fst kc) (snd kc)) (t_cols m)) as [|l ls IH]; [destruct Y|].
  cbn [concat] in X. destruct Y as [->|Y].
  - apply NoDup_left in X. exact X.
  - apply IH; [apply NoDup_right in X; exact X | exact Y].
Qed.

Lemma chunk_fun kw E m k c v ch ch' : wf_table kw m -> dget (t_cols m) k = Some c ->
  ~ In ARI (dkeys (c_enc c)) -> chunk_ok E k c v ch -> chunk_ok E k c v ch' -> ch = ch'.
Proof.
  intros W Hc NA (K & P & H) (K' & P' & H').
  destruct (c_plain c) eqn:Hp; [rewrite (P eq_refl), (P' eq_refl); reflexivity|].
  specialize (H eq_refl). specialize (H' eq_refl). unfold phys_of in K, K'. rewrite Hp in K, K'.
  pose proof (dvals_NoDup kw m k c W Hc Hp) as ND.
  apply assoc_ext; [congruence | rewrite K; exact ND|]. intros n Hn. rewrite K in Hn.
  apply in_map_iff in Hn as ((ci & n') & E0 & Hn). cbn [snd] in E0. subst n'.
  destruct (H ci n Hn) as (w & W1 & W2). destruct (H' ci n Hn) as (w' & W1' & W2').
  exists w. split; [exact W1|]. rewrite (enc_cell_fun E c ci v w w'); [exact W1'| |assumption|assumption].
  intros ->. apply NA. change ARI with (fst (ARI, n)). apply in_map, Hn.
Qed.

Lemma update_like_insert kw E M t m sets w :
  prim_ok (e_P E) -> wf_meta kw M -> dget M t = Some m -> NoDup (dkeys sets) ->
  (forall k v, In (k, v) sets -> exists c, dget (t_cols m) k = Some c /\ update_ok E k c v) ->
  where_ok kw (e_alnum E) m w ->
  exists stored sets' w' js,
    rewrite_query E M (update_stmt t sets w) = Ok (update_stmt (t_anon m) sets' w', JStr t, s_empty) /\
    rewrite_query E M (insert_stmt t (map fst sets) (map snd sets)) =
      Ok (JDict [(u "insert", JStr (t_anon m)); (u "columns", JList (map JStr (map fst stored)));
                 (u "query", JDict [(u "select", JList js)])], JStr t, s_empty) /\
    map fst sets' = map fst stored /\
    (forall r, mapM (operand kw r) (map snd sets') = Ok (map snd stored)) /\
    mapM (insert_const kw) js = Ok (map snd stored).
Proof.
  intros HP HM Hm ND Hs Hw. pose proof (wm_table kw M HM t m Hm) as W.
  destruct (where_opt_sound kw E M t m w HP Hm W Hw) as (w' & R & S).
  destruct (set_loop_ok kw E M (JStr t) m sets [] HP W (fun k c => wm_supp kw M HM t m k c Hm) Hs)
    as (jchs & wchs & H1 & H2 & H3).
  { intros l I K. cbn [dkeys map app]. apply (concat_map_sub phys_kc (t_cols m)).
    - apply NoDup_map_inv' with (f := fst), (wf_log kw m W).
    - apply (wf_phys kw m W).
    - apply NoDup_map_inv' with (f := fst). rewrite K. exact ND.
    - exact I. }
  assert (Cb : combine (map fst sets) (map snd sets) = sets).
  { clear. induction sets as [|[k v] l IH]; [reflexivity|]. cbn [map combine fst snd]. f_equal. exact IH. }
  destruct (insert_values kw E M t m (map fst sets) (map snd sets) HP HM Hm) as (chs & js & I1 & I2 & I3).
  { rewrite !map_length. reflexivity. }
  { rewrite Cb. intros k v Hkv. destruct (Hs k v Hkv) as (c & C1 & C2 & _). eauto. }
  rewrite Cb in I3.
  assert (wchs = chs).
  { assert (Hs' : forall kv, In kv sets -> exists c, dget (t_cols m) (fst kv) = Some c /\ update_ok E (fst kv) c (snd kv)).
    { intros [k v] X. apply Hs, X. }
    clear -H3 I3 W Hs'. revert chs I3. induction H3 as [|kv ch sets wchs (c & C1 & _ & C2) F IH]; intros chs I3;
      inversion I3 as [|? ch' ? chs' (c' & C1' & C2') F']; subst; [reflexivity|].
    rewrite C1 in C1'. injection C1' as <-. f_equal.
    - destruct (Hs' kv (or_introl eq_refl)) as (c0 & D1 & _ & D2). rewrite C1 in D1. injection D1 as <-.
      destruct (c_plain c) eqn:Hp.
      + destruct C2 as (_ & X & _), C2' as (_ & Y & _). rewrite X, Y by exact Hp. reflexivity.
      + apply (chunk_fun kw E m (fst kv) c (const_sql (snd kv))); auto. apply D2. reflexivity.
    - apply IH; [intros x X; apply Hs'; right; exact X | exact F']. }
  subst wchs. exists (concat chs), (concat jchs), w', js. split; [|split; [exact I1|split; [|split; [|exact I2]]]].
  - apply rewrite_update; [exact Hm| |exact R]. unfold set_rw. rewrite (lookup_table _ _ _ Hm). cbn [bind].
    rewrite H1. reflexivity.
  - apply gives_keys with kw, H2.
  - intros r. clear -H2. induction H2 as [|a b l l' [_ G] F IH]; [reflexivity|]. cbn [map mapM]. rewrite G, IH. reflexivity.
Qed.

Lemma set_enc_get E M T v key d acc r :
  set_enc E M T v key d acc = Ok r -> NoDup (dvals d) ->
  forall ci n x, In (ci, n) d -> where_rw E M T ci key v = Ok x -> dget r n = Some x.
Proof.
  intros H ND.
  assert (K : forall d acc r n, set_enc E M T v key d acc = Ok r -> ~ In n (dvals d) -> dget r n = dget acc n).
  { clear. induction d as [|[ci n'] d IH]; intros acc r n H N0; cbn [set_enc] in H; [congruence|].
    destruct (where_rw E M T ci key v) as [x|]; [|discriminate]. cbn [bind] in H.
    rewrite (IH _ _ n H); [|intros X; apply N0; right; exact X].
    apply dget_dset_other. intros ->. apply N0. left. reflexivity. }
  revert acc H. induction d as [|[ci n] d IH]; intros acc H ci0 n0 x I0 Hx; [destruct I0|].
  cbn [set_enc] in H. cbn [dvals map snd] in ND. inversion ND as [|? ? N1 N2]; subst.
  destruct I0 as [[= <- <-]|I0].
  - rewrite Hx in H. cbn [bind] in H. rewrite (K _ _ _ n H N1). apply dget_dset_same.
  - destruct (where_rw E M T ci key v) as [y|]; [|discriminate]. cbn [bind] in H.
    apply (IH N2 (dset acc n y) H ci0 n0 x I0 Hx).
Qed.

(** A value that the rewriting leaves alone under the cipher [ci] is stored as it is. *)
Lemma update_clear kw E (M : dbmeta) t m k c ci n v j' T st : wf_table kw m -> dget M t = Some m ->
  dget (t_cols m) k = Some c -> c_plain c = false -> dget (c_enc c) ci = Some n ->
  where_rw E M (JStr t) ci (c_key c) v = Ok v ->
  rewrite_query E M (update_stmt t [(k, v)] None) = Ok (j', T, st) ->
  exists sets', j' = update_stmt (t_anon m) sets' None /\ dget sets' n = Some v.
Proof.
  intros W Hm Hc Hp Hn Hv H.
  destruct (set_enc E M (JStr t) v (c_key c) (c_enc c) []) as [sets'|e] eqn:Hs.
  - rewrite (rewrite_update E M t m _ sets' None None Hm) in H; [| |reflexivity].
    + injection H as <- _ _. exists sets'. split; [reflexivity|].
      apply (set_enc_get E M (JStr t) v (c_key c) (c_enc c) [] sets' Hs (dvals_NoDup kw m k c W Hc Hp) ci); [|exact Hv].
      apply dget_In, Hn.
    + unfold set_rw. rewrite (lookup_table _ _ _ Hm). cbn [bind set_loop]. unfold dgetE. rewrite Hc. cbn [bind].
      rewrite Hp, Hs. reflexivity.
  - exfalso. revert H. unfold rewrite_query. unfold update_stmt at 1. unfold opt.
    change (find_table table_key _) with (Ok (JStr t)). cbn [bind app].
    match goal with |- context [clauses_rw _ _ _ _ ?n _ _ _] => generalize n as nested end. intros nested.
    generalize (update_stmt t [(k, v)] None) at 1 as source. intros source.
    unfold clause_keys, update_stmt, opt. cbn [app].
    pose proof (anonymous_ok M t m Hm) as Ha.
    do 2 skip. step cl_update Ha. do 4 skip.
    erewrite clause_err; [discriminate|reflexivity|reflexivity|]. rewrite cl_set. unfold set_rw.
    rewrite (lookup_table _ _ _ Hm). cbn [bind set_loop]. unfold dgetE. rewrite Hc. cbn [bind].
    rewrite Hp, Hs. reflexivity.
Qed.
