(** The rewritten form of a supported statement. *)
From Coq Require Import String Ascii List Arith NArith ZArith QArith Bool Lia ZifyBool ZifyNat ZifyN.
From Verif Require Import Base BaseProof CryptoModel CryptoSpec CryptoProof FuzzyModel PaillierModel JsonModel JsonProof DotsModel RewriteModel LikeSpec SqlSpec EncSpec
  RewriteSpec WhereProof StmtSpec SimProof StmtProof UpdateProof SelectProof HistoryProof RewriteProof SqlLex SqlRead FmtModel FmtSpec FmtLexProof FmtReadProof FmtExprProof FmtNameProof FmtProof
  ScrubModel OperModel OperSpec OperProof EndSpec EndParseProof EndTruthProof EndAssocProof EndMaskProof EndLexProof EndProof TextSpec TextValueProof TextExecProof.
Import ListNotations.
Open Scope Z_scope.

Section Shapes.
Variables (bs : bool) (alnum : N -> bool).
Hypothesis HA : ascii_ok alnum.

Inductive tw : option json -> option tree -> Prop :=
| tw_none : tw None None
| tw_some j t : tree_of j = Some t -> condition t -> clear kw alnum t -> good_leaves bs t ->
    (forall r, cond kw r j = truth r (view alnum t)) -> tw (Some j) (Some (view alnum t)).
Inductive ti : json -> items -> Prop :=
| ti_one c : usable c -> ti (val (JStr c)) (ICols [c])
| ti_strs l : l <> [] -> Forall usable l -> ti (JList (map JStr l)) (ICols l)
| ti_count : ti (val (JDict [(u "count", JStr (u "*"))])) ICount
| ti_ext (mx : bool) c : usable c -> ti (val (JDict [(if mx then u "max" else u "min", JStr c)])) (IExtreme mx c).
Inductive tord : option json -> option (pystr * bool) -> Prop :=
| to_none : tord None None
| to_some o : usable (fst o) -> tord (Some (order_json o)) (Some o).
Inductive txt : pystr -> json -> cmd tree -> Prop :=
| tx_select t sel i w q o oq lim : usable t -> ti sel i -> tw w q -> tord o oq ->
    txt t (select_stmt t sel w o (lim_json lim) (off_json lim)) (Select i t q oq lim)
| tx_insert t cs js ks : usable t -> cs <> [] -> Forall usable cs -> js <> [] -> wls bs js ks ->
    txt t (JDict [(u "insert", JStr t); (u "columns", JList (map JStr cs)); (u "query", JDict [(u "select", JList js)])]) (Insert t cs ks)
| tx_update t a b w q : usable t -> a <> [] -> (forall n, In n (dkeys a) -> usable n) -> wcs bs a b -> tw w q ->
    txt t (update_stmt t a w) (Update t b q)
| tx_delete t w q : usable t -> tw w q -> txt t (delete_stmt t w) (Delete t q).

Lemma usable_colp c : usable c -> colp c.
Proof. intros [U _]. now apply colname_column. Qed.
Lemma usable_colps l : Forall usable l -> Forall colp l.
Proof. apply Forall_impl, usable_colp. Qed.
Lemma txt_stm t j q : txt t j q -> stm t j q.
Proof.
  assert (W : forall w q, tw w q -> wrep w q) by (intros w q0 [|j0 t0 _ _ _ _ H]; [constructor|now constructor]).
  intros [t0 sel i w q0 o oq lim _ HI HW HO|t0 cs js ks _ _ HC _ HV|t0 a b w q0 _ _ HU HV HW|t0 w q0 _ HW].
  - constructor; [|now apply W|].
    + destruct HI; constructor; auto using usable_colp, usable_colps.
    + destruct HO; constructor. now apply usable_colp.
  - constructor; [now apply usable_colps|]. clear -HV. induction HV as [|j k js ks (x & -> & X) F IH]; constructor; [now apply (wl_insert bs)|exact IH].
  - constructor; [|now apply W]. clear W HW.
    induction HV as [|[c j0] [c' k] a0 b0 [E V] F IH]; constructor.
    + cbn [fst snd] in *. subst c'. split; [reflexivity|]. split; [apply usable_colp, HU; now left|]. intros r. now apply (wc_operand bs).
    + apply IH. intros n N0. apply HU. now right.
  - constructor. now apply W.
Qed.

(** ** Conditions *)
Section Source.
Variables (ft : pystr -> bool) (E : env) (M : dbmeta) (t : pystr) (m : tmeta).
Hypotheses (HP : prim_ok (e_P E)) (HM : wf_meta kw M) (Hm : dget M t = Some m) (UN : usable_names M).
Let WF : wf_table kw m := wm_table kw M HM t m Hm.

Lemma where_shape s : grouped ft s -> simple_atoms s -> EndSpec.supported (e_alnum E) bs m (mean s) ->
  exists j j' q, cond_json ft s = Ok j /\ frag_cond kw (e_alnum E) m j /\ (forall r, cond kw r j = truth r (mean s)) /\
    where_rw E M (JStr t) SYM [] j = Ok j' /\ tw (Some j') (Some q).
Proof.
  intros G A S. pose proof (supported_search _ _ _ _ S) as SE.
  destruct (read_canon ft s G A SE) as (x & t0 & R & EX & AE & C & CV).
  assert (S0 : EndSpec.supported (e_alnum E) bs m t0) by now apply (assoc_supported _ _ _ _ _ AE).
  unfold expr_of in EX. unfold cv in CV. set (j := json_of (scrub x)) in *.
  assert (F : frag_cond is_keyword (e_alnum E) m j) by now apply (supported_frag (e_alnum E) alnum bs m HA WF j t0).
  destruct (where_sound is_keyword E M t m j HP Hm WF F) as (j' & W & _).
  destruct (masked_ok is_keyword E M t m j HP Hm F) as (j2 & W2 & MK). rewrite W in W2. injection W2 as <-.
  destruct (masked_out (e_alnum E) alnum bs m HA WF E HP j t0 CV EX C S0 j' MK) as (t' & T' & C' & _ & CL' & G' & CN').
  exists j, j', (view alnum t'). split; [|split; [exact F|split; [|split; [exact W|]]]].
  - unfold cond_json. rewrite R. reflexivity.
  - intros r. rewrite (cond_truth is_keyword alnum r j t0 CV EX C (supported_clear (e_alnum E) alnum bs m HA WF t0 S0)).
    rewrite view_id; [now apply assoc_truth|exact C|]. intros l L.
    destruct (supported_cols (e_alnum E) bs m WF t0 S0 l L) as (c & -> & N0). exists c. split; [reflexivity|]. now apply (colname_facts c alnum HA N0).
  - constructor; try assumption. intros r. now apply (cond_truth is_keyword alnum r j' t' CN' T' C' CL').
Qed.
Lemma where_opt w : where_sup ft bs E m w ->
  exists j j' q, optR (cond_json ft) w = Ok j /\ where_ok kw (e_alnum E) m j /\ wrep j (option_map mean w) /\
    optM (where_rw E M (JStr t) SYM []) j = Ok j' /\ tw j' q.
Proof.
  destruct w as [s|]; cbn [where_sup].
  - intros (G & A & S). destruct (where_shape s G A S) as (j & j' & q & H1 & H2 & H3 & H4 & H5). exists (Some j), (Some j'), (Some q).
    cbn [optR optM option_map where_ok]. rewrite H1, H4. repeat split; try assumption. now constructor.
  - intros _. exists None, None, None. repeat split; constructor.
Qed.

(** ** Names *)
Lemma phys_usable n : In n (phys m) -> usable n.
Proof. apply (proj2 (UN t m Hm)). Qed.
Lemma phys_name_usable k c : dget (t_cols m) k = Some c -> usable (SelectProof.phys_name SYM k c).
Proof.
  intros Hc. apply phys_usable, (phys_In m k c); [exact Hc|]. unfold SelectProof.phys_name. destruct (c_plain c) eqn:Hp; [now left|]. right. split; [reflexivity|].
  destruct (sym_name c (wm_supp kw M HM t m k c Hm Hc) Hp) as [n Hn]. rewrite Hn. now apply dget_dvals with SYM.
Qed.
Lemma log_colp k c : dget (t_cols m) k = Some c -> colp k.
Proof. apply (log_colname kw m k c WF). Qed.
Lemma ope_usable k c n : dget (t_cols m) k = Some c -> c_plain c = false -> dget (c_enc c) OPEC = Some n -> usable n.
Proof. intros Hc Hp Hn. apply phys_usable, (phys_In m k c); [exact Hc|]. right. split; [exact Hp|]. now apply dget_dvals with OPEC. Qed.
Lemma plain_usable k c : dget (t_cols m) k = Some c -> c_plain c = true -> usable k.
Proof. intros Hc Hp. apply phys_usable, (phys_In m k c); [exact Hc|]. now left. Qed.

(** ** The select list and the order *)
Lemma items_shape i o : items_sup m o i -> exists sel' i' st, irep (items_json i) i /\ select_ok m (items_json i) /\
  select_rw M (JStr t) SYM (items_json i) s_empty = Ok (sel', st) /\ ti sel' i'.
Proof.
  assert (KC : forall ks, (forall k, In k ks -> In k (dkeys (t_cols m))) -> exists l, map fst l = ks /\ forall k c, In (k, c) l -> dget (t_cols m) k = Some c).
  { induction ks as [|k ks IH]; intros Hks; [exists []; split; [reflexivity | intros k c []]|].
    destruct IH as (l & Kl & Hl); [intros x X; apply Hks; now right|]. destruct (dget_in_keys _ _ (Hks k (or_introl eq_refl))) as (c & Hc).
    exists ((k, c) :: l). cbn [map fst]. rewrite Kl. split; [reflexivity|]. intros k' c' [[= <- <-]|X]; [exact Hc | apply Hl, X]. }
  assert (US : forall l, (forall k c, In (k, c) l -> dget (t_cols m) k = Some c) -> Forall usable (map (fun kc => SelectProof.phys_name SYM (fst kc) (snd kc)) l)).
  { intros l Hl. apply Forall_forall. intros n N0. apply in_map_iff in N0 as ((k & c) & <- & I0). cbn [fst snd]. apply phys_name_usable. now apply Hl. }
  destruct i as [|l| |mx k]; cbn [items_sup].
  - intros NE. eexists _, (ICols _), _. split; [constructor|]. split; [now left|]. split; [apply (select_star_ok kw M t m HM Hm)|].
    assert (X : map oc_e (map (mk JStr JStr) (t_cols m)) = map JStr (map (fun kc => SelectProof.phys_name SYM (fst kc) (snd kc)) (t_cols m))) by now rewrite !map_map.
    rewrite X. constructor; [destruct (t_cols m); [congruence|discriminate]|]. apply US. intros k c I0. apply dget_NoDup; [apply (wf_log kw m WF)|exact I0].
  - intros [NE Hl]. destruct (KC l Hl) as (l0 & <- & Hc). destruct l0 as [|[k c] l0]; [now elim NE|]. destruct l0 as [|kc2 l0].
    + cbn [map fst items_json]. assert (Hk : dget (t_cols m) k = Some c) by (apply Hc; now left). eexists _, (ICols [_]), _. split; [constructor; now apply (log_colp k c)|].
      split; [right; left; exists k; split; [now apply dget_Some_key with c|reflexivity]|]. split; [apply (select_one_ok kw M t m HM Hm k c Hk)|]. constructor. now apply phys_name_usable.
    + set (l := (k, c) :: kc2 :: l0) in *. assert (IJ : items_json (ICols (map fst l)) = JList (map (fun kc => val (JStr (fst kc))) l)).
      { unfold l. cbn [map items_json fst]. now rewrite map_map. }
      rewrite IJ. exists (JList (map JStr (map (fun kc => SelectProof.phys_name SYM (fst kc) (snd kc)) l))), (ICols (map (fun kc => SelectProof.phys_name SYM (fst kc) (snd kc)) l)). eexists.
      split; [|split; [|split]].
      * rewrite <- (map_map fst (fun c => val (JStr c))). constructor. apply Forall_forall. intros x X. apply in_map_iff in X as ((k1 & c1) & <- & X). apply (log_colp k1 c1), Hc, X.
      * right; right; left. exists (map fst l). split; [exact Hl|]. now rewrite map_map.
      * rewrite (select_list_ok kw M t m HM Hm l Hc). rewrite !map_map. reflexivity.
      * constructor; [unfold l; discriminate|now apply US].
  - intros _. exists (val (JDict [(u "count", JStr (u "*"))])), ICount. eexists. split; [constructor|]. split; [now do 3 right; left|]. split; [reflexivity|constructor].
  - intros [_ Hk]. cbn [items_json].
    assert (MM : In (if mx then u "max" else u "min") [u "max"; u "min"]) by (destruct mx; [now left|now right; left]).
    destruct Hk as [(c & Hc & Hp)|(c & (Hc & Hp & n & Hn) & Ty)]; assert (Nk : colname kw k) by (apply (wf_names kw m WF), (dget_Some_key _ _ _ Hc)).
    + eexists _, (IExtreme mx k), _. split; [constructor; now apply (log_colp k c)|]. split; [|split].
      * do 4 right. exists (if mx then u "max" else u "min"), k. split; [exact MM|]. split; [reflexivity|]. left. now exists c.
      * apply select_minmax_rw; [exact MM|]. unfold select_str. rewrite (colname_nostar kw k Nk). unfold select_name, split_dot.
        rewrite (colname_nodot kw k Nk). cbn [bind]. rewrite (lookup_table _ _ _ Hm). cbn [bind]. unfold dgetE. rewrite Hc. cbn [bind]. rewrite Hp. reflexivity.
      * constructor. now apply (plain_usable k c).
    + eexists _, (IExtreme mx n), _. split; [constructor; now apply (log_colp k c)|]. split; [|split].
      * do 4 right. exists (if mx then u "max" else u "min"), k. split; [exact MM|]. split; [reflexivity|]. right. exists c. split; [|exact Ty]. split; [exact Hc|]. split; [exact Hp|]. now exists n.
      * apply select_minmax_rw; [exact MM|]. unfold select_str. rewrite (colname_nostar kw k Nk). unfold select_name, split_dot.
        rewrite (colname_nodot kw k Nk). cbn [bind]. rewrite (lookup_table _ _ _ Hm). cbn [bind]. unfold dgetE. rewrite Hc. cbn [bind]. rewrite Hp, Hn. reflexivity.
      * constructor. now apply (ope_usable k c n).
Qed.
Lemma order_shape o : order_sup m o -> exists o' q, orep (option_map order_json o) o /\ order_ok m (option_map order_json o) /\
  optM (orderby_rw M (JStr t)) (option_map order_json o) = Ok o' /\ tord o' q.
Proof.
  destruct o as [[k d]|]; cbn [order_sup].
  - intros [(c & Hc & Hp)|(-> & c & (Hc & Hp & n & Hn) & Ty)].
    + exists (Some (order_json (k, d))), (Some (k, d)). split; [constructor; now apply (log_colp k c)|]. split; [|split].
      * cbn [option_map order_ok order_json]. left. exists k. split; [now exists c|]. destruct d; [right; now exists (u "desc")|now left].
      * cbn [option_map optM]. unfold orderby_rw. rewrite (lookup_table _ _ _ Hm). cbn [bind].
        assert (GI : getitem (order_json (k, d)) (u "value") = Ok (JStr k)) by (destruct d; reflexivity). rewrite GI. cbn [bind lookup].
        unfold dgetE. rewrite Hc. cbn [bind]. now rewrite Hp.
      * constructor. now apply (plain_usable k c).
    + exists (Some (order_json (n, false))), (Some (n, false)). split; [constructor; now apply (log_colp k c)|]. split; [|split].
      * cbn [option_map order_ok order_json]. right. exists k, c. split; [|split; [exact Ty|reflexivity]]. split; [exact Hc|]. split; [exact Hp|]. now exists n.
      * cbn [option_map optM]. unfold orderby_rw. rewrite (lookup_table _ _ _ Hm). cbn [bind].
        change (getitem (order_json (k, false)) (u "value")) with (Ok (JStr k)). cbn [bind lookup]. unfold dgetE. rewrite Hc. cbn [bind]. now rewrite Hp, Hn.
      * constructor. now apply (ope_usable k c n).
  - intros _. exists None, None. repeat split; constructor.
Qed.

Lemma phys_of_nonempty k c : dget (t_cols m) k = Some c -> phys_of k c <> [].
Proof.
  intros Hc. unfold phys_of. destruct (c_plain c) eqn:Hp; [discriminate|]. destruct (sym_name c (wm_supp kw M HM t m k c Hm Hc) Hp) as [n Hn].
  apply dget_dvals in Hn. intros X. now rewrite X in Hn.
Qed.
Lemma phys_of_usable k c n : dget (t_cols m) k = Some c -> In n (phys_of k c) -> usable n.
Proof.
  intros Hc Hn. apply phys_usable. unfold phys. apply in_concat. exists (phys_of k c). split; [|exact Hn].
  apply in_map_iff. exists (k, c). split; [reflexivity|now apply dget_In].
Qed.
Lemma chunks_usable {A} (f : A -> pystr) (P : A -> colmeta -> Prop) kvs (chs : list (list (pystr * sqlv))) v :
  Forall2 (fun kv ch => exists c, dget (t_cols m) (f kv) = Some c /\ P kv c /\ chunk_ok E (f kv) c (v kv) ch) kvs chs ->
  (forall n, In n (dkeys (concat chs)) -> usable n) /\ (kvs <> [] -> concat chs <> []).
Proof.
  induction 1 as [|kv ch kvs chs (c & Hc & _ & K & _) F [IH1 IH2]]; [split; [intros n []|congruence]|]. cbn [concat]. split.
  - intros n Hn. unfold dkeys in Hn. rewrite map_app in Hn. apply in_app_or in Hn as [Hn|Hn]; [|now apply IH1].
    change (In n (dkeys ch)) in Hn. rewrite K in Hn. now apply (phys_of_usable (f kv) c).
  - intros _ X. apply app_eq_nil in X as [X _]. subst ch. symmetry in K. now apply phys_of_nonempty in K.
Qed.

(** ** Statements *)
Lemma insert_shape cs vs : cs <> [] -> length cs = length vs ->
  (forall k v, In (k, v) (combine cs vs) -> exists c, dget (t_cols m) k = Some c /\ const_ok E k c (cjson v) /\ plain_text bs c v) ->
  exists j' q, rewrite_query E M (insert_stmt t cs (map cjson vs)) = Ok (j', JStr t, s_empty) /\ txt (t_anon m) j' q.
Proof.
  intros NE L H.
  assert (H0 : forall k v, In (k, v) (combine cs (map cjson vs)) -> exists c, dget (t_cols m) k = Some c /\ const_ok E k c v).
  { intros k v I0. rewrite combine_map_r in I0. apply in_map_iff in I0 as ((k0 & v0) & E0 & I0). cbn [fst snd] in E0. injection E0 as <- <-.
    destruct (H k0 v0 I0) as (c & Hc & Hk & _). eauto. }
  destruct (values_loop_ok kw E m cs (map cjson vs) HP (fun k c => wm_supp kw M HM t m k c Hm)) as (js & ws & pcs & chs & H1 & H2 & H3 & H4 & H5 & H6 & H7);
    [now rewrite map_length|exact H0|].
  destruct (values_wls bs E m cs vs js HP (fun k c => wm_supp kw M HM t m k c Hm)) as (ks & K); [|exact H1|].
  { intros k v I0. destruct (H k v I0) as (c & Hc & _ & PT). eauto. }
  destruct (chunks_usable fst (fun kv c => const_ok E (fst kv) c (snd kv)) (combine cs (map cjson vs)) chs (fun kv => const_sql (snd kv)) H7) as [U1 U2].
  assert (CE : combine cs (map cjson vs) <> []) by (destruct cs, vs; try discriminate; congruence). specialize (U2 CE).
  rewrite dkeys_concat in U1.
  assert (LJ : length js = length (concat (map dkeys chs))).
  { rewrite <- H6. clear -H2. revert ws H2. induction js as [|j js IH]; intros ws H2; cbn [mapM] in H2; [now injection H2 as <-|].
    destruct (insert_const kw j) as [x|]; [|discriminate]. destruct (mapM (insert_const kw) js) as [xs|]; [|discriminate]. injection H2 as <-. cbn [length]. now rewrite (IH xs). }
  assert (NC : concat (map dkeys chs) <> []).
  { intros X. apply U2. apply length_zero_iff_nil. rewrite H5, combine_length, X. reflexivity. }
  exists (JDict [(u "insert", JStr (t_anon m)); (u "columns", JList (map JStr (concat (map dkeys chs)))); (u "query", JDict [(u "select", JList js)])]), (Insert (t_anon m) (concat (map dkeys chs)) ks).
  split.
  - apply rewrite_insert; [exact Hm| |].
    + unfold columns_rw. rewrite (lookup_table _ _ _ Hm). cbn [bind iter]. rewrite H3. cbn [bind]. now rewrite H4.
    + unfold values_rw. rewrite (lookup_table _ _ _ Hm). cbn [bind].
      change (getitem _ (u "columns")) with (Ok (JList (map JStr cs))). cbn [bind iter]. rewrite H1. reflexivity.
  - constructor; try assumption; [apply (proj1 (UN t m Hm))|now apply Forall_forall|].
    intros ->. apply NC. apply length_zero_iff_nil. now rewrite <- LJ.
Qed.
Lemma update_shape sets w w' q : sets <> [] -> NoDup (map fst sets) ->
  (forall k v, In (k, v) sets -> exists c, dget (t_cols m) k = Some c /\ update_ok E k c (cjson v) /\ plain_text bs c v) ->
  optM (where_rw E M (JStr t) SYM []) w = Ok w' -> tw w' q ->
  exists j' q', rewrite_query E M (update_stmt t (map (fun kv => (fst kv, cjson (snd kv))) sets) w) = Ok (j', JStr t, s_empty) /\ txt (t_anon m) j' q'.
Proof.
  intros NE ND H HW TW. set (js := map (fun kv => (fst kv, cjson (snd kv))) sets).
  assert (KJ : dkeys js = map fst sets) by (unfold js, dkeys; rewrite map_map; reflexivity).
  assert (H0 : forall k v, In (k, v) js -> exists c, dget (t_cols m) k = Some c /\ update_ok E k c v).
  { intros k v I0. apply in_map_iff in I0 as ((k0 & v0) & E0 & I0). cbn [fst snd] in E0. injection E0 as <- <-. destruct (H k0 v0 I0) as (c & Hc & Hk & _). eauto. }
  destruct (set_loop_ok kw E M (JStr t) m js [] HP WF (fun k c => wm_supp kw M HM t m k c Hm) H0) as (jchs & wchs & H1 & H2 & H3).
  { intros l I0 K. cbn [dkeys map app]. apply (concat_map_sub phys_kc (t_cols m)).
    - apply NoDup_map_inv' with (f := fst), (wf_log kw m WF).
    - apply (wf_phys kw m WF).
    - apply NoDup_map_inv' with (f := fst). rewrite K, KJ. exact ND.
    - exact I0. }
  cbn [app] in H1. destruct (set_loop_wcs bs E M (JStr t) m sets [] [] (concat jchs) HP (fun k c => wm_supp kw M HM t m k c Hm) H) as (b & B); [constructor|exact H1|].
  destruct (chunks_usable fst (fun kv c => const_ok E (fst kv) c (snd kv)) js wchs (fun kv => const_sql (snd kv)) H3) as [U1 U2].
  assert (CE : js <> []) by (unfold js; destruct sets; [congruence|discriminate]). specialize (U2 CE).
  exists (update_stmt (t_anon m) (concat jchs) w'), (Update (t_anon m) b q). split.
  - apply rewrite_update; [exact Hm| |exact HW]. unfold set_rw. rewrite (lookup_table _ _ _ Hm). cbn [bind]. rewrite H1. reflexivity.
  - constructor; try assumption; [apply (proj1 (UN t m Hm))| |].
    + intros X. apply U2. apply length_zero_iff_nil. rewrite X in H2. inversion H2. reflexivity.
    + rewrite (gives_keys kw _ _ H2). exact U1.
Qed.
End Source.

Lemma cmd_shape ft E M c : prim_ok (e_P E) -> wf_meta kw M -> usable_names M -> sup_cmd ft bs E M c ->
  exists t m j j' q st, dget M t = Some m /\ parsed ft c = Ok j /\ frag_stmt kw E M j /\ stm t j (meaning c) /\
    rewrite_query E M j = Ok (j', JStr t, st) /\ txt (t_anon m) j' q.
Proof.
  intros HP HM UN. destruct c as [i t w o lim|t cs vs|t sets w|t w]; cbn [sup_cmd parsed].
  - intros (m & Hm & HV & HI & HW & HO).
    destruct (where_opt ft E M t m HP HM Hm w HW) as (jw & jw' & qw & W1 & W2 & W3 & W4 & W5).
    destruct (items_shape M t m HM Hm UN i o HI) as (sel' & i' & st & I1 & I2 & I3 & I4).
    destruct (order_shape M t m HM Hm UN o HO) as (o' & oq & O1 & O2 & O3 & O4).
    exists t, m. rewrite W1. cbn [bind]. eexists _, _, (Select i' (t_anon m) qw oq lim), st. split; [exact Hm|]. split; [reflexivity|].
    split; [now apply (frag_select kw E M t m)|]. split; [exact (st_select t (items_json i) i jw (option_map mean w) (option_map order_json o) o lim I1 W3 O1)|].
    split; [apply rewrite_select; eassumption|]. exact (tx_select (t_anon m) sel' i' jw' qw o' oq lim (proj1 (UN t m Hm)) I4 W5 O4).
  - intros (m & Hm & NE & ND & L & H). assert (NE' : cs <> []) by (intros ->; cbn in NE; lia). clear NE. rename NE' into NE. destruct (insert_shape E M t m HP HM Hm UN cs vs NE L H) as (j' & q & R & X).
    exists t, m. eexists _, j', q, s_empty. split; [exact Hm|]. split; [reflexivity|]. split; [|split; [|split; [exact R|exact X]]].
    + apply (frag_insert kw E M t m); [exact Hm|exact ND|now rewrite map_length|].
      intros k v I0. rewrite combine_map_r in I0. apply in_map_iff in I0 as ((k0 & v0) & E0 & I0). cbn [fst snd] in E0. injection E0 as <- <-.
      destruct (H k0 v0 I0) as (c & Hc & Hk & _). eauto.
    + cbn [meaning]. constructor.
      * apply Forall_forall. intros k Hk. assert (exists v, In (k, v) (combine cs vs)) as (v & I0).
        { clear -Hk L. revert vs L Hk. induction cs as [|a cs IH]; intros [|b vs] L Hk; try discriminate; [destruct Hk|]. cbn [combine]. destruct Hk as [<-|Hk]; [exists b; now left|].
          destruct (IH vs) as (v & I0); [cbn in L; lia|exact Hk|]. exists v. now right. }
        destruct (H k v I0) as (c & Hc & _). apply (log_colname kw m k c (wm_table kw M HM t m Hm) Hc).
      * clear. induction vs as [|v vs IH]; constructor; [destruct v; reflexivity|exact IH].
  - intros (m & Hm & NE & ND & HW & H). destruct (where_opt ft E M t m HP HM Hm w HW) as (jw & jw' & qw & W1 & W2 & W3 & W4 & W5).
    destruct (update_shape E M t m HP HM Hm UN sets jw jw' qw NE ND H W4 W5) as (j' & q & R & X).
    exists t, m. rewrite W1. cbn [bind]. eexists _, j', q, s_empty. split; [exact Hm|]. split; [reflexivity|]. split; [|split; [|split; [exact R|exact X]]].
    + apply (frag_update kw E M t m); [exact Hm| | |exact W2].
      * unfold dkeys. rewrite map_map. exact ND.
      * intros k v I0. apply in_map_iff in I0 as ((k0 & v0) & E0 & I0). cbn [fst snd] in E0. injection E0 as <- <-. destruct (H k0 v0 I0) as (c & Hc & Hk & _). eauto.
    + cbn [meaning]. constructor; [|exact W3].
      assert (HC : forall k v, In (k, v) sets -> colp k) by (intros k v I0; destruct (H k v I0) as (c & Hc & _); apply (log_colname kw m k c (wm_table kw M HM t m Hm) Hc)).
      clear -HC. induction sets as [|[k v] sets IH]; constructor.
      * cbn [fst snd]. split; [reflexivity|]. split; [apply (HC k v); now left|]. intros r. destruct v; reflexivity.
      * apply IH. intros k' v' I0. apply (HC k' v'). now right.
  - intros (m & Hm & HW). destruct (where_opt ft E M t m HP HM Hm w HW) as (jw & jw' & qw & W1 & W2 & W3 & W4 & W5).
    exists t, m. rewrite W1. cbn [bind]. eexists _, _, (Delete (t_anon m) qw), s_empty. split; [exact Hm|]. split; [reflexivity|].
    split; [now apply (frag_delete kw E M t m)|]. split; [constructor; exact W3|]. split; [apply rewrite_delete; eassumption|]. constructor; [apply (proj1 (UN t m Hm))|exact W5].
Qed.
End Shapes.
