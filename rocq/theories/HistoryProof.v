(** Histories of statements through the proxy. *)
From Coq Require Import String Ascii List NArith ZArith QArith Bool Lia ZifyBool ZifyNat ZifyN.
From Verif Require Import Base BaseProof CryptoModel CryptoSpec CryptoProof FuzzyModel
  OpeModel PaillierModel JsonModel RewriteModel SqlSpec EncSpec JsonProof WhereProof
  StmtSpec SimProof StmtProof UpdateProof SelectProof.
Import ListNotations.
Open Scope Z_scope.

Lemma db_rel_set kw E M pdb edb t m pt et : wf_meta kw M -> db_rel E M pdb edb -> dget M t = Some m ->
  tab_rel E m pt et -> db_rel E M (dset pdb t pt) (dset edb (t_anon m) et).
Proof.
  intros HM D Hm T t' m' Hm'. destruct (pystr_eq_dec t t') as [->|N0].
  - rewrite Hm in Hm'. injection Hm' as <-. exists pt, et. rewrite !dget_dset_same. auto.
  - destruct (D t' m' Hm') as (pt' & et' & D1 & D2 & D3). exists pt', et'.
    rewrite !dget_dset_other; [auto| |exact N0].
    intros X. apply N0. apply (wm_anon kw M HM t t' m m' Hm Hm' X).
Qed.

Definition same_step (E : env) (M : dbmeta) (a b : res (db * list (list sqlv))) : Prop :=
  res_rel (fun x y => snd x = snd y /\ db_rel E M (fst x) (fst y)) a b.

Lemma decrypt_nothing E M T st : decrypt_result E M T st [] = Ok [].
Proof. reflexivity. Qed.

Lemma step_sim kw E M pdb edb j : prim_ok (e_P E) -> wf_meta kw M -> frag_stmt kw E M j -> db_rel E M pdb edb ->
  same_step E M (exec kw pdb j) (proxy kw E M edb j).
Proof.
  intros HP HM F D. unfold same_step. destruct F as [t m cs vs Hm ND L H|t m sets w Hm ND H Hw|t m w Hm Hw|t m sel w o l off Hm Hv Hs Hw Ho];
  destruct (D t m Hm) as (pt & et & D1 & D2 & D3).
  - destruct (insert_sim kw E M t m cs vs pt et HP HM Hm ND L H D3) as (cols' & vals' & pt' & et' & R & X1 & X2 & X3).
    unfold proxy. rewrite R. cbn [bind]. unfold insert_stmt.
    rewrite (exec_ins kw pdb t pt D1), (exec_ins kw edb (t_anon m) et D2), X1, X2. cbn [bind].
    rewrite decrypt_nothing. cbn [bind res_rel fst snd]. split; [reflexivity|]. apply (db_rel_set kw); assumption.
  - destruct (update_sim kw E M t m sets w pt et HP HM Hm ND H Hw D3) as (sets' & w' & R & X).
    unfold proxy. rewrite R. cbn [bind].
    rewrite (exec_upd kw pdb t pt D1), (exec_upd kw edb (t_anon m) et D2).
    destruct (exec_update kw pt sets w) as [pt'|e], (exec_update kw et sets' w') as [et'|e'];
      cbn [res_rel] in X; try contradiction; [|exact X].
    cbn [bind]. rewrite decrypt_nothing. cbn [bind res_rel fst snd]. split; [reflexivity|].
    apply (db_rel_set kw); assumption.
  - destruct (delete_sim kw E M t m w pt et HP HM Hm Hw D3) as (w' & R & X).
    unfold proxy. rewrite R. cbn [bind].
    rewrite (exec_del kw pdb t pt D1), (exec_del kw edb (t_anon m) et D2).
    destruct (exec_delete kw pt w) as [pt'|e], (exec_delete kw et w') as [et'|e'];
      cbn [res_rel] in X; try contradiction; [|exact X].
    cbn [bind]. rewrite decrypt_nothing. cbn [bind res_rel fst snd]. split; [reflexivity|].
    apply (db_rel_set kw); assumption.
  - destruct (select_sim kw E M t m sel w o l off pt et HP HM Hm Hv Hs Hw Ho D3) as (sel' & w' & o' & st & R & X).
    unfold proxy. rewrite R. cbn [bind].
    rewrite (exec_sel kw pdb t pt D1), (exec_sel kw edb (t_anon m) et D2), X.
    destruct (exec_select kw et sel' w' o' l off) as [rs|e]; cbn [bind]; [|reflexivity].
    destruct (decrypt_result E M (JStr t) st rs) as [out|e]; cbn [bind]; [|reflexivity].
    cbn [res_rel fst snd]. auto.
Qed.

Lemma empty_rel kw E M : wf_meta kw M -> db_rel E M (empty_plain M) (empty_enc M).
Proof.
  intros HM t m Hm.
  exists {| tb_cols := dkeys (t_cols m); tb_rows := [] |}, {| tb_cols := phys m; tb_rows := [] |}.
  split; [|split; [|repeat constructor]].
  - clear HM. induction M as [|[t' m'] M IH]; [discriminate|]. cbn [dget empty_plain map fst snd] in *.
    destruct (seqb t t'); [injection Hm as ->; reflexivity | apply IH, Hm].
  - assert (NoDup (dkeys (empty_enc M))) as N0.
    { unfold empty_enc, dkeys. rewrite map_map. cbn [fst].
      pose proof (wm_nodup kw M HM) as N1. pose proof (wm_anon kw M HM) as A.
      assert (B : forall t t' m m', In (t, m) M -> In (t', m') M -> t_anon m = t_anon m' -> t = t').
      { intros t1 t2 m1 m2 I1 I2. apply A; apply dget_NoDup; assumption. }
      clear -N1 B. induction M as [|[t m] M IH]; [constructor|]. cbn [map snd dkeys fst] in *.
      inversion N1 as [|? ? X1 X2]; subst. constructor.
      - intros X. apply in_map_iff in X as ((t' & m') & E0 & X). cbn [snd] in E0.
        apply X1. rewrite (B t t' m m'); [|left; reflexivity|right; exact X|congruence].
        change t' with (fst (t', m')). apply in_map, X.
      - apply IH; [exact X2|]. intros t1 t2 m1 m2 I1 I2. apply B; right; assumption. }
    apply dget_NoDup; [exact N0|]. unfold empty_enc. apply in_map_iff. exists (t, m).
    split; [reflexivity | apply dget_In, Hm].
Qed.

Lemma db_rel_rnd E M r pdb edb : db_rel E M pdb edb <-> db_rel (with_rnd E r) M pdb edb.
Proof.
  split; intros H t m Hm; destruct (H t m Hm) as (pt & et & H1 & H2 & [T1 T2 T3]);
    exists pt, et; (split; [exact H1|split; [exact H2|]]); constructor; assumption.
Qed.

Lemma run_sim kw E M h pdb edb : prim_ok (e_P E) -> wf_meta kw M ->
  Forall (fun rj => frag_stmt kw (with_rnd E (fst rj)) M (snd rj)) h -> db_rel E M pdb edb ->
  run (fun _ D j => exec kw D j) pdb h = run (fun r D j => proxy kw (with_rnd E r) M D j) edb h.
Proof.
  intros HP HM F. revert pdb edb. induction F as [|[r j] h Hj F IH]; intros pdb edb D; [reflexivity|].
  cbn [run]. pose proof (step_sim kw (with_rnd E r) M pdb edb j HP HM Hj (proj1 (db_rel_rnd E M r pdb edb) D)) as X. unfold same_step in X.
  destruct (exec kw pdb j) as [[pdb' rs]|e], (proxy kw (with_rnd E r) M edb j) as [[edb' rs']|e'];
    cbn [res_rel fst snd] in X; try contradiction.
  - destruct X as [-> D']. f_equal. apply IH, (proj2 (db_rel_rnd E M r pdb' edb')), D'.
  - subst e'. f_equal. apply IH, D.
Qed.
