(** One statement and histories of statements, with the SQL text that is sent. *)
From Coq Require Import String Ascii List Arith NArith ZArith QArith Bool Lia ZifyBool ZifyNat ZifyN.
From Verif Require Import Base BaseProof CryptoModel CryptoSpec FuzzyModel JsonModel DotsModel RewriteModel LikeSpec SqlSpec EncSpec WhereProof StmtSpec SimProof HistoryProof
  SqlLex SqlRead FmtModel FmtSpec FmtLexProof FmtReadProof FmtExprProof FmtNameProof FmtProof ScrubModel OperModel OperSpec EndSpec EndTruthProof EndMaskProof EndLexProof
  TextSpec TextValueProof TextExecProof TextShapeProof TextReadProof TextFormatProof.
Import ListNotations.
Open Scope Z_scope.

Section Steps.
Variables (ft : pystr -> bool) (alnum : N -> bool) (fstr : Q -> pystr) (bs : bool) (M : dbmeta).
Hypothesis HA : ascii_ok alnum.
Hypothesis HM : wf_meta kw M.
Hypothesis UN : usable_names M.

Lemma target_stm t j c : stm t j c -> target c = t.
Proof. now intros []. Qed.
Lemma target_txt t j q : txt bs alnum t j q -> target q = t.
Proof. intros X. now apply (target_stm t j), (txt_stm bs alnum). Qed.
Lemma target_meaning c : target (meaning c) = target c.
Proof. now destruct c. Qed.

Lemma text_step E c pdb edb : prim_ok (e_P E) -> sup_cmd ft bs E M c -> db_rel E M pdb edb ->
  exists m j j' table st text q, dget M (target c) = Some m /\ parsed ft c = Ok j /\ rewrite_query E M j = Ok (j', table, st) /\ format_sql alnum fstr j' = Ok text /\
    says bs true text q /\ target q = t_anon m /\
    same_step E M (obey pdb (meaning c)) (do '(D', rs) <- obey edb q; do out <- decrypt_result E M table st rs; Ok (D', out)).
Proof.
  intros HP SC D. destruct (cmd_shape bs alnum HA ft E M c HP HM UN SC) as (t & m & j & j' & q & st & Hm & PJ & FR & ST & RW & TX).
  destruct (txt_says bs alnum fstr HA (t_anon m) j' q TX) as (text & FT & SY & _).
  pose proof (target_stm _ _ _ ST) as T1. rewrite target_meaning in T1. subst t.
  exists m, j, j', (JStr (target c)), st, text, q. repeat (split; [assumption|]). split; [now apply (target_txt _ j')|].
  destruct (D _ m Hm) as (pt & et & D1 & D2 & [T1 T2 T3]). pose proof (step_sim kw E M pdb edb j HP HM FR D) as S0.
  pose proof (wm_table kw M HM _ m Hm) as WT.
  rewrite (exec_obey pdb _ pt j (meaning c) ST D1) in S0 by (rewrite T1, Forall_forall; intros x X; now apply colname_column, (wf_names kw m WT)).
  unfold proxy in S0. rewrite RW in S0. cbn [bind] in S0.
  rewrite (exec_obey edb _ et j' q (txt_stm bs alnum _ _ _ TX) D2) in S0 by (rewrite T2, Forall_forall; intros x X; now apply colname_column, (wf_pnames kw m WT)).
  exact S0.
Qed.

Lemma text_proxy_step E c pdb edb : prim_ok (e_P E) -> sup_cmd ft bs E M c -> db_rel E M pdb edb ->
  exists N, forall n, (N <= n)%nat -> same_step E M (obey pdb (meaning c)) (text_proxy ft alnum fstr bs n E M edb c).
Proof.
  intros HP SC D. destruct (text_step E c pdb edb HP SC D) as (m & j & j' & table & st & text & q & _ & PJ & RW & FT & [N SY] & _ & X).
  exists N. intros n L. unfold text_proxy. rewrite PJ. cbn [bind]. rewrite RW. cbn [bind]. rewrite FT. cbn [bind]. rewrite (SY n L). exact X.
Qed.

Lemma text_history E h pdb edb : prim_ok (e_P E) -> Forall (fun rc => sup_cmd ft bs (with_rnd E (fst rc)) M (snd rc)) h -> db_rel E M pdb edb ->
  exists N, forall n, (N <= n)%nat ->
    answers (fun r D c => text_proxy ft alnum fstr bs n (with_rnd E r) M D c) edb h = answers (fun _ D c => obey D (meaning c)) pdb h.
Proof.
  intros HP F. revert pdb edb. induction F as [|[r c] h Hc F IH]; intros pdb edb D; [exists O; reflexivity|]. cbn [fst snd] in Hc.
  destruct (text_step (with_rnd E r) c pdb edb HP Hc (proj1 (db_rel_rnd E M r pdb edb) D)) as (m & j & j' & table & st & text & q & _ & PJ & RW & FT & [N1 SY] & _ & X).
  set (e := do '(D', rs) <- obey edb q; do out <- decrypt_result (with_rnd E r) M table st rs; Ok (D', out)) in *.
  assert (TP : forall n, (N1 <= n)%nat -> text_proxy ft alnum fstr bs n (with_rnd E r) M edb c = e).
  { intros n L. unfold text_proxy. rewrite PJ. cbn [bind]. rewrite RW. cbn [bind]. rewrite FT. cbn [bind]. now rewrite (SY n L). }
  clearbody e. unfold same_step in X. destruct (obey pdb (meaning c)) as [[pdb' rs]|e1] eqn:OB, e as [[edb' rs']|e2]; cbn [res_rel fst snd] in X; try contradiction.
  - destruct X as [-> D']. destruct (IH pdb' edb') as [N2 H2]; [apply (proj2 (db_rel_rnd E M r pdb' edb')), D'|]. exists (N1 + N2)%nat. intros n L. cbn [answers].
    rewrite TP, OB by lia. f_equal. apply H2. lia.
  - subst e2. destruct (IH pdb edb D) as [N2 H2]. exists (N1 + N2)%nat. intros n L. cbn [answers]. rewrite TP, OB by lia. f_equal. apply H2. lia.
Qed.
End Steps.
