(** Proofs about the whole system with SQL texts (C93). *)
From Coq Require Import String Ascii List Arith NArith ZArith QArith Bool Lia.
From Verif Require Import Base BaseProof CryptoModel CryptoSpec FuzzyModel JsonModel RewriteModel LikeSpec SqlSpec EncSpec StmtSpec WhereProof SimProof HistoryProof
  CreateModel CreateSpec CreateProof MetaModel MetaSpec MetaProof ExecModel ExecSpec ExecProof SqlLex SqlRead FmtModel FmtSpec FmtLexProof FmtReadProof FmtExprProof FmtNameProof FmtProof
  ScrubModel OperModel OperSpec EndSpec EndTruthProof EndMaskProof EndLexProof TextSpec TextValueProof TextExecProof TextShapeProof TextReadProof TextFormatProof TextProof SysSpec SysProof SysTextSpec.
Import ListNotations.
Open Scope Z_scope.

(** ** Texts and the kind of statement *)
Lemma starts_no_create s : starts s -> read_create s = None.
Proof. intros (w & r & -> & [<-|[<-|[<-|[<-|[]]]]]); reflexivity. Qed.
Lemma drop_no_create t : read_create (u "DROP TABLE " ++ t) = None.
Proof. reflexivity. Qed.
Lemma stm_type t j c : stm t j c -> type_of j = Some (kind c).
Proof. now intros []. Qed.
Lemma kind_meaning c : kind (meaning c) = kind c.
Proof. now destruct c. Qed.

Section Steps.
Variables (ft : pystr -> bool) (alnum : N -> bool) (fstr : Q -> pystr) (bs : bool).
Variables (E : env) (rest : delta -> sent -> json -> res sent).
Hypothesis HA : ascii_ok alnum.
Hypothesis HP : prim_ok (e_P E).
Notation wtext := (wire_text alnum fstr).
Notation jstep := (sys_step is_keyword E wtext rest).
Definition usable_all (d : delta) : Prop :=
  forall db t m, in_memory d db t = Some m -> usable (t_anon m) /\ forall n, In n (phys m) -> usable n.
Lemma usable_db d db : usable_all d -> usable_names (db_meta d db).
Proof. intros H t m. rewrite db_meta_get. apply H. Qed.

(** The server that is given the text does what the server that is given the parsed statement does. *)
Definition same_server (d : delta) (S : dbs) (rnd : pystr -> Z) (r : request) : Prop :=
  exists N, forall n, (N <= n)%nat -> forall s, sent_for E wtext rest rnd d r = Some s ->
    (do text <- wire alnum fstr s; text_server n bs (db_of S (q_db r)) text) = server is_keyword (db_of S (q_db r)) s.

Lemma drop_says t D n : usable t ->
  (do text <- wire alnum fstr (SJson (JDict [(u "drop", JDict [(u "table", JStr t)])])); text_server n bs D text) =
  if dmem D t then Ok (without D t, []) else Err DbError.
Proof.
  intros U. change (wire alnum fstr (SJson (JDict [(u "drop", JDict [(u "table", JStr t)])]))) with (Ok (u "DROP TABLE " ++ t)). cbn [bind].
  unfold text_server. rewrite drop_no_create.
  assert (L : lex bs true (u "DROP TABLE " ++ t) = Some [TWord (u "DROP"); TWord (u "TABLE"); TWord t]).
  { apply Lw_lex. change (u "DROP TABLE " ++ t) with (u "DROP" ++ u " " ++ (u "TABLE" ++ u " " ++ t)).
    apply Lw_W; [reflexivity..|]. apply Lw_W; [reflexivity..|now apply usable_Lw]. }
  rewrite L.
  change (read_cmd n [TWord (u "DROP"); TWord (u "TABLE"); TWord t]) with (@None (cmd tree)).
  change (read_drop [TWord (u "DROP"); TWord (u "TABLE"); TWord t]) with (ident (TWord t)).
  now rewrite (ident_usable t U).
Qed.

Lemma same_none d S rnd r s : sent_for E wtext rest rnd d r = Some s ->
  (exists N, forall n, (N <= n)%nat -> (do text <- wire alnum fstr s; text_server n bs (db_of S (q_db r)) text) = server is_keyword (db_of S (q_db r)) s) ->
  same_server d S rnd r.
Proof. intros H [N X]. exists N. intros n L s' H'. rewrite H in H'. injection H' as <-. now apply X. Qed.

(** What one step needs: it is a step of C81, the servers agree, the plaintext sides agree, and the names stay usable. *)
Record tstep_ok (d : delta) (S P : dbs) (e : tevent) : Prop := {
  to_good : match event_of ft e with Ask rnd q => good is_keyword E wtext d S rnd q | Reboot => True end;
  to_server : match event_of ft e with Ask rnd q => same_server d S rnd q | Reboot => True end;
  to_plain : tplain_step P e = plain_step is_keyword P (event_of ft e);
  to_names : usable_all (fst (fst (jstep (d, S) (event_of ft e)))) }.

Lemma cmd_step d S P rnd db c enc fresh anon : SInv is_keyword E d S P -> usable_all d ->
  tgood ft alnum fstr bs E d S (TAsk rnd db (WCmd c) enc fresh anon) -> tstep_ok d S P (TAsk rnd db (WCmd c) enc fresh anon).
Proof.
  intros I UA [SC NS]. set (E' := with_rnd E rnd) in *. set (M := db_meta d db) in *.
  assert (HP' : prim_ok (e_P E')) by exact HP.
  pose proof (si_meta _ _ _ _ _ db I) as WM. fold M in WM. pose proof (si_db_rel _ _ _ _ _ db I) as DR. fold M in DR.
  pose proof (usable_db d db UA) as UN. fold M in UN.
  destruct (cmd_shape bs alnum HA ft E' M c HP' WM UN SC) as (t & m & j & j' & q & st & Hm & PJ & FR & ST & RW & TX).
  destruct (txt_says bs alnum fstr HA (t_anon m) j' q TX) as (text & FT & [N SY] & B).
  pose proof (stm_type _ _ _ ST) as TY. rewrite kind_meaning in TY.
  set (r := request_of ft db (WCmd c) enc fresh anon).
  destruct (frag_known _ _ _ _ FR) as (_ & PS & NDj & _). pose proof (rewrite_no_drop _ _ _ _ _ _ RW NDj) as NDj'.
  assert (WT : wtext (SJson j') = text) by (unfold wire_text, wire; now rewrite FT).
  assert (Q' : kind c = QSelect -> substrb (u " SUM(") (wtext (SJson j')) = false /\ substrb (u " AVG(") (wtext (SJson j')) = false)
    by (intro Y; rewrite WT; exact (NS Y j j' (JStr t) st text PJ RW FT)).
  pose proof (fun x => call_stmt E wtext rest rnd d r j (kind c) j' (JStr t) st x eq_refl PJ eq_refl TY RW Q') as CS. fold E' in CS.
  assert (SF : sent_for E wtext rest rnd d r = Some (SJson j')).
  { unfold sent_for. fold E'. rewrite CS. destruct c; reflexivity. }
  destruct (DR t m Hm) as (pt & et & D1 & D2 & [T1 T2 T3]). pose proof (wm_table is_keyword M WM t m Hm) as WT'.
  constructor; cbn [event_of].
  - apply (good_stmt _ _ _ _ _ _ _ j (kind c)); try reflexivity; [exact PJ|exact TY|exact FR|].
    intros Y j2 t2 st2 R2. change (q_db (request_of ft db (WCmd c) enc fresh anon)) with db in R2. fold M E' in R2. rewrite RW in R2. injection R2 as <- <- <-. exact (Q' Y).
  - apply (same_none d S rnd r (SJson j') SF). exists N. intros n L. change (q_db r) with db. cbn [wire]. rewrite FT. cbn [bind].
    unfold text_server. rewrite (starts_no_create _ B). specialize (SY n L). unfold read_text in SY. destruct (lex bs true text) as [ts|]; [|discriminate]. rewrite SY.
    rewrite (no_drop_exec _ _ _ NDj'). symmetry.
    apply (exec_obey (db_of S db) _ et j' q (txt_stm bs alnum _ _ _ TX) D2). rewrite T2, Forall_forall. intros x X. now apply colname_column, (wf_pnames is_keyword m WT').
  - unfold tplain_step, plain_step. cbn [run_written q_db q_parsed q_type request_of]. rewrite PJ. cbn [bind]. rewrite PS.
    rewrite (exec_obey (db_of P db) _ pt j (meaning c) ST D1) by (rewrite T1, Forall_forall; intros x X; now apply colname_column, (wf_names is_keyword m WT')).
    destruct c; reflexivity.
  - fold r. unfold sys_step. cbn [fst snd]. rewrite SF. unfold invoke. fold E'. rewrite CS. set (x := server _ _ _).
    assert (G : usable_all d) by exact UA. destruct (kind c), x as [[? ?]|?]; exact G.
Qed.

Lemma drop_tstep d S P rnd db t enc fresh anon : SInv is_keyword E d S P -> usable_all d ->
  tgood ft alnum fstr bs E d S (TAsk rnd db (WDrop t) enc fresh anon) -> tstep_ok d S P (TAsk rnd db (WDrop t) enc fresh anon).
Proof.
  intros I UA G0. cbn [tgood] in G0. destruct (in_memory d db t) as [m|] eqn:G; [clear G0|congruence].
  pose proof G as G'. rewrite <- db_meta_get in G'.
  destruct (drop_known (with_rnd E rnd) _ t m G') as (j' & T & st & R).
  destruct (drop_rewritten _ _ _ _ _ _ R) as (m' & Gm & -> & ->). rewrite G' in Gm. injection Gm as <-.
  set (r := request_of ft db (WDrop t) enc fresh anon).
  assert (KD : exists TT, dget (self_meta d) db = Some TT)
    by (unfold in_memory in G; destruct (dget (self_meta d) db); [eauto|discriminate]).
  destruct KD as (TT & KD).
  assert (CS : forall x, ExecModel.call (with_rnd E rnd) (inject wtext rest) MySQL None d r (reports x) =
    (fst (delete_delta MySQL None d db t), Ok (None, JDict [(u "table", JStr t)], st),
     [Execute (SJson (JDict [(u "drop", JDict [(u "table", JStr (t_anon m))])])); Close])).
  { intro x. unfold ExecModel.call. change (q_type r) with (@Ok qtype QDrop). cbn [in_sql_types negb].
    assert (DI : ExecModel.dispatch (with_rnd E rnd) MySQL None d r =
      (d, Ok (SJson (JDict [(u "drop", JDict [(u "table", JStr (t_anon m))])]), JDict [(u "table", JStr t)], st))).
    { unfold ExecModel.dispatch. change (q_parsed r) with (Ok (JDict [(u "drop", JDict [(u "table", JStr t)])])).
      change (q_enc r) with (@None (dict json)). change (q_db r) with db. cbv iota. rewrite R. reflexivity. }
    rewrite DI. destruct x as [[D l]|e]; cbn [reports a_cursor a_exec]; unfold forget; cbn [getitem];
      change (dgetE [(u "table", JStr t)] (u "table")) with (Ok (JStr t)); unfold delete_delta; change (q_db r) with db; rewrite KD; reflexivity. }
  assert (SF : sent_for E wtext rest rnd d r = Some (SJson (JDict [(u "drop", JDict [(u "table", JStr (t_anon m))])])))
    by (unfold sent_for; rewrite CS; reflexivity).
  constructor; cbn [event_of].
  - apply (good_drop _ _ _ _ _ _ _ t m); try reflexivity. exact G.
  - apply (same_none d S rnd r _ SF). exists O. intros n _. change (q_db r) with db.
    rewrite (drop_says (t_anon m) (db_of S db) n (proj1 (UA _ _ _ G))). symmetry. apply server_drop.
  - reflexivity.
  - unfold sys_step. cbn [fst snd]. unfold invoke. fold r. rewrite CS. cbn [fst snd]. intros db' t' m'.
    rewrite (drop_mem d db t db' t' (si_inv _ _ _ _ _ I)). destruct (same db' t' db t); [discriminate|apply UA].
Qed.

Lemma create_tstep d S P rnd db j enc fresh anon : SInv is_keyword E d S P -> usable_all d ->
  tgood ft alnum fstr bs E d S (TAsk rnd db (WCreate j) enc fresh anon) -> tstep_ok d S P (TAsk rnd db (WCreate j) enc fresh anon).
Proof.
  intros I UA [G NM]. set (r := request_of ft db (WCreate j) enc fresh anon) in *.
  pose proof G as G0.
  destruct G as [enc' j0 t cols cons defs q m QE QT QP C D NE ND0 ND NC Df Fr Inj Av Sup VA Fa Ab R|? ? QE|? ? QE]; [|discriminate QE..].
  injection QE as <-. injection QP as <-. change (q_fresh r) with fresh in *. change (q_anon r) with anon in *. change (q_db r) with db in *.
  set (E' := with_rnd E rnd) in *.
  assert (WM : forall M t' m', dget (self_meta d) db = Some M -> dget M t' = Some m' -> wf_table is_keyword m' /\ valid_name (t_anon m') = true).
  { intros M t' m' H1 H2. assert (IM : in_memory d db t' = Some m') by (unfold in_memory; rewrite H1; exact H2).
    split; [exact (si_table _ _ _ _ _ I _ _ _ IM)|exact (si_anon _ _ _ _ _ I _ _ _ IM)]. }
  pose proof (create_read is_keyword _ _ _ _ _ _ _ _ _ _ _ _ _ R C D NE ND0 ND NC Df Fr Inj Av Sup VA WM) as RD.
  set (d1 := fst (update_delta MySQL None d db t m)) in *.
  assert (UD : update_delta MySQL None d db t m = (d1, None)) by reflexivity.
  assert (DI : ExecModel.dispatch E' MySQL None d r = (d1, Ok (SText q, JDict [(u "table", JStr t)], s_empty))).
  { unfold ExecModel.dispatch. change (q_parsed r) with (@Ok json j). change (q_enc r) with (Some enc). change (q_fresh r) with fresh. change (q_anon r) with anon. change (q_db r) with db.
    cbv iota. rewrite R, UD. reflexivity. }
  assert (CS : forall D0 l, ExecModel.call E' (inject wtext rest) MySQL None d r (reports (Ok (D0, l))) =
    (d1, Ok (None, JDict [(u "table", JStr t)], s_empty), [Execute (SText q); Commit; Close])).
  { intros D0 l. unfold ExecModel.call. change (q_type r) with (@Ok qtype QCreate). cbn [in_sql_types negb]. rewrite DI. reflexivity. }
  assert (SF : sent_for E wtext rest rnd d r = Some (SText q)) by (unfold sent_for; fold E'; rewrite CS; reflexivity).
  destruct (create_wf is_keyword _ _ _ _ _ _ _ _ _ _ _ _ _ R C D ND0 Inj Av) as (PN & _).
  assert (SX : server is_keyword (db_of S db) (SText q) = Ok (dset (db_of S db) anon {| tb_cols := phys m; tb_rows := [] |}, [])).
  { unfold server. rewrite RD. unfold dmem. rewrite Fa. unfold new_table. rewrite (distinct_ok _ PN). reflexivity. }
  constructor; cbn [event_of].
  - exact G0.
  - apply (same_none d S rnd r _ SF). exists O. intros n _. cbn [wire bind]. unfold text_server, server. rewrite RD. reflexivity.
  - reflexivity.
  - unfold sys_step. cbn [fst snd]. fold r. rewrite SF. change (q_db r) with db. rewrite SX. unfold invoke. fold E'. rewrite CS. cbn [fst snd].
    intros db' t' m'. unfold d1. rewrite (create_memory MySQL None d db t m). destruct (same db' t' db t); [intros [= <-]; exact (NM q t m R)|apply UA].
Qed.

Lemma reboot_tstep d S P : SInv is_keyword E d S P -> usable_all d -> tstep_ok d S P TReboot.
Proof.
  intros I UA. constructor; cbn [event_of]; [exact Logic.I|exact Logic.I|reflexivity|].
  cbn [sys_step fst]. intros db t m H. pose proof (inv_restart d (si_inv _ _ _ _ _ I)) as RM. unfold after_restart in RM. rewrite RM in H.
  destruct (in_memory d db t) as [m0|] eqn:G; [|discriminate]. injection H as <-. exact (UA _ _ _ G).
Qed.

Lemma any_tstep d S P e : SInv is_keyword E d S P -> usable_all d -> tgood ft alnum fstr bs E d S e -> tstep_ok d S P e.
Proof.
  intros I UA G. destruct e as [rnd db [j|t|c] enc fresh anon|].
  - now apply create_tstep.
  - now apply drop_tstep.
  - now apply cmd_step.
  - now apply reboot_tstep.
Qed.

(** One step with texts is the step with parsed statements. *)
Lemma tsys_same d S P e : tstep_ok d S P e -> exists N, forall n, (N <= n)%nat -> tsys_step ft alnum fstr bs E rest n (d, S) e = jstep (d, S) (event_of ft e).
Proof.
  intros [_ SV _ _]. destruct e as [rnd db w enc fresh anon|]; [|exists O; reflexivity]. cbn [event_of] in *. destruct SV as [N X]. exists N. intros n L.
  unfold tsys_step, sys_step. cbn [fst snd]. change (q_db (request_of ft db w enc fresh anon)) with db in *. specialize (X n L).
  destruct (sent_for E wtext rest rnd d (request_of ft db w enc fresh anon)) as [s|]; [|reflexivity]. rewrite (X s eq_refl). reflexivity.
Qed.

Lemma tsys_sim : forall h d S P, SInv is_keyword E d S P -> usable_all d -> tgood_run ft alnum fstr bs E rest (d, S) h ->
  exists N, forall n, (N <= n)%nat -> tsys_run ft alnum fstr bs E rest n (d, S) h = tplain_run P h.
Proof.
  induction h as [|e h IH]; intros d S P I UA G; [exists O; reflexivity|]. cbn [tgood_run fst snd] in G. destruct G as (G & GR).
  pose proof (any_tstep d S P e I UA G) as T. destruct (tsys_same d S P e T) as [N1 X]. destruct T as [T1 _ T3 T4].
  destruct (any_step is_keyword E wtext rest HP d S P (event_of ft e) I T1) as (A & B).
  destruct (jstep (d, S) (event_of ft e)) as [[d' S'] y]. cbn [fst snd] in *.
  destruct (IH d' S' _ B T4 GR) as [N2 Y]. exists (N1 + N2)%nat. intros n L. cbn [tsys_run tplain_run]. rewrite X, T3 by lia.
  destruct (plain_step is_keyword P (event_of ft e)) as [P' y']. cbn [fst snd] in A, Y. subst y'. rewrite Y by lia. reflexivity.
Qed.
Lemma tsys_inv : forall h d S P, SInv is_keyword E d S P -> usable_all d -> tgood_run ft alnum fstr bs E rest (d, S) h ->
  exists d' S', (exists N, forall n, (N <= n)%nat -> tsys_after ft alnum fstr bs E rest n (d, S) h = (d', S')) /\
    sys_after is_keyword E wtext rest (d, S) (map (event_of ft) h) = (d', S') /\ SInv is_keyword E d' S' (tplain_after P h).
Proof.
  induction h as [|e h IH]; intros d S P I UA G; [exists d, S; split; [now exists O|]; now split|]. cbn [tgood_run fst snd] in G. destruct G as (G & GR).
  pose proof (any_tstep d S P e I UA G) as T. destruct (tsys_same d S P e T) as [N1 X]. destruct T as [T1 _ T3 T4].
  destruct (any_step is_keyword E wtext rest HP d S P (event_of ft e) I T1) as (A & B).
  destruct (jstep (d, S) (event_of ft e)) as [[d1 S1] y] eqn:JS. cbn [fst snd] in *. rewrite <- T3 in B.
  destruct (IH d1 S1 _ B T4 GR) as (d' & S' & [N2 Y] & Z & SI). exists d', S'. split; [|split].
  - exists (N1 + N2)%nat. intros n L. unfold tsys_after. cbn [fold_left]. rewrite X by lia. apply Y. lia.
  - unfold sys_after. cbn [map fold_left]. rewrite JS. exact Z.
  - exact SI.
Qed.
Lemma usable_fresh : usable_all fresh_install.
Proof. intros db t m H. discriminate H. Qed.
End Steps.
