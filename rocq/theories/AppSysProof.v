(** Proofs about the whole system that is given SQL texts (C98). *)
From Coq Require Import String Ascii List Arith NArith ZArith QArith Bool Lia.
From Verif Require Import Base BaseProof CryptoModel CryptoSpec FuzzyModel JsonModel RewriteModel LikeSpec SqlSpec EncSpec StmtSpec WhereProof SimProof HistoryProof
  CreateModel CreateSpec CreateProof MetaModel MetaSpec MetaProof ExecModel ExecSpec ExecProof SqlLex SqlRead FmtModel FmtSpec FmtLexProof FmtReadProof FmtExprProof FmtNameProof FmtProof
  ScrubModel OperModel OperSpec EndSpec EndTruthProof EndMaskProof EndLexProof TextSpec TextValueProof TextExecProof TextShapeProof TextReadProof TextFormatProof TextProof SysSpec SysProof SysTextSpec SysTextProof
  LitModel LitSpec GramModel GramSpec GramSimProof GramTextProof GramLexProof GramStmtProof AlterModel FullModel FullSpec FullProof DirectSpec DirectLexProof DirectCmdProof DirectProof DdlSpec DdlProof DdlJsonProof DdlTableProof AppSysSpec AppReadProof.
Import ListNotations.

(** ** Parsing *)
Lemma readable_spelled bs s ls : readable bs s ls -> spelled s ls.
Proof.
  induction 1 as [x t w W _ B|x t w rest ls W _ B NE _ IH].
  - apply sp_last; [exact W|]. exists w, []. rewrite app_nil_r. split; [reflexivity|]. split; [exact B|now left].
  - now apply sp_cons.
Qed.
Lemma app_spells bs parts text : app_text bs parts text -> exists ls, parts ls /\ spells ls text.
Proof.
  intros (ls & lead & s & fin & CL & -> & BL & SH & FI). exists ls. split; [exact CL|]. destruct FI as [-> |(w & -> & BW)].
  { exists lead, s, [], []. split; [reflexivity|]. split; [exact BL|]. split; [now apply (readable_spelled bs)|]. now split. }
  exists lead, s, [59%N], w. split; [reflexivity|]. split; [exact BL|]. split; [now apply (readable_spelled bs)|]. split.
  - repeat constructor.
  - apply forallb_forall. unfold blanks in BW. rewrite Forall_forall in BW. intros c0 C. destruct (BW c0 C) as [<-|[<-|[<-|[<-|[]]]]]; reflexivity.
Qed.
Definition drop_json (t : pystr) : json := JDict [(u "drop", JDict [(u "table", JStr t)])].
Lemma drop_parsed uname more ft text t : spells [K "drop"; K "table"; LName t] text -> parse_create uname more ft text = Ok (drop_json t).
Proof.
  intros SP. unfold parse_create.
  set (p := PRes [] false false [PRes (u "drop") false false [PText (u "drop_table"); named_tok "table" (PText t)]]).
  rewrite (text_of_parts uname more ft _ text p SP ltac:(discriminate)); [reflexivity|].
  intros k L. unfold whole. rewrite (seq_some _ _ _ p []); [reflexivity|]. unfold statement. cbn [first]. do 6 rewrite alt_none by reflexivity. apply alt_some. reflexivity.
Qed.
Lemma spells_no_alter alnum w x t r text : spells (LKw w :: r) text -> w = x :: t -> In x [115; 105; 117; 100]%N -> parse_alter_key alnum text = [].
Proof.
  intros (lead & s & semis & spaces & -> & B & SP & _) -> NX. apply no_alter_key.
  assert (S0 : exists y s', s = y :: s' /\ low_char y = x).
  { inversion SP as [|? t0 ? W|? t0 ? ? ? W]; subst; inversion W as [? ? ? _ E| | | | | | |]; subst; (destruct t0 as [|y t0]; [discriminate E|]); injection E as E _; eexists _, _; (split; [reflexivity|exact E]). }
  destruct S0 as (y & s' & -> & L). cbn [app]. generalize (s' ++ semis ++ spaces). intros z. clear - B L NX.
  assert (Y0 : AlterModel.blank y = false /\ same_letter 97 y = false).
  { unfold AlterModel.blank, same_letter. unfold low_char in L. cbn [In] in NX. destruct ((65 <=? y) && (y <=? 90))%N eqn:Q; lia. }
  destruct Y0 as [Y1 Y2]. induction B as [|b lead Hb B IH]; intros [|a pre] x0 r0 E P0; cbn [app] in E; injection E as -> E.
  - exact Y2.
  - inversion_clear P0. congruence.
  - cbn [In] in Hb. unfold same_letter. lia.
  - inversion_clear P0. now apply (IH pre x0 r0).
Qed.

Section Steps.
Variables (uname : pystr -> option N) (more : pystr -> pystr -> res pystr) (ft : pystr -> bool) (alnum : N -> bool) (fstr : Q -> pystr) (bs : bool).
Variables (E : env) (rest : delta -> sent -> json -> res sent) (ty : pystr -> res qtype).
Hypothesis HA : ascii_ok alnum.
Hypothesis HP : prim_ok (e_P E).
Notation wtext := (wire_text alnum fstr).
Notation atext := (sent_words alnum fstr).
Notation astep := (asys_step uname more ft alnum fstr bs E rest ty).
Notation tstep := (tsys_step ft alnum fstr bs E rest).

(** ** Statements sent *)
Lemma sent_plain d : dmem d (u "alter") = false -> sent_text alnum fstr (SJson (JDict d)) = wire alnum fstr (SJson (JDict d)).
Proof. intros H. cbn [sent_text wire]. unfold write_text. cbn [contains bind]. rewrite H. cbn [bind]. now destruct (format_sql alnum fstr (JDict d)). Qed.

(** A statement on one table: the text gives the same text to send, the same table and the same state as the statement. *)
Lemma cmd_same d db c text rnd enc fresh anon S n : usable_all d -> wf_meta is_keyword (db_meta d db) -> tgood ft alnum fstr bs E d S (TAsk rnd db (WCmd c) enc fresh anon) ->
  shared_text bs c text -> ty text = Ok (kind c) ->
  astep n (d, S) (AText rnd db text None fresh anon) = tstep n (d, S) (TAsk rnd db (WCmd c) enc fresh anon).
Proof.
  intros UA WM [SC NS] ST TY. set (E' := with_rnd E rnd) in *. set (M := db_meta d db) in *.
  assert (HP' : prim_ok (e_P E')) by exact HP. pose proof (usable_db d db UA) as UN. fold M in UN.
  destruct (cmd_shape bs alnum HA ft E' M c HP' WM UN SC) as (t & m & j & j' & q & st & Hm & PJ & FR & ST0 & RW & TX).
  destruct (txt_says bs alnum fstr HA (t_anon m) j' q TX) as (tx & FT & _ & B).
  pose proof (stm_type _ _ _ ST0) as TYJ. rewrite kind_meaning in TYJ.
  set (r := request_of ft db (WCmd c) enc fresh anon). set (r2 := text_request uname more ft alnum ty db text None fresh anon).
  pose proof (shared_writes bs c text ST) as WR.
  assert (PT : exists d0 e, j = JDict d0 /\ parse_text uname more ft alnum text = Ok (JDict e) /\ eqd d0 e /\ NoDup (dkeys d0) /\ NoDup (dkeys e) /\ written_dict d0 /\ dmem d0 (u "alter") = false).
  { unfold parse_text. rewrite (writes_no_alter alnum c text WR). destruct WR as (ls & C & SP).
    destruct (statement_parsed uname more ft c ls text (sup_good ft bs M E' c SC) C SP) as (o & jo & PM & PJ' & SD & KO).
    rewrite PJ in PJ'. injection PJ' as <-. rewrite PM. cbn [bind].
    destruct (parsed_dict uname more ft c j PJ) as (d0 & -> & ND & WD & AL). destruct (json_of o) as [| | | | | |e] eqn:JO; try contradiction. cbn [ValuesSpec.same_dict keys_once] in SD, KO.
    exists d0, e. split; [reflexivity|]. split; [reflexivity|]. split; [intros k; symmetry; apply SD|]. split; [exact ND|]. split; [exact KO|]. split; [exact WD|exact AL]. }
  destruct PT as (d0 & e & -> & PT & EQ & N1 & N2 & WD & AL).
  pose proof (rewrite_order E' M d0 e EQ N1 N2) as RO. rewrite RW in RO. destruct (rewrite_query E' M (JDict e)) as [[[j2 t2] st2]|] eqn:RW2; [|contradiction].
  destruct RO as (<- & S0 & RO). cbn [fst snd] in S0, RO. subst st2.
  assert (J2 : exists d1 e1, j' = JDict d1 /\ j2 = JDict e1 /\ dmem d1 (u "alter") = false /\ dmem e1 (u "alter") = false /\ format_sql alnum fstr (JDict d1) = format_sql alnum fstr (JDict e1)).
  { destruct RO as [[_ ->]|(d1 & e1 & -> & -> & H1 & M1 & M2 & BB)].
    - exfalso. injection FT as <-. destruct B as (w & z & B & [<-|[<-|[<-|[<-|[]]]]]); discriminate B.
    - exists d1, e1. split; [reflexivity|]. split; [reflexivity|]. rewrite <- (eqd_dmem d1 e1 _ H1), BB. split; [exact AL|]. split; [exact AL|]. apply (format_order alnum fstr d1 e1 H1 M1 M2).
      destruct WD as (W1 & W2 & W3). split; [now rewrite BB|]. split; [now rewrite BB|]. rewrite BB. destruct W3 as [W3|W3]; [now left|right].
      apply existsb_exists in W3. apply existsb_exists. destruct W3 as (k & I0 & K0). exists k. split; [exact I0|]. now rewrite BB. }
  destruct J2 as (d1 & e1 & -> & -> & A1 & A2 & FF).
  assert (SE : sent_text alnum fstr (SJson (JDict e1)) = Ok tx) by (rewrite (sent_plain e1 A2); cbn [wire]; now rewrite <- FF).
  assert (SW : atext (SJson (JDict e1)) = tx) by (unfold sent_words; now rewrite SE).
  assert (WT : wtext (SJson (JDict d1)) = tx) by (unfold wire_text, wire; now rewrite FT).
  assert (Q1 : kind c = QSelect -> substrb (u " SUM(") tx = false /\ substrb (u " AVG(") tx = false)
    by (intro Y; exact (NS Y (JDict d0) (JDict d1) (JStr t) st tx PJ RW FT)).
  assert (Q2 : kind c = QSelect -> substrb (u " SUM(") (wtext (SJson (JDict d1))) = false /\ substrb (u " AVG(") (wtext (SJson (JDict d1))) = false) by (rewrite WT; exact Q1).
  assert (Q3 : kind c = QSelect -> substrb (u " SUM(") (atext (SJson (JDict e1))) = false /\ substrb (u " AVG(") (atext (SJson (JDict e1))) = false) by (rewrite SW; exact Q1).
  assert (TK : In (kind c) [QInsert; QUpdate; QDelete; QSelect]) by (destruct c; cbn; tauto).
  pose proof (fun x => call_stmt E wtext rest rnd d r (JDict d0) (kind c) (JDict d1) (JStr t) st x eq_refl PJ eq_refl TYJ RW Q2) as C1. fold E' in C1.
  pose proof (fun x => call_kind E atext rest rnd d r2 (JDict e) (kind c) (JDict e1) (JStr t) st x eq_refl PT TY TK RW2 Q3) as C2. fold E' in C2.
  assert (SF1 : sent_for E wtext rest rnd d r = Some (SJson (JDict d1))) by (unfold sent_for; fold E'; rewrite C1; destruct c; reflexivity).
  assert (SF2 : sent_for E atext rest rnd d r2 = Some (SJson (JDict e1))) by (unfold sent_for; fold E'; rewrite C2; destruct c; reflexivity).
  unfold asys_step, tsys_step. cbn [fst snd]. fold r r2. rewrite SF1, SF2, SE. cbn [wire]. rewrite FT. cbn [bind]. set (x := text_server n bs (db_of S db) tx).
  unfold invoke. fold E'. rewrite C1, C2. destruct c, x as [[? ?]|?]; reflexivity.
Qed.

(** CREATE TABLE and DROP TABLE. *)
Lemma create_same d db j text rnd enc fresh anon S n : tgood ft alnum fstr bs E d S (TAsk rnd db (WCreate j) enc fresh anon) -> text_of bs (WCreate j) text -> ty text = Ok QCreate ->
  astep n (d, S) (AText rnd db text (Some enc) fresh anon) = tstep n (d, S) (TAsk rnd db (WCreate j) enc fresh anon).
Proof.
  intros [G _] (df & GD & -> & AT) TY. set (r := request_of ft db (WCreate (def_json df)) enc fresh anon) in *.
  assert (R2 : text_request uname more ft alnum ty db text (Some enc) fresh anon = r).
  { unfold text_request, r, request_of. rewrite TY. f_equal. apply create_parsed; [exact GD|]. destruct (app_spells bs _ _ AT) as (ls & DL & SP). now exists ls. }
  destruct G as [enc' j0 t cols cons defs q m QE QT QP C D NE ND0 ND NC Df Fr Inj Av Sup VA Fa Ab R|? ? QE|? ? QE]; [|discriminate QE..].
  injection QE as <-. injection QP as <-. change (q_fresh r) with fresh in *. change (q_anon r) with anon in *. change (q_db r) with db in *. set (E' := with_rnd E rnd) in *.
  set (d1 := fst (update_delta MySQL None d db t m)).
  assert (DI : ExecModel.dispatch E' MySQL None d r = (d1, Ok (SText q, JDict [(u "table", JStr t)], s_empty))).
  { unfold ExecModel.dispatch. change (q_parsed r) with (@Ok json (def_json df)). change (q_enc r) with (Some enc). change (q_fresh r) with fresh. change (q_anon r) with anon. change (q_db r) with db.
    cbv iota. rewrite R. reflexivity. }
  assert (CA : forall inj1 inj2 x, ExecModel.call E' inj1 MySQL None d r x = ExecModel.call E' inj2 MySQL None d r x).
  { intros inj1 inj2 x. unfold ExecModel.call. change (q_type r) with (@Ok qtype QCreate). cbn [in_sql_types negb]. rewrite DI. reflexivity. }
  assert (CE : forall inj D0 l, snd (ExecModel.call E' inj MySQL None d r (reports (Ok (D0, l)))) = [Execute (SText q); Commit; Close]).
  { intros inj D0 l. unfold ExecModel.call. change (q_type r) with (@Ok qtype QCreate). cbn [in_sql_types negb]. rewrite DI. reflexivity. }
  assert (S1 : forall tx, sent_for E tx rest rnd d r = Some (SText q)) by (intros tx; unfold sent_for; fold E'; now rewrite CE).
  unfold asys_step, tsys_step. cbn [fst snd]. fold r. rewrite R2, !S1. cbn [sent_text wire bind]. unfold invoke. fold E'. now rewrite (CA (inject atext rest) (inject wtext rest)).
Qed.
Lemma drop_same d db t text rnd enc fresh anon S n : tgood ft alnum fstr bs E d S (TAsk rnd db (WDrop t) enc fresh anon) -> text_of bs (WDrop t) text -> ty text = Ok QDrop ->
  astep n (d, S) (AText rnd db text None fresh anon) = tstep n (d, S) (TAsk rnd db (WDrop t) enc fresh anon).
Proof.
  intros G0 AT TY. cbn [tgood] in G0. destruct (in_memory d db t) as [m|] eqn:G; [clear G0|congruence].
  rewrite <- db_meta_get in G. set (r := request_of ft db (WDrop t) enc fresh anon). set (E' := with_rnd E rnd).
  assert (R2 : text_request uname more ft alnum ty db text None fresh anon = r).
  { unfold text_request, r, request_of. rewrite TY. f_equal. destruct (app_spells bs _ _ AT) as (ls & <- & SP). unfold parse_text.
    rewrite (spells_no_alter alnum _ 100%N (u "rop") _ text SP eq_refl) by (cbn; tauto). apply (drop_parsed uname more ft text t SP). }
  destruct (drop_known E' _ t m G) as (j' & T & st & R). destruct (drop_rewritten _ _ _ _ _ _ R) as (m' & Gm & -> & ->). rewrite G in Gm. injection Gm as <-.
  assert (DI : ExecModel.dispatch E' MySQL None d r = (d, Ok (SJson (drop_json (t_anon m)), JDict [(u "table", JStr t)], st))).
  { unfold ExecModel.dispatch. change (q_parsed r) with (Ok (JDict [(u "drop", JDict [(u "table", JStr t)])])). change (q_enc r) with (@None (dict json)). change (q_db r) with db. cbv iota. rewrite R. reflexivity. }
  assert (CA : forall inj1 inj2 x, ExecModel.call E' inj1 MySQL None d r x = ExecModel.call E' inj2 MySQL None d r x).
  { intros inj1 inj2 x. unfold ExecModel.call. change (q_type r) with (@Ok qtype QDrop). cbn [in_sql_types negb]. rewrite DI. reflexivity. }
  assert (SF : sent_for E atext rest rnd d r = sent_for E wtext rest rnd d r) by (unfold sent_for; fold E'; now rewrite (CA (inject atext rest) (inject wtext rest))).
  assert (SJ : sent_for E wtext rest rnd d r = None \/ sent_for E wtext rest rnd d r = Some (SJson (drop_json (t_anon m)))).
  { unfold sent_for. fold E'. unfold ExecModel.call. change (q_type r) with (@Ok qtype QDrop). cbn [in_sql_types negb]. rewrite DI. cbn [reports a_cursor a_exec]. unfold forget. cbn [getitem].
    change (dgetE [(u "table", JStr t)] (u "table")) with (Ok (JStr t)). destruct (delete_delta MySQL None d (q_db r) t) as [? [?|]]; right; reflexivity. }
  unfold asys_step, tsys_step. cbn [fst snd]. fold r. rewrite R2, SF. unfold invoke. fold E'. rewrite (CA (inject atext rest) (inject wtext rest)).
  destruct SJ as [-> | ->]; [reflexivity|]. unfold drop_json. rewrite (sent_plain [(u "drop", JDict [(u "table", JStr (t_anon m))])] eq_refl). reflexivity.
Qed.
Lemma step_same d S P a e n : SInv is_keyword E d S P -> usable_all d -> tgood ft alnum fstr bs E d S e -> stands bs ty a e -> astep n (d, S) a = tstep n (d, S) e.
Proof.
  intros I UA G ST. destruct a as [rnd db text enc fresh anon|], e as [rnd' db' w enc' fresh' anon'|]; cbn [stands] in ST; try contradiction; [|reflexivity].
  destruct ST as (-> & -> & -> & -> & -> & TO & TY). destruct w as [j|t|c].
  - now apply create_same.
  - now apply drop_same.
  - apply cmd_same; try assumption. exact (si_meta _ _ _ _ _ db' I).
Qed.

(** ** The plaintext databases *)
Lemma read_kind n ts q : read_cmd n ts = Some q -> exists t r, ts = t :: r /\ is_w "select" t = match kind q with QSelect => true | _ => false end.
Proof.
  destruct ts as [|k r]; [discriminate|]. intros H. exists k, r. split; [reflexivity|]. revert H. cbn [read_cmd]. destruct (is_w "select" k).
  - destruct (read_items r) as [[i [|f [|x r1]]]|]; try discriminate. destruct (is_w "from" f); [|discriminate]. destruct (ident x); [|discriminate]. destruct (read_where n r1) as [[w r2]|]; [|discriminate].
    destruct (read_order r2) as [[o r3]|]; [|discriminate]. destruct (read_limit r3) as [[lim [|]]|]; try discriminate. now intros [= <-].
  - intros H. assert (X : kind q <> QSelect); [|destruct (kind q); congruence]. revert H.
    repeat match goal with
    | |- context [if ?b then _ else _] => destruct b; try discriminate
    | |- context [match ?x with _ => _ end] => destruct x; try discriminate
    end; intros [= <-]; discriminate.
Qed.
Lemma unended_first ts t r : unended ts = t :: r -> exists r', ts = t :: r'.
Proof.
  unfold unended. destruct (rev ts) as [|x l] eqn:R; [intros ->; eauto|]. destruct x as [w|w|w|w|w]; try (intros ->; eauto; fail). destruct (seqb w (u ";")); [|intros ->; eauto].
  intros H. assert (T : ts = rev (rev ts)) by (symmetry; apply rev_involutive). rewrite R in T. cbn [rev] in T. rewrite H in T. cbn [app] in T. eauto.
Qed.
Lemma columns_read cs : mapM SysSpec.column_name (match Some (some_json (map column_json cs)) with Some (JList l) => l | Some x => [x] | None => [] end) = Ok (map cl_name cs).
Proof.
  assert (H : mapM SysSpec.column_name (map column_json cs) = Ok (map cl_name cs)) by (induction cs as [|c cs IH]; [reflexivity|]; cbn [map mapM]; change (SysSpec.column_name (column_json c)) with (@Ok pystr (cl_name c)); cbn [bind]; rewrite IH; reflexivity).
  unfold some_json. destruct cs as [|c [|c' cs]]; exact H.
Qed.
Lemma plain_create D d : plain_server is_keyword D (def_json d) = if dmem D (td_name d) then Err DbError else new_table D (td_name d) (map cl_name (td_cols d)).
Proof.
  unfold plain_server, def_json. set (ct := (if td_guard d then _ else _) ++ _).
  change (dget [(u "create table", JDict ct)] (u "create table")) with (Some (JDict ct)). cbv iota.
  assert (H1 : dget ct (u "name") = Some (JStr (td_name d))) by (subst ct; destruct (td_guard d); reflexivity).
  assert (H2 : dget ct (u "columns") = Some (some_json (map column_json (td_cols d)))) by (subst ct; destruct (td_guard d); reflexivity).
  rewrite H1, H2, columns_read. reflexivity.
Qed.
Lemma plain_same P d S a e : tgood ft alnum fstr bs E d S e -> stands bs ty a e -> exists N, forall n, (N <= n)%nat -> aplain_step bs n P a = tplain_step P e.
Proof.
  intros G ST. destruct a as [rnd db text enc fresh anon|], e as [rnd' db' w enc' fresh' anon'|]; cbn [stands] in ST; try contradiction; [|now exists O].
  destruct ST as (-> & -> & -> & -> & -> & TO & TY). unfold aplain_step, tplain_step. destruct w as [j|t|c]; cbn [text_of] in TO.
  - exists O. intros n _. destruct TO as (df & GD & -> & AT). destruct (table_text bs df text (db_of P db') n GD AT) as (-> & ->). cbn [run_written]. rewrite plain_create.
    destruct (dmem (db_of P db') (td_name df)), (td_guard df); reflexivity.
  - exists O. intros n _. destruct (drop_text bs t text (db_of P db') n TO) as (-> & ->). reflexivity.
  - cbn [tgood] in G. destruct G as (SC & _). destruct (reads_shared ft bs c text (sup_fit ft bs _ _ c SC) TO) as (N & X). exists N. intros n L. specialize (X n L).
    unfold read_app in X. unfold app_server, asks_rows. destruct (lex bs true text) as [ts|]; [|discriminate X]. cbv zeta. rewrite X.
    destruct (read_kind _ _ _ X) as (t & r & U & K0). destruct (unended_first _ _ _ U) as (r' & ->). rewrite K0, kind_meaning. destruct c; reflexivity.
Qed.

(** ** Histories *)
Lemma asys_sim : forall h hw, Forall2 (stands bs ty) h hw -> forall d S P, SInv is_keyword E d S P -> usable_all d -> tgood_run ft alnum fstr bs E rest (d, S) hw ->
  exists N, forall n, (N <= n)%nat -> asys_run uname more ft alnum fstr bs E rest ty n (d, S) h = aplain_run bs n P h.
Proof.
  induction 1 as [|a e h hw ST F IH]; intros d S P I UA G; [exists O; reflexivity|]. cbn [tgood_run fst snd] in G. destruct G as (G & GR).
  pose proof (any_tstep ft alnum fstr bs E rest HA HP d S P e I UA G) as T. destruct (tsys_same ft alnum fstr bs E rest d S P e T) as [N1 X]. destruct T as [T1 _ T3 T4].
  destruct (any_step is_keyword E wtext rest HP d S P (event_of ft e) I T1) as (A & B).
  destruct (plain_same P d S a e G ST) as [N3 PS].
  destruct (sys_step is_keyword E wtext rest (d, S) (event_of ft e)) as [[d' S'] y]. cbn [fst snd] in *.
  destruct (IH d' S' _ B T4 GR) as [N2 Y]. exists (N1 + N2 + N3)%nat. intros n L. cbn [asys_run aplain_run].
  rewrite (step_same d S P a e n I UA G ST), X, PS, T3 by lia.
  destruct (plain_step is_keyword P (event_of ft e)) as [P' y']. cbn [fst snd] in A, Y. subst y'. rewrite Y by lia. reflexivity.
Qed.
End Steps.
