(** From the tokens of a condition to the text that is sent. *)
From Coq Require Import String Ascii List Arith NArith ZArith QArith Bool Lia.
From Verif Require Import Base BaseProof CryptoModel CryptoSpec CryptoProof FuzzyModel JsonModel JsonProof DotsModel RewriteModel LikeSpec SqlSpec EncSpec RewriteSpec
  WhereProof RewriteProof SqlLex SqlRead FmtModel FmtSpec FmtProof ScrubModel OperModel OperSpec OperProof EndSpec EndParseProof EndTruthProof EndAssocProof EndMaskProof EndLexProof.
Import ListNotations.

Lemma vleaf_id alnum t : (forall l, In l (tcols t) -> exists c, l = [c] /\ should_quote alnum c = false) -> vleaf alnum t = t.
Proof.
  destruct t as [[|p [|]]| | | | | | | | | | | |]; try reflexivity. intros H. cbn [vleaf]. destruct (H [p] (or_introl eq_refl)) as (c & E & Q).
  injection E as <-. now rewrite Q.
Qed.
Lemma view_id alnum t : condition t -> (forall l, In l (tcols t) -> exists c, l = [c] /\ should_quote alnum c = false) -> view alnum t = t.
Proof.
  assert (A : forall t ts, (forall l, In l (tcols t) -> In l ts) -> (forall l, In l ts -> exists c, l = [c] /\ should_quote alnum c = false) -> vleaf alnum t = t).
  { intros t0 ts H1 H2. apply vleaf_id. auto. }
  induction 1; cbn [view]; intros Q.
  - rewrite !view_leaf by assumption. now rewrite (A a _) with (2 := Q), (A b _) with (2 := Q) by (intros l L; cbn [tcols]; apply in_or_app; auto).
  - rewrite (A m _) with (2 := Q) by (intros x L; cbn [tcols]; apply in_or_app; auto). f_equal. rewrite <- (map_id l) at 2. apply map_ext_in. intros t I.
    apply (A t _) with (2 := Q). intros x X. cbn [tcols]. apply in_or_app. right. apply in_concat. exists (tcols t). split; [now apply in_map|exact X].
  - now rewrite (A a _) with (2 := Q), (A b _) with (2 := Q), (A c _) with (2 := Q) by (intros l L; cbn [tcols]; rewrite !in_app_iff; auto).
  - now rewrite (A t _) with (2 := Q) by auto.
  - now rewrite IHcondition.
  - rewrite IHcondition1, IHcondition2; [reflexivity| |]; intros l L; apply Q; cbn [tcols]; apply in_or_app; auto.
  - rewrite IHcondition1, IHcondition2; [reflexivity| |]; intros l L; apply Q; cbn [tcols]; apply in_or_app; auto.
Qed.

Lemma end_to_end E M t m float_text alnum fstr bs s :
  prim_ok (e_P E) -> dget M t = Some m -> wf_table is_keyword m -> ascii_ok alnum ->
  grouped float_text s -> simple_atoms s -> supported (e_alnum E) bs m (mean s) ->
  exists x j text tr,
    read_tokens float_text (tokens_of float_text s) = Ok (TVal x) /\
    where_rw E M (JStr t) SYM [] (json_of (scrub x)) = Ok j /\
    format_sql alnum fstr j = Ok text /\
    reads bs true mysql_lev 14 text tr /\
    forall pr er, enc_row E m pr er -> truth er tr = truth pr (mean s).
Proof.
  intros HP HM WF HA G A S. pose proof (supported_search _ _ _ _ S) as SE.
  destruct (read_canon float_text s G A SE) as (x & t0 & R & EX & AE & C & CV).
  assert (S0 : supported (e_alnum E) bs m t0) by now apply (assoc_supported _ _ _ _ _ AE).
  unfold expr_of in EX. unfold cv in CV. set (j := json_of (scrub x)) in *.
  assert (F : frag_cond is_keyword (e_alnum E) m j) by now apply (supported_frag (e_alnum E) alnum bs m HA WF j t0).
  destruct (where_sound is_keyword E M t m j HP HM WF F) as (j' & W & KEEP).
  destruct (masked_ok is_keyword E M t m j HP HM F) as (j2 & W2 & MK). rewrite W in W2. injection W2 as <-.
  destruct (masked_out (e_alnum E) alnum bs m HA WF E HP j t0 CV EX C S0 j' MK) as (t' & T' & C' & _ & CL' & G' & CN').
  destruct (cond_reads bs alnum HA fstr j' t' T' C' CL' G') as (text & FT & RD).
  exists x, j', text, (view alnum t'). do 4 (split; [assumption|]). intros pr er ER.
  rewrite <- (cond_truth is_keyword alnum er j' t' CN' T' C' CL'). rewrite (KEEP pr er ER).
  rewrite (cond_truth is_keyword alnum pr j t0 CV EX C (supported_clear (e_alnum E) alnum bs m HA WF t0 S0)).
  rewrite view_id; [now apply assoc_truth|exact C|]. intros l L.
  destruct (supported_cols (e_alnum E) bs m WF t0 S0 l L) as (c & -> & N0). exists c. split; [reflexivity|]. now apply (colname_facts c alnum HA N0).
Qed.
