(** MySQL reads the texts of an application as the statements they write; histories of texts. *)
From Coq Require Import String Ascii List Arith NArith ZArith QArith Bool Lia ZifyBool ZifyNat ZifyN.
From Verif Require Import Base BaseProof CryptoModel CryptoSpec JsonModel DotsModel RewriteModel SqlSpec EncSpec StmtSpec SimProof SqlLex SqlRead FmtModel FmtSpec FmtLexProof FmtReadProof ScrubModel InfixModel InfixSpec OperModel OperSpec EndSpec EndAssocProof
  TextSpec LitModel LitSpec LitProof GramModel GramSpec FullModel FullSpec FullProof DirectSpec DirectLexProof DirectReadProof DirectCmdProof.
Import ListNotations.

Lemma shared_parts bs s ls : shared bs s ls -> Forall (fun x => x <> K "table" /\ x <> Y ";") ls.
Proof.
  assert (P : forall x t w v, writes x t w -> shared_part bs x t v -> x <> K "table" /\ x <> Y ";").
  { intros x t w v W S. split; intros ->; [now apply S|]. inversion W as [| | | | | | |? ? IN _]; subst. apply smem_In in IN. discriminate IN. }
  induction 1 as [x t w W S _|x t w rest ls W S _ _ _ IH]; constructor; try assumption; [|constructor|]; now apply (P _ t _ _ W S).
Qed.
Lemma shared_spelled bs s ls : shared bs s ls -> spelled s ls.
Proof.
  induction 1 as [x t w W _ B|x t w rest ls W _ B NE _ IH].
  - apply sp_last; [exact W|]. exists w, []. rewrite app_nil_r. split; [reflexivity|]. split; [exact B|now left].
  - now apply sp_cons.
Qed.
Lemma shared_writes bs c text : shared_text bs c text -> writes_cmd c text.
Proof.
  intros (ls & lead & s & fin & CL & -> & BL & SH & FI). exists ls. split; [exact CL|]. destruct FI as [-> |(w & -> & BW)].
  { exists lead, s, [], []. split; [reflexivity|]. split; [exact BL|]. split; [now apply (shared_spelled bs)|]. now split. }
  exists lead, s, [59%N], w. split; [reflexivity|]. split; [exact BL|]. split; [now apply (shared_spelled bs)|]. split.
  - repeat constructor.
  - apply forallb_forall. unfold blanks in BW. rewrite Forall_forall in BW. intros c0 C. destruct (BW c0 C) as [<-|[<-|[<-|[<-|[]]]]]; reflexivity.
Qed.
Lemma unended_semi ks : unended (ks ++ [TSym (u ";")]) = ks.
Proof. unfold unended. rewrite rev_app_distr. cbn [rev app]. change (seqb (u ";") (u ";")) with true. cbv iota. apply rev_involutive. Qed.
Lemma unended_none ks : ~ In (TSym (u ";")) ks -> unended ks = ks.
Proof.
  intros H. unfold unended. destruct (rev ks) as [|t r] eqn:E; [reflexivity|]. destruct t as [w|w|w|w|w]; try reflexivity. destruct (seqb w (u ";")) eqn:S; [|reflexivity]. apply seqb_eq in S. subst w.
  exfalso. apply H. apply in_rev. rewrite E. now left.
Qed.
Lemma no_semi ls ks : Forall2 tk ls ks -> Forall (fun x => x <> K "table" /\ x <> Y ";") ls -> ~ In (TSym (u ";")) ks.
Proof.
  intros F. induction F as [|x k ls ks T F IH]; intros A; [intros []|]. inversion_clear A as [|? ? [_ A1] A2]. intros [->|X]; [|now apply IH]. inversion T; subst. now apply A1.
Qed.

Section Direct.
Variables (ft : pystr -> bool) (bs : bool).
Lemma sup_fit E M c : sup_cmd ft bs E M c -> cmd_fit ft c.
Proof.
  assert (W : forall m w, where_sup ft bs E m w -> where_fit ft w).
  { intros m [s|]; [|exact (fun H => H)]. intros (G & A & S). split; [exact G|]. split; [exact A|]. now apply supported_search in S. }
  destruct c as [i t w o lim|t cs vs|t sets w|t w]; cbn [sup_cmd cmd_fit].
  - intros (m & _ & _ & _ & H & _). now apply (W m).
  - intros (m & _ & L & _ & E' & _). split; intros ->; cbn [length] in *; lia.
  - intros (m & _ & NE & _ & H & _). split; [exact NE|now apply (W m)].
  - intros (m & _ & H). now apply (W m).
Qed.
Lemma reads_shared c text : cmd_fit ft c -> shared_text bs c text -> exists n, forall k, (n <= k)%nat -> read_app k bs text = Some (meaning c).
Proof.
  intros CF (ls & lead & s & fin & CL & -> & BL & SH & FI). pose proof (cmd_fine c ls CL) as FN. pose proof (shared_parts bs s ls SH) as SP.
  assert (NT : ~ In (K "table") ls). { intros X. rewrite Forall_forall in SP. now destruct (SP _ X). }
  assert (ES : exists ts, Lx bs true fin ts /\ (ts = [] \/ ts = [TSym (u ";")])).
  { destruct FI as [-> |(w & -> & BW)]; [exists []; split; [apply Lx_nil|now left]|]. exists [TSym (u ";")]. split; [|now right].
    apply (Lx_tok bs true 59%N w (TSym (u ";")) w); [reflexivity| |cbn; lia|].
    - destruct BW as [|b w' B _]; [reflexivity|]. destruct B as [<-|[<-|[<-|[<-|[]]]]]; reflexivity.
    - rewrite <- (app_nil_r w). apply Lx_blanks; [exact BW|]. apply Lx_nil. }
  destruct ES as (ts & L & TS).
  destruct (lx_shared bs s ls fin ts SH FN) as (ks & F & X); [destruct FI as [-> |(w & -> & _)]; [exact Logic.I|reflexivity]|exact L|].
  destruct (cmd_reads ft c ls ks CL CF NT F) as (n & Hn). exists n. intros k Hk. unfold read_app.
  rewrite (Lx_lex bs true (lead ++ s ++ fin) (ks ++ ts)); [|now apply Lx_blanks]. destruct TS as [-> | ->].
  - rewrite app_nil_r, unended_none; [now apply Hn|]. now apply (no_semi ls).
  - rewrite unended_semi. now apply Hn.
Qed.

Lemma direct_history E M h pdb : Forall (fun x => sup_cmd ft bs (with_rnd E (fst x)) M (snd (snd x)) /\ shared_text bs (snd (snd x)) (fst (snd x))) h ->
  exists N, forall n, (N <= n)%nat -> answers (fun _ D x => direct bs n D (fst x)) pdb h = answers (fun _ D x => obey D (meaning (snd x))) pdb h.
Proof.
  intros F. revert pdb. induction F as [|[r [text c]] h [Hc Hw] F IH]; intros pdb; [exists O; reflexivity|]. cbn [fst snd] in Hc, Hw.
  destruct (reads_shared c text (sup_fit _ M c Hc) Hw) as (N1 & H1).
  assert (TP : forall n, (N1 <= n)%nat -> direct bs n pdb text = obey pdb (meaning c)) by (intros n L; unfold direct; now rewrite H1).
  destruct (obey pdb (meaning c)) as [[pdb' rs]|e1] eqn:OB.
  - destruct (IH pdb') as [N2 H2]. exists (N1 + N2)%nat. intros n L. cbn [answers fst snd]. rewrite TP, OB by lia. f_equal. apply H2. lia.
  - destruct (IH pdb) as [N2 H2]. exists (N1 + N2)%nat. intros n L. cbn [answers fst snd]. rewrite TP, OB by lia. f_equal. apply H2. lia.
Qed.
Lemma chosen (P : (pystr -> Z) -> pystr -> cmd sx -> Prop) h : Forall (fun x => exists c, P (fst x) (snd x) c) h ->
  exists g : list ((pystr -> Z) * (pystr * cmd sx)), Forall (fun x => P (fst x) (fst (snd x)) (snd (snd x))) g /\ h = map (fun x => (fst x, fst (snd x))) g.
Proof.
  induction 1 as [|[r t] h [c H] _ (g & G & ->)]; [exists []; now split|]. exists ((r, (t, c)) :: g). split; [now constructor|reflexivity].
Qed.
Lemma answers_map {A B} step (f : A -> B) h : forall D, answers step D (map (fun x => (fst x, f (snd x))) h) = answers (fun r D x => step r D (f x)) D h.
Proof.
  induction h as [|[r a] h IH]; intros D; [reflexivity|]. cbn [map answers fst snd]. destruct (step r D (f a)) as [[D' rs]|]; now rewrite IH.
Qed.
End Direct.
