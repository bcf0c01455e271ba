(** MySQL reads the texts of CREATE TABLE and DROP TABLE. *)
From Coq Require Import String Ascii List Arith NArith ZArith QArith Bool Lia.
From Verif Require Import Base BaseProof CryptoModel JsonModel RewriteModel SqlSpec EncSpec StmtSpec SimProof SqlLex SqlRead FmtModel FmtSpec FmtLexProof
  CreateModel MetaModel MetaSpec ExecModel ScrubModel OperModel OperSpec EndSpec TextSpec SysSpec SysTextSpec LitModel LitSpec GramModel GramSpec FullModel FullSpec
  DirectSpec DirectLexProof DirectReadProof DirectCmdProof DirectProof DdlSpec DdlJsonProof DdlTableProof AppSysSpec.
Import ListNotations.

(** ** Which symbols stand in definitions *)
Definition ddl_sym (x : lexeme) : Prop := match x with LSym s => In s (map u ["("; ")"; ","; "="; "-"]%string) | _ => True end.
Lemma ddl_fine ls : Forall ddl_sym ls -> fine ls.
Proof.
  induction 1 as [|x ls X F IH]; [exact Logic.I|]. destruct F as [|y ls Y F]; [exact Logic.I|]. split; [|exact IH].
  destruct x as [| | | | |a]; try exact Logic.I. destruct a as [|a [|? ?]]; try exact Logic.I. destruct y as [| | | | |b]; try exact Logic.I. destruct b as [|b r]; try exact Logic.I.
  cbn [ddl_sym map In] in X, Y. cbn [okpair].
  repeat (destruct X as [X|X]; [injection X as <-; repeat (destruct Y as [Y|Y]; [injection Y as <- _; first [left; vm_compute; reflexivity|right; split; reflexivity]|]); contradiction|]). contradiction.
Qed.
Lemma sym_in s : smem s (map u ["("; ")"; ","; "="; "-"]%string) = true -> ddl_sym (LSym s).
Proof. intros H. cbn [ddl_sym]. now apply smem_In. Qed.
Lemma syms_separated l : Forall (Forall ddl_sym) l -> Forall ddl_sym (separated l).
Proof.
  induction 1 as [|x l X F IH]; [constructor|]. destruct l as [|y l]; [cbn [separated]; exact X|]. rewrite separated_cons. apply Forall_app. split; [exact X|]. constructor; [now apply sym_in|exact IH].
Qed.
Lemma syms_list l : Forall ddl_sym l -> Forall ddl_sym (list_lex l).
Proof.
  intros F. unfold list_lex. constructor; [now apply sym_in|]. apply Forall_app. split; [|constructor; [now apply sym_in|constructor]]. apply syms_separated.
  induction F; cbn [map]; constructor; [now repeat constructor|assumption].
Qed.
Lemma syms_names cs : Forall ddl_sym (names_lex cs).
Proof. apply syms_list. induction cs; constructor; [exact Logic.I|assumption]. Qed.
Lemma syms_word w x : word_lex w x -> ddl_sym x.
Proof. now intros []. Qed.

(** ** Tokens that are passed over *)
Definition quiet (ks : list token) : Prop := forall d r, heads d false (ks ++ r) = heads d false r.
Definition calm (ls : list lexeme) : Prop := forall ks, Forall2 tk ls ks -> quiet ks.
Lemma calm_nil : calm [].
Proof. intros ks F. inversion F. intros d r. reflexivity. Qed.
Lemma calm_app a b : calm a -> calm b -> calm (a ++ b).
Proof.
  intros A B ks F. apply Forall2_app_inv_l in F. destruct F as (k1 & k2 & F1 & F2 & ->). intros d r. rewrite <- app_assoc, (A k1 F1), (B k2 F2). reflexivity.
Qed.
Definition plain_part (x : lexeme) : Prop := match x with LSym s => In s (map u ["="; "-"]%string) | _ => True end.
Lemma calm_one x : plain_part x -> calm [x].
Proof.
  intros P ks F. inversion F as [|? k ? ? T F']; subst. inversion F'; subst. intros d r. cbn [app heads].
  assert (H : is_sym (u "(") k = false /\ is_sym (u ")") k = false /\ is_sym (u ",") k = false).
  { destruct x; inversion T; subst; try now repeat split. cbn [plain_part map In] in P. destruct P as [<-|[<-|[]]]; now repeat split. }
  destruct H as (-> & -> & ->). reflexivity.
Qed.
Lemma calm_cons x l : plain_part x -> calm l -> calm (x :: l).
Proof. intros P C. apply (calm_app [x] l); [now apply calm_one|exact C]. Qed.
(** Inside parentheses, where commas are passed over too. *)
Definition inner (ls : list lexeme) : Prop := forall ks, Forall2 tk ls ks -> forall d r, heads (S d) false (ks ++ r) = heads (S d) false r.
Lemma inner_sep l : Forall plain_part l -> inner (separated (map (fun x => [x]) l)).
Proof.
  induction 1 as [|x l P F IH]; intros ks FK d r; [inversion FK; reflexivity|]. destruct l as [|y l].
  - cbn [map separated] in FK. exact (calm_one x P ks FK (S d) r).
  - cbn [map] in FK. rewrite separated_cons in FK. cbn [app] in FK. inversion FK as [|? k ? ks1 T F1]; subst. inversion F1 as [|? c ? ks2 TC F2]; subst. destruct (sym_tok _ _ TC) as [-> _].
    assert (Q : quiet [k]) by (apply (calm_one x P); now repeat constructor). specialize (Q (S d) (TSym (u ",") :: ks2 ++ r)). cbn [app] in Q. cbn [app]. rewrite Q.
    transitivity (heads (S d) false (ks2 ++ r)); [reflexivity|]. now apply IH.
Qed.
Lemma calm_list l : Forall plain_part l -> calm (list_lex l).
Proof.
  intros P ks F. unfold list_lex in F. inversion F as [|? k ? ks1 T F1]; subst. destruct (sym_tok _ _ T) as [-> _]. apply Forall2_app_inv_l in F1. destruct F1 as (k1 & k2 & F1 & F2 & ->).
  inversion F2 as [|? z ? ? TZ F3]; subst. inversion F3; subst. destruct (sym_tok _ _ TZ) as [-> _]. intros d r. cbn [app]. rewrite <- app_assoc. cbn [app].
  transitivity (heads (S d) false (k1 ++ TSym (u ")") :: r)); [reflexivity|]. rewrite (inner_sep l P k1 F1). reflexivity.
Qed.
Lemma calm_names cs : calm (names_lex cs).
Proof. apply calm_list. induction cs; constructor; [exact Logic.I|assumption]. Qed.
Lemma word_plain w x : word_lex w x -> plain_part x.
Proof. now intros []. Qed.

(** ** Columns and constraints *)
Lemma sizes_calm l : calm (sizes_lex l) /\ Forall ddl_sym (sizes_lex l).
Proof.
  destruct l as [|z l]; [split; [apply calm_nil|constructor]|]. cbn [sizes_lex]. split; [apply calm_list|apply syms_list]; induction (z :: l); constructor; try exact Logic.I; assumption.
Qed.
Lemma type_calm ty lt : type_lex ty lt -> calm lt /\ Forall ddl_sym lt.
Proof.
  intros [w l x W|w l x y W Y]; destruct (sizes_calm l) as [C F].
  - split; [apply calm_cons; [now apply (word_plain w)|exact C]|constructor; [now apply (syms_word w)|exact F]].
  - split; [apply calm_cons; [now apply (word_plain w)|]; apply calm_app; [exact C|]; apply calm_one; now apply (word_plain "unsigned")|].
    constructor; [now apply (syms_word w)|]. apply Forall_app. split; [exact F|]. constructor; [now apply (syms_word "unsigned")|constructor].
Qed.
Lemma const_calm c : calm (const_lex c) /\ Forall ddl_sym (const_lex c).
Proof.
  assert (M : plain_part (Y "-")) by (apply smem_In; vm_compute; reflexivity).
  destruct c as [z|s]; cbn [const_lex]; [destruct (z <? 0)%Z|]; (split; [repeat first [apply calm_nil|apply calm_cons]; first [exact Logic.I|exact M]|]);
    repeat (constructor; [first [exact Logic.I|apply sym_in; vm_compute; reflexivity]|]); constructor.
Qed.
Ltac words := repeat match goal with H : word_lex ?w ?x |- _ => pose proof (word_plain w x H); pose proof (syms_word w x H); clear H end.
Lemma opt_calm o lo : opt_lex o lo -> calm lo /\ Forall ddl_sym lo.
Proof.
  intros []; words; try (split; [repeat first [apply calm_nil|apply calm_cons]; try exact Logic.I; assumption|repeat constructor; assumption]).
  destruct d as [|c|v]; cbn [dflt_lex]; try (split; [repeat first [apply calm_nil|apply calm_cons]; try exact Logic.I; assumption|repeat constructor; assumption]).
  destruct (const_calm c) as [C F]. split; [now apply calm_cons|now constructor].
Qed.
Lemma opts_calm os lo : Forall2 opt_lex os lo -> calm (concat lo) /\ Forall ddl_sym (concat lo).
Proof.
  induction 1 as [|o l os lo O F [C S]]; [split; [apply calm_nil|constructor]|]. destruct (opt_calm o l O) as [C1 S1]. cbn [concat]. split; [now apply calm_app|apply Forall_app; now split].
Qed.
(** A definition: its first part and what follows it. *)
Definition block (x : lexeme) (l : list lexeme) : Prop := exists r, l = x :: r /\ calm r /\ plain_part x /\ Forall ddl_sym l.
Lemma column_block c l : column_lex c l -> block (LName (cl_name c)) l.
Proof.
  intros [n ty opts lt lo T O]. destruct (type_calm _ _ T) as [C1 S1]. destruct (opts_calm _ _ O) as [C2 S2]. exists (lt ++ concat lo). split; [reflexivity|]. split; [now apply calm_app|]. split; [exact Logic.I|].
  constructor; [exact Logic.I|]. apply Forall_app. now split.
Qed.
Definition con_words : list string := ["primary"; "foreign"; "constraint"; "unique"; "key"; "index"]%string.
Lemma constr_block c l : constr_lex c l -> exists w, In w con_words /\ block (K w) l.
Proof.
  assert (N : forall cs, calm (names_lex cs) /\ Forall ddl_sym (names_lex cs)) by (intros cs; split; [apply calm_names|apply syms_names]).
  assert (H : forall o w r, In w con_words -> calm r -> Forall ddl_sym r -> exists w', In w' con_words /\ block (K w') (con_name_lex o ++ K w :: r)).
  { intros o w r W C F. destruct o as [v|]; cbn [con_name_lex app].
    - exists "constraint"%string. split; [cbn; tauto|]. eexists. split; [reflexivity|]. split; [repeat (apply calm_cons; [exact Logic.I|]); exact C|]. split; [exact Logic.I|]. repeat (constructor; [exact Logic.I|]). exact F.
    - exists w. split; [exact W|]. eexists. split; [reflexivity|]. split; [exact C|]. split; [exact Logic.I|]. constructor; [exact Logic.I|exact F]. }
  intros [o cs|o cs t rs|o un w name cs W].
  - destruct (N cs) as [C F]. apply H; [cbn; tauto|apply calm_cons; [exact Logic.I|exact C]|constructor; [exact Logic.I|exact F]].
  - destruct (N cs) as [C F], (N rs) as [C' F']. apply H; [cbn; tauto| |].
    + apply calm_cons; [exact Logic.I|]. apply calm_app; [exact C|]. repeat (apply calm_cons; [exact Logic.I|]). exact C'.
    + constructor; [exact Logic.I|]. apply Forall_app. split; [exact F|]. repeat (constructor; [exact Logic.I|]). exact F'.
  - assert (IW : In w con_words) by (cbn; destruct W as [-> | ->]; tauto).
    destruct (N cs) as [C F]. assert (X : calm (match name with Some v => [LName v] | None => [] end ++ names_lex cs) /\ Forall ddl_sym (match name with Some v => [LName v] | None => [] end ++ names_lex cs)).
    { destruct name; cbn [app]; [split; [apply calm_cons; [exact Logic.I|exact C]|constructor; [exact Logic.I|exact F]]|now split]. }
    destruct X as [C1 F1]. destruct un; cbn [app]; apply H; try assumption; [cbn; tauto|apply calm_cons; [exact Logic.I|exact C1]|constructor; [exact Logic.I|exact F1]].
Qed.
Lemma heads_blocks : forall xs bl ks rest, Forall2 block xs bl -> bl <> [] -> Forall2 tk (separated bl) ks ->
  exists hs, Forall2 tk xs hs /\ heads 0 true (ks ++ TSym (u ")") :: rest) = Some hs.
Proof.
  induction xs as [|x xs IH]; intros bl ks rest B NE F; inversion B as [|? b ? bl' (r & -> & C & P & _) B']; subst; [congruence|]. clear B.
  assert (ST : forall k z, tk x k -> heads 0 true (k :: z) = option_map (cons k) (heads 0 false z)).
  { intros k z T. cbn [heads]. assert (H : is_sym (u "(") k = false /\ is_sym (u ")") k = false /\ is_sym (u ",") k = false).
    { destruct x; inversion T; subst; try now repeat split. cbn [plain_part map In] in P. destruct P as [<-|[<-|[]]]; now repeat split. }
    destruct H as (-> & -> & ->). reflexivity. }
  destruct B' as [|x2 b2 xs' bl2 B2 B'].
  - cbn [separated] in F. inversion F as [|? k ? ks1 T F1]; subst. exists [k]. split; [now repeat constructor|]. cbn [app]. rewrite ST by exact T. rewrite (C ks1 F1). reflexivity.
  - rewrite separated_cons in F. cbn [app] in F. inversion F as [|? k ? ks1 T F1]; subst. apply Forall2_app_inv_l in F1. destruct F1 as (k1 & k2 & F1 & F2 & ->).
    inversion F2 as [|? c ? k3 TC F3]; subst. destruct (sym_tok _ _ TC) as [-> _].
    destruct (IH (b2 :: bl2) k3 rest) as (hs & H1 & H2); [now constructor|discriminate|exact F3|]. exists (k :: hs). split; [now constructor|].
    cbn [app]. rewrite ST by exact T. rewrite <- app_assoc, (C k1 F1). cbn [app]. transitivity (option_map (cons k) (heads 0 true (k3 ++ TSym (u ")") :: rest))); [reflexivity|]. now rewrite H2.
Qed.
Lemma con_language : forallb (fun w => smem (u w) language) con_words = true.
Proof. vm_compute. reflexivity. Qed.
Lemma name_not_con v k : tk (LName v) k -> is_con k = false.
Proof.
  intros T. unfold is_con. apply not_true_is_false. intros H. apply existsb_exists in H. destruct H as (w & W & H). pose proof con_language as L. rewrite forallb_forall in L. specialize (L w W). apply smem_In in L.
  inversion T; subst; cbn [is_w] in H; [|discriminate]. apply seqb_eq in H. rewrite H in *. contradiction.
Qed.
Lemma con_is_con w k : In w con_words -> tk (K w) k -> is_con k = true.
Proof. intros W T. unfold is_con. apply existsb_exists. exists w. split; [exact W|]. rewrite (isw_kw w k w T). apply seqb_refl. Qed.
Lemma names_of ns ws hs : Forall (fun w => In w con_words) ws -> Forall2 tk (map LName ns ++ map (fun w => K w) ws) hs -> column_names hs = Some ns.
Proof.
  intros W. revert hs. induction ns as [|n ns IH]; intros hs F.
  - cbn [map app] in F. revert hs F. induction W as [|w ws W1 W IHW]; intros hs F; cbn [map] in F; inversion F as [|? k ? hs' T F']; subst; [reflexivity|]. cbn [column_names]. rewrite (con_is_con w k W1 T). now apply IHW.
  - cbn [map app] in F. inversion F as [|? k ? hs' T F']; subst. cbn [column_names]. rewrite (name_not_con n k T), (IH hs' F'). destruct (name_tk n k T) as (_ & -> & _). reflexivity.
Qed.

(** ** CREATE TABLE *)
Lemma topts_syms os lo : Forall2 topt_lex os lo -> Forall ddl_sym (concat lo).
Proof.
  induction 1 as [|o l os lo O F IH]; [constructor|]. cbn [concat]. apply Forall_app. split; [|exact IH]. destruct O; words; repeat (constructor; [first [assumption|exact Logic.I|now apply sym_in]|]); constructor.
Qed.
Lemma blocks_of cols cons lc lk : Forall2 column_lex cols lc -> Forall2 constr_lex cons lk ->
  exists ws, Forall (fun w => In w con_words) ws /\ Forall2 block (map LName (map cl_name cols) ++ map (fun w => K w) ws) (lc ++ lk).
Proof.
  intros C K0. assert (B : exists ws, Forall (fun w => In w con_words) ws /\ Forall2 block (map (fun w => K w) ws) lk).
  { induction K0 as [|c l cons lk H _ (ws & A & B)]; [exists []; split; constructor|]. destruct (constr_block c l H) as (w & W & X). exists (w :: ws). cbn [map]. split; constructor; assumption. }
  destruct B as (ws & A & B). exists ws. split; [exact A|]. apply Forall2_app; [|exact B]. clear -C. induction C as [|c l cols lc H _ IH]; cbn [map]; constructor; [now apply column_block|exact IH].
Qed.
Lemma def_syms d ls : def_lex d ls -> Forall ddl_sym ls.
Proof.
  intros [t guard cols cons opts lc lk lo C K0 O]. destruct (blocks_of cols cons lc lk C K0) as (ws & _ & B).
  repeat (constructor; [exact Logic.I|]). apply Forall_app. split; [destruct guard; repeat constructor|]. constructor; [exact Logic.I|]. constructor; [now apply sym_in|]. apply Forall_app. split.
  - apply syms_separated. clear -B. revert B. generalize (map LName (map cl_name cols) ++ map (fun w => K w) ws) (lc ++ lk). induction 1 as [|x l xs bl (r & _ & _ & _ & S) _ IH]; constructor; assumption.
  - constructor; [now apply sym_in|]. now apply (topts_syms opts).
Qed.
Lemma table_read d ls ks : good_def d -> def_lex d ls -> Forall2 tk ls ks -> read_table ks = Some (td_guard d, td_name d, map cl_name (td_cols d)).
Proof.
  intros (NE & _) DL F. destruct DL as [t guard cols cons opts lc lk lo C K0 O]. cbn [td_guard td_name td_cols] in *.
  inversion F as [|? c ? ks1 TC F1]; subst. inversion F1 as [|? tt0 ? ks2 TT F2]; subst. clear F F1. cbn [read_table].
  rewrite (isw_kw "create" c "create" TC), (isw_kw "table" tt0 "table" TT). change (seqb (u "create") (u "create") && seqb (u "table") (u "table"))%bool with true. cbv iota.
  apply Forall2_app_inv_l in F2. destruct F2 as (kg & kr & FG & FR & ->). inversion FR as [|? x ? kr1 TX FR1]; subst. inversion FR1 as [|? p ? kr2 TP FR2]; subst. destruct (sym_tok _ _ TP) as [-> _]. clear FR FR1.
  assert (GU : guarded (kg ++ x :: TSym (u "(") :: kr2) = (guard, x :: TSym (u "(") :: kr2)).
  { destruct guard; inversion FG as [|? a ? g1 TA G1]; subst.
    - inversion G1 as [|? b ? g2 TB G2]; subst. inversion G2 as [|? e ? g3 TE G3]; subst. inversion G3; subst. cbn [app guarded]. rewrite (isw_kw "if" a "if" TA), (isw_kw "not" b "not" TB), (isw_kw "exists" e "exists" TE). reflexivity.
    - cbn [app guarded]. destruct kr2 as [|z kr2]; [reflexivity|]. replace (is_w "if" x) with false; [reflexivity|]. symmetry. apply not_true_is_false. intros H.
      inversion TX; subst; cbn [is_w] in H; [|discriminate]. apply seqb_eq in H. match goal with X : ~ In (map low _) language |- _ => apply X; rewrite H end. apply smem_In. vm_compute. reflexivity. }
  rewrite GU. change (is_sym (u "(") (TSym (u "("))) with true. cbv iota. destruct (name_tk t x TX) as (_ & -> & _).
  apply Forall2_app_inv_l in FR2. destruct FR2 as (kd & kz & FD & FZ & ->). inversion FZ as [|? z ? kz1 TZ FZ1]; subst. destruct (sym_tok _ _ TZ) as [-> _].
  destruct (blocks_of cols cons lc lk C K0) as (ws & W & B).
  destruct (heads_blocks _ _ kd kz1 B) as (hs & H1 & H2); [|exact FD|].
  { destruct cols; [now contradiction NE|]. inversion C; subst. discriminate. }
  rewrite H2, (names_of _ ws hs W H1). reflexivity.
Qed.

(** ** The texts *)
Section Texts.
Variable bs : bool.
Lemma app_tokens parts text : app_text bs parts text -> (forall ls, parts ls -> Forall ddl_sym ls) ->
  exists ls ks ts0, parts ls /\ lex bs true text = Some ts0 /\ unended ts0 = ks /\ Forall2 tk ls ks /\ (exists ts, ts0 = ks ++ ts).
Proof.
  intros (ls & lead & s & fin & PL & -> & BL & RE & FI) DS. specialize (DS ls PL).
  assert (ES : exists ts, Lx bs true fin ts /\ (ts = [] \/ ts = [TSym (u ";")])).
  { destruct FI as [-> |(w & -> & BW)]; [exists []; split; [apply Lx_nil|now left]|]. exists [TSym (u ";")]. split; [|now right].
    apply (Lx_tok bs true 59%N w (TSym (u ";")) w); [reflexivity| |cbn; lia|].
    - destruct BW as [|b w' B _]; [reflexivity|]. destruct B as [<-|[<-|[<-|[<-|[]]]]]; reflexivity.
    - rewrite <- (app_nil_r w). apply Lx_blanks; [exact BW|]. apply Lx_nil. }
  destruct ES as (ts & L & TS).
  destruct (lx_readable bs s ls fin ts RE (ddl_fine ls DS)) as (ks & F & X); [destruct FI as [-> |(w & -> & _)]; [exact Logic.I|reflexivity]|exact L|].
  exists ls, ks, (ks ++ ts). split; [exact PL|]. split; [apply Lx_lex; now apply Lx_blanks|]. split; [|split; [exact F|now exists ts]]. destruct TS as [-> | ->]; [|apply unended_semi].
  rewrite app_nil_r. apply unended_none. intros IN. clear -F DS IN. revert DS. induction F as [|x k ls ks T F IH]; [contradiction|]. intros DS. inversion_clear DS as [|? ? D1 D2]. destruct IN as [->|IN]; [|now apply IH].
  inversion T; subst. cbn [ddl_sym map In] in D1. repeat (destruct D1 as [D1|D1]; [discriminate D1|]). contradiction.
Qed.
Lemma table_text d text D n : good_def d -> app_text bs (def_lex d) text ->
  app_server n bs D text = (if dmem D (td_name d) then (if td_guard d then Ok (D, []) else Err DbError) else new_table D (td_name d) (map cl_name (td_cols d))) /\ asks_rows bs text = false.
Proof.
  intros G A. destruct (app_tokens _ text A (def_syms d)) as (ls & ks & ts0 & DL & LX & UE & F & ts & E0). unfold app_server, asks_rows. rewrite LX. cbv zeta. rewrite UE, (table_read d ls ks G DL F). subst ts0.
  assert (H : exists c r, ks = c :: r /\ tk (K "create") c /\ (3 < length ks)%nat).
  { pose proof F as F0. destruct DL as [t guard cols cons opts lc lk lo C K0 O]. inversion F as [|? c ? r T F1]; subst. exists c, r. split; [reflexivity|]. split; [exact T|].
    apply SimProof.Forall2_len in F0. rewrite <- F0. cbn [length]. rewrite !app_length. cbn [length]. lia. }
  destruct H as (c & r & -> & T & L3). cbn [app]. rewrite (isw_kw "create" c "select" T). split; [|reflexivity].
  replace (read_cmd n (c :: r)) with (@None (cmd tree)); [|symmetry; cbn [read_cmd]; rewrite (isw_kw "create" c "select" T), (isw_kw "create" c "insert" T), (isw_kw "create" c "update" T), (isw_kw "create" c "delete" T); reflexivity].
  replace (read_drop (c :: r)) with (@None pystr); [reflexivity|]. destruct r as [|a [|b [|z r]]]; cbn [length] in L3; try lia. reflexivity.
Qed.
Lemma drop_text t text D n : app_text bs (eq [K "drop"; K "table"; LName t]) text ->
  app_server n bs D text = (if dmem D t then Ok (without D t, []) else Err DbError) /\ asks_rows bs text = false.
Proof.
  intros A. destruct (app_tokens _ text A) as (ls & ks & ts0 & <- & LX & UE & F & ts & E0); [intros ls <-; repeat constructor|]. unfold app_server, asks_rows. rewrite LX. cbv zeta. rewrite UE. subst ts0.
  inversion F as [|? c ? r T F1]; subst. inversion F1 as [|? a ? r1 T1 F2]; subst. inversion F2 as [|? x ? r2 T2 F3]; subst. inversion F3; subst. cbn [app]. rewrite (isw_kw "drop" c "select" T). split; [|reflexivity].
  cbn [read_cmd]. rewrite (isw_kw "drop" c "select" T), (isw_kw "drop" c "insert" T), (isw_kw "drop" c "update" T), (isw_kw "drop" c "delete" T).
  change (read_drop [c; a; x]) with (if is_w "drop" c && is_w "table" a then ident x else None)%bool. rewrite (isw_kw "drop" c "drop" T), (isw_kw "table" a "table" T1). destruct (name_tk t x T2) as (_ & -> & _). reflexivity.
Qed.
End Texts.
