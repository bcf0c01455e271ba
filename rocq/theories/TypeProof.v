(** Proofs about the type of a text (C99): the first words of a statement, and the theorem. *)
From Coq Require Import String Ascii List Arith NArith ZArith Bool Lia ZifyBool ZifyNat ZifyN.
From Verif Require Import Base BaseProof CryptoModel JsonModel RewriteModel SqlSpec EncSpec StmtSpec ExecModel ScrubModel OperModel OperSpec EndSpec TextSpec SysSpec SysTextSpec
  LitModel LitSpec GramModel GramSpec DirectSpec DdlSpec AppSysSpec ClassifyModel ClassifySpec ClassifyProof TypeModel TypeSpec TypeLexProof TypeWordProof TypeTextProof.
Import ListNotations.
Open Scope N_scope.

(** ** Tokens *)
Lemma closes_run toks : Forall (fun x : ttype * pystr => snd x <> [46]) toks -> forall n, closes n (map as_tok toks) = run n (flat_map par_tok toks).
Proof.
  induction 1 as [|x toks D F IH]; intros n; [reflexivity|]. cbn [map closes flat_map].
  assert (P : part_of_name (as_tok x) (map as_tok toks) = false).
  { unfold part_of_name. apply orb_false_iff. split.
    - unfold is_dot. cbn [as_tok t_text]. now apply seqb_neq.
    - destruct F as [|y toks D' F]; [reflexivity|]. cbn. unfold is_dot. cbn [as_tok t_text]. now apply seqb_neq. }
  rewrite P. unfold par_tok. cbn [as_tok t_text]. change (u "(") with [40]. change (u ")") with [41].
  destruct (seqb (snd x) [40]); [apply IH|]. destruct (seqb (snd x) [41]); [|apply IH]. destruct n; [reflexivity|]. apply IH.
Qed.
Lemma kept_pars toks : Forall fine_tok toks -> flat_map par_tok (filter kept toks) = flat_map par_tok toks.
Proof.
  induction 1 as [|x toks [_ D] F IH]; [reflexivity|]. cbn [filter]. destruct (kept x) eqn:K; cbn [flat_map]; rewrite IH; [reflexivity|]. now rewrite D.
Qed.
Lemma no_dots toks : Forall fine_tok toks -> Forall (fun x : ttype * pystr => snd x <> [46]) (filter kept toks).
Proof. intros F. apply Forall_forall. intros x I. apply filter_In in I. rewrite Forall_forall in F. now destruct (F x (proj1 I)). Qed.
Lemma not_dotted toks : Forall fine_tok toks -> ~ starts_dotted (map as_tok (filter kept toks)).
Proof.
  intros F (t & r & E & D). apply no_dots in F. destruct F as [|x l H F]; [discriminate|]. injection E as <- _. now apply H.
Qed.

Section Words.
Set Default Proof Using "Type".
Variables (uword uspace udigit ulet : N -> bool) (uc : N -> pystr).
Notation rules := (rules uword uspace udigit ulet). Notation lex := (TypeModel.lex uword uspace udigit ulet uc).
Notation statement := (TypeModel.statement uc). Notation spacec := (spacec uspace). Notation tok_type := (tok_type uc).

Lemma statement_prefix l : forall c d lv o, exists r, l = statement c d lv o l ++ r.
Proof.
  induction l as [|[t v] l IH]; intros c d lv o; [now exists []|]. cbn [TypeModel.statement]. destruct (_ && _); [now exists ((t, v) :: l)|].
  destruct (change uc c d t v) as [[c' d'] z]. destruct (IH c' d' (lv + z)%Z (o || (((lv + z) <=? 0)%Z && (match t with TPunct => true | _ => false end) && seqb v (u ";")))) as (r & E).
  exists r. cbn [app]. now rewrite <- E.
Qed.
Lemma statement_fine c d lv o l : Forall fine_tok l -> Forall fine_tok (statement c d lv o l).
Proof. intros F. destruct (statement_prefix l c d lv o) as (r & E). rewrite E in F. now apply Forall_app in F. Qed.
Lemma closed n p s l c d lv o : Ck (map low s) l -> (length s <= n)%nat -> run 0 l = true -> closes 0 (map as_tok (filter kept (statement c d lv o (lex n p s)))) = true.
Proof.
  intros C L R. destruct (lex_pars uword uspace udigit ulet uc n p s l C L) as [P F]. pose proof (statement_fine c d lv o _ F) as FS.
  rewrite closes_run by now apply no_dots. rewrite kept_pars by exact FS. destruct (statement_prefix (lex n p s) c d lv o) as (r & E). rewrite E, flat_map_app in P.
  rewrite <- P in R. now apply run_prefix in R.
Qed.
Lemma statement_spaces ws l c d lv : Forall (fun x => spaces_type (fst x) = true) ws -> statement c d lv false (ws ++ l) = ws ++ statement c d lv false l.
Proof.
  induction 1 as [|[t v] ws S F IH]; [reflexivity|]. cbn [app TypeModel.statement andb]. cbn [fst] in S.
  destruct t; try discriminate S; cbn [change andb orb]; rewrite Z.add_0_r, andb_false_r; cbn [andb orb]; now rewrite IH.
Qed.
Lemma kept_spaces ws : Forall (fun x : ttype * pystr => spaces_type (fst x) = true) ws -> filter kept ws = [].
Proof. induction 1 as [|[t v] ws S F IH]; [reflexivity|]. cbn [filter]. destruct t; try discriminate S; exact IH. Qed.
(** A token that is a word. *)
Definition is_word (t : ttype) : Prop := t = TOther \/ t = TKeyword \/ t = TDdl.
Lemma word_tok t v : word_kind t -> is_word (tok_type t v).
Proof.
  intros [->|[->| ->]]; [now left| |now right; right]. cbn. unfold word_type. destruct (smem _ _); [right|]; now left.
Qed.
Lemma statement_word t v l c d lv : is_word t -> exists c' d' lv', statement c d lv false ((t, v) :: l) = (t, v) :: statement c' d' lv' false l.
Proof.
  intros W. cbn [TypeModel.statement andb]. destruct (change uc c d t v) as [[c' d'] z]. exists c', d', (lv + z)%Z. destruct W as [->|[->| ->]]; now rewrite andb_false_r.
Qed.
Lemma kept_word t v l : is_word t -> map as_tok (filter kept ((t, v) :: l)) = mkTok v false :: map as_tok (filter kept l).
Proof. intros [->|[->| ->]]; reflexivity. Qed.

(** ** Blanks *)
Lemma spaces_blank x y l : Ck (x ++ y) l -> Forall (fun c => spacec c = true) x -> Forall (fun c => blankb c = true) x.
Proof.
  intros C F. revert C. induction F as [|c x S F IH]; intros C; [constructor|]. cbn [app] in C.
  apply plain_head in C; [|now apply (space_nonQ uspace)]. destruct C as (P & _ & C). constructor; [now apply (space_plain uspace)|auto].
Qed.
Lemma blank_prefix v : forall z w s : pystr, v ++ z = w ++ s -> Forall (fun c => blankb c = true) v -> blankb (hd 0 s) = false -> exists w2, w = v ++ w2 /\ z = w2 ++ s.
Proof.
  induction v as [|c v IH]; intros z w s E F H; [exists w; now split|]. inversion F as [|? ? B F']; subst. destruct w as [|d w].
  - cbn in E. subst s. cbn in H. congruence.
  - cbn in E. injection E as -> E. destruct (IH z w s E F' H) as (w2 & -> & ->). now exists w2.
Qed.
Lemma last_in (v : pystr) c : v <> [] -> In (last v c) v.
Proof. induction v as [|a v IH]; intros H; [congruence|]. destruct v as [|b v]; [now left|]. right. apply IH. discriminate. Qed.
Lemma lex_lead : forall k w s n p l, (length w <= k)%nat -> Forall (fun c => blankb c = true) w -> Ck (map low (w ++ s)) l -> (length (w ++ s) <= n)%nat -> at_start p ->
  blankb (hd 0 s) = false -> exists ws m p', lex n p (w ++ s) = ws ++ lex m p' s /\ Forall (fun x => spaces_type (fst x) = true) ws /\ (length s <= m)%nat /\ (w <> [] \/ p' = p) /\ at_start p' /\ Ck (map low s) l.
Proof.
  induction k as [|k IH]; intros w s n p l K B C L S H.
  - destruct w; [|cbn in K; lia]. exists [], n, p. repeat split; auto.
  - destruct w as [|c w]; [exists [], n, p; repeat split; auto|]. destruct n as [|n]; [cbn in L; lia|]. cbn [app] in *.
    destruct (lex_cons uword uspace udigit ulet uc n p c (w ++ s) l C) as (v & z & l' & q & t & E & NV & R & Q & LX & C' & ST & SP).
    inversion B as [|? ? BC BW]; subst. destruct (blank_rule uword uspace udigit ulet p (low c) (map low (w ++ s))) as (q' & t' & R' & S'); [now rewrite low_blank|].
    cbn [map] in R. pose proof (eq_trans (eq_sym R) R') as RR. injection RR as _ <-. specialize (SP S').
    assert (CV : Ck (map low v ++ map low z) l) by (rewrite <- map_app, <- E; exact C).
    assert (BV : Forall (fun c => blankb c = true) v).
    { apply spaces_blank in CV; [|exact SP]. rewrite Forall_map in CV. eapply Forall_impl; [|exact CV]. cbn. intros a. now rewrite low_blank. }
    destruct (blank_prefix v z (c :: w) s (eq_sym E) BV H) as (w2 & E2 & ->). assert (LW : (length w2 <= k)%nat).
    { apply (f_equal (@length N)) in E2. rewrite app_length in E2. destruct v; [congruence|]. cbn in *. lia. }
    assert (BW2 : Forall (fun c => blankb c = true) w2). { rewrite E2 in B. now apply Forall_app in B. }
    apply Ck_spaces with (uspace := uspace) in CV; [|exact SP].
    assert (LN : (length (w2 ++ s) <= n)%nat). { apply (f_equal (@length N)) in E. rewrite app_length in E. cbn in E, L. destruct v; [congruence|]. cbn in E. lia. }
    assert (AS : at_start (Some (low (last v c)))). { right. exists (low (last v c)). split; [reflexivity|]. rewrite low_blank. rewrite Forall_forall in BV. apply BV. now apply last_in. }
    destruct (IH w2 s n (Some (low (last v c))) l LW BW2 CV LN AS H) as (ws & m & p' & I1 & I2 & I3 & I4 & I5 & I6).
    exists ((tok_type t v, v) :: ws), m, p'. rewrite LX, I1. split; [reflexivity|]. split; [|split; [exact I3|split; [left; discriminate|now split]]].
    constructor; [|exact I2]. cbn [fst]. destruct t; try discriminate S'; exact S'.
Qed.
(** A word whose rule takes the word. *)
Lemma lex_word t r n p l ty : Ck (map low (t ++ r)) l -> t <> [] -> first_rule rules (p, map low (t ++ r)) = (length t, ty) -> (length (t ++ r) <= n)%nat ->
  exists m q, lex n p (t ++ r) = (tok_type ty t, t) :: lex m q r /\ (length r <= m)%nat.
Proof.
  intros C NE R L. destruct t as [|c t]; [congruence|]. destruct n as [|n]; [cbn in L; lia|]. cbn [app] in *.
  destruct (lex_cons uword uspace udigit ulet uc n p c (t ++ r) l C) as (v & z & l' & q & ty' & E & NV & R' & Q & LX & _).
  pose proof (eq_trans (eq_sym R) R') as RR. injection RR as RR ->. subst q.
  assert (EV : v = c :: t /\ z = r).
  { change (c :: t ++ r) with ((c :: t) ++ r) in E. change (S (length t)) with (length (c :: t)) in RR. clear -E RR. revert E RR. generalize (c :: t). intros a. revert v.
    induction a as [|x a IH]; intros [|y v] E RR; try discriminate; [now split|]. cbn in E. injection E as -> E. cbn in RR. injection RR as RR. destruct (IH v E RR) as [-> ->]. now split. }
  destruct EV as [-> ->]. exists n, (Some (low (last (c :: t) c))). split; [exact LX|]. cbn in L. rewrite app_length in L. lia.
Qed.

(** ** Keywords *)
Definition up (w : pystr) : pystr := map (fun k => k - 32) w.
Lemma low_letter c k : 97 <= k <= 122 -> low c = k -> (65 <= c <= 90 /\ k = c + 32) \/ (c = k).
Proof. clear uword uspace ulet udigit uc. unfold low. destruct ((65 <=? c) && (c <=? 90)) eqn:E; lia. Qed.
Lemma strip_same a t : ~ In a t -> ClassifyModel.lstrip a t = t /\ Base.rstrip a t = t.
Proof.
  intros N. split.
  - destruct t as [|c s]; [reflexivity|]. cbn. assert ((c =? a) = false) as -> by (apply N.eqb_neq; intros ->; apply N; now left). reflexivity.
  - induction t as [|c t IH]; [reflexivity|]. cbn [Base.rstrip]. rewrite IH by (intros I; apply N; now right). destruct t; [|reflexivity].
    assert ((c =? a) = false) as -> by (apply N.eqb_neq; intros ->; apply N; now left). reflexivity.
Qed.
Lemma kw_word t w : upper_ok uc -> map low t = w -> Forall (fun k => 97 <= k <= 122) w -> kw uc (mkTok t false) = up w.
Proof. clear uword uspace ulet udigit.
  intros [U1 U2] E F. subst w. assert (LT : forall c, In c t -> 65 <= c <= 122).
  { intros c I. rewrite Forall_forall in F. specialize (F (low c) (in_map low t c I)). destruct (low_letter c _ F eq_refl); lia. }
  unfold kw. cbn [t_text].
  assert (Q : forall a, a < 65 \/ 90 < a < 97 -> In a t -> False).
  { intros a Ha I. rewrite Forall_forall in F. specialize (F (low a) (in_map low t a I)). destruct (low_letter a _ F eq_refl); lia. }
  assert (UN : unquoted t = t).
  { unfold unquoted. rewrite (proj1 (strip_same 96 t ltac:(intros I; apply (Q 96); [lia|exact I]))), (proj2 (strip_same 96 t ltac:(intros I; apply (Q 96); [lia|exact I]))).
    rewrite (proj1 (strip_same 34 t ltac:(intros I; apply (Q 34); [lia|exact I]))). now rewrite (proj2 (strip_same 34 t ltac:(intros I; apply (Q 34); [lia|exact I]))). }
  rewrite UN. unfold normalized. clear Q UN. unfold up. induction t as [|c t IH]; [reflexivity|]. cbn [filter map]. inversion F as [|? ? Fc Ft]; subst.
  assert (NB : is_blank c = false). { unfold is_blank. specialize (LT c ltac:(now left)). lia. } rewrite NB. cbn [negb flat_map]. rewrite IH; [|exact Ft|intros d I; apply LT; now right].
  destruct (low_letter c _ Fc eq_refl) as [[A B]|A].
  - rewrite (U2 c A). cbn [app]. f_equal. lia.
  - rewrite <- A. rewrite (U1 c) by (rewrite A; exact Fc). reflexivity.
Qed.

(** ** The type *)
Definition start_of (lead t r : pystr) : pystr := lead ++ t ++ r.
Lemma word_head t w : map low t = w -> blankb (hd 0 w) = false -> t <> [] -> forall r, blankb (hd 0 (t ++ r)) = false.
Proof. intros <- B NE r. destruct t as [|c t]; [congruence|]. cbn in *. now rewrite low_blank in B. Qed.
Lemma one_word text' lead t r w l q : upper_ok uc -> text' = lead ++ t ++ r -> Forall (fun c => blankb c = true) lead -> map low t = w -> In w first_words -> wordb (hd 0 r) = false ->
  Ck text' l -> run 0 l = true -> accepted (up w) q ->
  let toks := map as_tok (filter kept (statement false 0 0%Z false (lex (length text') None text'))) in
  closes 0 toks = true /\ query_type uc toks = Ok q.
Proof.
  intros U -> B E I W C R A toks. apply Ck_low in C. split; [now apply (closed _ None _ l)|].
  assert (F : Forall (fun k => 97 <= k <= 122) w /\ w <> [] /\ blankb (hd 0 w) = false /\ ~ two_word (up w)).
  { unfold first_words in I. cbn [map In] in I. destruct I as [<-|[<-|[<-|[<-|[<-|[<-|[]]]]]]]; (split; [repeat (constructor; [vm_compute; split; discriminate|]); constructor|split; [discriminate|split; [reflexivity|intros [X|X]; vm_compute in X; discriminate]]]). }
  destruct F as (F & NE & BW & NT). assert (NT' : t <> []) by (intros ->; now apply NE).
  assert (X := lex_lead (length lead) lead (t ++ r) (length (lead ++ t ++ r)) None l ltac:(lia) B C ltac:(lia) ltac:(now left) (word_head t w E BW NT' r)).
  destruct X as (ws & m & p & LX & WS & LM & _ & SP & C2).
  assert (W' : wordb (hd 0 (map low r)) = false) by (destruct r; [reflexivity|cbn in *; now rewrite low_word]).
  pose proof C2 as C3. rewrite map_app, E in C3. destruct (word_first uword uspace udigit ulet p w (map low r) l I SP C3 W') as (ty & FR & KD).
  assert (FR' : first_rule rules (p, map low (t ++ r)) = (length t, ty)) by (rewrite map_app, E, FR; f_equal; rewrite <- E; apply map_length).
  destruct (lex_word t r m p l ty C2 NT' FR' LM) as (m2 & q2 & LX2 & _). pose proof (word_tok ty t KD) as KT.
  destruct (lex_pars uword uspace udigit ulet uc _ None _ l C (le_n _)) as [_ FT].
  destruct (statement_word (tok_type ty t) t (lex m2 q2 r) false 0%nat 0%Z KT) as (c' & d' & lv' & SW).
  assert (ET : toks = mkTok t false :: map as_tok (filter kept (statement c' d' lv' false (lex m2 q2 r)))).
  { unfold toks. rewrite LX, LX2, statement_spaces by exact WS. rewrite filter_app, kept_spaces by exact WS. cbn [app]. etransitivity; [apply f_equal, f_equal; exact SW|]. now apply kept_word. }
  rewrite LX, LX2 in FT. apply Forall_app in FT. destruct FT as [_ FT]. inversion FT as [|? ? FX FT2]; subst.
  rewrite ET. pose proof (first_keyword uc [] (mkTok t false) (map as_tok (filter kept (statement c' d' lv' false (lex m2 q2 r))))) as FK.
  rewrite (kw_word t _ U eq_refl F) in FK. apply FK; [constructor| | |exact NT|exact A].
  - split; [reflexivity|]. split; [exact (proj1 FX)|]. apply not_dotted. now apply statement_fine.
  - cbn [t_text]. intros X. change (u "(") with [40] in X. rewrite X in I. vm_compute in I. intuition discriminate.
Qed.
Lemma two_words text' lead t1 b t2 r l : upper_ok uc -> text' = lead ++ t1 ++ b ++ t2 ++ r -> Forall (fun c => blankb c = true) lead -> map low t1 = u "create" ->
  Forall (fun c => blankb c = true) b -> b <> [] -> map low t2 = u "table" -> wordb (hd 0 r) = false -> Ck text' l -> run 0 l = true ->
  let toks := map as_tok (filter kept (statement false 0 0%Z false (lex (length text') None text'))) in
  closes 0 toks = true /\ query_type uc toks = Ok QCreate.
Proof.
  intros U -> B E1 Bb NB E2 W C R toks. apply Ck_low in C. split; [now apply (closed _ None _ l)|].
  assert (NT1 : t1 <> []) by (intros ->; discriminate E1). assert (NT2 : t2 <> []) by (intros ->; discriminate E2).
  assert (X := lex_lead (length lead) lead (t1 ++ b ++ t2 ++ r) (length (lead ++ t1 ++ b ++ t2 ++ r)) None l ltac:(lia) B C ltac:(lia) ltac:(now left) (word_head t1 (u "create") E1 eq_refl NT1 _)).
  destruct X as (ws & m & p & LX & WS & LM & _ & SP & C2).
  assert (MB : Forall (fun c => blankb c = true) (map low b)). { rewrite Forall_map. eapply Forall_impl; [|exact Bb]. cbn. intros c. now rewrite low_blank. }
  pose proof C2 as C3. rewrite !map_app, E1, E2 in C3. destruct (create_first uword uspace udigit ulet p (map low b) (map low r) l SP C3 MB) as (ty1 & FR1 & KD1); [now destruct b|].
  assert (FR1' : first_rule rules (p, map low (t1 ++ b ++ t2 ++ r)) = (length t1, ty1)) by (rewrite !map_app, E1, E2, FR1; f_equal; rewrite <- (map_length low t1), E1; reflexivity).
  destruct (lex_word t1 (b ++ t2 ++ r) m p l ty1 C2 NT1 FR1' LM) as (m1 & q1 & LX1 & LM1). pose proof (word_tok ty1 t1 KD1) as KT1.
  assert (C4 : Ck (map low (b ++ t2 ++ r)) l). { rewrite map_app, E1 in C2. now apply Ck_lit in C2. }
  assert (X : exists q' s1, b ++ t2 ++ r = q' :: s1 /\ blankb q' = true). { destruct b as [|q' b]; [congruence|]. inversion Bb; subst. exists q', (b ++ t2 ++ r). now split. }
  assert (Y : exists ws2 m2 p2, lex m1 q1 (b ++ t2 ++ r) = ws2 ++ lex m2 p2 (t2 ++ r) /\ Forall (fun x => spaces_type (fst x) = true) ws2 /\ (length (t2 ++ r) <= m2)%nat /\ at_start p2 /\ Ck (map low (t2 ++ r)) l).
  { clear X. destruct b as [|c b]; [congruence|]. cbn [app] in *. destruct m1 as [|n]; [cbn in LM1; lia|].
    destruct (lex_cons uword uspace udigit ulet uc n q1 c (b ++ t2 ++ r) l C4) as (v & z & l' & q & t & E & NV & RR & Q & LX' & C' & ST & SP').
    inversion Bb as [|? ? BC BW]; subst. destruct (blank_rule uword uspace udigit ulet q1 (low c) (map low (b ++ t2 ++ r))) as (q' & t' & R' & S'); [now rewrite low_blank|].
    cbn [map] in RR. pose proof (eq_trans (eq_sym RR) R') as RE. injection RE as _ <-. specialize (SP' S').
    assert (CV : Ck (map low v ++ map low z) l) by (rewrite <- map_app, <- E; exact C4).
    assert (BV : Forall (fun c => blankb c = true) v).
    { pose proof CV as CV'. apply spaces_blank in CV'; [|exact SP']. rewrite Forall_map in CV'. eapply Forall_impl; [|exact CV']. cbn. intros a. now rewrite low_blank. }
    destruct (blank_prefix v z (c :: b) (t2 ++ r) (eq_sym E) BV (word_head t2 (u "table") E2 eq_refl NT2 r)) as (w2 & EW & ->).
    assert (BW2 : Forall (fun c => blankb c = true) w2). { rewrite EW in Bb. now apply Forall_app in Bb. }
    apply Ck_spaces with (uspace := uspace) in CV; [|exact SP'].
    assert (LN : (length (w2 ++ t2 ++ r) <= n)%nat). { apply (f_equal (@length N)) in E. rewrite app_length in E. cbn in E, LM1. destruct v; [congruence|]. cbn in E. lia. }
    assert (AS : at_start (Some (low (last v c)))). { right. exists (low (last v c)). split; [reflexivity|]. rewrite low_blank. rewrite Forall_forall in BV. apply BV. now apply last_in. }
    destruct (lex_lead (length w2) w2 (t2 ++ r) n (Some (low (last v c))) l ltac:(lia) BW2 CV LN AS (word_head t2 (u "table") E2 eq_refl NT2 r)) as (ws2 & m2 & p2 & I1 & I2 & I3 & _ & I5 & I6).
    exists ((tok_type t v, v) :: ws2), m2, p2. rewrite LX', I1. split; [reflexivity|]. split; [|now split].
    constructor; [|exact I2]. cbn [fst]. destruct t; try discriminate S'; exact S'. }
  clear X. destruct Y as (ws2 & m2 & p2 & LX2 & WS2 & LM2 & SP2 & C5).
  assert (W' : wordb (hd 0 (map low r)) = false) by (destruct r; [reflexivity|cbn in *; now rewrite low_word]).
  pose proof C5 as C6. rewrite map_app, E2 in C6. destruct (word_first uword uspace udigit ulet p2 (u "table") (map low r) l ltac:(cbn; auto 10) SP2 C6 W') as (ty2 & FR2 & KD2).
  assert (FR2' : first_rule rules (p2, map low (t2 ++ r)) = (length t2, ty2)) by (rewrite map_app, E2, FR2; f_equal; rewrite <- (map_length low t2), E2; reflexivity).
  destruct (lex_word t2 r m2 p2 l ty2 C5 NT2 FR2' LM2) as (m3 & q3 & LX3 & _). pose proof (word_tok ty2 t2 KD2) as KT2.
  destruct (lex_pars uword uspace udigit ulet uc _ None _ l C (le_n _)) as [_ FT].
  destruct (statement_word (tok_type ty1 t1) t1 (ws2 ++ (tok_type ty2 t2, t2) :: lex m3 q3 r) false 0%nat 0%Z KT1) as (c1 & d1 & lv1 & SW1).
  destruct (statement_word (tok_type ty2 t2) t2 (lex m3 q3 r) c1 d1 lv1 KT2) as (c2 & d2 & lv2 & SW2).
  assert (ET : toks = mkTok t1 false :: mkTok t2 false :: map as_tok (filter kept (statement c2 d2 lv2 false (lex m3 q3 r)))).
  { unfold toks. rewrite LX, LX1, LX2, LX3, statement_spaces by exact WS. rewrite filter_app, kept_spaces by exact WS. cbn [app]. etransitivity; [apply f_equal, f_equal; exact SW1|]. rewrite kept_word by exact KT1. f_equal.
    rewrite statement_spaces by exact WS2. rewrite filter_app, kept_spaces by exact WS2. cbn [app]. etransitivity; [apply f_equal, f_equal; exact SW2|]. now apply kept_word. }
  rewrite LX, LX1, LX2, LX3 in FT. apply Forall_app in FT. destruct FT as [_ FT]. inversion FT as [|? ? FX FT2]; subst. apply Forall_app in FT2. destruct FT2 as [_ FT2]. inversion FT2 as [|? ? FX2 FT3]; subst.
  assert (L1 : Forall (fun k => 97 <= k <= 122) (u "create")) by (repeat (constructor; [vm_compute; split; discriminate|]); constructor).
  assert (L2 : Forall (fun k => 97 <= k <= 122) (u "table")) by (repeat (constructor; [vm_compute; split; discriminate|]); constructor).
  rewrite ET. pose proof (first_two_keywords uc [] (mkTok t1 false) [] (mkTok t2 false) (map as_tok (filter kept (statement c2 d2 lv2 false (lex m3 q3 r))))) as FK.
  rewrite (kw_word t1 _ U E1 L1), (kw_word t2 _ U E2 L2) in FK. apply FK; [constructor|constructor|reflexivity|now left|exact (proj1 FX)| | |].
  - cbn [t_text]. intros X. change (u "(") with [40] in X. rewrite X in E1. discriminate E1.
  - split; [reflexivity|]. split; [exact (proj1 FX2)|]. apply not_dotted. now apply statement_fine.
  - vm_compute. auto 10.
Qed.

(** ** Texts of statements *)
Notation ptype := (parser_type uword uspace udigit ulet uc).
Lemma type_eq text text' q : preprocess text = text' ->
  (let toks := map as_tok (filter kept (statement false 0 0%Z false (lex (length text') None text'))) in closes 0 toks = true /\ query_type uc toks = Ok q) -> ptype text = Ok q.
Proof. intros P [A B]. unfold parser_type. cbv zeta. rewrite P, A. exact B. Qed.
Lemma type_one (parts : list lexeme -> Prop) text w q : upper_ok uc -> (forall ls, parts ls -> bl ls /\ exists r, ls = LKw w :: r /\ r <> []) -> In w first_words -> accepted (up w) q -> tame_text parts text -> ptype text = Ok q.
Proof.
  intros U HP I A (Q & ls & lead & s & fin & PL & -> & BL & T & E). destruct (HP ls PL) as (BB & r & -> & NE).
  destruct (tame_kw fin w s r E NE T) as (t & b & rest & -> & ML & Bb & T' & X). destruct (tame_ck fin E rest r T') as (s' & Y).
  destruct (X s' (pars r) Y) as ((C & NZ & P & SR) & WN). destruct (blanks_ck lead _ _ _ BL C NZ P SR) as (C' & _ & P' & _).
  apply (type_eq _ (lead ++ t ++ b ++ s')); [now apply preprocess_pp|].
  apply (one_word (lead ++ t ++ b ++ s') lead t (b ++ s') w (pars r) q U eq_refl (blank_b _ BL) ML I WN C'); [|exact A]. apply bal_run. exact BB.
Qed.
Lemma cmd_first c ls : cmd_lex c ls -> exists w r, ls = LKw w :: r /\ r <> [] /\ In w first_words /\ accepted (up w) (kind c).
Proof.
  destruct 1 as [i t w o lim li lw HI HW|tab t cs vs|t sets w lw HW|t w lw HW].
  - exists (u "select"). eexists. split; [reflexivity|]. split; [destruct li; discriminate|]. split; [now left|vm_compute; auto 10].
  - exists (u "insert"). eexists. split; [reflexivity|]. split; [discriminate|]. split; [cbn; auto 10|vm_compute; auto 10].
  - exists (u "update"). eexists. split; [reflexivity|]. split; [discriminate|]. split; [cbn; auto 10|vm_compute; auto 10].
  - exists (u "delete"). eexists. split; [reflexivity|]. split; [discriminate|]. split; [cbn; auto 10|vm_compute; auto 10].
Qed.
Lemma type_create d text : upper_ok uc -> tame_text (def_lex d) text -> ptype text = Ok QCreate.
Proof.
  intros U (Q & ls & lead & s & fin & PL & -> & BL & T & E). pose proof (bl_def d ls PL) as BB.
  assert (X : exists r, ls = K "create" :: K "table" :: r /\ r <> []). { destruct PL as [t guard cols cons opts lc lk lo F1 F2 F3]. eexists. split; [reflexivity|]. now destruct guard. }
  destruct X as (r & -> & NE).
  destruct (tame_kw fin (u "create") s (K "table" :: r) E ltac:(discriminate) T) as (t1 & b1 & rest1 & -> & ML1 & Bb1 & T1 & X1).
  destruct (tame_kw fin (u "table") rest1 r E NE T1) as (t2 & b2 & rest2 & -> & ML2 & Bb2 & T2 & X2). destruct (tame_ck fin E rest2 r T2) as (s' & Y).
  destruct (X2 s' (pars r) Y) as (Y2 & WN2). destruct (X1 _ _ Y2) as ((C & NZ & P & SR) & WN1). destruct (blanks_ck lead _ _ _ BL C NZ P SR) as (C' & _ & P' & _).
  apply (type_eq _ (lead ++ t1 ++ b1 ++ t2 ++ b2 ++ s')); [now apply preprocess_pp|].
  apply (two_words _ lead t1 b1 t2 (b2 ++ s') (pars r) U eq_refl (blank_b _ BL) ML1 (blank_b _ Bb1)); [|exact ML2|exact WN2|exact C'|].
  - intros ->. cbn [app] in WN1. destruct t2 as [|c t2]; [discriminate ML2|]. cbn in WN1, ML2. rewrite <- low_word in WN1. injection ML2 as ML2 _. rewrite ML2 in WN1. discriminate WN1.
  - apply bal_run. exact BB.
Qed.
Lemma type_of_text w text : upper_ok uc -> tame_of w text -> ptype text = Ok (type_of w).
Proof.
  intros U H. destruct w as [j|t|c]; cbn [tame_of type_of] in *.
  - destruct H as (d & _ & H). now apply (type_create d).
  - apply (type_one (eq [K "drop"; K "table"; LName t]) text (u "drop") QDrop U); [|cbn; auto 10|vm_compute; auto 10|exact H].
    intros ls <-. split; [apply bl_none; repeat constructor|]. eexists. split; [reflexivity|discriminate].
  - destruct H as (Q & ls & lead & s & fin & PL & H). destruct (cmd_first c ls PL) as (w & r & E & NE & I & A).
    apply (type_one (eq ls) text w (kind c) U); [|exact I|exact A|split; [exact Q|exists ls, lead, s, fin; split; [reflexivity|exact H]]].
    intros ls' <-. split; [now apply bl_cmd in PL|]. exists r. now split.
Qed.
End Words.
