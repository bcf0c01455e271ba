(** Proofs about the type of a text (C99): what _preprocess_query makes of a text, and its parentheses. *)
From Coq Require Import String Ascii List Arith NArith ZArith Bool Lia ZifyBool ZifyNat ZifyN.
From Verif Require Import Base BaseProof CryptoModel JsonModel RewriteModel SqlSpec EncSpec StmtSpec ExecModel ScrubModel OperModel OperSpec EndSpec TextSpec SysSpec SysTextSpec
  LitModel LitSpec GramModel GramSpec DirectSpec DdlSpec AppSysSpec TypeModel TypeLexProof TypeSpec GramNumProof.
Import ListNotations.
Open Scope N_scope.

(** ** _preprocess_query *)
Lemma to_quote_eq s a b : to_quote s = Some (a, b) -> s = a ++ 39 :: b.
Proof.
  revert a. induction s as [|c s IH]; intros a H; cbn [to_quote] in H; [discriminate|]. destruct (c =? 39) eqn:E.
  - injection H as <- <-. apply N.eqb_eq in E. now subst c.
  - destruct (c =? 10); [discriminate|]. destruct (to_quote s) as [[a' b']|]; [|discriminate]. injection H as <- <-. cbn. f_equal. now apply IH.
Qed.
Lemma mark_text : forall n s, (length s <= n)%nat -> map fst (mark n s) = s.
Proof.
  induction n as [|n IH]; intros [|c s] L; cbn [length] in L; try lia; [reflexivity..|]. cbn [mark]. destruct (c =? 39) eqn:E; [|cbn; f_equal; apply IH; lia].
  destruct (to_quote s) as [[a b]|] eqn:T; [|cbn; f_equal; apply IH; lia]. apply to_quote_eq in T. subst s. rewrite app_length in L. cbn in L.
  cbn [map fst]. f_equal. rewrite map_app, map_map. cbn [map fst]. rewrite map_id, IH by lia. reflexivity.
Qed.
Lemma requote_none : forall n l, (length l <= n)%nat -> ~ In 34 (map fst l) -> requote n l = map fst l.
Proof.
  induction n as [|n IH]; intros [|x l] L NI; cbn [length] in L; try lia; [reflexivity..|]. cbn [requote map].
  assert (O : opens x = false). { unfold opens. destruct (fst x =? 34) eqn:E; [|reflexivity]. apply N.eqb_eq in E. exfalso. apply NI. cbn. now left. }
  rewrite O. f_equal. apply IH; [lia|]. intros I. apply NI. cbn. now right.
Qed.
Lemma preprocess_same s : ~ In 34 s -> preprocess s = s.
Proof.
  intros H. unfold preprocess. cbv zeta. rewrite requote_none; [now apply mark_text|lia|]. now rewrite mark_text.
Qed.
Inductive Pre : pystr -> pystr -> Prop :=
| pre_nil : Pre [] []
| pre_chr c s s' : c <> 39 -> c <> 34 -> Pre s s' -> Pre (c :: s) (c :: s')
| pre_single x s s' : ~ In 39 x -> ~ In 10 x -> Pre s s' -> Pre (39 :: x ++ 39 :: s) (39 :: x ++ 39 :: s')
| pre_double x s s' : x <> [] -> ~ In 39 x -> ~ In 34 x -> ~ In 96 x -> Pre s s' -> Pre (34 :: x ++ 34 :: s) (96 :: x ++ 96 :: s').
Lemma to_quote_x x s : ~ In 39 x -> ~ In 10 x -> to_quote (x ++ 39 :: s) = Some (x, s).
Proof.
  induction x as [|c x IH]; intros A B; [reflexivity|]. cbn [app to_quote]. destruct (c =? 39) eqn:E; [apply N.eqb_eq in E; subst; exfalso; apply A; now left|].
  destruct (c =? 10) eqn:F; [apply N.eqb_eq in F; subst; exfalso; apply B; now left|]. rewrite IH; [reflexivity|..]; intros I; [apply A|apply B]; now right.
Qed.
Lemma mark_plain x s n : ~ In 39 x -> mark (length x + n) (x ++ s) = map (fun c => (c, false)) x ++ mark n s.
Proof.
  induction x as [|c x IH]; intros A; [reflexivity|]. cbn [app length Nat.add mark map]. destruct (c =? 39) eqn:E; [apply N.eqb_eq in E; subst; exfalso; apply A; now left|].
  f_equal. apply IH. intros I. apply A. now right.
Qed.
Lemma requote_hidden l r n : requote (length l + n) (map (fun c => (c, true)) l ++ r) = l ++ requote n r.
Proof. induction l as [|c l IH]; [reflexivity|]. cbn [map app length Nat.add requote]. unfold opens. cbn [fst snd negb]. rewrite andb_false_r. f_equal. exact IH. Qed.
Lemma to_double_x x r : ~ In 34 x -> ~ In 96 x -> to_double (map (fun c => (c, false)) x ++ (34, false) :: r) = Some (map (fun c => (c, false)) x, r).
Proof.
  induction x as [|c x IH]; intros A B; [reflexivity|]. cbn [map app to_double]. unfold opens at 1. cbn [fst snd negb]. rewrite andb_true_r.
  destruct (c =? 34) eqn:E; [apply N.eqb_eq in E; subst; exfalso; apply A; now left|]. destruct (c =? 96) eqn:F; [apply N.eqb_eq in F; subst; exfalso; apply B; now left|].
  rewrite IH; [reflexivity|..]; intros I; [apply A|apply B]; now right.
Qed.
Lemma map_pair_fst (b : bool) (x : pystr) : map fst (map (fun c => (c, b)) x) = x.
Proof. rewrite map_map. apply map_id. Qed.
Lemma pre_marks s s' : Pre s s' -> exists f, (forall n, (length s <= n)%nat -> mark n s = f) /\ (forall n, (length f <= n)%nat -> requote n f = s').
Proof.
  induction 1 as [|c s s' N1 N2 H (f & M & R)|x s s' A B H (f & M & R)|x s s' NE A B D H (f & M & R)].
  - exists []. split; intros [|n] _; reflexivity.
  - exists ((c, false) :: f). split.
    + intros [|n] L; cbn in L; [lia|]. cbn [mark]. apply N.eqb_neq in N1. rewrite N1. f_equal. apply M. lia.
    + intros [|n] L; cbn in L; [lia|]. cbn [requote]. unfold opens. cbn [fst snd negb]. apply N.eqb_neq in N2. rewrite N2. cbn. f_equal. apply R. lia.
  - exists ((39, true) :: map (fun c => (c, true)) x ++ (39, true) :: f). split.
    + intros [|n] L; cbn in L; [lia|]. rewrite app_length in L. cbn in L. cbn [mark]. change (39 =? 39) with true. cbv iota. rewrite to_quote_x by assumption. do 3 f_equal. apply M. lia.
    + intros n L. cbn in L. rewrite app_length, map_length in L. cbn in L.
      change ((39, true) :: map (fun c => (c, true)) x ++ (39, true) :: f) with (map (fun c => (c, true)) (39 :: x) ++ map (fun c => (c, true)) [39] ++ f).
      replace n with (length (39%N :: x) + (length [39%N] + (n - (length x + 2))))%nat by (cbn [length]; lia). rewrite requote_hidden, requote_hidden. cbn [app]. do 3 f_equal. apply R. lia.
  - exists ((34, false) :: map (fun c => (c, false)) x ++ (34, false) :: f). split.
    + intros [|n] L; cbn in L; [lia|]. rewrite app_length in L. cbn in L. cbn [mark]. change (34 =? 39) with false. cbv iota.
      replace n with (length x + S (n - length x - 1))%nat by lia. rewrite mark_plain by assumption. do 2 f_equal. cbn [mark]. change (34 =? 39) with false. cbv iota. f_equal. apply M. lia.
    + intros [|n] L; cbn in L; [lia|]. rewrite app_length, map_length in L. cbn in L. cbn [requote]. change (opens (34, false)) with true. cbv iota.
      destruct x as [|y x]; [congruence|]. cbn [map app]. cbn [fst]. assert (Y : (y =? 96) = false). { apply N.eqb_neq. intros ->. apply D. now left. } rewrite Y.
      rewrite to_double_x; [|intros I; apply B; now right|intros I; apply D; now right]. rewrite map_pair_fst. do 4 f_equal. apply R. cbn in L. lia.
Qed.
Definition PP (s s' : pystr) : Prop := (~ In 34 s -> s' = s) /\ (~ In 92 s -> Pre s s').
Lemma preprocess_pp s s' : PP s s' -> ~ In 34 s \/ ~ In 92 s -> preprocess s = s'.
Proof.
  intros [A B] [H|H].
  - rewrite (A H). now apply preprocess_same.
  - destruct (pre_marks _ _ (B H)) as (f & M & R). unfold preprocess. cbv zeta. rewrite M by lia. now apply R.
Qed.
Lemma PP_nil : PP [] [].
Proof. split; [reflexivity|constructor]. Qed.
Lemma PP_chr c s s' : c <> 39 -> c <> 34 -> PP s s' -> PP (c :: s) (c :: s').
Proof.
  intros N1 N2 [A B]. split; intros H; [f_equal; apply A|constructor; try assumption; apply B]; intros I; apply H; now right.
Qed.
Lemma PP_chars t s s' : ~ In 39 t -> ~ In 34 t -> PP s s' -> PP (t ++ s) (t ++ s').
Proof.
  induction t as [|c t IH]; intros A B H; [exact H|]. cbn [app]. apply PP_chr; [intros ->; apply A; now left|intros ->; apply B; now left|].
  apply IH; [intros I; apply A; now right|intros I; apply B; now right|exact H].
Qed.

(** ** Parts of texts *)
Definition start_rel (a b : pystr) : Prop := match a with [] => b = [] | c :: _ => exists r, b = (if c =? 34 then 96 else c) :: r end.
Lemma start_hd a b : start_rel a b -> hd 0 b = if hd 0 a =? 34 then 96 else hd 0 a.
Proof. destruct a as [|c a]; cbn; [intros ->; reflexivity|intros (r & ->); reflexivity]. Qed.
Definition par (x : lexeme) : list bool :=
  match x with LSym s => if seqb s (u "(") then [true] else if seqb s (u ")") then [false] else [] | _ => [] end.
Definition pars (ls : list lexeme) : list bool := flat_map par ls.
Lemma zone_head s : zone s -> low (hd 0 s) = 122.
Proof. intros [A _]. destruct s as [|c s]; [discriminate|]. cbn in A. injection A as A. exact A. Qed.
Lemma wordb_not k c : wordb c = true -> wordb k = false -> c <> k.
Proof. intros A B ->. congruence. Qed.
Lemma word_ck t next l : Forall (fun c => wordb c = true) t -> hd 0 next <> 39 -> Ck next l -> Ck (t ++ next) l.
Proof.
  intros F H C. induction F as [|c t W F IH]; [exact C|]. cbn [app]. constructor; [unfold plainb; now rewrite W| |exact IH]. repeat split.
  - intros ->. discriminate W.
  - intros ->. discriminate W.
  - intros _. destruct t as [|d t]; [exact H|]. cbn. inversion F; subst. apply wordb_not with (2 := eq_refl). assumption.
  - intros B. exfalso. clear -W B. unfold wordb, blankb in *. lia.
Qed.
Lemma word_zone t next : t <> [] -> Forall (fun c => wordb c = true) t -> wordb (hd 0 next) = false -> map low t <> u "zone" -> ~ zone (t ++ next).
Proof.
  intros NE F W NZ [A B]. 
  assert (FZ : Forall (fun c => wordb c = true) (firstn 4 (t ++ next))).
  { apply Forall_forall. intros c I. rewrite <- low_word. assert (J : In (low c) (map low (firstn 4 (t ++ next)))) by now apply in_map. rewrite A in J.
    change (u "zone") with [122; 111; 110; 101] in J. cbn in J. destruct J as [<-|[<-|[<-|[<-|[]]]]]; reflexivity. }
  assert (HN : forall t', (length t' < 4)%nat -> firstn 4 (t' ++ next) = t' ++ firstn (4 - length t') next).
  { intros t' L. rewrite firstn_app. f_equal. apply firstn_all2. lia. }
  destruct (Nat.lt_trichotomy (length t) 4) as [L|[L|L]].
  - rewrite (HN t L) in FZ, A. apply Forall_app in FZ. destruct FZ as [_ FZ]. destruct next as [|d next].
    + rewrite firstn_nil, app_nil_r in A. now apply NZ.
    + destruct (4 - length t)%nat eqn:E; [lia|]. cbn in FZ. inversion FZ; subst. cbn in W. congruence.
  - rewrite firstn_app, L, Nat.sub_diag in A. rewrite firstn_O, app_nil_r, firstn_all2 in A by lia. now apply NZ.
  - rewrite app_nth1 in B by exact L. rewrite Forall_forall in F. rewrite F in B; [discriminate|]. now apply nth_In.
Qed.
Lemma low_same c : low_char c = low c.
Proof. reflexivity. Qed.
Lemma lang_words t : In (map low_char t) language -> t <> [] /\ Forall (fun c => wordb c = true) t /\ map low t <> u "zone".
Proof.
  intros H.
  assert (A : forallb (fun w => negb (seqb w []) && forallb wordb w && negb (seqb w (u "zone"))) language = true) by (vm_compute; reflexivity).
  rewrite forallb_forall in A. specialize (A _ H). apply andb_true_iff in A. destruct A as [A Z]. apply andb_true_iff in A. destruct A as [NE A].
  repeat split.
  - intros ->. discriminate NE.
  - rewrite forallb_forall in A. apply Forall_forall. intros c I. rewrite <- low_word. apply A. change low with low_char. now apply in_map.
  - intros E. change (map low_char t) with (map low t) in Z. rewrite E in Z. discriminate Z.
Qed.
Lemma bare_words t next : bare t next -> Forall (fun c => wordb c = true) t /\ map low t <> u "zone" /\ hd 0 next <> 39.
Proof.
  intros (A & B & C). split; [|split; assumption]. eapply Forall_impl; [|exact A]. cbn. intros c [K N]. unfold keyword_char, is_digit in K. unfold wordb. lia.
Qed.
Lemma body39_src l : Forall piece_ok l -> body39 (src l).
Proof.
  induction 1 as [|p l P F IH]; [constructor|]. unfold src in *. cbn [flat_map]. destruct p as [c| |c]; cbn [piece_src app].
  - destruct P as [P N]. constructor; [exact N| |exact IH]. intros ->. discriminate P.
  - now constructor.
  - now constructor.
Qed.
Lemma body96_doubled v : body96 (doubled 96 v).
Proof.
  induction v as [|c v IH]; [constructor|]. unfold doubled in *. cbn [flat_map]. destruct (c =? 96) eqn:E; cbn [app]; [now constructor|]. constructor; [now apply N.eqb_neq|exact IH].
Qed.
Lemma body96_plain v : ~ In 96 v -> body96 v.
Proof. induction v as [|c v IH]; intros H; constructor; [intros ->; apply H; now left|]. apply IH. intros I. apply H. now right. Qed.
Lemma pre_src l next next' : Forall piece_ok l -> ~ In 92 (src l) -> Pre next next' -> forall x, ~ In 39 x -> ~ In 10 x ->
  Pre (39 :: x ++ src l ++ 39 :: next) (39 :: x ++ src l ++ 39 :: next').
Proof.
  intros F NI P. induction F as [|p l OK F IH]; intros x A B; [now constructor|]. unfold src in *. cbn [flat_map] in *.
  assert (NI' : ~ In 92 (flat_map piece_src l)) by (intros I; apply NI, in_app_iff; now right). specialize (IH NI'). destruct p as [c| |c]; cbn [piece_src app].
  - destruct OK as [OK N]. change (c :: flat_map piece_src l ++ 39 :: next) with ([c] ++ flat_map piece_src l ++ 39 :: next).
    change (c :: flat_map piece_src l ++ 39 :: next') with ([c] ++ flat_map piece_src l ++ 39 :: next'). rewrite !(app_assoc x). apply IH; rewrite in_app_iff.
    + intros [I|[I|[]]]; [now apply A|congruence].
    + intros [I|[I|[]]]; [now apply B|]. subst c. discriminate OK.
  - constructor; [exact A|exact B|]. apply (IH []); intros [].
  - exfalso. apply NI. cbn. now left.
Qed.
Lemma pp_src l next next' : Forall piece_ok l -> PP next next' -> PP ((39 :: src l ++ [39]) ++ next) ((39 :: src l ++ [39]) ++ next').
Proof.
  intros F [A B]. cbn [app]. rewrite <- !app_assoc. cbn [app]. split; intros H.
  - rewrite A; [reflexivity|]. intros I. apply H. right. apply in_app_iff. right. now right.
  - apply (pre_src l next next' F) with (x := []); [..|intros []|intros []].
    + intros I. apply H. right. apply in_app_iff. now left.
    + apply B. intros I. apply H. right. apply in_app_iff. right. now right.
Qed.
Definition same_head (a b : pystr) : Prop :=
  match a with c :: _ => exists r, b = c :: r | [] => match b with c :: _ => c = 59 | [] => True end end.
Lemma hd_next a b k : same_head a b -> hd 0 a <> k -> k <> 59 -> k <> 0 -> hd 0 b <> k.
Proof.
  destruct a as [|c a]; cbn.
  - destruct b as [|d b]; cbn; [auto|]. intros -> _ H _. congruence.
  - intros (r & ->) H _ _. exact H.
Qed.
Lemma hd_rel a b k : start_rel a b -> hd 0 a <> k -> (k = 96 -> hd 0 a <> 34) -> hd 0 b <> k.
Proof. intros S H H'. rewrite (start_hd _ _ S). destruct (hd 0 a =? 34) eqn:E; [|exact H]. apply N.eqb_eq in E. intros <-. now apply H'. Qed.
Lemma part x t next0 next next' l : writes x t next0 -> tame_part x t next0 -> same_head next0 next -> start_rel next next' -> Ck next' l -> PP next next' ->
  exists t', Ck (t' ++ next') (par x ++ l) /\ start_rel (t ++ next) (t' ++ next') /\ PP (t ++ next) (t' ++ next') /\ ~ zone (t' ++ next') /\ (forall w, x = LKw w -> t' = t /\ wordb (hd 0 next') = false).
Proof.
  intros W TP SH SR C P.
  assert (HN : forall Q : N -> Prop, (forall c r, next0 = c :: r -> Q c) -> Q 59 -> Q 0 -> Q (hd 0 next)).
  { intros Q HQ H59 H0. destruct next0 as [|d q]; cbn in SH; [|destruct SH as [r ->]; cbn; now apply (HQ d q)]. destruct next as [|d q]; cbn; [exact H0|]. now subst d. }
  assert (WORDS : forall v, t = v -> v <> [] -> Forall (fun c => wordb c = true) v -> map low v <> u "zone" -> hd 0 next0 <> 39 -> wordb (hd 0 next) = false -> par x = [] ->
    exists t', Ck (t' ++ next') (par x ++ l) /\ start_rel (t ++ next) (t' ++ next') /\ PP (t ++ next) (t' ++ next') /\ ~ zone (t' ++ next') /\ (forall w, x = LKw w -> t' = t /\ wordb (hd 0 next') = false)).
  { intros v -> NE F NZ N39 WN PX. exists v. rewrite PX. cbn [app].
    assert (N39' : hd 0 next' <> 39). { apply (hd_rel next); [exact SR| |discriminate]. apply (hd_next next0); [exact SH|exact N39|discriminate..]. }
    assert (WN' : wordb (hd 0 next') = false). { rewrite (start_hd _ _ SR). destruct (hd 0 next =? 34); [reflexivity|exact WN]. }
    split; [now apply word_ck|]. split.
    { destruct v as [|c v]; [congruence|]. cbn. inversion F; subst. assert ((c =? 34) = false) as -> by (apply N.eqb_neq; intros ->; discriminate). eauto. }
    split; [|split; [now apply word_zone|intros w _; now split]]. apply PP_chars; [| |exact P]; intros I; rewrite Forall_forall in F; specialize (F _ I); discriminate. }
  assert (KW : forall c, keyword_char c = false -> wordb c = false) by (intros c; unfold keyword_char, is_digit, wordb; lia).
  assert (ID : forall c, ident_char c = false -> wordb c = false) by (intros c; unfold ident_char, is_digit, wordb; lia).
  assert (QUOTED : forall q (t2 : pystr), q = 39 \/ q = 96 -> ~ zone (q :: t2)).
  { intros q t2 Q Z. apply zone_head in Z. cbn in Z. destruct Q as [-> | ->]; discriminate. }
  destruct W as [w t next0 L E N|v next0 PN N|v next0 Q N|v next0 PN N|z t next0 [NE [D _]]%numeral_iff N|ps next0 F N|v next0 CL Q1 Q2 N|s next0 IN PX]; cbn [tame_part] in TP.
  - subst w. destruct (lang_words t L) as (A1 & A2 & A3). apply (WORDS t); auto. apply HN; [|reflexivity..]. intros c r E. apply KW. now apply (N c r).
  - destruct TP as [TP|(TP & _)].
    + destruct (bare_words _ _ TP) as (A1 & A2 & A3). apply (WORDS v); auto; [now destruct PN|]. apply HN; [|reflexivity..]. intros c r E. apply ID. now destruct (N c r E).
    + exfalso. destruct PN as (NE & K & _). destruct v as [|c v]; [congruence|]. cbn in TP. subst c. discriminate K.
  - destruct TP as [TP|(_ & T1 & T2 & T3)].
    + exfalso. destruct (bare_words _ _ TP) as (A1 & _). inversion A1; discriminate.
    + exists (96 :: doubled 96 v ++ [96]). cbn [par app]. rewrite <- !app_assoc. cbn [app]. split.
      * constructor; [apply body96_doubled| |exact C]. apply (hd_rel next); [exact SR|..].
        -- apply (HN (fun c => c <> 96)); [|discriminate..]. intros c r E ->. apply (N _ _ E). cbn. auto.
        -- intros _. apply (hd_next next0); [exact SH|exact T3|discriminate..].
      * split; [cbn; eauto|]. split; [|split; [now apply QUOTED; right|discriminate]].
        pose proof (PP_chars _ _ _ T1 T2 P) as X. cbn [app] in X. rewrite <- !app_assoc in X. exact X.
  - destruct (bare_words _ _ TP) as (A1 & A2 & A3). apply (WORDS v); auto; [now destruct PN|]. apply HN; [|reflexivity..]. intros c r E. apply ID. now destruct (N c r E).
  - apply (WORDS t); auto.
    + apply Forall_forall. intros c I. rewrite forallb_forall in D. specialize (D c I). unfold is_digit in D. unfold wordb. lia.
    + intros E. destruct t as [|c t]; [congruence|]. cbn in D, E. apply andb_true_iff in D. destruct D as [D _]. change (u "zone") with [122; 111; 110; 101] in E. injection E as E _.
      unfold is_digit in D. unfold low in E. destruct ((65 <=? c) && (c <=? 90)) eqn:X; lia.
    + apply HN; [|reflexivity..]. intros c r E. apply ID. now destruct (N c r E).
  - exists (39 :: src ps ++ [39]). cbn [par app]. split; [|split; [cbn; eauto|split; [now apply pp_src|split; [now apply QUOTED; left|discriminate]]]].
    rewrite <- app_assoc. cbn [app]. constructor; [now apply body39_src| |exact C]. apply (hd_rel next); [exact SR| |discriminate]. apply (HN (fun c => c <> 39)); [exact N|discriminate..].
  - destruct TP as [T1 T2]. destruct (T2 eq_refl) as [T3 T4].
    assert (NV : v <> []) by (intros ->; now apply T1). assert (N96 : ~ In 96 v) by (intros I; apply T3; right; apply in_app_iff; now left).
    exists (96 :: v ++ [96]). cbn [par app]. rewrite <- !app_assoc. cbn [app]. split.
    + constructor; [now apply body96_plain| |exact C]. apply (hd_rel next); [exact SR|..].
      * apply (hd_next next0); [exact SH|exact T4|discriminate..].
      * intros _. apply (HN (fun c => c <> 34)); [exact N|discriminate..].
    + split; [cbn; eauto|]. split; [|split; [now apply QUOTED; right|discriminate]]. destruct P as [PA PB]. split; intros H; [exfalso; apply H; now left|].
      constructor; auto. apply PB. intros I. apply H. right. apply in_app_iff. right. now right.
  - assert (N45 : s = u "-" -> hd 0 next <> 45).
    { intros ->. apply (HN (fun c => c <> 45)); [|discriminate..]. intros c r E ->. specialize (PX (u "--")). destruct PX as (q & X).
      - unfold all_symbols. apply in_app_iff. right. cbn. auto 10.
      - exists r. rewrite E. reflexivity.
      - discriminate X. }
    assert (N42 : s = u "/" -> hd 0 next <> 42).
    { intros ->. apply (HN (fun c => c <> 42)); [|discriminate..]. intros c r E ->. specialize (PX (u "/*")). destruct PX as (q & X).
      - unfold all_symbols. apply in_app_iff. right. cbn. auto 10.
      - exists r. rewrite E. reflexivity.
      - discriminate X. }
    assert (N45' : s = u "-" -> hd 0 next' <> 45). { intros E. apply (hd_rel next); [exact SR|auto|discriminate]. }
    assert (N42' : s = u "/" -> hd 0 next' <> 42). { intros E. apply (hd_rel next); [exact SR|auto|discriminate]. }
    clear N45 N42 PX HN WORDS QUOTED KW ID.
    exists s. unfold symbols in IN. cbn [map In] in IN.
    repeat (destruct IN as [<-|IN]; [first [now contradiction TP|
      split; [cbn [par seqb app]; repeat first [exact C|constructor 3|constructor 4|apply ck_plain; [reflexivity|repeat split; intros E; try discriminate E; auto; try (cbn; discriminate)|]]
             |split; [eexists; reflexivity|split; [apply PP_chars; [vm_compute; intuition discriminate|vm_compute; intuition discriminate|exact P]|split; [let Z := fresh in intros Z; apply zone_head in Z; discriminate Z|discriminate]]]]]|]).
    contradiction.
Qed.
Lemma blank_b w : blanks w -> Forall (fun c => blankb c = true) w.
Proof. unfold blanks. intros H. eapply Forall_impl; [|exact H]. cbn. intros c. unfold blankb. lia. Qed.
Lemma blanks_ck w s s' l : blanks w -> Ck s' l -> ~ zone s' -> PP s s' -> start_rel s s' ->
  Ck (w ++ s') l /\ ~ zone (w ++ s') /\ PP (w ++ s) (w ++ s') /\ start_rel (w ++ s) (w ++ s').
Proof.
  intros B C Z P S. apply blank_b in B. induction B as [|c w B F IH]; [auto|]. destruct IH as (I1 & I2 & I3 & I4). cbn [app].
  assert (NZ : ~ zone (c :: w ++ s')). { intros Y. apply zone_head in Y. cbn in Y. clear -B Y. unfold blankb in B. unfold low in Y. destruct ((65 <=? c) && (c <=? 90)) eqn:X; lia. }
  split; [|split; [exact NZ|split]].
  - constructor; [unfold plainb; rewrite B; now destruct (wordb c)| |exact I1]. unfold ok_next. split; [intros ->; discriminate|]. split; [intros ->; discriminate|]. split; [|auto].
    intros W. exfalso. clear -B W. unfold blankb, wordb in *. lia.
  - apply PP_chr; [intros ->; discriminate|intros ->; discriminate|exact I3].
  - cbn. assert ((c =? 34) = false) as -> by (apply N.eqb_neq; intros ->; discriminate). eauto.
Qed.
Definition ending (fin : pystr) : Prop := fin = [] \/ exists w, fin = 59 :: w /\ blanks w.
Lemma ending_ck fin : ending fin -> Ck fin [] /\ ~ zone fin /\ PP fin fin /\ start_rel fin fin.
Proof.
  intros [->|(w & -> & B)]; [repeat split; [constructor|intros [A _]; discriminate A|constructor]|].
  destruct (blanks_ck w [] [] [] B ck_nil) as (A1 & A2 & A3 & A4); [intros [A _]; discriminate A|exact PP_nil|reflexivity|]. rewrite !app_nil_r in *.
  split; [|split; [|split]].
  - apply ck_plain; [reflexivity| |exact A1]. repeat split; discriminate.
  - intros Z. apply zone_head in Z. discriminate Z.
  - now apply PP_chr.
  - cbn. eauto.
Qed.
Lemma same_head_app a fin : ending fin -> same_head a (a ++ fin).
Proof. intros H. destruct a as [|c a]; cbn; [|eauto]. destruct H as [->|(w & -> & _)]; reflexivity || exact Logic.I. Qed.
Lemma tame_ck fin : ending fin -> forall s ls, tame s ls ->
  exists s', Ck s' (pars ls) /\ ~ zone s' /\ PP (s ++ fin) s' /\ start_rel (s ++ fin) s'.
Proof.
  intros E. destruct (ending_ck fin E) as (F1 & F2 & F3 & F4). induction 1 as [x t w W T B|x t w rest ls W T B NE H (s' & I1 & I2 & I3 & I4)].
  - destruct (blanks_ck w fin fin [] B F1 F2 F3 F4) as (A1 & A2 & A3 & A4).
    destruct (part x t w (w ++ fin) (w ++ fin) [] W T (same_head_app w fin E) A4 A1 A3) as (t' & P1 & P2 & P3 & P4 & _).
    exists (t' ++ w ++ fin). rewrite <- app_assoc. unfold pars. cbn [flat_map]. auto.
  - destruct (blanks_ck w (rest ++ fin) s' _ B I1 I2 I3 I4) as (A1 & A2 & A3 & A4).
    assert (SH : same_head (w ++ rest) (w ++ rest ++ fin)) by (rewrite app_assoc; now apply same_head_app).
    destruct (part x t (w ++ rest) (w ++ rest ++ fin) (w ++ s') _ W T SH A4 A1 A3) as (t' & P1 & P2 & P3 & P4 & _).
    exists (t' ++ w ++ s'). rewrite <- !app_assoc. unfold pars. cbn [flat_map]. auto.
Qed.
(** A text that begins with a keyword. *)
Definition becomes (s s' : pystr) (l : list bool) : Prop := Ck s' l /\ ~ zone s' /\ PP s s' /\ start_rel s s'.
Lemma tame_kw fin w s ls : ending fin -> ls <> [] -> tame s (LKw w :: ls) -> exists t b rest, s = t ++ b ++ rest /\ map low t = w /\ blanks b /\ tame rest ls /\
  forall s' l, becomes (rest ++ fin) s' l -> becomes (s ++ fin) (t ++ b ++ s') l /\ wordb (hd 0 (b ++ s')) = false.
Proof.
  intros E NE T. inversion T as [|x t b rest ls' W TP B NL T']; subst; [congruence|]. exists t, b, rest.
  assert (ML : map low t = w) by (inversion W; subst; reflexivity). do 4 (split; [first [assumption|reflexivity]|]). intros s' l (I1 & I2 & I3 & I4).
  destruct (blanks_ck b (rest ++ fin) s' _ B I1 I2 I3 I4) as (A1 & A2 & A3 & A4).
  assert (SH : same_head (b ++ rest) (b ++ rest ++ fin)) by (rewrite app_assoc; now apply same_head_app).
  destruct (part (LKw w) t (b ++ rest) (b ++ rest ++ fin) (b ++ s') _ W TP SH A4 A1 A3) as (t' & P1 & P2 & P3 & P4 & P5). destruct (P5 w eq_refl) as [-> P6].
  unfold becomes. rewrite <- !app_assoc. split; [|exact P6]. do 3 (split; [assumption|]). assumption.
Qed.

(** ** Parentheses of statements *)
Fixpoint run (n : nat) (l : list bool) : bool :=
  match l with
  | [] => true
  | true :: r => run (S n) r
  | false :: r => match n with O => false | S m => run m r end
  end.
Definition bal (l : list bool) : Prop := forall n k, run n (l ++ k) = run n k.
Lemma bal_nil : bal [].
Proof. intros n k. reflexivity. Qed.
Lemma bal_app a b : bal a -> bal b -> bal (a ++ b).
Proof. intros A B n k. rewrite <- app_assoc, A. apply B. Qed.
Lemma bal_wrap a : bal a -> bal (true :: a ++ [false]).
Proof. intros A n k. cbn. rewrite <- app_assoc. rewrite A. reflexivity. Qed.
Lemma bal_run l : bal l -> run 0 l = true.
Proof. intros B. specialize (B O []). now rewrite app_nil_r in B. Qed.
Lemma run_prefix a b : forall n, run n (a ++ b) = true -> run n a = true.
Proof. induction a as [|[|] a IH]; intros n H; [reflexivity|now apply IH|]. cbn in *. destruct n; [discriminate|]. now apply IH. Qed.
Lemma pars_app a b : pars (a ++ b) = pars a ++ pars b.
Proof. apply flat_map_app. Qed.
Lemma pars_none ls : Forall (fun x => par x = []) ls -> pars ls = [].
Proof. induction 1 as [|x ls H F IH]; [reflexivity|]. unfold pars in *. cbn. now rewrite H, IH. Qed.
Definition bl (ls : list lexeme) : Prop := bal (pars ls).
Lemma bl_app a b : bl a -> bl b -> bl (a ++ b).
Proof. unfold bl. rewrite pars_app. apply bal_app. Qed.
Lemma bl_cons x ls : par x = [] -> bl ls -> bl (x :: ls).
Proof. unfold bl, pars. cbn. now intros ->. Qed.
Lemma bl_none ls : Forall (fun x => par x = []) ls -> bl ls.
Proof. intros H. unfold bl. rewrite pars_none by exact H. exact bal_nil. Qed.
Lemma bl_par ls : bl ls -> bl (Y "(" :: ls ++ [Y ")"]).
Proof. unfold bl, pars. cbn [flat_map]. rewrite flat_map_app. apply bal_wrap. Qed.
Lemma bl_par_then ls r : bl ls -> bl r -> bl (Y "(" :: ls ++ Y ")" :: r).
Proof.
  intros A B. change (Y "(" :: ls ++ Y ")" :: r) with (Y "(" :: ls ++ [Y ")"] ++ r). rewrite app_assoc.
  change (Y "(" :: (ls ++ [Y ")"]) ++ r) with ((Y "(" :: ls ++ [Y ")"]) ++ r). apply bl_app; [now apply bl_par|exact B].
Qed.
Lemma bl_separated l : Forall bl l -> bl (separated l).
Proof.
  induction 1 as [|x l H F IH]; [apply bl_none; constructor|]. cbn [separated]. destruct l; [exact H|]. apply bl_app; [exact H|]. now apply bl_cons.
Qed.
Lemma bl_single x : par x = [] -> bl [x].
Proof. intros H. apply bl_none. now repeat constructor. Qed.
Lemma operand_par x l : operand x l -> par l = [].
Proof. now destruct 1. Qed.
Lemma op_par o alt : bl (op_lex o alt).
Proof. apply bl_none. destruct o, alt; repeat constructor. Qed.
Lemma bl_cond s ls : cond_lex s ls -> bl ls.
Proof.
  induction 1 as [x t l O| |s ls H IH|z Hz|s ls H IH|s ls H IH|o alt a b la lb H1 IH1 H2 IH2|n m l lm ll H IH F|n a b c la lb lc H1 IH1 H2 IH2 H3 IH3|n s ls H IH].
  - apply bl_single. now apply operand_par in O.
  - now apply bl_single.
  - now apply bl_par.
  - apply bl_none. repeat constructor.
  - now apply bl_cons.
  - now apply bl_cons.
  - apply bl_app; [exact IH1|]. apply bl_app; [apply op_par|exact IH2].
  - apply bl_app; [exact IH|]. apply bl_app; [destruct n; apply bl_none; repeat constructor|]. apply bl_par, bl_separated.
    induction F; cbn; constructor; [apply bl_single; eapply operand_par; eassumption|assumption].
  - apply bl_app; [exact IH1|]. apply bl_app; [destruct n; apply bl_none; repeat constructor|]. apply bl_app; [exact IH2|]. now apply bl_cons.
  - apply bl_app; [exact IH|]. destruct n; apply bl_none; repeat constructor.
Qed.
Lemma bl_const k : bl (const_lex k).
Proof. destruct k as [z|s]; cbn; [destruct (z <? 0)%Z|]; apply bl_none; repeat constructor. Qed.
Lemma bl_where w ls : where_lex w ls -> bl ls.
Proof. destruct w as [s|]; cbn; [|intros ->; apply bl_none; constructor]. intros (l & H & ->). apply bl_cons; [reflexivity|]. now apply bl_cond in H. Qed.
Lemma bl_map {A} (f : A -> list lexeme) l : (forall a, bl (f a)) -> Forall bl (map f l).
Proof. intros H. induction l; cbn; constructor; auto. Qed.
Lemma bl_cmd c ls : cmd_lex c ls -> bl ls.
Proof.
  destruct 1 as [i t w o lim li lw HI HW|tab t cs vs|t sets w lw HW|t w lw HW].
  - apply bl_cons; [reflexivity|]. apply bl_app.
    + destruct HI as [|l NE NS|f Hf|f largest c Hf].
      * now apply bl_single.
      * apply bl_separated, bl_map. intros a. now apply bl_single.
      * apply bl_cons; [reflexivity|]. apply (bl_par [Y "*"]). now apply bl_single.
      * apply bl_cons; [reflexivity|]. apply (bl_par [LName c]). now apply bl_single.
    + apply bl_cons; [reflexivity|]. apply bl_cons; [reflexivity|]. apply bl_app; [now apply bl_where in HW|]. apply bl_app; apply bl_none.
      * destruct o as [[c [|]]|]; repeat constructor.
      * destruct lim as [[n [k|]]|]; repeat constructor.
  - apply bl_cons; [reflexivity|]. apply bl_cons; [reflexivity|]. apply bl_app; [destruct tab; apply bl_none; repeat constructor|]. apply bl_cons; [reflexivity|].
    apply bl_par_then; [apply bl_separated, bl_map; intros; now apply bl_single|]. apply bl_cons; [reflexivity|]. apply bl_par. apply bl_separated, bl_map. apply bl_const.
  - apply bl_cons; [reflexivity|]. apply bl_cons; [reflexivity|]. apply bl_cons; [reflexivity|]. apply bl_app; [|now apply bl_where in HW].
    apply bl_separated, bl_map. intros a. apply bl_cons; [reflexivity|]. apply bl_cons; [reflexivity|]. apply bl_const.
  - apply bl_cons; [reflexivity|]. apply bl_cons; [reflexivity|]. apply bl_cons; [reflexivity|]. now apply bl_where in HW.
Qed.
Lemma bl_list l : Forall (fun x => par x = []) l -> bl (list_lex l).
Proof. intros F. apply bl_par, bl_separated. induction F; cbn; constructor; [now apply bl_single|assumption]. Qed.
Lemma bl_names cs : bl (names_lex cs).
Proof. apply bl_list. induction cs; constructor; [reflexivity|assumption]. Qed.
Lemma bl_sizes l : bl (sizes_lex l).
Proof. unfold sizes_lex. destruct l as [|z l]; [apply bl_none; constructor|]. apply bl_list. generalize (z :: l). intros q. induction q; constructor; [reflexivity|assumption]. Qed.
Lemma word_par w x : word_lex w x -> par x = [].
Proof. now destruct 1. Qed.
Lemma bl_type ty l : type_lex ty l -> bl l.
Proof.
  destruct 1 as [w l x H|w l x y H H']; apply bl_cons; try (now apply word_par in H); [apply bl_sizes|]. apply bl_app; [apply bl_sizes|]. apply bl_single. now apply word_par in H'.
Qed.
Lemma bl_concat {A} (P : A -> list lexeme -> Prop) l ll : (forall a x, P a x -> bl x) -> Forall2 P l ll -> bl (concat ll).
Proof. intros H. induction 1; cbn; [apply bl_none; constructor|]. apply bl_app; [eapply H; eassumption|assumption]. Qed.
Lemma bl_forall {A} (P : A -> list lexeme -> Prop) l ll : (forall a x, P a x -> bl x) -> Forall2 P l ll -> Forall bl ll.
Proof. intros H. induction 1; constructor; [eapply H; eassumption|assumption]. Qed.
Lemma bl_opt o l : opt_lex o l -> bl l.
Proof.
  destruct 1 as [| | |x H| |x s H|v|x d H]; try (apply bl_none; now repeat constructor).
  - apply bl_single. now apply word_par in H.
  - apply bl_cons; [now apply word_par in H|now apply bl_single].
  - apply bl_cons; [now apply word_par in H|]. destruct d as [|c|v]; cbn; [now apply bl_single|apply bl_const|now apply bl_single].
Qed.
Lemma bl_column c l : column_lex c l -> bl l.
Proof. destruct 1 as [n ty opts lt lo H F]. apply bl_cons; [reflexivity|]. apply bl_app; [now apply bl_type in H|]. now apply (bl_concat opt_lex opts lo bl_opt). Qed.
Lemma bl_con_name o : bl (con_name_lex o).
Proof. destruct o; apply bl_none; repeat constructor. Qed.
Lemma bl_constr c l : constr_lex c l -> bl l.
Proof.
  destruct 1 as [o cs|o cs t rs|o un w name cs H]; (apply bl_app; [apply bl_con_name|]).
  - do 2 (apply bl_cons; [reflexivity|]). apply bl_names.
  - do 2 (apply bl_cons; [reflexivity|]). apply bl_app; [apply bl_names|]. do 2 (apply bl_cons; [reflexivity|]). apply bl_names.
  - apply bl_app; [destruct un; apply bl_none; repeat constructor|]. apply bl_cons; [reflexivity|]. apply bl_app; [destruct name; apply bl_none; repeat constructor|apply bl_names].
Qed.
Lemma bl_topt o l : topt_lex o l -> bl l.
Proof. destruct 1; apply bl_none; repeat constructor; repeat match goal with H : word_lex _ _ |- _ => apply word_par in H end; assumption. Qed.
Lemma bl_def d ls : def_lex d ls -> bl ls.
Proof.
  destruct 1 as [t guard cols cons opts lc lk lo F1 F2 F3]. do 2 (apply bl_cons; [reflexivity|]). apply bl_app; [destruct guard; apply bl_none; repeat constructor|].
  apply bl_cons; [reflexivity|]. apply bl_par_then; [|now apply (bl_concat topt_lex opts lo bl_topt)]. apply bl_separated, Forall_app. split.
  - now apply (bl_forall column_lex cols lc bl_column).
  - now apply (bl_forall constr_lex cons lk bl_constr).
Qed.
