(** * Lemmas behind the theorems about the SQL writer *)
From Coq Require Import String Ascii List NArith ZArith QArith Bool Lia ZifyBool ZifyNat ZifyN Permutation.
From Verif Require Import Base BaseProof JsonModel JsonProof CreateModel DotsModel DotsSpec DotsProof SqlLex SqlRead FmtModel FmtSpec FmtLexProof FmtExprProof FmtReadProof.
Import ListNotations.
Open Scope Z_scope.

(** ** Expressions *)
Lemma format_reads alnum fstr ansi bs dq lev top n j t :
  ascii_ok alnum -> (ansi = true -> dq = false) -> lev_ok lev top -> (jdepth j < n)%nat ->
  tree_of j = Some t -> well_ranked lev t -> good_leaves bs t ->
  exists s, dispatch alnum fstr ansi n j max_prec = Ok s /\ reads bs dq lev top s t.
Proof.
  intros HA HD HL Hn Ht HR HG. exists (show alnum ansi t max_prec).
  split; [apply show_ok; [exact Hn|cbv; split; congruence|exact Ht]|].
  assert (W : wf t) by (eapply tree_wf; [exact Hn|exact Ht]).
  exists (toks alnum t max_prec).
  destruct (read_tree lev top HL alnum bs t W HG HR) as [_ Q].
  destruct (Q top [] (t, [])) as [N HN].
  - now apply level_top.
  - split; exact I.
  - apply loop_stop. split; exact I.
  - rewrite app_nil_r in HN. exists N. split; [|exact HN].
    apply Lw_lex. now apply Lw_show.
Qed.

Lemma reads_unique bs dq lev top s t t' : reads bs dq lev top s t -> reads bs dq lev top s t' -> t = t'.
Proof.
  intros (ts & n & L & H) (ts' & n' & L' & H'). rewrite L in L'. injection L' as <-.
  specialize (H (Nat.max n n') ltac:(lia)). specialize (H' (Nat.max n n') ltac:(lia)). congruence.
Qed.

Definition leaf (t : tree) : Prop := match t with ECol _ | EStr _ | EInt _ => True | _ => False end.

Section Two.
Variables (lev : opk -> nat) (top : nat).
Hypothesis HL : lev_ok lev top.
Variable alnum : N -> bool.
Variable bs : bool.

Lemma leaf_ranked t : leaf t -> well_ranked lev t /\ level lev t = 0%nat /\ forall c, bare c t = true.
Proof. destruct t; try contradiction; intros _; repeat split. Qed.

Lemma leaf_rd t l rest r c : leaf t -> wf t -> good_leaves bs t -> stop lev 0 rest ->
  evt (fun n => loop lev top n l t rest) r -> evt (fun n => rd lev top n l (toks alnum t c ++ rest)) r.
Proof.
  intros T W G S L. destruct (leaf_ranked t T) as (R & E & B).
  destruct (read_tree lev top HL alnum bs t W G R) as [_ Q].
  rewrite toks_bare, B. apply Q; [rewrite E; lia|rewrite E; exact S|exact L].
Qed.

Lemma stop_nil l : stop lev l [].
Proof. split; exact I. Qed.

(** [a o1 b o2 c] groups to the left unless [o2] binds tighter. *)
Lemma two_left a b c o1 o2 ca cb cc : leaf a -> leaf b -> leaf c -> wf a -> wf b -> wf c ->
  good_leaves bs a -> good_leaves bs b -> good_leaves bs c -> (lev (KBin o1) <= lev (KBin o2))%nat ->
  evt (fun n => rd lev top n top (toks alnum a ca ++ op_toks o1 ++ toks alnum b cb ++ op_toks o2 ++ toks alnum c cc)) (EBin o2 (EBin o1 a b) c, []).
Proof.
  intros La Lb Lc Wa Wb Wc Ga Gb Gc H. pose proof (proj1 HL) as L1.
  apply leaf_rd; try assumption; [apply stop_op; lia|].
  eapply evt_S; [intros n; rewrite loop_S, peek_op; reflexivity|].
  replace (lev (KBin o1) <=? top)%nat with true by (specialize (L1 (KBin o1)); lia).
  apply (evt_2 _ (fun n (x : tree * list token) => let (y, r') := x in loop lev top n top (EBin o1 a y) r') (b, op_toks o2 ++ toks alnum c cc)).
  - apply leaf_rd; try assumption; [apply stop_op; lia|]. apply loop_stop. apply stop_op. specialize (L1 (KBin o1)). lia.
  - eapply evt_S; [intros n; rewrite loop_S, peek_op; reflexivity|].
    replace (lev (KBin o2) <=? top)%nat with true by (specialize (L1 (KBin o2)); lia).
    apply (evt_2 _ (fun n (x : tree * list token) => let (y, r') := x in loop lev top n top (EBin o2 (EBin o1 a b) y) r') (c, [])).
    + rewrite <- (app_nil_r (toks alnum c cc)). apply leaf_rd; try assumption; [apply stop_nil|]. apply loop_stop, stop_nil.
    + apply loop_stop, stop_nil.
Qed.
(** ... and to the right if it does. *)
Lemma two_right a b c o1 o2 ca cb cc : leaf a -> leaf b -> leaf c -> wf a -> wf b -> wf c ->
  good_leaves bs a -> good_leaves bs b -> good_leaves bs c -> (lev (KBin o2) < lev (KBin o1))%nat ->
  evt (fun n => rd lev top n top (toks alnum a ca ++ op_toks o1 ++ toks alnum b cb ++ op_toks o2 ++ toks alnum c cc)) (EBin o1 a (EBin o2 b c), []).
Proof.
  intros La Lb Lc Wa Wb Wc Ga Gb Gc H. pose proof (proj1 HL) as L1.
  apply leaf_rd; try assumption; [apply stop_op; lia|].
  eapply evt_S; [intros n; rewrite loop_S, peek_op; reflexivity|].
  replace (lev (KBin o1) <=? top)%nat with true by (specialize (L1 (KBin o1)); lia).
  apply (evt_2 _ (fun n (x : tree * list token) => let (y, r') := x in loop lev top n top (EBin o1 a y) r') (EBin o2 b c, [])).
  - apply leaf_rd; try assumption; [apply stop_op; lia|].
    eapply evt_S; [intros n; rewrite loop_S, peek_op; reflexivity|].
    replace (lev (KBin o2) <=? lev (KBin o1) - 1)%nat with true by lia.
    apply (evt_2 _ (fun n (x : tree * list token) => let (y, r') := x in loop lev top n (lev (KBin o1) - 1) (EBin o2 b y) r') (c, [])).
    + rewrite <- (app_nil_r (toks alnum c cc)). apply leaf_rd; try assumption; [apply stop_nil|]. apply loop_stop, stop_nil.
    + apply loop_stop, stop_nil.
  - apply loop_stop, stop_nil.
Qed.
End Two.

Lemma two_exact alnum fstr ansi bs dq lev top n j t o1 o2 a b c :
  ascii_ok alnum -> (ansi = true -> dq = false) -> lev_ok lev top -> (jdepth j < n)%nat ->
  tree_of j = Some t -> t = EBin o1 a (EBin o2 b c) \/ t = EBin o2 (EBin o1 a b) c ->
  leaf a -> leaf b -> leaf c -> good_leaves bs t ->
  exists s, dispatch alnum fstr ansi n j max_prec = Ok s /\ (reads bs dq lev top s t <-> well_ranked lev t).
Proof.
  intros HA HD HL Hn Ht Sh La Lb Lc HG.
  exists (show alnum ansi t max_prec).
  assert (HS : dispatch alnum fstr ansi n j max_prec = Ok (show alnum ansi t max_prec)) by (apply show_ok; [exact Hn|cbv; split; congruence|exact Ht]).
  split; [exact HS|]. split.
  2: { intros HR. destruct (format_reads alnum fstr ansi bs dq lev top n j t HA HD HL Hn Ht HR HG) as (s & E & R). rewrite HS in E. injection E as <-. exact R. }
  intros RD.
  assert (W : wf t) by (eapply tree_wf; [exact Hn|exact Ht]).
  assert (X : lex bs dq (show alnum ansi t max_prec) = Some (toks alnum t max_prec)) by (apply Lw_lex; now apply Lw_show).
  assert (K : forall t', evt (fun m => rd lev top m top (toks alnum t max_prec)) (t', []) -> t' = t).
  { intros t' [m Hm]. apply (reads_unique bs dq lev top (show alnum ansi t max_prec)); [|exact RD].
    exists (toks alnum t max_prec), m. now split. }
  destruct (leaf_ranked lev a La) as (Ra & Ea & Ba). destruct (leaf_ranked lev b Lb) as (Rb & Eb & Bb).
  destruct (leaf_ranked lev c Lc) as (Rc & Ec & Bc). pose proof (proj1 HL) as L1.
  destruct Sh as [->| ->]; cbn [well_ranked level].
  - destruct W as (Wa & Wb & Wc), HG as (Ga & Gb & Gc).
    repeat (split; try assumption); try (intros _; rewrite ?Ea, ?Eb, ?Ec; first [lia|apply L1]).
    cbn [bare rank]. intros B. destruct (Nat.ltb_spec (lev (KBin o2)) (lev (KBin o1))) as [H|H]; [exact H|exfalso].
    assert (E : toks alnum (EBin o1 a (EBin o2 b c)) max_prec =
      toks alnum a (rank_op o1 + 1) ++ op_toks o1 ++ toks alnum b (rank_op o2 + 1) ++ op_toks o2 ++ toks alnum c (rank_op o2)).
    { cbn [toks]. rewrite bare_max. cbn [bare rank]. rewrite B. reflexivity. }
    rewrite E in K. specialize (K _ (two_left lev top HL alnum bs a b c o1 o2 _ _ _ La Lb Lc Wa Wb Wc Ga Gb Gc H)).
    injection K as K1 K2 K3. rewrite <- K2 in La. contradiction La.
  - destruct W as ((Wa & Wb) & Wc), HG as ((Ga & Gb) & Gc).
    repeat (split; try assumption); try (intros _; rewrite ?Ea, ?Eb, ?Ec; first [lia|apply L1]).
    cbn [bare rank]. intros B. destruct (Nat.leb_spec (lev (KBin o1)) (lev (KBin o2))) as [H|H]; [exact H|exfalso].
    assert (E : toks alnum (EBin o2 (EBin o1 a b) c) max_prec =
      toks alnum a (rank_op o1 + 1) ++ op_toks o1 ++ toks alnum b (rank_op o1) ++ op_toks o2 ++ toks alnum c (rank_op o2)).
    { cbn [toks]. rewrite bare_max. cbn [bare rank]. rewrite B. cbn [wrap]. now rewrite <- !app_assoc. }
    rewrite E in K. specialize (K _ (two_right lev top HL alnum bs a b c o1 o2 _ _ _ La Lb Lc Wa Wb Wc Ga Gb Gc H)).
    injection K as K1 K2 K3. rewrite K2 in La. contradiction La.
Qed.

(** ** Search conditions *)
Definition lev_std (lev : opk -> nat) : Prop :=
  (forall o, comparison o = true -> lev (KBin o) < lev KNot)%nat /\ (forall n, lev (KIn n) < lev KNot)%nat /\
  (forall n, lev (KBetween n) < lev KNot)%nat /\ (forall n, lev (KIs n) < lev KNot)%nat /\
  (lev KNot < lev (KBin OAnd) < lev (KBin OOr))%nat /\ (forall k, 1 <= lev k)%nat.

Lemma value_ranked lev t : value_tree t = true -> well_ranked lev t /\ level lev t = 0%nat.
Proof. destruct t; try discriminate; intros _; now split. Qed.

Lemma condition_level lev t : lev_std lev -> condition t ->
  (level lev t <= lev KNot)%nat \/ top_op t = Some OAnd \/ top_op t = Some OOr.
Proof.
  intros (A & B & C & D & _) H. destruct H; cbn [level top_op]; auto.
  - left. specialize (A _ H). lia.
  - left. specialize (B n). lia.
  - left. specialize (C n). lia.
  - left. specialize (D n). lia.
Qed.

Lemma condition_ranked lev t : lev_std lev -> condition t -> well_ranked lev t.
Proof.
  intros HL H. pose proof HL as (A & B & C & D & E & F). induction H; cbn [well_ranked].
  - destruct (value_ranked lev a H0), (value_ranked lev b H1). repeat split; try assumption; intros _; specialize (F (KBin o)); lia.
  - destruct (value_ranked lev m H). repeat split; [assumption| |intros _; lia].
    apply fold_and. rewrite forallb_forall in H0. apply Forall_forall. intros x I. now apply value_ranked, H0.
  - destruct (value_ranked lev a H), (value_ranked lev b H0), (value_ranked lev c H1).
    repeat split; try assumption; intros _; specialize (F (KBetween n)); lia.
  - destruct (value_ranked lev t H). split; [assumption|]. intros _. lia.
  - assumption.
  - split; [assumption|split; [assumption|split]]; intros X.
    + destruct (condition_level lev a HL H) as [L|[L|L]]; [lia| |]; destruct a; try discriminate L; injection L as ->; [cbn; lia|discriminate X].
    + destruct (condition_level lev b HL H0) as [L|[L|L]]; [lia|congruence|]; destruct b; try discriminate L; injection L as ->; discriminate X.
  - split; [assumption|split; [assumption|split]]; intros X.
    + destruct (condition_level lev a HL H) as [L|[L|L]]; [lia| |]; destruct a; try discriminate L; injection L as ->; cbn; lia.
    + destruct (condition_level lev b HL H0) as [L|[L|L]]; [lia| |congruence]; destruct b; try discriminate L; injection L as ->; cbn; lia.
Qed.
Lemma mysql_std : lev_std mysql_lev /\ lev_ok mysql_lev 14.
Proof.
  assert (B : forall k, (1 <= mysql_lev k <= 14)%nat) by (intros [[]|[]|[]|[]|]; cbn; lia).
  split; [|split; [exact B|intros []; cbn; lia]].
  split; [intros [] H; try discriminate H; cbn; lia|]. repeat split; try (intros []; cbn; lia); try (cbn; lia). apply B.
Qed.
Lemma repo_std : lev_std repo_lev /\ lev_ok repo_lev 26.
Proof.
  assert (B : forall k, (1 <= repo_lev k <= 26)%nat) by (intros [[]|[]|[]|[]|]; cbn; lia).
  split; [|split; [exact B|intros []; cbn; lia]].
  split; [intros [] H; try discriminate H; cbn; lia|]. repeat split; try (intros []; cbn; lia); try (cbn; lia). apply B.
Qed.

(** ** String literals *)
Lemma literal_text alnum fstr ansi n s c : -4 <= c -> dispatch alnum fstr ansi (S n) (JDict [(u "literal", JStr s)]) c = Ok (quote_str s).
Proof.
  intros H. cbn [dispatch]. rewrite plain_key by reflexivity.
  change (fmt_op fstr (dispatch alnum fstr ansi n) [(u "literal", JStr s)] c) with (Ok (paren_if (-4 <=? c) (quote_str s))).
  now replace (-4 <=? c) with true by lia.
Qed.

Lemma quote_read bs dq s rest : read_token bs dq (quote_str s ++ rest) =
  match read_quoted bs 39 (double_char 39 s ++ 39%N :: rest) with Some (a, b) => Some (TStr a, b) | None => None end.
Proof. unfold quote_str, read_token. cbn [app]. change (39 =? 39)%N with true. cbv iota. now rewrite <- app_assoc. Qed.

Lemma double_cons q c s : double_char q (c :: s) = (if N.eqb c q then [q; q] else [c]) ++ double_char q s.
Proof. reflexivity. Qed.

Lemma rq_plain bs c r : c <> 39%N -> c <> 92%N -> read_quoted bs 39 (c :: r) =
  match read_quoted bs 39 r with Some (a, b) => Some (c :: a, b) | None => None end.
Proof.
  intros A B. cbn [read_quoted]. destruct (N.eqb_spec c 39); [congruence|]. destruct (N.eqb_spec c 92); [congruence|].
  now rewrite andb_false_r.
Qed.
Lemma rq_quote bs r : read_quoted bs 39 (39%N :: 39%N :: r) =
  match read_quoted bs 39 r with Some (a, b) => Some (39%N :: a, b) | None => None end.
Proof. reflexivity. Qed.
Lemma rq_bs c r : read_quoted true 39 (92%N :: c :: r) =
  match read_quoted true 39 r with Some (a, b) => Some (unescape c ++ a, b) | None => None end.
Proof. reflexivity. Qed.
Lemma rq_end bs rest : match rest with d :: _ => d <> 39%N | [] => True end -> read_quoted bs 39 (39%N :: rest) = Some ([], rest).
Proof. intros H. destruct rest as [|d r]; [reflexivity|]. cbn [read_quoted]. change (39 =? 39)%N with true. cbv iota. now destruct (N.eqb_spec d 39). Qed.

Lemma unescape_cases c : unescape c = [92%N; c] /\ (c = 37 \/ c = 95)%N \/
  exists x, unescape c = [x] /\ (x = 92%N -> c = 92%N) /\ c <> 37%N /\ c <> 95%N.
Proof.
  unfold unescape.
  destruct (N.eqb_spec c 48) as [->|?]; [right; eexists; split; [reflexivity|repeat split; discriminate]|].
  destruct (N.eqb_spec c 98) as [->|?]; [right; eexists; split; [reflexivity|repeat split; discriminate]|].
  destruct (N.eqb_spec c 110) as [->|?]; [right; eexists; split; [reflexivity|repeat split; discriminate]|].
  destruct (N.eqb_spec c 114) as [->|?]; [right; eexists; split; [reflexivity|repeat split; discriminate]|].
  destruct (N.eqb_spec c 116) as [->|?]; [right; eexists; split; [reflexivity|repeat split; discriminate]|].
  destruct (N.eqb_spec c 90) as [->|?]; [right; eexists; split; [reflexivity|repeat split; discriminate]|].
  destruct (N.eqb_spec c 37) as [->|?]; [left; split; [reflexivity|now left]|].
  destruct (N.eqb_spec c 95) as [->|?]; [left; split; [reflexivity|now right]|].
  right. exists c. repeat split; try assumption. auto.
Qed.

(** No text reads with extra backslashes in front. *)
Lemma no_extra : forall n s k rest, (length s <= n)%nat -> match rest with d :: _ => d <> 39%N | [] => True end ->
  read_quoted true 39 (double_char 39 s ++ 39%N :: rest) <> Some (92%N :: repeat 92%N k ++ s, rest).
Proof.
  induction n as [|n IH]; intros s k rest Hn HR X.
  - destruct s; [|cbn in Hn; lia]. cbn [double_char replace1 flat_map app] in X.
    change (double_char 39 [] ++ 39%N :: rest) with (39%N :: rest) in X. rewrite rq_end in X by exact HR. discriminate X.
  - destruct s as [|c s].
    + change (double_char 39 [] ++ 39%N :: rest) with (39%N :: rest) in X. rewrite rq_end in X by exact HR. discriminate X.
    + cbn [length] in Hn. rewrite double_cons in X. destruct (N.eqb_spec c 39) as [->|N1].
      * cbn [app] in X. rewrite rq_quote in X. destruct (read_quoted _ _ _) as [[a b]|]; discriminate X.
      * destruct (N.eq_dec c 92) as [->|N2].
        -- cbn [app] in X. destruct s as [|d s].
           ++ change (double_char 39 [] ++ 39%N :: rest) with (39%N :: rest) in X. rewrite rq_bs in X.
              destruct (read_quoted _ _ _) as [[a b]|]; discriminate X.
           ++ rewrite double_cons in X. destruct (N.eqb_spec d 39) as [->|N3].
              ** cbn [app] in X. rewrite rq_bs in X. destruct (read_quoted _ _ _) as [[a b]|]; discriminate X.
              ** cbn [app] in X. rewrite rq_bs in X.
                 destruct (read_quoted true 39 (double_char 39 s ++ 39%N :: rest)) as [[a b]|] eqn:E; [|discriminate X].
                 destruct (unescape_cases d) as [[U D]|(x & U & D & _)]; rewrite U in X.
                 --- cbn [app] in X. injection X as X _. destruct k as [|k]; cbn [repeat app] in X; injection X as X _; destruct D as [D|D]; rewrite D in X; discriminate X.
                 --- cbn [app] in X. injection X as X0 X1 X2. subst x b. rewrite (D eq_refl) in X1.
                     refine (IH s (S k) rest _ HR _); [cbn in Hn; lia|]. rewrite E. f_equal. f_equal. rewrite X1.
                     clear. cbn [repeat app]. induction k as [|k IHk]; [reflexivity|]. cbn [repeat app]. f_equal. exact IHk.
        -- cbn [app] in X. rewrite rq_plain in X by assumption. destruct (read_quoted _ _ _) as [[a b]|]; [|discriminate X].
           injection X as X _. congruence.
Qed.

Lemma opt_cons (c : N) (a b s rest : pystr) : Some (c :: a, b) = Some (c :: s, rest) <-> Some (a, b) = Some (s, rest).
Proof. split; intros E; injection E as -> ->; reflexivity. Qed.
Lemma opt_str (a b s rest : pystr) : Some (TStr a, b) = Some (TStr s, rest) <-> Some (a, b) = Some (s, rest).
Proof. split; intros E; injection E as -> ->; reflexivity. Qed.

Lemma backslash_iff_n : forall n s rest, (length s <= n)%nat -> match rest with d :: _ => d <> 39%N | [] => True end ->
  (read_quoted true 39 (double_char 39 s ++ 39%N :: rest) = Some (s, rest) <-> backslash_ok s = true).
Proof.
  induction n as [|n IH]; intros s rest Hn HR.
  - destruct s; [|cbn in Hn; lia]. change (double_char 39 [] ++ 39%N :: rest) with (39%N :: rest). rewrite rq_end by exact HR. now split.
  - destruct s as [|c s].
    + change (double_char 39 [] ++ 39%N :: rest) with (39%N :: rest). rewrite rq_end by exact HR. now split.
    + cbn [length] in Hn. rewrite double_cons. destruct (N.eqb_spec c 39) as [->|N1].
      * cbn [app]. rewrite rq_quote. change (backslash_ok (39%N :: s)) with (backslash_ok s). rewrite <- (IH s rest) by (lia || exact HR).
        destruct (read_quoted _ _ _) as [[a b]|]; [apply opt_cons|split; discriminate].
      * destruct (N.eq_dec c 92) as [->|N2].
        -- cbn [app]. destruct s as [|d s].
           ++ change (double_char 39 [] ++ 39%N :: rest) with (39%N :: rest). rewrite rq_bs.
              split; [|discriminate]. destruct (read_quoted _ _ _) as [[a b]|]; discriminate.
           ++ rewrite double_cons. change (backslash_ok (92%N :: d :: s)) with ((N.eqb d 37 || N.eqb d 95) && backslash_ok s).
              cbn [length] in Hn. destruct (N.eqb_spec d 39) as [->|N3].
              ** cbn [app]. rewrite rq_bs. split; [|discriminate]. destruct (read_quoted _ _ _) as [[a b]|]; discriminate.
              ** cbn [app]. rewrite rq_bs. pose proof (IH s rest ltac:(lia) HR) as IHs.
                 destruct (unescape_cases d) as [[U D]|(x & U & D & D1 & D2)]; rewrite U.
                 --- assert (E : (N.eqb d 37 || N.eqb d 95) = true) by (destruct D as [-> | ->]; reflexivity).
                     rewrite E. cbn [andb]. rewrite <- IHs. cbn [app].
                     destruct (read_quoted _ _ _) as [[a b]|]; [|split; discriminate]. rewrite opt_cons. apply opt_cons.
                 --- assert (E : (N.eqb d 37 || N.eqb d 95) = false) by lia. rewrite E. cbn [andb].
                     split; [|discriminate]. intros X.
                     destruct (read_quoted true 39 (double_char 39 s ++ 39%N :: rest)) as [[a b]|] eqn:Q; [|discriminate X].
                     exfalso. cbn [app] in X. injection X as X0 X1 X2. subst x b a. rewrite (D eq_refl) in Q.
                     exact (no_extra (length s) s 0 rest (Nat.le_refl _) HR Q).
        -- cbn [app]. rewrite rq_plain by assumption. cbn [backslash_ok]. destruct (N.eqb_spec c 92); [congruence|].
           rewrite <- (IH s rest) by (lia || exact HR). destruct (read_quoted _ _ _) as [[a b]|]; [apply opt_cons|split; discriminate].
Qed.
Lemma backslash_iff dq s rest : match rest with d :: _ => d <> 39%N | [] => True end ->
  (read_token true dq (quote_str s ++ rest) = Some (TStr s, rest) <-> backslash_ok s = true).
Proof.
  intros HR. rewrite quote_read. rewrite <- (backslash_iff_n (length s) s rest (Nat.le_refl _) HR).
  destruct (read_quoted _ _ _) as [[a b]|]; [apply opt_str|split; discriminate].
Qed.
