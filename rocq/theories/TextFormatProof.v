(** The SQL text of a rewritten statement and its tokens. *)
From Coq Require Import String Ascii List Arith NArith ZArith QArith Bool Lia ZifyBool ZifyNat ZifyN.
From Verif Require CreateModel.
From Verif Require Import Base BaseProof CryptoModel FuzzyModel JsonModel DotsModel RewriteModel LikeSpec SqlSpec EncSpec WhereProof StmtSpec
  SqlLex SqlRead FmtModel FmtSpec FmtLexProof FmtReadProof FmtExprProof FmtNameProof FmtProof ScrubModel OperModel OperSpec EndSpec EndTruthProof EndMaskProof EndLexProof
  TextSpec TextValueProof TextExecProof TextShapeProof TextReadProof.
Import ListNotations.
Open Scope Z_scope.

Section Texts.
Variables (bs : bool) (alnum : N -> bool) (fstr : Q -> pystr).
Hypothesis HA : ascii_ok alnum.
Let off : false = true -> true = false.
Proof. discriminate. Qed.
Notation Lw := (Lw bs true).
Notation dispatch := (dispatch alnum fstr true).
Notation clauses := (FmtModel.clauses fstr).
Notation clause := (FmtModel.clause fstr).
Notation fmt_from := (FmtModel.fmt_from fstr).

Lemma Lw_sp s1 t1 s2 t2 : Lw s1 t1 -> Lw s2 t2 -> Lw (s1 ++ u " " ++ s2) (t1 ++ t2).
Proof. intros A B. apply Lw_app; [exact A| |reflexivity]. intros rest ts' S H. cbn [u app]. apply Lx_space; [reflexivity|]. now apply B. Qed.
Lemma Lw_W c w s t : word_start c = true -> forallb word_char w = true -> Lw s t -> Lw ((c :: w) ++ u " " ++ s) (TWord (c :: w) :: t).
Proof. intros C D H. apply (Lw_sp (c :: w) [TWord (c :: w)]); [now apply Lw_word|exact H]. Qed.
Lemma Lw_spaces ss tss : Forall2 Lw ss tss -> Lw (join (u " ") ss) (concat tss).
Proof.
  induction 1 as [|s ts ss tss H F IH]; [intros rest ts' _ H; exact H|]. destruct F as [|s' ts' ss tss H' F].
  - cbn [join concat]. now rewrite app_nil_r.
  - change (join (u " ") (s :: s' :: ss)) with (s ++ u " " ++ join (u " ") (s' :: ss)). change (concat (ts :: ts' :: tss)) with (ts ++ concat (ts' :: tss)). now apply Lw_sp.
Qed.
Lemma Lw_commas ss tss : Forall2 Lw ss tss -> Lw (join (u ", ") ss) (jtoks tss).
Proof.
  induction 1 as [|s ts ss tss H F IH]; [intros rest ts' _ H; exact H|]. destruct F as [|s' ts' ss tss H' F]; [exact H|].
  change (join (u ", ") (s :: s' :: ss)) with (s ++ u ", " ++ join (u ", ") (s' :: ss)).
  change (jtoks (ts :: ts' :: tss)) with (ts ++ [TSym COMMA] ++ jtoks (ts' :: tss)).
  apply Lw_app; [exact H| |reflexivity]. apply Lf_Lw_app; [apply (Lf_comma bs true false off)|exact IH].
Qed.

(** ** Names *)
Lemma colname_text n p c : colname kw c -> dispatch (S n) (JStr c) p = Ok c.
Proof.
  intros U. destruct (colname_facts c alnum HA U) as (D & B & _ & _ & _ & Q). cbn [FmtModel.dispatch dispatch_step].
  rewrite escape_single by assumption. unfold esc. now rewrite Q.
Qed.
Lemma name_text n p c : usable c -> dispatch (S n) (JStr c) p = Ok c.
Proof. intros [U _]. now apply colname_text. Qed.
Lemma name_Lw c : colname kw c -> Lw c [TWord c].
Proof.
  intros [V _]. destruct c as [|x w]; [discriminate|]. cbn [valid_name] in V. apply andb_true_iff in V as [V1 V2].
  assert (C : forall y, ident_start y = true -> word_start y = true) by (intros y; unfold ident_start, word_start, letter; lia).
  apply Lw_word; [now apply C|]. rewrite forallb_forall in *. intros y Y. specialize (V2 y Y). unfold ident_char in V2. unfold word_char.
  apply orb_true_iff in V2 as [Z|Z]; [now rewrite C|]. unfold digit. rewrite Z. now rewrite !orb_true_r.
Qed.
Lemma usable_Lw c : usable c -> Lw c [TWord c].
Proof. intros [U _]. now apply name_Lw. Qed.
Lemma names_text n l : Forall usable l -> mapM (fun j => dispatch (S n) j max_prec) (map JStr l) = Ok l.
Proof. induction 1 as [|c l C F IH]; [reflexivity|]. cbn [map mapM]. rewrite name_text by exact C. now rewrite IH. Qed.
Lemma names_Lw l : Forall usable l -> Lw (join (u ", ") l) (ntoks l).
Proof. intros F. apply Lw_commas. induction F as [|c l C F IH]; constructor; [now apply usable_Lw|exact IH]. Qed.
Lemma usable_nonempty c : usable c -> c <> [].
Proof. intros [[V _] _] ->. discriminate V. Qed.

(** ** The parts of a statement *)
Lemma items_text n sel i : ti sel i -> exists s, disp_list (dispatch (S (S (S n)))) (listwrap sel) max_prec = Ok s /\ Lw s (itoks i).
Proof.
  intros [c C|l NE F| |mx c C].
  - exists c. split; [|now apply usable_Lw]. change (disp_list (dispatch (S (S (S n)))) (listwrap (val (JStr c))) max_prec) with
      (do ps <- (do y <- (do s <- dispatch (S (S n)) (JStr c) max_prec; Ok s); Ok [y]); Ok (join (u ", ") ps)). now rewrite name_text.
  - exists (join (u ", ") l). split; [|now apply names_Lw]. unfold disp_list. cbn [listwrap]. now rewrite names_text.
  - exists (u "COUNT(*)"). split; [reflexivity|]. intros rest ts' S H. cbn [u app itoks].
    eapply Lx_tok; [reflexivity|reflexivity|cbn; lia|]. do 3 (eapply Lx_tok; [reflexivity|destruct rest; reflexivity|cbn; lia|]). exact H.
  - exists ((if mx then u "MAX" else u "MIN") ++ paren c). split.
    + assert (X : forall f, In f [u "max"; u "min"] -> disp_list (dispatch (S (S (S n)))) (listwrap (val (JDict [(f, JStr c)]))) max_prec = Ok (CreateModel.upper f ++ paren c)).
      { intros f [<-|[<-|[]]].
        - change (disp_list (dispatch (S (S (S n)))) (listwrap (val (JDict [(u "max", JStr c)]))) max_prec) with
            (do ps <- (do y <- (do s <- (do ps <- (do ps <- (do y <- dispatch (S n) (JStr c) max_prec; Ok [y]); Ok (join (u ", ") ps)); Ok (CreateModel.upper (u "max") ++ paren ps)); Ok s); Ok [y]); Ok (join (u ", ") ps)).
          now rewrite name_text.
        - change (disp_list (dispatch (S (S (S n)))) (listwrap (val (JDict [(u "min", JStr c)]))) max_prec) with
            (do ps <- (do y <- (do s <- (do ps <- (do ps <- (do y <- dispatch (S n) (JStr c) max_prec; Ok [y]); Ok (join (u ", ") ps)); Ok (CreateModel.upper (u "min") ++ paren ps)); Ok s); Ok [y]); Ok (join (u ", ") ps)).
          now rewrite name_text. }
      destruct mx; apply X; [now left|now right; left].
    + change (itoks (IExtreme mx c)) with ([TWord (if mx then u "MAX" else u "MIN")] ++ wrap false [TWord c]).
      apply Lw_app; [destruct mx; now apply Lw_word| |reflexivity]. apply Lf_Lw, (Lf_wrap bs true false off). now apply usable_Lw.
Qed.
Lemma where_text n j q : tw bs alnum (Some j) q -> (jdepth j < n)%nat -> exists s, dispatch n j max_prec = Ok s /\ Lw (u "WHERE " ++ s) (wtoks alnum q).
Proof.
  intros X L. inversion X as [|j0 t T C CL G _]; subst. exists (show alnum true t max_prec). split.
  - apply show_ok; [exact L|cbv; split; congruence|exact T].
  - apply (Lw_W 87%N (u "HERE")); [reflexivity|reflexivity|]. apply cond_show; try assumption. now apply (tree_wf (S (jdepth j)) j t); [lia|].
Qed.
Lemma lstrip_start c w : is_space c = false -> lstrip (c :: w) = c :: w.
Proof. intros H. cbn [lstrip]. now rewrite H. Qed.
Lemma strip_ends s : s <> [] -> (forall c, In c s -> is_space c = false) -> strip (s ++ u " ") = s.
Proof.
  intros NE H. unfold strip. destruct s as [|c w]; [congruence|]. change ((c :: w) ++ u " ") with (c :: (w ++ u " ")). rewrite lstrip_start by (apply H; now left).
  change (c :: w ++ u " ") with ((c :: w) ++ u " "). rewrite rev_app_distr. change (rev (u " ") ++ rev (c :: w)) with (32%N :: rev (c :: w)).
  change (lstrip (32%N :: rev (c :: w))) with (lstrip (rev (c :: w))).
  assert (R : forall x, In x (rev (c :: w)) -> is_space x = false) by (intros x X; apply H; now apply in_rev).
  destruct (rev (c :: w)) as [|x r] eqn:E; [apply (f_equal (@length N)) in E; rewrite rev_length in E; discriminate|].
  rewrite lstrip_start by (apply R; now left). rewrite <- E. apply rev_involutive.
Qed.
Lemma strip_desc s : s <> [] -> (forall c, In c s -> is_space c = false) -> strip (s ++ u " DESC") = s ++ u " DESC".
Proof.
  intros NE H. unfold strip. destruct s as [|c w]; [congruence|]. change ((c :: w) ++ u " DESC") with (c :: (w ++ u " DESC")). rewrite lstrip_start by (apply H; now left).
  change (c :: w ++ u " DESC") with ((c :: w) ++ u " DESC"). rewrite rev_app_distr. change (lstrip (rev (u " DESC") ++ rev (c :: w))) with (rev (u " DESC") ++ rev (c :: w)).
  rewrite rev_app_distr, !rev_involutive. reflexivity.
Qed.
Lemma ident_space c : ident_char c = true -> is_space c = false.
Proof. unfold ident_char, ident_start, is_space. lia. Qed.
Lemma order_text n d j oq : tord (Some j) oq -> exists s, fmt_orderby (dispatch (S n)) d j = Ok s /\ s <> [] /\ Lw s (otoks oq).
Proof.
  intros X. inversion X as [|[c ds] U]; subst. cbn [fst] in U.
  assert (SP : forall x, In x c -> is_space x = false).
  { destruct U as [[V _] _]. intros x I0. apply ident_space. eapply ident_In; eassumption. }
  pose proof (usable_nonempty c U) as NE.
  assert (KW : forall s t, Lw s t -> Lw (u "ORDER BY " ++ s) (W "ORDER" :: W "BY" :: t)).
  { intros s t H. change (u "ORDER BY " ++ s) with (u "ORDER" ++ u " " ++ (u "BY" ++ u " " ++ s)). apply Lw_W; [reflexivity..|]. now apply Lw_W. }
  exists (u "ORDER BY " ++ (if ds then c ++ u " DESC" else c)). split; [|split].
  - assert (E : fmt_orderby (dispatch (S n)) d (order_json (c, ds)) =
      do ps <- (do y <- (do t <- dispatch (S n) (JStr c) (prec_of (u "order")); Ok (strip (t ++ u " " ++ (if ds then u "DESC" else [])))); Ok [y]); Ok (u "ORDER BY " ++ join (u ", ") ps))
      by (destruct ds; reflexivity).
    rewrite E, name_text by exact U. cbn [bind join]. destruct ds.
    + change (u " " ++ u "DESC") with (u " DESC"). now rewrite strip_desc.
    + rewrite app_nil_r. now rewrite strip_ends.
  - discriminate.
  - cbn [otoks]. apply KW. destruct ds.
    + change (c ++ u " DESC") with (c ++ u " " ++ u "DESC"). change (TWord c :: [W "DESC"]) with ([TWord c] ++ [W "DESC"]). apply Lw_sp; [now apply usable_Lw|now apply Lw_word].
    + now apply usable_Lw.
Qed.
Lemma count_text n m p : dispatch (S n) (count_json m) p = Ok (str_int (Z.of_N m)).
Proof. reflexivity. Qed.
Lemma count_Lw m : Lw (str_int (Z.of_N m)) [num_tok m].
Proof. apply (Lw_int bs true false off). lia. Qed.

(** The word that the text of a statement begins with. *)
Definition starts (s : pystr) : Prop := exists w r, s = u w ++ r /\ In w ["SELECT "; "INSERT "; "UPDATE "; "DELETE "]%string.
Lemma join_head sep (x : pystr) l : exists r, join sep (x :: l) = x ++ r.
Proof. destruct l as [|y l]; [exists []; cbn [join]; now rewrite app_nil_r|]. now exists (sep ++ join sep (y :: l)). Qed.
Lemma starts_join w r l : In w ["SELECT "; "INSERT "; "UPDATE "; "DELETE "]%string -> starts (join (u " ") ((u w ++ r) :: l)).
Proof. intros I0. destruct (join_head (u " ") (u w ++ r) l) as [r' X]. exists w, (r ++ r'). split; [|exact I0]. etransitivity; [exact X|]. symmetry. apply app_assoc. Qed.

(** ** The loop over the clauses *)
Lemma clauses_none disp k r d : dget d k = None -> clauses disp (k :: r) d = clauses disp r d.
Proof. intros H. unfold clauses. cbn [mapM]. rewrite H. cbn [bind]. destruct (mapM _ r); reflexivity. Qed.
Lemma clauses_some disp k r d v s : dget d k = Some v -> clause disp k d v = Ok s -> s <> [] -> clauses disp (k :: r) d = do ps <- clauses disp r d; Ok (s :: ps).
Proof.
  intros H C N0. unfold clauses. cbn [mapM]. rewrite H, C. cbn [bind]. destruct (mapM _ r); [|reflexivity]. cbn [bind concat app filter]. destruct s; [congruence|reflexivity].
Qed.
Lemma clauses_end disp d : clauses disp [] d = Ok [].
Proof. reflexivity. Qed.
Ltac cnone := rewrite clauses_none by reflexivity.
Ltac csome s := rewrite (clauses_some _ _ _ _ _ s); [|reflexivity| |discriminate].

Lemma from_text n d t : usable t -> clause (dispatch (S n)) (u "from") d (JStr t) = Ok (u "FROM " ++ t).
Proof.
  intros U. change (clause (dispatch (S n)) (u "from") d (JStr t)) with
    (do ps <- (do y <- (do s <- dispatch (S n) (JStr t) (prec_of (u "from") - 4); Ok (false, s)); Ok [y]); Ok (u "FROM " ++ join (if existsb fst ps then u " " else u ", ") (map snd ps))).
  rewrite name_text by exact U. reflexivity.
Qed.

(** SELECT, FROM and WHERE. *)
Definition wclause (w : option json) (o l k : option json) : list (pystr * json) := opt "where" w ++ opt "orderby" o ++ opt "limit" l ++ opt "offset" k.
Lemma unordered_text n t sel i w q o l k : usable t -> ti sel i -> tw bs alnum w q ->
  (match w with Some j => (jdepth j < S (S (S n)))%nat | None => True end) ->
  exists ps tss, clauses (dispatch (S (S (S n)))) unordered_clauses ([(u "select", sel); (u "from", JStr t)] ++ wclause w o l k) = Ok ps /\
    Forall2 Lw ps tss /\ concat tss = W "SELECT" :: itoks i ++ W "FROM" :: TWord t :: wtoks alnum q /\ exists r, join (u " ") ps = u "SELECT " ++ r.
Proof.
  intros U HI HW LW. destruct (items_text n sel i HI) as (s1 & S1 & L1).
  pose proof (from_text (S (S n)) ([(u "select", sel); (u "from", JStr t)] ++ wclause w o l k) t U) as S2.
  assert (L1' : Lw (u "SELECT " ++ s1) (W "SELECT" :: itoks i)) by now apply (Lw_W 83%N (u "ELECT")).
  assert (L2 : Lw (u "FROM " ++ t) (W "FROM" :: [TWord t])) by (apply (Lw_W 70%N (u "ROM")); [reflexivity..|now apply usable_Lw]).
  assert (C1 : clause (dispatch (S (S (S n)))) (u "select") ([(u "select", sel); (u "from", JStr t)] ++ wclause w o l k) sel = Ok (u "SELECT " ++ s1)).
  { assert (X : clause (dispatch (S (S (S n)))) (u "select") ([(u "select", sel); (u "from", JStr t)] ++ wclause w o l k) sel =
      do s <- disp_list (dispatch (S (S (S n)))) (listwrap sel) max_prec; Ok (u "SELECT " ++ s)) by (destruct w, o, l, k; reflexivity).
    rewrite X, S1. reflexivity. }
  destruct w as [j|].
  - destruct (where_text (S (S (S n))) j q HW LW) as (s3 & S3 & L3).
    assert (C3 : clause (dispatch (S (S (S n)))) (u "where") ([(u "select", sel); (u "from", JStr t)] ++ wclause (Some j) o l k) j = Ok (u "WHERE " ++ s3)).
    { change (clause (dispatch (S (S (S n)))) (u "where") ([(u "select", sel); (u "from", JStr t)] ++ wclause (Some j) o l k) j) with (do s <- dispatch (S (S (S n))) j max_prec; Ok (u "WHERE " ++ s)).
      now rewrite S3. }
    exists [u "SELECT " ++ s1; u "FROM " ++ t; u "WHERE " ++ s3], [W "SELECT" :: itoks i; [W "FROM"; TWord t]; wtoks alnum q].
    split; [|split; [repeat constructor; assumption|split; [|eexists; cbn [join]; rewrite <- app_assoc; reflexivity]]].
    + unfold unordered_clauses. cbn [map]. do 3 (rewrite clauses_none by (destruct o, l, k; reflexivity)). rewrite (fun H => clauses_some _ _ _ _ _ _ H C1) by (reflexivity || discriminate).
      do 3 (rewrite clauses_none by (destruct o, l, k; reflexivity)). rewrite (fun H => clauses_some _ _ _ _ _ _ H S2) by (reflexivity || discriminate).
      rewrite (fun H => clauses_some _ _ _ _ _ _ H C3) by (reflexivity || discriminate). destruct o, l, k; reflexivity.
    + cbn [concat]. rewrite app_nil_r. reflexivity.
  - inversion HW; subst. exists [u "SELECT " ++ s1; u "FROM " ++ t], [W "SELECT" :: itoks i; [W "FROM"; TWord t]].
    split; [|split; [repeat constructor; assumption|split; [|eexists; cbn [join]; rewrite <- app_assoc; reflexivity]]].
    + unfold unordered_clauses. cbn [map]. do 3 (rewrite clauses_none by (destruct o, l, k; reflexivity)). rewrite (fun H => clauses_some _ _ _ _ _ _ H C1) by (reflexivity || discriminate).
      do 3 (rewrite clauses_none by (destruct o, l, k; reflexivity)). rewrite (fun H => clauses_some _ _ _ _ _ _ H S2) by (reflexivity || discriminate).
      destruct o, l, k; reflexivity.
    + cbn [concat]. rewrite app_nil_r. reflexivity.
Qed.
Lemma ordered_text n d o oq lim : tord o oq -> dget d (u "orderby") = o -> dget d (u "limit") = lim_json lim -> dget d (u "offset") = off_json lim -> dget d (u "fetch") = None ->
  exists ps tss, clauses (dispatch (S n)) ordered_clauses d = Ok ps /\ Forall2 Lw ps tss /\ concat tss = otoks oq ++ ltoks lim.
Proof.
  intros HO D1 D2 D3 D4.
  assert (LT : exists ps tss, clauses (dispatch (S n)) [u "limit"; u "offset"; u "fetch"] d = Ok ps /\ Forall2 Lw ps tss /\ concat tss = ltoks lim).
  { assert (LL : forall m, Lw (u "LIMIT " ++ str_int (Z.of_N m)) [W "LIMIT"; num_tok m]) by (intros m; apply (Lw_W 76%N (u "IMIT")); [reflexivity..|apply count_Lw]).
    assert (LO : forall m, Lw (u "OFFSET " ++ str_int (Z.of_N m)) [W "OFFSET"; num_tok m]) by (intros m; apply (Lw_W 79%N (u "FFSET")); [reflexivity..|apply count_Lw]).
    assert (CL : forall m, clause (dispatch (S n)) (u "limit") d (count_json m) = Ok (u "LIMIT " ++ str_int (Z.of_N m))) by reflexivity.
    assert (CO : forall m, clause (dispatch (S n)) (u "offset") d (count_json m) = Ok (u "OFFSET " ++ str_int (Z.of_N m))) by reflexivity.
    destruct lim as [[m [k|]]|]; cbn [lim_json off_json option_map fst] in D2, D3.
    - exists [u "LIMIT " ++ str_int (Z.of_N m); u "OFFSET " ++ str_int (Z.of_N k)], [[W "LIMIT"; num_tok m]; [W "OFFSET"; num_tok k]].
      split; [|split; [repeat constructor; auto|reflexivity]]. rewrite (clauses_some _ _ _ _ _ _ D2 (CL m)), (clauses_some _ _ _ _ _ _ D3 (CO k)), clauses_none by (discriminate || exact D4). reflexivity.
    - exists [u "LIMIT " ++ str_int (Z.of_N m)], [[W "LIMIT"; num_tok m]].
      split; [|split; [repeat constructor; auto|reflexivity]]. rewrite (clauses_some _ _ _ _ _ _ D2 (CL m)) by discriminate. rewrite clauses_none, clauses_none by assumption. reflexivity.
    - exists [], []. split; [|split; [constructor|reflexivity]]. now rewrite !clauses_none. }
  destruct LT as (ps & tss & E1 & E2 & E3). unfold ordered_clauses. cbn [map].
  destruct o as [j|].
  - destruct (order_text n d j oq HO) as (s & S1 & S2 & S3). exists (s :: ps), (otoks oq :: tss).
    rewrite (clauses_some _ (u "orderby") _ d j s D1 S1 S2), E1. split; [reflexivity|]. split; [now constructor|]. cbn [concat]. now rewrite E3.
  - inversion HO; subst oq. exists ps, tss. rewrite clauses_none by exact D1. now repeat split.
Qed.

Lemma select_text n t sel i w q o oq lim : usable t -> ti sel i -> tw bs alnum w q -> tord o oq ->
  (match w with Some j => (jdepth j < S (S (S n)))%nat | None => True end) ->
  exists s, dispatch (S (S (S (S n)))) (select_stmt t sel w o (lim_json lim) (off_json lim)) max_prec = Ok s /\
    Lw s (cmd_toks alnum (Select i t q oq lim)) /\ starts s.
Proof.
  intros U HI HW HO LW. set (N := S (S (S n))) in *.
  set (d := [(u "select", sel); (u "from", JStr t)] ++ wclause w o (lim_json lim) (off_json lim)).
  destruct (unordered_text n t sel i w q o (lim_json lim) (off_json lim) U HI HW LW) as (ps & tss & P1 & P2 & P3 & rr & P4). fold N d in P1.
  destruct (ordered_text (S (S n)) d o oq lim HO) as (ps' & tss' & Q1 & Q2 & Q3);
    [unfold d, wclause; destruct w, o, lim as [[? [?|]]|]; reflexivity..|]. fold N in Q1.
  change (select_stmt t sel w o (lim_json lim) (off_json lim)) with (JDict d).
  assert (TK : cmd_toks alnum (Select i t q oq lim) = concat tss ++ concat tss') by (rewrite P3, Q3; cbn [cmd_toks app]; rewrite <- app_assoc; reflexivity).
  rewrite TK.
  destruct o as [jo|].
  - exists (join (u " ") (join (u " ") ps :: ps')). split.
    + assert (X : dispatch (S N) (JDict d) max_prec =
        do s <- (do ps <- clauses (dispatch N) unordered_clauses d; Ok (paren_if (prec_of (u "from") <=? prec_of (u "order")) (join (u " ") ps)));
        do ps <- clauses (dispatch N) ordered_clauses d; Ok (paren_if (prec_of (u "order") <=? max_prec) (join (u " ") (s :: ps)))).
      { unfold d, wclause; destruct w, lim as [[? [?|]]|]; reflexivity. }
      rewrite X, P1, Q1. reflexivity.
    + split; [|rewrite P4; apply starts_join; cbn; tauto]. apply (Lw_spaces (join (u " ") ps :: ps') (concat tss :: tss')). constructor; [now apply Lw_spaces|exact Q2].
  - destruct lim as [[m k]|].
    + exists (join (u " ") (join (u " ") ps :: ps')). split.
      * assert (X : dispatch (S N) (JDict d) max_prec =
          do s <- (do ps <- clauses (dispatch N) unordered_clauses d; Ok (paren_if (prec_of (u "from") <=? prec_of (u "order")) (join (u " ") ps)));
          do ps <- clauses (dispatch N) ordered_clauses d; Ok (paren_if (prec_of (u "order") <=? max_prec) (join (u " ") (s :: ps)))).
        { unfold d, wclause; destruct w, k; reflexivity. }
        rewrite X, P1, Q1. reflexivity.
      * split; [|rewrite P4; apply starts_join; cbn; tauto]. apply (Lw_spaces (join (u " ") ps :: ps') (concat tss :: tss')). constructor; [now apply Lw_spaces|exact Q2].
    + inversion HO; subst oq. cbn [otoks ltoks app] in Q3. rewrite Q3, app_nil_r. exists (join (u " ") ps).
      split; [|split; [now apply Lw_spaces|rewrite P4; eexists _, _; split; [reflexivity|cbn; tauto]]].
      assert (X : dispatch (S N) (JDict d) max_prec =
        do ps <- clauses (dispatch N) unordered_clauses d; Ok (paren_if (prec_of (u "from") <=? max_prec) (join (u " ") ps))).
      { unfold d, wclause; destruct w; reflexivity. }
      rewrite X, P1. reflexivity.
Qed.

(** DELETE and UPDATE. *)
Lemma delete_text n t w q : usable t -> tw bs alnum w q -> (match w with Some j => (jdepth j < S n)%nat | None => True end) ->
  exists s, dispatch (S (S n)) (delete_stmt t w) max_prec = Ok s /\ Lw s (cmd_toks alnum (Delete t q)) /\ starts s.
Proof.
  intros U HW LW. assert (L1 : Lw (u "DELETE FROM " ++ t) [W "DELETE"; W "FROM"; TWord t]).
  { change (u "DELETE FROM " ++ t) with (u "DELETE" ++ u " " ++ (u "FROM" ++ u " " ++ t)). apply Lw_W; [reflexivity..|]. apply Lw_W; [reflexivity..|now apply usable_Lw]. }
  destruct w as [j|].
  - destruct (where_text (S n) j q HW LW) as (s & S1 & L2). exists (join (u " ") [u "DELETE FROM " ++ t; u "WHERE " ++ s]). split.
    + change (dispatch (S (S n)) (delete_stmt t (Some j)) max_prec) with
        (do ps <- clauses (dispatch (S n)) unordered_clauses [(u "delete", JStr t); (u "where", j)]; Ok (paren_if (prec_of (u "from") <=? max_prec) (join (u " ") ps))).
      unfold unordered_clauses. cbn [map]. do 4 (rewrite clauses_none by reflexivity).
      rewrite (clauses_some _ _ _ _ (JStr t) (u "DELETE FROM " ++ t)) by (reflexivity || discriminate). do 3 (rewrite clauses_none by reflexivity).
      rewrite (clauses_some _ _ _ _ j (u "WHERE " ++ s)); [|reflexivity| |discriminate].
      * do 2 (rewrite clauses_none by reflexivity). reflexivity.
      * change (clause (dispatch (S n)) (u "where") [(u "delete", JStr t); (u "where", j)] j) with (do s <- dispatch (S n) j max_prec; Ok (u "WHERE " ++ s)). now rewrite S1.
    + split; [|exact (starts_join "DELETE " (u "FROM " ++ t) _ (or_intror (or_intror (or_intror (or_introl eq_refl)))))]. replace (cmd_toks alnum (Delete t q)) with (concat [[W "DELETE"; W "FROM"; TWord t]; wtoks alnum q]) by (cbn [concat]; now rewrite app_nil_r).
      apply Lw_spaces. repeat constructor; assumption.
  - inversion HW; subst. exists (u "DELETE FROM " ++ t). split; [reflexivity|]. split; [exact L1|]. exists "DELETE "%string, (u "FROM " ++ t). split; [reflexivity|cbn; tauto].
Qed.
Lemma sets_text n a b : (forall x, In x (dkeys a) -> usable x) -> wcs bs a b ->
  exists ss, mapM (fun kv => do x <- dispatch (S (S n)) (JStr (fst kv)) max_prec; do y <- dispatch (S (S n)) (snd kv) max_prec; Ok (x ++ u " = " ++ y)) a = Ok ss /\
    Lw (join (u ", ") ss) (stoks b).
Proof.
  intros HU HV. assert (G : exists ss, mapM (fun kv => do x <- dispatch (S (S n)) (JStr (fst kv)) max_prec; do y <- dispatch (S (S n)) (snd kv) max_prec; Ok (x ++ u " = " ++ y)) a = Ok ss /\
    Forall2 Lw ss (map (fun x => TWord (fst x) :: TSym (u "=") :: ctoks (snd x)) b)).
  { induction HV as [|[c j] [c' k] a b [E V] F IH]; [exists []; split; [reflexivity|constructor]|]. cbn [fst snd] in E, V. subst c'.
    destruct IH as (ss & S1 & S2); [intros x X; apply HU; now right|]. assert (U : usable c) by (apply HU; now left).
    destruct (wc_text bs alnum HA fstr n j k V) as (s & T1 & T2). exists ((c ++ u " = " ++ s) :: ss). split.
    - cbn [mapM fst snd]. rewrite name_text by exact U. cbn [bind]. rewrite T1. cbn [bind]. rewrite S1. reflexivity.
    - constructor; [|exact S2]. cbn [fst snd]. change (c ++ u " = " ++ s) with (c ++ u " " ++ (u "=" ++ u " " ++ s)).
      change (TWord c :: TSym (u "=") :: ctoks k) with ([TWord c] ++ [TSym (u "=")] ++ ctoks k). apply Lw_sp; [now apply usable_Lw|].
      intros rest ts' SS H. cbn [u app]. eapply Lx_tok; [reflexivity|reflexivity|cbn; lia|]. apply Lx_space; [reflexivity|]. now apply T2. }
  destruct G as (ss & S1 & S2). exists ss. split; [exact S1|]. now apply Lw_commas.
Qed.
Lemma update_text n t a b w q : usable t -> (forall x, In x (dkeys a) -> usable x) -> wcs bs a b -> tw bs alnum w q -> (match w with Some j => (jdepth j < S (S n))%nat | None => True end) ->
  exists s, dispatch (S (S (S n))) (update_stmt t a w) max_prec = Ok s /\ Lw s (cmd_toks alnum (Update t b q)) /\ starts s.
Proof.
  intros U HU HV HW LW. assert (L1 : Lw (u "UPDATE " ++ t) [W "UPDATE"; TWord t]) by (apply (Lw_W 85%N (u "PDATE")); [reflexivity..|now apply usable_Lw]).
  destruct (sets_text n a b HU HV) as (ss & S1 & S2).
  assert (L2 : Lw (u "SET " ++ join (u ", ") ss) (W "SET" :: stoks b)) by now apply (Lw_W 83%N (u "ET")).
  assert (C2 : forall d, clause (dispatch (S (S n))) (u "set") d (JDict a) = Ok (u "SET " ++ join (u ", ") ss)).
  { intros d. change (clause (dispatch (S (S n))) (u "set") d (JDict a)) with
      (do ps <- mapM (fun kv => do x <- dispatch (S (S n)) (JStr (fst kv)) max_prec; do y <- dispatch (S (S n)) (snd kv) max_prec; Ok (x ++ u " = " ++ y)) a; Ok (u "SET " ++ join (u ", ") ps)).
    now rewrite S1. }
  destruct w as [j|].
  - destruct (where_text (S (S n)) j q HW LW) as (s & S3 & L3). exists (join (u " ") [u "UPDATE " ++ t; u "SET " ++ join (u ", ") ss; u "WHERE " ++ s]). split.
    + change (dispatch (S (S (S n))) (update_stmt t a (Some j)) max_prec) with
        (do ps <- clauses (dispatch (S (S n))) unordered_clauses [(u "update", JStr t); (u "set", JDict a); (u "where", j)]; Ok (paren_if (prec_of (u "from") <=? max_prec) (join (u " ") ps))).
      unfold unordered_clauses. cbn [map]. do 5 (rewrite clauses_none by reflexivity).
      rewrite (clauses_some _ _ _ _ (JStr t) (u "UPDATE " ++ t)) by (reflexivity || discriminate).
      rewrite (fun H => clauses_some _ _ _ _ _ _ H (C2 _)) by (reflexivity || discriminate). rewrite clauses_none by reflexivity.
      rewrite (clauses_some _ _ _ _ j (u "WHERE " ++ s)); [|reflexivity| |discriminate].
      * do 2 (rewrite clauses_none by reflexivity). reflexivity.
      * match goal with |- clause _ _ ?d _ = _ => change (clause (dispatch (S (S n))) (u "where") d j) with (do s <- dispatch (S (S n)) j max_prec; Ok (u "WHERE " ++ s)) end. now rewrite S3.
    + split; [|exact (starts_join "UPDATE " t _ (or_intror (or_intror (or_introl eq_refl))))]. replace (cmd_toks alnum (Update t b q)) with (concat [[W "UPDATE"; TWord t]; W "SET" :: stoks b; wtoks alnum q]) by (cbn [concat]; now rewrite app_nil_r).
      apply Lw_spaces. repeat constructor; assumption.
  - inversion HW; subst. exists (join (u " ") [u "UPDATE " ++ t; u "SET " ++ join (u ", ") ss]). split.
    + change (dispatch (S (S (S n))) (update_stmt t a None) max_prec) with
        (do ps <- clauses (dispatch (S (S n))) unordered_clauses [(u "update", JStr t); (u "set", JDict a)]; Ok (paren_if (prec_of (u "from") <=? max_prec) (join (u " ") ps))).
      unfold unordered_clauses. cbn [map]. do 5 (rewrite clauses_none by reflexivity).
      rewrite (clauses_some _ _ _ _ (JStr t) (u "UPDATE " ++ t)) by (reflexivity || discriminate).
      rewrite (fun H => clauses_some _ _ _ _ _ _ H (C2 _)) by (reflexivity || discriminate). do 4 (rewrite clauses_none by reflexivity). reflexivity.
    + split; [|exact (starts_join "UPDATE " t _ (or_intror (or_intror (or_introl eq_refl))))]. replace (cmd_toks alnum (Update t b None)) with (concat [[W "UPDATE"; TWord t]; W "SET" :: stoks b]) by (cbn [cmd_toks wtoks concat app]; now rewrite app_nil_r).
      apply Lw_spaces. repeat constructor; assumption.
Qed.

(** INSERT. *)
Lemma values_text js ks : wls bs js ks -> exists ss, mapM (fun v => do x <- getitem v (u "value"); literal fstr x) js = Ok ss /\ Lw (join (u ", ") ss) (ktoks ks) /\ forallb is_dict js = true.
Proof.
  intros HV. assert (G : exists ss, mapM (fun v => do x <- getitem v (u "value"); literal fstr x) js = Ok ss /\ Forall2 Lw ss (map ctoks ks) /\ forallb is_dict js = true).
  { induction HV as [|j k js ks (x & -> & X) F IH]; [exists []; repeat split; constructor|]. destruct IH as (ss & S1 & S2 & S3).
    destruct (wl_text bs fstr x k X) as (s & T1 & T2). exists (s :: ss). split; [|split].
    - cbn [mapM]. change (getitem (val x) (u "value")) with (Ok x). cbn [bind]. now rewrite T1, S1.
    - now constructor.
    - exact S3. }
  destruct G as (ss & S1 & S2 & S3). exists ss. split; [exact S1|]. split; [now apply Lw_commas|exact S3].
Qed.
Lemma insert_text n t cs js ks : usable t -> Forall usable cs -> wls bs js ks ->
  exists s, dispatch (S (S n)) (JDict [(u "insert", JStr t); (u "columns", JList (map JStr cs)); (u "query", JDict [(u "select", JList js)])]) max_prec = Ok s /\
    Lw s (cmd_toks alnum (Insert t cs ks)) /\ starts s.
Proof.
  intros U UC HV. destruct (values_text js ks HV) as (ss & S1 & S2 & S3).
  exists (join (u " ") [u "INSERT"; u "INTO"; t; paren (join (u ", ") cs); u "VALUES"; paren (join (u ", ") ss)]). split.
  - change (dispatch (S (S n)) (JDict [(u "insert", JStr t); (u "columns", JList (map JStr cs)); (u "query", JDict [(u "select", JList js)])]) max_prec) with
      (do cols <- (do s <- (do s <- (do ps <- mapM (fun j => dispatch (S n) j max_prec) (map JStr cs); Ok (join (u ", ") ps)); Ok (paren s)); Ok [s]);
       do rest <- (if forallb is_dict js then do cells <- mapM (fun v => do x <- getitem v (u "value"); literal fstr x) js; Ok ([] ++ [u "VALUES"; paren (join (u ", ") cells)]) else Ok []);
       Ok (join (u " ") ([u "INSERT"; u "INTO"; t] ++ cols ++ rest))).
    rewrite names_text by exact UC. cbn [bind]. rewrite S3, S1. reflexivity.
  - split; [|exists "INSERT "%string; eexists; split; [reflexivity|cbn; tauto]]. assert (TK : cmd_toks alnum (Insert t cs ks) = concat [[W "INSERT"]; [W "INTO"]; [TWord t]; wrap false (ntoks cs); [W "VALUES"]; wrap false (ktoks ks)]).
    { cbn [cmd_toks concat wrap]. rewrite app_nil_r. cbn [app]. rewrite <- app_assoc. reflexivity. }
    rewrite TK. apply Lw_spaces. repeat constructor; try (now apply Lw_word); [now apply usable_Lw| |]; apply Lf_Lw, (Lf_wrap bs true false off); [now apply names_Lw|exact S2].
Qed.

(** One column of which nothing is known but its shape. *)
Lemma column_text c t : colname kw c -> usable t ->
  format_sql alnum fstr (select_stmt t (val (JStr c)) None None None None) = Ok (u "SELECT " ++ c ++ u " FROM " ++ t) /\
  lex bs true (u "SELECT " ++ c ++ u " FROM " ++ t) = Some [W "SELECT"; TWord c; W "FROM"; TWord t].
Proof.
  intros C U. split.
  - change (format_sql alnum fstr (select_stmt t (val (JStr c)) None None None None)) with
      (do ps <- clauses (dispatch 6) unordered_clauses [(u "select", val (JStr c)); (u "from", JStr t)]; Ok (paren_if (prec_of (u "from") <=? max_prec) (join (u " ") ps))).
    unfold unordered_clauses. cbn [map]. do 3 (rewrite clauses_none by reflexivity).
    rewrite (clauses_some _ _ _ _ (val (JStr c)) (u "SELECT " ++ c)); [|reflexivity| |discriminate].
    + do 3 (rewrite clauses_none by reflexivity). rewrite (fun H => clauses_some _ _ _ _ _ _ H (from_text 5 _ t U)) by (reflexivity || discriminate).
      do 3 (rewrite clauses_none by reflexivity). cbn [bind]. change (clauses (dispatch 6) [] [(u "select", val (JStr c)); (u "from", JStr t)]) with (@Ok (list pystr) []).
      cbn [bind join]. unfold paren_if. change (prec_of (u "from") <=? max_prec) with true. cbv iota.
      now rewrite <- app_assoc.
    + change (clause (dispatch 6) (u "select") [(u "select", val (JStr c)); (u "from", JStr t)] (val (JStr c))) with
        (do s <- (do ps <- (do y <- (do s <- dispatch 5 (JStr c) max_prec; Ok s); Ok [y]); Ok (join (u ", ") ps)); Ok (u "SELECT " ++ s)).
      now rewrite colname_text.
  - apply Lw_lex. apply (Lw_W 83%N (u "ELECT")); [reflexivity..|]. apply (Lw_sp c [TWord c]); [now apply name_Lw|]. apply (Lw_W 70%N (u "ROM")); [reflexivity..|now apply usable_Lw].
Qed.

Lemma depth_where t sel w o l k : match w with Some j => (jdepth j < jdepth (select_stmt t sel w o l k))%nat | None => True end.
Proof. destruct w as [j|]; [|exact Logic.I]. destruct o, l, k; cbn [select_stmt opt app jdepth map snd fold_right]; lia. Qed.

Lemma txt_says t j q : txt bs alnum t j q -> exists s, format_sql alnum fstr j = Ok s /\ says bs true s q /\ starts s.
Proof.
  intros X. assert (G : exists s, format_sql alnum fstr j = Ok s /\ Lw s (cmd_toks alnum q) /\ starts s).
  { unfold format_sql. destruct X as [t0 sel i w q0 o oq lim U HI HW HO|t0 cs js ks U NE HC NJ HV|t0 a b w q0 U NE HU HV HW|t0 w q0 U HW].
    - pose proof (depth_where t0 sel w o (lim_json lim) (off_json lim)) as D. set (j := select_stmt t0 sel w o (lim_json lim) (off_json lim)) in *.
      assert (P : (1 <= jdepth j)%nat) by (unfold j, select_stmt; cbn [jdepth]; lia).
      replace (jdepth j * 2 + 3)%nat with (S (S (S (S (jdepth j * 2 - 1))))) by lia. apply select_text; try assumption. destruct w; [lia|exact Logic.I].
    - match goal with |- context [(?a * 2 + 3)%nat] => replace (a * 2 + 3)%nat with (S (S (a * 2 + 1))) by lia end. now apply insert_text.
    - assert (D : match w with Some j => (jdepth j < jdepth (update_stmt t0 a w))%nat | None => True end) by (destruct w; [cbn [update_stmt opt app jdepth map snd fold_right]; lia|exact Logic.I]).
      set (j := update_stmt t0 a w) in *. replace (jdepth j * 2 + 3)%nat with (S (S (S (jdepth j * 2)))) by lia. apply update_text; try assumption. destruct w; [lia|exact Logic.I].
    - assert (D : match w with Some j => (jdepth j < jdepth (delete_stmt t0 w))%nat | None => True end) by (destruct w; [cbn [delete_stmt opt app jdepth map snd fold_right]; lia|exact Logic.I]).
      set (j := delete_stmt t0 w) in *. replace (jdepth j * 2 + 3)%nat with (S (S (jdepth j * 2 + 1))) by lia. apply delete_text; try assumption. destruct w; [lia|exact Logic.I]. }
  destruct G as (s & F & L & B). exists s. split; [exact F|]. split; [|exact B]. destruct (reads_cmd bs alnum t j q X) as (n & Hn). exists n. intros k K. unfold read_text. rewrite (Lw_lex bs true _ _ L). now apply Hn.
Qed.
End Texts.
