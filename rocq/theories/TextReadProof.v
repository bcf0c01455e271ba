(** Reading back the tokens of a rewritten statement. *)
From Coq Require Import String Ascii List Arith NArith ZArith QArith Bool Lia ZifyBool ZifyNat ZifyN.
From Verif Require Import Base BaseProof CryptoModel FuzzyModel JsonModel DotsModel RewriteModel LikeSpec SqlSpec EncSpec WhereProof StmtSpec
  SqlLex SqlRead FmtModel FmtSpec FmtLexProof FmtReadProof FmtExprProof FmtNameProof FmtProof ScrubModel OperModel OperSpec EndSpec EndTruthProof EndMaskProof EndLexProof
  TextSpec TextValueProof TextExecProof TextShapeProof.
Import ListNotations.
Open Scope Z_scope.

Definition W (s : string) : token := TWord (u s).
Definition ntoks (l : list pystr) : list token := jtoks (map (fun c => [TWord c]) l).
Definition itoks (i : items) : list token :=
  match i with
  | IAll => [TSym (u "*")]
  | ICols l => ntoks l
  | ICount => [W "COUNT"; TSym SqlRead.LP; TSym (u "*"); TSym RP]
  | IExtreme mx c => [TWord (if mx then u "MAX" else u "MIN"); TSym SqlRead.LP; TWord c; TSym RP]
  end.
Definition wtoks (alnum : N -> bool) (q : option tree) : list token :=
  match q with None => [] | Some t => W "WHERE" :: toks alnum t max_prec end.
Definition otoks (o : option (pystr * bool)) : list token :=
  match o with None => [] | Some (c, d) => W "ORDER" :: W "BY" :: TWord c :: if d : bool then [W "DESC"] else [] end.
Definition num_tok (n : N) : token := TNum (str_int (Z.of_N n)).
Definition ltoks (lim : option (N * option N)) : list token :=
  match lim with
  | None => []
  | Some (n, k) => W "LIMIT" :: num_tok n :: match k with Some k => [W "OFFSET"; num_tok k] | None => [] end
  end.
Definition ktoks (ks : list const) : list token := jtoks (map ctoks ks).
Definition stoks (b : list (pystr * const)) : list token := jtoks (map (fun x => TWord (fst x) :: TSym (u "=") :: ctoks (snd x)) b).
Definition cmd_toks (alnum : N -> bool) (q : cmd tree) : list token :=
  match q with
  | Select i t w o lim => W "SELECT" :: itoks i ++ W "FROM" :: TWord t :: wtoks alnum w ++ otoks o ++ ltoks lim
  | Insert t cs ks => W "INSERT" :: W "INTO" :: TWord t :: TSym SqlRead.LP :: ntoks cs ++ TSym RP :: W "VALUES" :: TSym SqlRead.LP :: ktoks ks ++ [TSym RP]
  | Update t b w => W "UPDATE" :: TWord t :: W "SET" :: stoks b ++ wtoks alnum w
  | Delete t w => W "DELETE" :: W "FROM" :: TWord t :: wtoks alnum w
  end.

(** ** Names *)
Lemma ident_usable c : usable c -> ident (TWord c) = Some c.
Proof.
  intros [[V K] N0]. cbn [ident]. destruct (smem (map low c) stmt_words) eqn:S; [apply smem_In in S; contradiction|].
  cbn [name_tok]. destruct (kw_of c) eqn:Q; [|reflexivity]. apply kw_of_reserved in Q. congruence.
Qed.
Definition no_comma (rest : list token) : Prop := match rest with [] => True | c :: _ => is_sym COMMA c = false end.
Lemma idents_toks l rest : l <> [] -> Forall usable l -> no_comma rest -> idents (ntoks l ++ rest) = Some (l, rest).
Proof.
  intros NE F NC. induction F as [|c l C F IH]; [congruence|]. destruct l as [|c' l].
  - change (ntoks [c] ++ rest) with (TWord c :: rest). cbn [idents]. rewrite ident_usable by exact C. destruct rest as [|x r]; [reflexivity|]. now rewrite NC.
  - change (ntoks (c :: c' :: l) ++ rest) with (TWord c :: TSym COMMA :: ntoks (c' :: l) ++ rest). cbn [idents]. rewrite ident_usable by exact C.
    change (is_sym COMMA (TSym COMMA)) with true. cbv iota. rewrite IH by discriminate. reflexivity.
Qed.
Lemma items_toks sel i t rest : ti sel i -> read_items (itoks i ++ W "FROM" :: TWord t :: rest) = Some (i, W "FROM" :: TWord t :: rest).
Proof.
  assert (G : forall l, l <> [] -> Forall usable l -> read_items (ntoks l ++ W "FROM" :: TWord t :: rest) = Some (ICols l, W "FROM" :: TWord t :: rest)).
  { intros l NE F. pose proof (idents_toks l (W "FROM" :: TWord t :: rest) NE F eq_refl) as ID. destruct l as [|c [|c' [|c2 l]]]; [congruence| | |].
    - change (ntoks [c] ++ W "FROM" :: TWord t :: rest) with (TWord c :: W "FROM" :: TWord t :: rest) in *. cbn [read_items]. destruct rest as [|x r].
      + cbn [is_sym]. now rewrite ID.
      + cbn [is_sym W andb]. now rewrite ID.
    - change (ntoks [c; c'] ++ W "FROM" :: TWord t :: rest) with (TWord c :: TSym COMMA :: TWord c' :: W "FROM" :: TWord t :: rest) in *. cbn [read_items is_sym W andb].
      change (seqb COMMA SqlRead.LP) with false. cbn [andb]. now rewrite ID.
    - change (ntoks (c :: c' :: c2 :: l) ++ W "FROM" :: TWord t :: rest) with (TWord c :: TSym COMMA :: TWord c' :: TSym COMMA :: ntoks (c2 :: l) ++ W "FROM" :: TWord t :: rest) in *.
      cbn [read_items is_sym]. change (seqb COMMA SqlRead.LP) with false. cbn [andb]. now rewrite ID. }
  intros [c C|l NE F| |mx c C].
  - apply G; [discriminate|]. now constructor.
  - now apply G.
  - reflexivity.
  - cbn [itoks app read_items is_sym]. change (seqb SqlRead.LP SqlRead.LP && seqb RP RP) with true. cbv iota. rewrite andb_false_r. rewrite ident_usable by exact C. destruct mx; reflexivity.
Qed.

(** ** Constants *)
Lemma constants_toks ks rest n : ks <> [] -> no_comma rest -> (length ks <= n)%nat -> constants n (ktoks ks ++ rest) = Some (ks, rest).
Proof.
  intros NE NC. revert n. induction ks as [|k ks IH]; [congruence|]. intros [|n] L; cbn [length] in L; [lia|]. cbn [constants]. destruct ks as [|k' ks].
  - change (ktoks [k]) with (ctoks k). rewrite constant_toks. destruct rest as [|x r]; [reflexivity|]. now rewrite NC.
  - assert (E : ktoks (k :: k' :: ks) ++ rest = ctoks k ++ TSym COMMA :: ktoks (k' :: ks) ++ rest).
    { change (ktoks (k :: k' :: ks)) with (ctoks k ++ TSym COMMA :: ktoks (k' :: ks)). now rewrite <- app_assoc. }
    rewrite E, constant_toks. change (is_sym COMMA (TSym COMMA)) with true. cbv iota. rewrite IH; [reflexivity|discriminate|lia].
Qed.
Lemma assignments_toks b rest n : b <> [] -> Forall (fun x => usable (fst x)) b -> no_comma rest -> (length b <= n)%nat -> assignments n (stoks b ++ rest) = Some (b, rest).
Proof.
  intros NE F NC. revert n. induction F as [|[c k] b C F IH]; [congruence|]. intros [|n] L; cbn [length] in L; [lia|]. cbn [fst] in C. destruct b as [|x b].
  - change (stoks [(c, k)] ++ rest) with (TWord c :: TSym (u "=") :: ctoks k ++ rest). cbn [assignments]. rewrite ident_usable, constant_toks by exact C.
    change (is_sym (u "=") (TSym (u "="))) with true. cbv iota. destruct rest as [|y r]; [reflexivity|]. now rewrite NC.
  - assert (E : stoks ((c, k) :: x :: b) ++ rest = TWord c :: TSym (u "=") :: ctoks k ++ TSym COMMA :: stoks (x :: b) ++ rest).
    { change (stoks ((c, k) :: x :: b)) with (TWord c :: TSym (u "=") :: ctoks k ++ TSym COMMA :: stoks (x :: b)). cbn [app]. now rewrite <- app_assoc. }
    rewrite E. cbn [assignments]. rewrite ident_usable, constant_toks by exact C.
    change (is_sym (u "=") (TSym (u "="))) with true. cbv iota. change (is_sym COMMA (TSym COMMA)) with true. cbv iota. rewrite IH; [reflexivity|discriminate|lia].
Qed.

(** ** Clauses *)
Section Clauses.
Variables (bs : bool) (alnum : N -> bool).
Hypothesis HA : ascii_ok alnum.
Lemma where_toks w q rest : tw bs alnum w q -> (forall l, stop mysql_lev l rest) -> match rest with [] => True | x :: _ => is_w "where" x = false end ->
  exists n, forall k, (n <= k)%nat -> read_where k (wtoks alnum q ++ rest) = Some (q, rest).
Proof.
  intros [|j t T C CL G _] ST NW.
  - exists O. intros k _. cbn [wtoks app]. unfold read_where. destruct rest as [|x r]; [reflexivity|]. now rewrite NW.
  - assert (WF : wf t) by (apply (tree_wf (S (jdepth j)) j t); [lia|exact T]).
    destruct (read_tree mysql_lev 14 (proj2 mysql_std) alnum bs (view alnum t)) as [_ Q].
    { now apply view_wf. } { now apply view_good. } { apply condition_ranked; [apply mysql_std|now apply view_condition]. }
    destruct (Q 14%nat rest (view alnum t, rest)) as [N0 HN].
    + apply level_top. apply mysql_std.
    + apply ST.
    + apply loop_stop. apply ST.
    + exists N0. intros k K. cbn [wtoks app]. unfold read_where. change (is_w "where" (W "WHERE")) with true. cbv iota. now rewrite HN.
Qed.
Lemma limit_toks lim : read_limit (ltoks lim) = Some (lim, []).
Proof.
  destruct lim as [[n [k|]]|]; [| |reflexivity]; cbn [ltoks]; unfold num_tok; cbn [read_limit].
  - change (is_w "limit" (W "LIMIT")) with true. change (is_w "offset" (W "OFFSET")) with true. cbv iota. unfold numval. now rewrite !parse_str_int, !N2Z.id.
  - change (is_w "limit" (W "LIMIT")) with true. cbv iota. unfold numval. now rewrite !parse_str_int, !N2Z.id.
Qed.
Lemma order_toks o oq lim : tord o oq -> read_order (otoks oq ++ ltoks lim) = Some (oq, ltoks lim).
Proof.
  intros [|[c d] U].
  - destruct lim as [[n [k|]]|]; reflexivity.
  - cbn [fst] in U. cbn [otoks]. destruct d.
    + change ((W "ORDER" :: W "BY" :: TWord c :: [W "DESC"]) ++ ltoks lim) with (W "ORDER" :: W "BY" :: TWord c :: W "DESC" :: ltoks lim). cbn [read_order].
      change (is_w "order" (W "ORDER") && is_w "by" (W "BY")) with true. cbv iota. rewrite ident_usable by exact U. reflexivity.
    + change ((W "ORDER" :: W "BY" :: TWord c :: []) ++ ltoks lim) with (W "ORDER" :: W "BY" :: TWord c :: ltoks lim). cbn [read_order].
      change (is_w "order" (W "ORDER") && is_w "by" (W "BY")) with true. cbv iota. rewrite ident_usable by exact U. destruct lim as [[n [k|]]|]; reflexivity.
Qed.
Lemma stop_nil lev l : stop lev l [].
Proof. split; exact Logic.I. Qed.
Lemma stop_word lev l s rest : kw_of s = None -> stop lev l (TWord s :: rest).
Proof. intros H. split; [now split|]. cbn [peek]. now rewrite H. Qed.
Lemma tail_stop o oq lim : tord o oq -> (forall l, stop mysql_lev l (otoks oq ++ ltoks lim)) /\ match otoks oq ++ ltoks lim with [] => True | x :: _ => is_w "where" x = false end.
Proof.
  intros [|[c d] U].
  - destruct lim as [[n k]|]; [|split; [intros l; apply stop_nil|exact Logic.I]]. split; [intros l; now apply stop_word|reflexivity].
  - split; [intros l; now apply stop_word|reflexivity].
Qed.
Lemma reads_cmd t j q : txt bs alnum t j q -> exists n, forall k, (n <= k)%nat -> read_cmd k (cmd_toks alnum q) = Some q.
Proof.
  intros [t0 sel i w q0 o oq lim U HI HW HO|t0 cs js ks U NE HC NJ HV|t0 a b w q0 U NE HU HV HW|t0 w q0 U HW].
  - destruct (tail_stop o oq lim HO) as [S1 S2]. destruct (where_toks w q0 (otoks oq ++ ltoks lim) HW S1 S2) as (n & Hn). exists n. intros k K. cbn [cmd_toks read_cmd].
    change (is_w "select" (W "SELECT")) with true. cbv iota. rewrite (items_toks sel i t0 _ HI). change (is_w "from" (W "FROM")) with true. cbv iota.
    rewrite ident_usable by exact U. rewrite Hn by exact K. rewrite (order_toks o oq lim HO). now rewrite limit_toks.
  - exists (length ks). intros k K. cbn [cmd_toks read_cmd]. change (is_w "select" (W "INSERT")) with false. change (is_w "insert" (W "INSERT")) with true. cbv iota.
    change (is_w "into" (W "INTO") && is_sym SqlRead.LP (TSym SqlRead.LP)) with true. cbv iota. rewrite ident_usable by exact U. rewrite (idents_toks cs (TSym RP :: W "VALUES" :: TSym SqlRead.LP :: ktoks ks ++ [TSym RP]) NE HC eq_refl).
    change (is_sym RP (TSym RP) && is_w "values" (W "VALUES") && is_sym SqlRead.LP (TSym SqlRead.LP)) with true. cbv iota.
    rewrite (constants_toks ks [TSym RP] k); [reflexivity| |reflexivity|exact K]. intros ->. inversion HV; subst. now apply NJ.
  - destruct (where_toks w q0 [] HW (stop_nil _) Logic.I) as (n & Hn). exists (n + length b)%nat. intros k K. cbn [cmd_toks read_cmd].
    change (is_w "select" (W "UPDATE")) with false. change (is_w "insert" (W "UPDATE")) with false. change (is_w "update" (W "UPDATE")) with true. cbv iota.
    change (is_w "set" (W "SET")) with true. cbv iota. rewrite ident_usable by exact U. rewrite (assignments_toks b (wtoks alnum q0) k).
    + pose proof (Hn k) as X. rewrite app_nil_r in X. rewrite X by lia. reflexivity.
    + intros ->. inversion HV; subst. now apply NE.
    + clear NE. induction HV as [|[c j0] [c' k0] a0 b0 [E V] F IH]; constructor.
      * cbn [fst] in *. subst c'. apply HU. now left.
      * apply IH; [|cbn [length] in K; lia]. intros x X. apply HU. now right.
    + destruct q0; reflexivity.
    + lia.
  - destruct (where_toks w q0 [] HW (stop_nil _) Logic.I) as (n & Hn). exists n. intros k K. cbn [cmd_toks read_cmd].
    change (is_w "select" (W "DELETE")) with false. change (is_w "insert" (W "DELETE")) with false. change (is_w "update" (W "DELETE")) with false.
    change (is_w "delete" (W "DELETE")) with true. cbv iota. change (is_w "from" (W "FROM")) with true. cbv iota. rewrite ident_usable by exact U.
    pose proof (Hn k K) as X. rewrite app_nil_r in X. rewrite X. reflexivity.
Qed.
End Clauses.
