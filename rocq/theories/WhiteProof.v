(** White space: what is found and what is remembered. *)
From Coq Require Import String Ascii List Arith NArith Bool Lia.
From Verif Require Import Base EngineModel EngineSpec EngineSqlModel WhiteModel WhiteSpec.
Import ListNotations.

Lemma starts_with p : forall s, startswith s p = true <-> exists t, s = p ++ t.
Proof.
  induction p as [|x p IH]; intros s.
  - split; [intros _; exists s; reflexivity | intros _; destruct s; reflexivity].
  - destruct s as [|y s]; cbn [startswith]; [split; [discriminate | intros (t & E); discriminate]|]. rewrite andb_true_iff, N.eqb_eq, IH. split.
    + intros (<- & t & ->). exists t. reflexivity.
    + intros (t & E). injection E as <- ->. split; [reflexivity | exists t; reflexivity].
Qed.
Lemma skipn_app_len {A} (a b : list A) : skipn (length a) (a ++ b) = b.
Proof. induction a as [|x a IH]; [reflexivity | exact IH]. Qed.
Lemma skipn_skipn' {A} n : forall m (l : list A), skipn m (skipn n l) = skipn (n + m) l.
Proof. induction n as [|n IH]; intros m [|c l]; cbn; try reflexivity; [destruct m; reflexivity | apply IH]. Qed.
Lemma span_split p : forall l, exists a b, l = a ++ b /\ span p l = length a /\ Forall (fun c => p c = true) a /\ (forall c t, b = c :: t -> p c = false).
Proof.
  induction l as [|c l (a & b & -> & E & F & H)]; [exists [], []; repeat split; [constructor | discriminate]|]. cbn [span].
  destruct (p c) eqn:Pc.
  - exists (c :: a), b. cbn. rewrite E. repeat split; [constructor; assumption | exact H].
  - exists [], (c :: a ++ b). repeat split; [constructor | intros d t X; injection X as <- _; exact Pc].
Qed.
Lemma until_some q : forall l k, until q l = Some k ->
  exists b t, l = b ++ q ++ t /\ k = length b /\ (forall x y, l = x ++ q ++ y -> length b <= length x).
Proof.
  induction l as [|c l IH]; intros k; cbn [until]; intros H.
  - destruct (startswith [] q) eqn:S; [|discriminate]. injection H as <-. apply starts_with in S. destruct S as (t & S).
    exists [], t. cbn. repeat split; [exact S | intros; lia].
  - destruct (startswith (c :: l) q) eqn:S.
    + injection H as <-. apply starts_with in S. destruct S as (t & S). exists [], t. cbn. repeat split; [exact S | intros; lia].
    + destruct (until q l) as [m|] eqn:U; [|discriminate]. injection H as <-. destruct (IH m eq_refl) as (b & t & -> & -> & F).
      exists (c :: b), t. repeat split. intros [|d x] y E.
      * exfalso. assert (X : startswith (c :: b ++ q ++ t) q = true) by (apply starts_with; exists y; exact E). congruence.
      * injection E as _ E. cbn. apply F in E. lia.
Qed.
Lemma until_none q b t : until q (b ++ q ++ t) <> None.
Proof.
  induction b as [|c b IH]; cbn [app].
  - assert (S : startswith (q ++ t) q = true) by (apply starts_with; exists t; reflexivity).
    destruct (q ++ t) as [|d l] eqn:E; cbn [until]; rewrite S; discriminate.
  - cbn [until]. destruct (startswith _ q); [discriminate|]. destruct (until q (b ++ q ++ t)); [discriminate | congruence].
Qed.

Section Gaps.
Variable ws : pystr.
Variable gs : list ignored.
Hypothesis open : forall g, In g gs -> opening g <> [].

Lemma match_none r : match_any gs r = None <-> ~ commented gs r.
Proof.
  clear open. unfold commented. induction gs as [|g l IH]; cbn [match_any].
  - split; [|reflexivity]. intros _ [(p & t & [] & _)|(p & q & b & t & [] & _)].
  - assert (K : match_one g r = None <-> ~ match g with Line p => exists t, r = p ++ t | Block p q => exists b t, r = p ++ b ++ q ++ t end).
    { destruct g as [p|p q]; cbn [match_one].
      - destruct (startswith r p) eqn:S; [apply starts_with in S; split; [discriminate | intros H; destruct (H S)]|].
        split; [|reflexivity]. intros _ H. apply starts_with in H. congruence.
      - destruct (startswith r p) eqn:S.
        + apply starts_with in S. destruct S as (t & ->). rewrite skipn_app_len. destruct (until q t) as [k|] eqn:U; cbn [option_map].
          * split; [discriminate|]. intros H. exfalso. apply H. apply until_some in U. destruct U as (b & t' & -> & _ & _). exists b, t'. reflexivity.
          * split; [|reflexivity]. intros _ (b & t' & E). apply app_inv_head in E. subst t. exact (until_none q b t' U).
        + split; [|reflexivity]. intros _ (b & t & E). assert (X : startswith r p = true) by (apply starts_with; exists (b ++ q ++ t); exact E). congruence. }
    destruct (match_one g r) as [k|].
    + split; [discriminate|]. intros H. exfalso.
      assert (N : ~ ~ match g with Line p => exists t, r = p ++ t | Block p q => exists b t, r = p ++ b ++ q ++ t end) by (intros X; discriminate (proj2 K X)).
      apply N. intros X. apply H. destruct g as [p|p q]; [left; destruct X as (t & X); exists p, t | right; destruct X as (b & t & X); exists p, q, b, t]; split; auto; left; reflexivity.
    + rewrite IH. assert (N := proj1 K eq_refl). split; intros H X; apply H.
      * destruct X as [(p & t & [->|I] & E)|(p & q & b & t & [->|I] & E)].
        -- exfalso. apply N. exists t. exact E.
        -- left. exists p, t. auto.
        -- exfalso. apply N. exists b, t. exact E.
        -- right. exists p, q, b, t. auto.
      * destruct X as [(p & t & I & E)|(p & q & b & t & I & E)]; [left; exists p, t | right; exists p, q, b, t]; split; auto; right; exact I.
Qed.
Lemma match_some r k : match_any gs r = Some k -> exists g, In g gs /\ match_one g r = Some k.
Proof.
  clear open. induction gs as [|g l IH]; cbn [match_any]; [discriminate|]. destruct (match_one g r) as [n|] eqn:E; intros H.
  - injection H as <-. exists g. split; [left; reflexivity | exact E].
  - destruct (IH H) as (g' & I & E'). exists g'. split; [right; exact I | exact E'].
Qed.

Lemma gap_whites a g r : Forall (fun c => existsb (N.eqb c) ws = true) a -> gap ws gs g r -> gap ws gs (a ++ g) r.
Proof.
  intros F G. induction F as [|c a H F IH]; [exact G|]. cbn. apply gap_white; [|exact IH].
  apply existsb_exists in H. destruct H as (d & I & E). apply N.eqb_eq in E. subst d. exact I.
Qed.
Lemma match_gap n : forall l, length l < n -> exists g r, l = g ++ r /\ match_white ws gs n l = length g /\ gap ws gs g r.
Proof.
  induction n as [|n IH]; intros l Hn; [lia|]. cbn [match_white].
  destruct (span_split (fun c => existsb (N.eqb c) ws) l) as (a & b & -> & E & F & B). rewrite E, skipn_app_len. rewrite app_length in Hn.
  destruct (match_any gs b) as [k|] eqn:M.
  - destruct (match_some _ _ M) as (ig & I & O). assert (P := open ig I). destruct ig as [p|p q]; cbn [match_one opening] in O, P.
    + destruct (startswith b p) eqn:S; [|discriminate]. apply starts_with in S. destruct S as (t & ->). rewrite skipn_app_len in O.
      destruct (span_split (fun c => negb (N.eqb c 10)) t) as (c & d & -> & E' & F' & D). rewrite E' in O. injection O as <-.
      assert (Lp : 0 < length p) by (destruct p; [congruence | cbn; lia]).
      replace (skipn (length p + length c) (p ++ c ++ d)) with d
        by (rewrite app_assoc, <- app_length, skipn_app_len; reflexivity).
      rewrite !app_length in Hn. destruct (IH d ltac:(lia)) as (g & r & -> & Eg & G). exists (a ++ p ++ c ++ g), r. rewrite Eg, <- !app_assoc, !app_length.
      split; [reflexivity|]. split; [lia|]. apply gap_whites; [exact F|]. apply gap_line; [exact I | | | exact G].
      * intros X. rewrite Forall_forall in F'. apply F' in X. discriminate.
      * destruct (g ++ r) as [|x y] eqn:Y; [left; reflexivity | right]. specialize (D x y eq_refl). apply negb_false_iff, N.eqb_eq in D. subst x. exists y. reflexivity.
    + destruct (startswith b p) eqn:S; [|discriminate]. apply starts_with in S. destruct S as (t & ->). rewrite skipn_app_len in O.
      destruct (until q t) as [m|] eqn:U; [|discriminate]. injection O as <-. apply until_some in U. destruct U as (c & d & -> & -> & Fi).
      assert (Lp : 0 < length p) by (destruct p; [congruence | cbn; lia]).
      replace (skipn (length p + (length c + length q)) (p ++ c ++ q ++ d)) with d
        by (rewrite <- !app_length, !app_assoc, <- (app_assoc p c q), skipn_app_len; reflexivity).
      rewrite !app_length in Hn. destruct (IH d ltac:(lia)) as (g & r & -> & Eg & G). exists (a ++ p ++ c ++ q ++ g), r. rewrite Eg, <- !app_assoc, !app_length.
      split; [reflexivity|]. split; [lia|]. apply gap_whites; [exact F|]. apply gap_block; [exact I | exact Fi | exact G].
  - exists a, b. split; [reflexivity|]. split; [reflexivity|]. rewrite <- (app_nil_r a). apply gap_whites; [exact F|]. apply gap_end.
    + intros c t -> X. specialize (B c t eq_refl). assert (Y : existsb (N.eqb c) ws = true) by (apply existsb_exists; exists c; split; [exact X | apply N.eqb_refl]). congruence.
    + apply match_none. exact M.
Qed.
Lemma skip_gap s i : after_gap ws gs s i (skip_of ws gs s i).
Proof.
  unfold skip_of, regex_match. destruct (match_gap (S (length (skipn i s))) (skipn i s) (Nat.lt_succ_diag_r _)) as (g & r & E & L & G).
  exists g, r. rewrite L. auto.
Qed.
Lemma gap_stops g r : gap ws gs g r -> gap ws gs [] r.
Proof. induction 1; try assumption. constructor; assumption. Qed.
Lemma gap_empty z y : gap ws gs z y -> z = [] -> (forall c t, y = c :: t -> ~ In c ws) /\ ~ commented gs y.
Proof.
  intros [r A B|c g r A B|p b g r A B C D|p q b g r A B C] Z; [auto | discriminate | |].
  - exfalso. apply (open (Line p) A). destruct p; [reflexivity | discriminate].
  - exfalso. apply (open (Block p q) A). destruct p; [reflexivity | discriminate].
Qed.
Lemma gap_nothing g r : gap ws gs [] (g ++ r) -> gap ws gs g r -> g = [].
Proof.
  intros H G. assert (W := gap_empty _ _ H eq_refl).
  destruct W as (W & C). destruct G as [r A B|c g r A B|p b g r A B D E|p q b g r A B D]; [reflexivity | | |].
  - exfalso. exact (W c (g ++ r) eq_refl A).
  - exfalso. apply C. left. exists p, (b ++ g ++ r). rewrite <- !app_assoc. auto.
  - exfalso. apply C. right. exists p, q, b, (g ++ r). rewrite <- !app_assoc. auto.
Qed.
Lemma skip_white : white_space (skip_of ws gs).
Proof.
  split; [intros s i; unfold skip_of; lia|]. intros s i. destruct (skip_gap s i) as (g & r & E & J & G). rewrite J. set (j := i + length g).
  destruct (skip_gap s j) as (g' & r' & E' & J' & G'). rewrite J'. unfold j in E'. rewrite <- skipn_skipn', E, skipn_app_len in E'.
  apply gap_stops in G. rewrite E' in G. assert (X := gap_nothing g' r' G G'). subst g'. cbn. lia.
Qed.
End Gaps.

(** ** What is remembered *)
Section Memo.
Variable text : nat -> pystr.
(** Each remembered place is the one that would be found. *)
Definition true_memo (e : engine) : Prop :=
  forall o, content e = Some o ->
  length (skips e) = length (text o) /\
  forall i j, nth_error (skips e) i = Some (Some j) -> j = skip_of (white_chars e) (ignore_list e) (text o) i.
Lemma set_nth_ok i x l : i < length l -> length (set_nth i x l) = length l /\
  forall k, nth_error (set_nth i x l) k = if k =? i then Some x else nth_error l k.
Proof.
  unfold set_nth. intros H. split.
  - rewrite app_length, firstn_length. cbn [length]. rewrite skipn_length. lia.
  - intros k. revert l k H. induction i as [|i IH]; intros [|y l] k H; cbn in H; try lia.
    + destruct k as [|k]; reflexivity.
    + destruct k as [|k]; [reflexivity|]. cbn. apply IH. lia.
Qed.
Lemma beyond ws gs s i : length s <= i -> (forall g, In g gs -> opening g <> []) -> skip_of ws gs s i = i.
Proof.
  intros H P. destruct (skip_gap ws gs P s i) as (g & r & E & J & _). rewrite skipn_all2 in E by exact H. destruct g; [|discriminate]. cbn in J. lia.
Qed.
Lemma nothing s i : skip_of [] [] s i = i.
Proof.
  destruct (skip_gap [] [] (fun g H => match H with end) s i) as (g & r & E & J & G). destruct G as [r A B|c g r A B|p b g r A B D F|p q b g r A B D]; try destruct A. cbn in J. lia.
Qed.
Lemma skip_ok e o i : true_memo e -> (forall g, In g (ignore_list e) -> opening g <> []) ->
  let '(e', j) := skip text o i e in
  true_memo e' /\ white_chars e' = white_chars e /\ ignore_list e' = ignore_list e /\ j = skip_of (white_chars e) (ignore_list e) (text o) i.
Proof.
  intros M P. unfold skip. destruct e as [ws gs ct sk]. cbn [white_chars ignore_list content skips] in *.
  assert (Z : (gs = [] /\ ws = []) \/ ~ (gs = [] /\ ws = [])) by (destruct gs, ws; auto; right; intros (? & ?); discriminate).
  destruct Z as [(-> & ->)|Z]; [rewrite nothing; auto|].
  match goal with |- context [match gs with [] => match ws with [] => ?a | _ :: _ => ?b end | _ :: _ => ?c end] =>
    replace (match gs with [] => match ws with [] => a | _ :: _ => b end | _ :: _ => c end) with b
      by (destruct gs; [destruct ws; [exfalso; apply Z; auto | reflexivity] | reflexivity]) end.
  assert (W : forall sk', length sk' = length (text o) -> (forall k j, nth_error sk' k = Some (Some j) -> j = skip_of ws gs (text o) k) -> i < length (text o) ->
    true_memo {| white_chars := ws; ignore_list := gs; content := Some o; skips := set_nth i (Some (skip_of ws gs (text o) i)) sk' |}).
  { intros sk' L K Hi o' E. cbn in *. injection E as <-. destruct (set_nth_ok i (Some (skip_of ws gs (text o) i)) sk') as (L' & N); [lia|]. split; [lia|].
    intros k j. rewrite N. destruct (Nat.eqb_spec k i) as [->|_]; [intros E; injection E as <-; reflexivity | apply K]. }
  destruct (match ct with Some o' => o =? o' | None => false end) eqn:Same.
  - destruct ct as [o'|]; [|discriminate]. apply Nat.eqb_eq in Same. subst o'. destruct (M o eq_refl) as (L & K). cbn in L, K.
    destruct (nth_error sk i) as [[j|]|] eqn:N.
    + split; [exact M|]. repeat split. apply K. exact N.
    + split; [|repeat split]. apply W; [exact L | exact K|]. rewrite <- L. apply nth_error_Some. congruence.
    + split; [exact M|]. repeat split. symmetry. apply beyond; [|exact P]. rewrite <- L. apply nth_error_None. exact N.
  - assert (R : forall k j, nth_error (repeat (@None nat) (length (text o))) k = Some (Some j) -> j = skip_of ws gs (text o) k).
    { intros k j H. apply nth_error_In, repeat_spec in H. discriminate. }
    destruct (Nat.leb_spec (length (text o)) i) as [B|B].
    + split; [|repeat split; symmetry; apply beyond; assumption]. intros o' E. cbn in *. injection E as <-. split; [apply repeat_length | exact R].
    + split; [|repeat split]. apply W; [apply repeat_length | exact R | exact B].
Qed.
Lemma run_ok ops : forall e, true_memo e -> (forall g, In g (ignore_list e) -> opening g <> []) -> Forall proper ops ->
  let e' := fold_left (step text) ops e in
  true_memo e' /\ white_chars e' = last_white (white_chars e) ops /\ ignore_list e' = ignore_list e ++ first_ignored ops /\
  (forall g, In g (ignore_list e') -> opening g <> []).
Proof.
  induction ops as [|c ops IH]; intros e M P F; cbn [fold_left].
  - cbn. rewrite app_nil_r. auto.
  - inversion F as [|? ? Fc Fo]; subst. destruct c as [ws|gs| |o i]; cbn [step last_white first_ignored flat_map].
    + specialize (IH (set_whitespace ws e)). cbn in IH. apply IH; [intros o E; discriminate | exact P | exact Fo].
    + destruct gs as [|g gs]; cbn [add_ignore]; [apply IH; assumption|].
      specialize (IH {| white_chars := white_chars e; ignore_list := ignore_list e ++ [g]; content := None; skips := skips e |}).
      cbn in IH. rewrite <- app_assoc in IH. apply IH; [intros o E; discriminate | | exact Fo].
      intros h H. apply in_app_or in H. destruct H as [H|[<-|[]]]; [apply P; exact H | apply Fc; left; reflexivity].
    + specialize (IH (copy e)). cbn in IH. apply IH; [intros o E; discriminate | exact P | exact Fo].
    + pose proof (skip_ok e o i M P) as S. destruct (skip text o i e) as (e' & j). destruct S as (M' & W & I & _). cbn [fst].
      specialize (IH e' M'). rewrite W, I in IH. apply IH; assumption.
Qed.
End Memo.

(** ** The grammar of texts skips the same *)
From Verif Require LitModel GramModel.
Lemma line_rest b r : ~ In 10%N b -> (r = [] \/ exists t, r = 10%N :: t) -> GramModel.skip_line (b ++ r) = r.
Proof.
  intros H R. induction b as [|c b IH]; cbn [app].
  - destruct R as [->|(t & ->)]; reflexivity.
  - cbn [GramModel.skip_line]. destruct (N.eqb_spec c 10) as [->|_]; [exfalso; apply H; left; reflexivity|]. apply IH. intros X. apply H. right. exact X.
Qed.
Lemma block_rest b r : (forall x y, b ++ u "*/" ++ r = x ++ u "*/" ++ y -> length b <= length x) -> GramModel.skip_block (b ++ u "*/" ++ r) = Some r.
Proof.
  induction b as [|c b IH]; intros H; [reflexivity|]. cbn [app GramModel.skip_block].
  assert (I : GramModel.skip_block (b ++ u "*/" ++ r) = Some r).
  { apply IH. intros x y E. assert (Q : (c :: b) ++ u "*/" ++ r = (c :: x) ++ u "*/" ++ y) by (cbn [app]; rewrite E; reflexivity).
    apply H in Q. cbn [length] in Q. lia. }
  destruct (b ++ u "*/" ++ r) as [|d l] eqn:E; [destruct b; discriminate|].
  destruct (N.eqb c 42 && N.eqb d 47)%bool eqn:C; [|exact I]. exfalso. apply andb_true_iff in C. destruct C as (C & D). apply N.eqb_eq in C, D. subst c d.
  assert (Q : (42%N :: b) ++ u "*/" ++ r = [] ++ u "*/" ++ l) by (cbn [app]; rewrite E; reflexivity).
  apply H in Q. cbn [length] in Q. lia.
Qed.
Lemma block_some l : forall t, GramModel.skip_block l = Some t -> exists b, l = b ++ u "*/" ++ t.
Proof.
  induction l as [|c l IH]; intros t; [discriminate|]. cbn [GramModel.skip_block]. destruct l as [|d l]; [discriminate|].
  destruct (N.eqb c 42 && N.eqb d 47)%bool eqn:C; intros H.
  - injection H as <-. apply andb_true_iff in C. destruct C as (C & D). apply N.eqb_eq in C, D. subst c d. exists []. reflexivity.
  - destruct (IH t H) as (b & E). exists (c :: b). cbn. rewrite E. reflexivity.
Qed.
Notation blanks := [9; 10; 13; 32]%N.
Lemma blank_in c : LitModel.blank c = true <-> In c blanks.
Proof.
  unfold LitModel.blank. rewrite ?orb_true_iff, ?N.eqb_eq. cbn. intuition congruence.
Qed.
Lemma gram_gap f g r : gap blanks sql_ignored g r -> length (g ++ r) <= f -> GramModel.skip_fuel f (g ++ r) = r.
Proof.
  intros G. revert f. induction G as [r A B|c g r A G IH|p b g r A B C G IH|p q b g r A B G IH]; intros f L.
  - cbn [app]. destruct f as [|f]; [reflexivity|]. cbn [GramModel.skip_fuel]. destruct r as [|c r]; [reflexivity|].
    destruct (LitModel.blank c) eqn:W; [exfalso; apply blank_in in W; exact (A c r eq_refl W)|].
    destruct (N.eqb_spec c 35) as [->|_]; [exfalso; apply B; left; exists (u "#"), r; split; [right; left; reflexivity | reflexivity]|].
    destruct r as [|d r]; [reflexivity|].
    destruct (N.eqb c 45 && N.eqb d 45)%bool eqn:D.
    { exfalso. apply andb_true_iff in D. destruct D as (D & D'). apply N.eqb_eq in D, D'. subst c d. apply B. left. exists (u "--"), r. split; [left; reflexivity | reflexivity]. }
    destruct (N.eqb c 47 && N.eqb d 42)%bool eqn:D'; [|reflexivity]. destruct (GramModel.skip_block r) as [t|] eqn:K; [|reflexivity].
    exfalso. apply block_some in K. destruct K as (b & ->). apply andb_true_iff in D'. destruct D' as (X & X'). apply N.eqb_eq in X, X'. subst c d.
    apply B. right. exists (u "/*"), (u "*/"), b, t. split; [right; right; left; reflexivity | reflexivity].
  - destruct f as [|f]; [cbn in L; lia|]. cbn [app GramModel.skip_fuel]. apply blank_in in A. rewrite A. apply IH. cbn in L. lia.
  - rewrite <- !app_assoc in *. rewrite !app_length in L. destruct f as [|f]; [destruct A as [A|[A|[A|[]]]]; try discriminate; injection A as <-; cbn in L; lia|].
    destruct A as [A|[A|[A|[]]]]; try discriminate; injection A as <-; cbn [u map list_ascii_of_string app GramModel.skip_fuel].
    + change (GramModel.skip_fuel f (GramModel.skip_line (b ++ g ++ r)) = r). rewrite line_rest by assumption. apply IH. rewrite app_length. cbn in L. lia.
    + change (GramModel.skip_fuel f (GramModel.skip_line (b ++ g ++ r)) = r). rewrite line_rest by assumption. apply IH. rewrite app_length. cbn in L. lia.
  - rewrite <- !app_assoc in *. rewrite !app_length in L. destruct A as [A|[A|[A|[]]]]; try discriminate. injection A as <- <-.
    destruct f as [|f]; [cbn in L; lia|].
    change (match GramModel.skip_block (b ++ u "*/" ++ g ++ r) with Some r'' => GramModel.skip_fuel f r'' | None => u "/*" ++ b ++ u "*/" ++ g ++ r end = r).
    rewrite block_rest by exact B. apply IH. rewrite app_length. cbn in L. lia.
Qed.
Lemma sql_open : forall g, In g sql_ignored -> opening g <> [].
Proof. intros g [<-|[<-|[<-|[]]]]; discriminate. Qed.
Lemma gram_skip s i : skipn (sql_skip s i) s = GramModel.skip (skipn i s).
Proof.
  unfold sql_skip. destruct (skip_gap blanks sql_ignored sql_open s i) as (g & r & E & J & G). rewrite J, <- skipn_skipn', E, skipn_app_len.
  symmetry. unfold GramModel.skip. apply gram_gap; [exact G | lia].
Qed.
(** The place is determined. *)
Lemma sql_only s i j : after_gap blanks sql_ignored s i j <-> j = sql_skip s i.
Proof.
  split; [|intros ->; apply (skip_gap blanks sql_ignored sql_open)].
  intros (g & r & E & J & G). destruct (skip_gap blanks sql_ignored sql_open s i) as (g' & r' & E' & J' & G'). unfold sql_skip. rewrite J', J.
  assert (R := gram_gap (length (g ++ r)) g r G (le_n _)). rewrite <- E, E' in R. rewrite (gram_gap _ g' r' G' (le_n _)) in R. subst r'.
  rewrite E in E'. apply app_inv_tail in E'. subst g'. reflexivity.
Qed.
(** The end of a text. *)
Lemma at_end s j : string_end s (sql_skip s j) = true <-> gap blanks sql_ignored (skipn j s) [].
Proof.
  unfold sql_skip. destruct (skip_gap blanks sql_ignored sql_open s j) as (g & r & E & J & G). rewrite J.
  assert (R : string_end s (j + length g) = true <-> r = []).
  { assert (L : length s - j = length g + length r) by (rewrite <- (skipn_length j s), E, app_length; reflexivity).
    unfold string_end. rewrite <- skipn_skipn', E, skipn_app_len. split.
    - intros H. apply orb_true_iff in H. destruct H as [H|H]; [apply Nat.leb_le in H; destruct r; [reflexivity | cbn in L; lia]|].
      destruct r as [|c r]; [reflexivity|]. exfalso. apply gap_stops in G. destruct (gap_empty blanks sql_ignored sql_open _ _ G eq_refl) as (B & _).
      specialize (B c r eq_refl). assert (N : c <> 10%N /\ c <> 13%N) by (split; intros ->; apply B; cbn; tauto). destruct N as (N & N').
      assert (K : newlines (c :: r) = c :: r).
      { cbn [newlines]. destruct c as [|c]; [reflexivity|]. repeat (destruct c as [c|c|]; try reflexivity); congruence. }
      rewrite K in H. discriminate.
    - intros ->. destruct (length s <=? j + length g); reflexivity. }
  rewrite R. split.
  - intros ->. rewrite E, app_nil_r. exact G.
  - intros H. assert (A : after_gap blanks sql_ignored s j (j + length (skipn j s))) by (exists (skipn j s), []; rewrite app_nil_r; auto).
    apply sql_only in A. unfold sql_skip in A. rewrite J, E, app_length in A. destruct r; [reflexivity | cbn in A; lia].
Qed.
