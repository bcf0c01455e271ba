(** The grammar of SQL: what the engine prepares parses as what is written. *)
From Coq Require Import String Ascii List Arith NArith Bool Lia.
From Verif Require Import Base FmtSpec EngineModel EngineSpec EngineTblProof EngineProof EngineLineProof EngineWordProof EngineSqlModel.
Import ListNotations.

(** ** Simplified grammars keep the conditions of [fine] other than those of choices *)
Section Mild.
Context {T : Type}.
Fixpoint choices (e : pe T) : bool :=
  match e with
  | Prim _ _ _ l | And l => forallb choices l
  | First l => choice l && forallb choices l
  | Many _ _ e | Opt e | Look e | Not e | Act _ _ e => choices e
  | _ => true
  end.
Inductive mild : pe T -> Prop :=
| mild_lit w : mild (Lit w)
| mild_kw w : mild (Kw w)
| mild_chr l : mild (Chr l)
| mild_ref n : mild (Ref n)
| mild_prim f ks m l : (forall ps, Forall2 (fun p x => announces p (keys x) (min_length x)) ps l -> announces (f ps) ks m) ->
    (forall ps qs, Forall2 follows ps qs -> follows (f ps) (f qs)) -> Forall mild l -> mild (Prim f ks m l)
| mild_and l : Forall mild l -> mild (And l)
| mild_first l : Forall mild l -> mild (First l)
| mild_many mn mx e : mild e -> mild (Many mn mx e)
| mild_opt e : mild e -> mild (Opt e)
| mild_look e : mild e -> mild (Look e)
| mild_not e : mild e -> mild (Not e)
| mild_act own f e : takes_none f -> mild e -> mild (Act own f e).
Lemma mild_fine e : mild e -> choices e = true -> fine e.
Proof.
  assert (A : forall l, Forall (fun e => mild e -> choices e = true -> fine e) l -> Forall mild l -> forallb choices l = true ->
    (fix all l := match l with [] => True | x :: r => fine x /\ all r end) l).
  { induction 1 as [|x l H F IH]; intros M C; [exact I|]. inversion M; subst. cbn in C. apply Bool.andb_true_iff in C. destruct C. split; [apply H | apply IH]; assumption. }
  induction e as [w|w|l|f ks m l IH|n|l IH|l IH|mn mx e IH|e IH|e IH|e IH|own f e IH] using pe_rect'; intros M C; cbn [fine]; try exact I; inversion M; subst; cbn [choices] in C.
  - split; [assumption|]. split; [assumption|]. apply A; assumption.
  - apply A; assumption.
  - apply Bool.andb_true_iff in C. destruct C. split; [assumption|]. apply A; assumption.
  - apply IH; assumption.
  - apply IH; assumption.
  - apply IH; assumption.
  - apply IH; assumption.
  - split; [assumption | apply IH; assumption].
Qed.

(** Conditions on the grammar before it is simplified. *)
Inductive ok : pe T -> Prop :=
| ok_lit w : ok (Lit w)
| ok_kw w : ok (Kw w)
| ok_chr l : ok (Chr l)
| ok_ref n : ok (Ref n)
| ok_prim f ks m l :
    (forall ps, Forall2 (fun p x => announces p (keys (streamline false x)) (min_length (streamline false x))) ps l -> announces (f ps) ks m) ->
    (forall ps qs, Forall2 follows ps qs -> follows (f ps) (f qs)) ->
    (forall ps, (forall p, In p ps -> forward p) -> forward (f ps)) -> (forall ps qs, Forall2 same ps qs -> same (f ps) (f qs)) ->
    Forall ok l -> ok (Prim f ks m l)
| ok_and x l : ok x -> Forall ok l -> ok (And (x :: l))
| ok_first x l : ok x -> Forall ok l -> ok (First (x :: l))
| ok_many mn e : ok e -> ok (Many mn None e)
| ok_opt e : ok e -> ok (Opt e)
| ok_look e : ok e -> ok (Look e)
| ok_not e : ok e -> ok (Not e)
| ok_act own f e : takes_none f -> ok e -> ok (Act own f e).
Lemma ok_plain e : ok e -> plain e.
Proof.
  intros O. apply neat_plain. revert O.
  assert (A : forall l, Forall (fun e => ok e -> neat e) l -> Forall ok l -> (fix all l := match l with [] => True | x :: r => neat x /\ all r end) l).
  { induction 1 as [|x l H F IH]; intros M; [exact I|]. inversion M; subst. split; [apply H | apply IH]; assumption. }
  induction e as [w|w|l|f ks m l IH|n|l IH|l IH|mn mx e IH|e IH|e IH|e IH|own f e IH] using pe_rect'; intros O; cbn [neat]; try exact I; inversion O; subst.
  - split; [assumption|]. split; [assumption|]. apply A; assumption.
  - split; [discriminate|]. apply (A (x :: l0)); [exact IH | constructor; assumption].
  - split; [discriminate|]. apply (A (x :: l0)); [exact IH | constructor; assumption].
  - split; [discriminate | apply IH; assumption].
  - apply IH; assumption.
  - apply IH; assumption.
  - apply IH; assumption.
  - apply IH; assumption.
Qed.
Lemma mild_parts ls : Forall mild ls -> Forall mild (concat (map and_parts ls)).
Proof.
  induction 1 as [|x l M F IH]; [constructor|]. cbn. apply Forall_app. split; [|exact IH].
  destruct x as [| | | | |[|y g]| | | | | |]; try (constructor; [exact M | constructor]). inversion M; assumption.
Qed.
Lemma mild_first_parts ls : Forall mild ls -> Forall mild (concat (map first_parts ls)).
Proof.
  induction 1 as [|x l M F IH]; [constructor|]. cbn. apply Forall_app. split; [|exact IH].
  destruct x as [| | | | | |g| | | | |]; try (constructor; [exact M | constructor]). inversion M; assumption.
Qed.
Lemma ok_mild e : ok e -> forall b, mild (streamline b e).
Proof.
  assert (A : forall l, Forall (fun e => ok e -> forall b, mild (streamline b e)) l -> Forall ok l -> Forall mild (map (streamline false) l)).
  { induction 1 as [|x l H F IH]; intros M; [constructor|]. inversion M; subst. constructor; [apply H | apply IH]; assumption. }
  assert (S : forall e e' w, mild w -> mild (shell e e' w)).
  { intros x x' w M. unfold shell. destruct (is_empty x' && negb (is_empty x)); [repeat constructor | exact M]. }
  induction e as [w|w|l|f ks m l IH|n|l IH|l IH|mn mx e IH|e IH|e IH|e IH|own f e IH] using pe_rect'; intros O b; try (constructor; fail); inversion O; subst.
  - cbn [streamline]. constructor; [|assumption | apply A; assumption].
    intros ps H. apply H3. clear - H. remember (map (streamline false) l) as l' eqn:E. revert l E.
    induction H as [|p x ps l' H F IH]; intros [|y l] E; try discriminate; constructor; cbn in E; injection E as -> ->; [exact H | apply IH; reflexivity].
  - assert (F : Forall mild (map (streamline false) (x :: l0))) by (apply A; [exact IH | constructor; assumption]).
    cbn [streamline]. destruct (map (streamline false) (x :: l0)) as [|y [|z g]] eqn:E; [constructor; constructor| |].
    + destruct b; [constructor; apply mild_parts; exact F | inversion F; assumption].
    + destruct b; constructor; apply mild_parts; exact F.
  - assert (F : Forall mild (map (streamline false) (x :: l0))) by (apply A; [exact IH | constructor; assumption]).
    apply mild_first_parts in F. cbn [streamline].
    destruct (concat (map first_parts (map (streamline false) (x :: l0)))) as [|y [|z g]] eqn:E.
    + destruct b; repeat constructor.
    + destruct b; [constructor; exact F | inversion F; assumption].
    + destruct b; constructor; exact F.
  - cbn [streamline]. destruct mn as [|[|mn]]; apply S; constructor; apply IH; assumption.
  - cbn [streamline]. apply S. constructor. apply IH. assumption.
  - cbn [streamline]. destruct b; [|apply S]; constructor; apply IH; assumption.
  - cbn [streamline]. destruct (is_empty (streamline false e)); [|constructor; apply IH; assumption].
    constructor; [intros ps _ K; congruence | intros ps qs _ s i _; reflexivity | constructor].
  - cbn [streamline]. destruct own; [destruct (repeats e && is_empty (streamline true e)); [repeat constructor|]|]; constructor; try assumption; apply IH; assumption.
Qed.
End Mild.

(** ** Elements made of others *)
Section Prims.
Context {T : Type}.
Variable tok : pystr -> T.
Variable skip : pystr -> nat -> nat.
Hypothesis white : white_space skip.

(** Parsers that agree where the first one gives what is in [P]. *)
Definition agrees (P : out T -> Prop) (p q : parser T) : Prop := forall s i, P (p s i) -> q s i = p s i.
Definition usual (P : out T -> Prop) : Prop := P Fail /\ forall r j, P (Done r j).
Lemma usual_settled : usual settled.
Proof. split; [left; reflexivity | intros r j; right; eexists _, _; reflexivity]. Qed.
Lemma usual_any : usual (fun _ => True).
Proof. split; auto. Qed.
(** The two kinds of agreement from one proof. *)
Definition respects (f : list (parser T) -> parser T) : Prop :=
  (forall ps qs, Forall2 follows ps qs -> follows (f ps) (f qs)) /\ (forall ps qs, Forall2 same ps qs -> same (f ps) (f qs)).
Lemma respects_all f : (forall P, usual P -> forall ps qs, Forall2 (agrees P) ps qs -> agrees P (f ps) (f qs)) -> respects f.
Proof.
  intros H. split; intros ps qs F.
  - apply (H settled usual_settled ps qs F).
  - intros s i. symmetry. apply (H (fun _ => True) usual_any ps qs); [|exact I].
    clear - F. induction F as [|p q ps qs E F IH]; constructor; [|exact IH]. intros s i _. symmetry. apply E.
Qed.

Lemma close_respects : respects close.
Proof.
  apply respects_all. intros P [U1 U2] ps qs F s i. unfold close. generalize i at 2 4 6, (@nil T). generalize i. clear i.
  induction F as [|p q ps qs E F IH]; intros i en acc S; cbn [run_and] in *; [reflexivity|].
  set (k := if i <? en then en else i) in *. rewrite (E s k).
  - destruct (p s k) as [| | |t e]; try reflexivity. apply IH. exact S.
  - destruct (p s k); auto.
Qed.
Lemma longest_respects : respects longest.
Proof.
  apply respects_all. intros P [U1 U2] ps qs F s i. unfold longest. generalize (@None (list T * nat)).
  induction F as [|p q ps qs E F IH]; intros b S; cbn [best] in *; [reflexivity|]. rewrite (E s i).
  - destruct (p s i) as [| | |t e]; try reflexivity; apply IH; exact S.
  - destruct (p s i); auto.
Qed.
Definition rel_found (P : out T -> Prop) (a b : out T + list (parser T)) : Prop :=
  match a, b with
  | inl x, inl y => P x -> x = y
  | inl x, _ => ~ P x
  | inr l, inr g => Forall2 (agrees P) l g
  | _, _ => False
  end.
Definition rel_progress (P : out T -> Prop) (a b : out T + option (parser T * list (parser T) * nat)) : Prop :=
  match a, b with
  | inl x, inl y => P x -> x = y
  | inl x, _ => ~ P x
  | inr None, inr None => True
  | inr (Some (p, l, j)), inr (Some (q, g, j')) => agrees P p q /\ Forall2 (agrees P) l g /\ j = j'
  | _, _ => False
  end.
Lemma progress_rel P : usual P -> forall ps qs s en, Forall2 (agrees P) ps qs -> forall b b', Forall2 (agrees P) b b' ->
  (forall x, progress ps b s en = inl x -> P x) -> rel_progress P (progress ps b s en) (progress qs b' s en).
Proof.
  intros [U1 U2] ps qs s en F. induction F as [|p q ps qs E F IH]; intros b b' B N; cbn [progress] in *; [exact I|].
  destruct (p s en) as [| | |t j] eqn:R.
  - rewrite (E s en) by (rewrite R; exact U1). rewrite R. apply IH; [apply Forall2_app; [exact B | constructor; [exact E | constructor]] | exact N].
  - rewrite (E s en) by (rewrite R; apply N; reflexivity). rewrite R. cbn. reflexivity.
  - rewrite (E s en) by (rewrite R; apply N; reflexivity). rewrite R. cbn. reflexivity.
  - rewrite (E s en) by (rewrite R; apply U2). rewrite R. destruct (j =? en).
    + apply IH; [apply Forall2_app; [exact B | constructor; [exact E | constructor]] | exact N].
    + cbn. split; [exact E|]. split; [apply Forall2_app; assumption | reflexivity].
Qed.
Lemma found_rel P : usual P -> forall n ps qs s en, Forall2 (agrees P) ps qs -> forall b b', Forall2 (agrees P) b b' ->
  (forall x, found skip n ps s en b = inl x -> P x) -> rel_found P (found skip n ps s en b) (found skip n qs s en b').
Proof.
  intros U. induction n as [|n IH]; intros ps qs s en F b b' B N; cbn [found] in *; [apply Forall2_app; assumption|].
  assert (R : rel_progress P (progress ps [] s en) (progress qs [] s en)).
  { apply progress_rel; [exact U | exact F | constructor|]. intros x Hx. apply N. rewrite Hx. reflexivity. }
  destruct (progress ps [] s en) as [x|[[[p l] j]|]] eqn:E1, (progress qs [] s en) as [y|[[[q g] j']|]] eqn:E2; cbn in R |- *; try contradiction.
  - exact R.
  - exfalso. apply R. apply N. reflexivity.
  - exfalso. apply R. apply N. reflexivity.
  - destruct R as (R1 & R2 & <-). apply IH; [exact R2 | apply Forall2_app; [exact B | constructor; [exact R1 | constructor]] | exact N].
  - apply Forall2_app; assumption.
Qed.
Lemma replay_rel P : usual P -> forall ps qs s, Forall2 (agrees P) ps qs -> forall a last acc,
  P (replay skip ps s a last acc) -> replay skip qs s a last acc = replay skip ps s a last acc.
Proof.
  intros [U1 U2] ps qs s F. induction F as [|p q ps qs E F IH]; intros a last acc S; cbn [replay] in *; [reflexivity|]. rewrite (E s a).
  - destruct (p s a); try reflexivity. apply IH. exact S.
  - destruct (p s a); auto.
Qed.
Lemma together_respects : respects (together skip).
Proof.
  apply respects_all. intros P U ps qs F s i. unfold together. intros S.
  assert (L : length ps = length qs) by (clear - F; induction F; cbn; congruence). rewrite <- L.
  assert (R : rel_found P (found skip (length ps) ps s i []) (found skip (length ps) qs s i [])).
  { apply found_rel; [exact U | exact F | constructor|]. intros x Hx. rewrite Hx in S. exact S. }
  destruct (found skip (length ps) ps s i []) as [x|l] eqn:E1, (found skip (length ps) qs s i []) as [y|g] eqn:E2; cbn in R; try contradiction.
  - symmetry. apply R. exact S.
  - apply replay_rel with P; assumption.
Qed.

(** *** Forward *)
Lemma leaf_forward m : forward (leaf tok m).
Proof. intros s i r j H. unfold leaf in H. destruct (m (skipn i s)); [injection H as <- <-; lia | discriminate]. Qed.
Lemma close_forward (ps : list (parser T)) : (forall p, In p ps -> forward p) -> forward (close ps).
Proof.
  intros F s i r j. unfold close.
  assert (G : forall k en acc, i <= k -> i <= en -> run_and (fun _ j => j) ps s k en acc = Done r j -> i <= j).
  { induction ps as [|p ps IH]; intros k en acc L1 L2 H; cbn [run_and] in H; [injection H as _ <-; exact L2|].
    set (k' := if k <? en then en else k) in *. assert (i <= k') by (unfold k'; destruct (k <? en); lia).
    destruct (p s k') as [| | |t e] eqn:R; try discriminate. apply (F p (or_introl eq_refl)) in R.
    apply (IH (fun q Hq => F q (or_intror Hq))) in H; lia. }
  apply G; lia.
Qed.
Lemma best_done (ps : list (parser T)) s i b r j : @best T ps s i b = Done r j -> b = Some (r, j) \/ exists p, In p ps /\ p s i = Done r j.
Proof.
  revert b. induction ps as [|p ps IH]; intros b H; cbn [best] in H.
  - destruct b as [[r' j']|]; [left; congruence | discriminate].
  - destruct (p s i) as [| | |t e] eqn:R; try discriminate; apply IH in H.
    + destruct H as [H|(q & H1 & H2)]; [left; exact H | right; exists q; split; [right|]; assumption].
    + destruct H as [H|(q & H1 & H2)]; [|right; exists q; split; [right|]; assumption].
      assert (H' : b = Some (r, j) \/ Some (t, e) = Some (r, j)) by (destruct b as [[r' j']|]; [destruct (j' <? e); [right | left]; exact H | right; exact H]).
      destruct H' as [H'|H']; [left; exact H'|]. injection H' as -> ->. right. exists p. split; [left; reflexivity | exact R].
Qed.
Lemma longest_forward (ps : list (parser T)) : (forall p, In p ps -> forward p) -> forward (longest ps).
Proof.
  intros F s i r j H. unfold longest in H. apply best_done in H. destruct H as [H|(p & H1 & H2)]; [discriminate|].
  apply (F p H1) in H2. exact H2.
Qed.
Lemma replay_forward (ps : list (parser T)) s i : (forall p, In p ps -> forward p) -> forall a last acc r j,
  i <= a -> i <= last -> replay skip ps s a last acc = Done r j -> i <= j.
Proof.
  induction ps as [|p ps IH]; intros F a last acc r j L1 L2 H; cbn [replay] in H; [injection H as _ <-; exact L2|].
  destruct (p s a) as [| | |t e] eqn:R; try discriminate. apply (F p (or_introl eq_refl)) in R.
  apply (IH (fun q Hq => F q (or_intror Hq))) in H; [exact H | | lia]. pose proof (proj1 white s e). lia.
Qed.
Lemma progress_in ps s en : forall b p l j, @progress T ps b s en = inr (Some (p, l, j)) -> In p ps /\ incl l (b ++ ps).
Proof.
  induction ps as [|q ps IH]; intros b p l j H; cbn [progress] in H; [discriminate|].
  assert (G : progress ps (b ++ [q]) s en = inr (Some (p, l, j)) -> In p (q :: ps) /\ incl l (b ++ q :: ps)).
  { intros G. apply IH in G. destruct G as [G1 G2]. split; [right; exact G1|]. rewrite <- app_assoc in G2. exact G2. }
  destruct (q s en) as [| | |t e]; try discriminate; [apply G; exact H|]. destruct (e =? en); [apply G; exact H|].
  injection H as <- <- _. split; [left; reflexivity|]. apply incl_app; [apply incl_appl, incl_refl | apply incl_appr, incl_tl, incl_refl].
Qed.
Lemma found_in n : forall (ps : list (parser T)) s en b l, found skip n ps s en b = inr l -> incl l (b ++ ps).
Proof.
  induction n as [|n IH]; intros ps s en b l H; cbn [found] in H; [injection H as <-; apply incl_refl|].
  destruct (progress ps [] s en) as [x|[[[p g] j]|]] eqn:E; [discriminate | | injection H as <-; apply incl_refl].
  apply progress_in in E. destruct E as [E1 E2]. apply IH in H. rewrite <- app_assoc in H.
  intros x Hx. apply H in Hx. apply in_app_or in Hx. destruct Hx as [Hx|[<-|Hx]]; apply in_or_app; [left; exact Hx | right; exact E1 | right; apply E2; exact Hx].
Qed.
Lemma together_forward (ps : list (parser T)) : (forall p, In p ps -> forward p) -> forward (together skip ps).
Proof.
  intros F s i r j H. unfold together in H. destruct (found skip (length ps) ps s i []) as [x|l] eqn:E.
  - exfalso. revert E H. generalize (length ps), (@nil (parser T)), i at 1. generalize ps. clear. intros ps n. revert ps.
    induction n as [|n IH]; intros ps b en E ->; cbn [found] in E; [discriminate|].
    destruct (progress ps [] s en) as [y|[[[p g] k]|]] eqn:P; [|apply (IH _ _ _ E eq_refl) | discriminate].
    injection E as ->. revert P. generalize (@nil (parser T)). induction ps as [|q ps IHp]; intros b' P; cbn [progress] in P; [discriminate|].
    destruct (q s en) as [| | |t e]; try discriminate; [apply (IHp _ P)|]. destruct (e =? en); [apply (IHp _ P) | discriminate].
  - apply found_in in E. apply (replay_forward l s i) in H; try lia. intros p Hp. apply F. apply (E p). exact Hp.
Qed.

(** *** Keys *)
Lemma close_announces l (ps : list (parser T)) : Forall2 (fun p x => announces p (keys x) (min_length x)) ps l ->
  announces (close ps) (keys (And l)) (@min_length T (And l)).
Proof.
  intros F K s i r j R B. cbn [keys] in *. destruct (and_keys keys min_length l) as [ks|] eqn:E; [|congruence].
  cut (exists k, In k ks /\ hits k s i). { intros (k & H1 & H2). exists k. split; [apply (proj2 (nub_In tok skip ks k)); exact H1 | exact H2]. }
  unfold close in R. cbn [min_length] in B. clear K. revert ks E R B. generalize (@nil T).
  assert (G : forall en ks acc, en <= i -> and_keys keys min_length l = Some ks -> run_and (fun _ j => j) ps s i en acc = Done r j ->
    0 < list_sum (map min_length l) \/ i < j -> exists k, In k ks /\ hits k s i).
  { induction F as [|p x ps l A F IH]; intros en ks acc Len E R B; cbn [and_keys] in E; cbn [run_and] in R.
    - injection R as -> ->. cbn in B. lia.
    - replace (i <? en) with false in R by (symmetry; apply Nat.ltb_ge; exact Len).
      destruct (null (keys x)) eqn:Nx; [discriminate|]. assert (Kx : keys x <> []) by (intros Z; rewrite Z in Nx; discriminate).
      destruct (p s i) as [| | |t e] eqn:Rx; try discriminate.
      destruct (Nat.eqb_spec (min_length x) 0) as [Z|Z].
      + destruct (and_keys keys min_length l) as [k'|] eqn:E'; [|discriminate]. injection E as <-.
        destruct (le_lt_dec e i) as [L|L].
        * destruct (IH e k' _ L eq_refl R) as (k & H1 & H2);
            [destruct B as [B|B]; [left; change (0 < min_length x + list_sum (map min_length l)) in B; lia | right; exact B]|].
          exists k. split; [apply in_or_app; right; exact H1 | exact H2].
        * destruct (A Kx s i t e Rx (or_intror L)) as (k & H1 & H2). exists k. split; [apply in_or_app; left; exact H1 | exact H2].
      + injection E as <-. apply (A Kx s i t e Rx). left. lia. }
  intros acc ks E R B. apply (G i ks acc (le_n _) E R B).
Qed.
Lemma longest_announces l (ps : list (parser T)) : Forall2 (fun p x => announces p (keys x) (min_length x)) ps l ->
  announces (longest ps) (keys (First l)) (@min_length T (First l)).
Proof.
  intros F K s i r j R B. unfold longest in R. apply best_done in R. destruct R as [R|(p & R1 & R2)]; [discriminate|].
  cbn [keys] in *. destruct (existsb null (map keys l)) eqn:E; [congruence|].
  assert (X : exists x, In x l /\ announces p (keys x) (min_length x)).
  { clear - F R1. induction F as [|q x ps l A F IH]; [destruct R1|]. destruct R1 as [->|R1]; [exists x; split; [left; reflexivity | exact A]|].
    destruct (IH R1) as (y & H1 & H2). exists y. split; [right; exact H1 | exact H2]. }
  destruct X as (x & Hx & A). destruct (A) with s i r j as (k & H1 & H2).
  - intros Z. rewrite <- Bool.not_true_iff_false in E. apply E. apply existsb_exists. exists (keys x). split; [apply in_map; exact Hx | rewrite Z; reflexivity].
  - exact R2.
  - destruct B as [B|B]; [left; apply first_min with l; assumption | right; exact B].
  - exists k. split; [|exact H2]. apply (nub_In tok skip). apply in_concat. exists (keys x). split; [apply in_map; exact Hx | exact H1].
Qed.
End Prims.

(** ** Regular expressions begin with their keys *)
Definition starts (m : pystr -> option nat) (ks : list pystr) : Prop :=
  forall l n, m l = Some n -> exists k, In k ks /\ begins (small k) (small l).
Lemma chars_in c s l : In c s -> exists k, In k (chars s) /\ begins (small k) (small (c :: l)).
Proof. intros H. exists [c]. split; [apply in_map_iff; exists c; auto|]. exists (small l). reflexivity. Qed.
Lemma existsb_N c l : existsb (N.eqb c) l = true -> In c l.
Proof. intros H. apply existsb_exists in H. destruct H as (x & H & E). apply N.eqb_eq in E. subst x. exact H. Qed.
Lemma digit_in c : digit c = true -> In c (u "0123456789").
Proof.
  unfold digit. intros H. apply Bool.andb_true_iff in H. destruct H as [H1 H2]. apply N.leb_le in H1. apply N.leb_le in H2.
  apply existsb_N. assert (C : (c = 48 \/ c = 49 \/ c = 50 \/ c = 51 \/ c = 52 \/ c = 53 \/ c = 54 \/ c = 55 \/ c = 56 \/ c = 57)%N) by lia.
  repeat (destruct C as [->|C]; [reflexivity|]). subst c. reflexivity.
Qed.
Lemma sign_cases l : sign (u "+-") l = 0 \/ exists c r, l = c :: r /\ In c (u "+-") /\ sign (u "+-") l = 1.
Proof.
  destruct l as [|c r]; [left; reflexivity|]. cbn [sign]. destruct (existsb (N.eqb c) (u "+-")) eqn:E; [|left; reflexivity].
  right. exists c, r. split; [reflexivity|]. split; [apply existsb_N; exact E | reflexivity].
Qed.
Lemma incl_u a b : forallb (fun c => existsb (N.eqb c) b) a = true -> forall c, In c a -> In c b.
Proof. intros H c Hc. rewrite forallb_forall in H. apply existsb_N. apply H. exact Hc. Qed.
Lemma int_starts : starts m_int (chars (u "+-0123456789")).
Proof.
  intros l n H. unfold m_int in H. destruct (sign_cases l) as [G|(c & r & -> & Hc & G)]; rewrite G in H.
  - destruct l as [|c r]; [discriminate|]. cbn [skipn span] in H. destruct (digit c) eqn:D; [|discriminate].
    apply chars_in. apply (incl_u (u "0123456789")); [reflexivity | apply digit_in; exact D].
  - apply chars_in. apply (incl_u (u "+-")); [reflexivity | exact Hc].
Qed.
Lemma real_starts : starts m_real (chars (u "+-0123456789.")).
Proof.
  intros l n H. unfold m_real in H. destruct (sign_cases l) as [G|(c & r & -> & Hc & G)]; rewrite G in H.
  - destruct l as [|c r]; [discriminate|]. cbn [skipn span] in H. destruct (digit c) eqn:D.
    + apply chars_in. apply (incl_u (u "0123456789")); [reflexivity | apply digit_in; exact D].
    + cbn [Nat.add skipn] in H. destruct (N.eq_dec c 46) as [->|N]; [apply chars_in; apply existsb_N; reflexivity|].
      exfalso. destruct c as [|p]; [discriminate|].
      do 6 (destruct p as [p|p|]; try discriminate; try (apply N; reflexivity)).
  - apply chars_in. apply (incl_u (u "+-")); [reflexivity | exact Hc].
Qed.
Lemma hex_starts : starts m_hex [u "0x"].
Proof.
  intros l n H. exists (u "0x"). split; [left; reflexivity|]. unfold m_hex in H.
  destruct l as [|c l]; [discriminate|]. destruct (N.eq_dec c 48) as [->|N]; [|exfalso; destruct c as [|p]; [discriminate|]; do 6 (destruct p as [p|p|]; try discriminate; try (apply N; reflexivity))].
  destruct l as [|c l]; [discriminate|]. destruct (N.eq_dec c 120) as [->|N]; [|exfalso; destruct c as [|p]; [discriminate|]; do 7 (destruct p as [p|p|]; try discriminate; try (apply N; reflexivity))].
  exists (small l). reflexivity.
Qed.
Lemma quoted_starts o q : starts (m_quoted o q) [[o]].
Proof.
  intros l n H. exists [o]. split; [left; reflexivity|]. unfold m_quoted in H. destruct l as [|c l]; [discriminate|].
  destruct (N.eqb_spec c o) as [->|N]; [|discriminate]. exists (small l). reflexivity.
Qed.
Lemma first_in c : first_char c = true -> In c first_chars.
Proof.
  unfold first_char, first_chars. intros H. apply existsb_exists in H. destruct H as ([a b] & H & C). cbn [fst snd] in C.
  apply Bool.andb_true_iff in C. destruct C as [C1 C2]. apply N.leb_le in C1. apply N.leb_le in C2.
  apply in_flat_map. exists (a, b). split; [exact H|]. cbn [fst snd]. apply in_map_iff. exists (N.to_nat (c - a)). split; [lia|].
  apply in_seq. lia.
Qed.
Lemma ident_starts : starts m_ident (chars first_chars).
Proof.
  intros l n H. unfold m_ident in H. destruct l as [|c l]; [discriminate|]. destruct (first_char c) eqn:F; [|discriminate].
  apply chars_in. apply first_in. exact F.
Qed.

(** ** The grammar *)
Section Sql.
Context {T : Type}.
Variable tok : pystr -> T.
Variable full : list T -> bool.
Variable skip : pystr -> nat -> nat.
Variable act : string -> list T -> nat -> nat -> pystr -> out T.
Hypothesis white : white_space skip.
Hypothesis calm : forall w, takes_none (act w).
Notation G := (body tok skip act NoMatch).

Lemma ok_regex m ks n : starts m ks -> ok (regex tok m ks n).
Proof.
  intros S. apply ok_prim; [| intros; intros s i _; reflexivity | intros; apply leaf_forward | intros; intros s i; reflexivity | constructor].
  intros ps _ _ s i r j R _. unfold leaf in R. destruct (m (skipn i s)) as [k|] eqn:E; [|discriminate]. apply S in E. exact E.
Qed.
Lemma map_keys l l' (ps : list (parser T)) : Forall2 (fun p x => announces p (keys (streamline false x)) (min_length (streamline false x))) ps l ->
  map (streamline false) l = l' -> Forall2 (fun p (x : pe T) => announces p (keys x) (min_length x)) ps l'.
Proof. intros F <-. induction F; constructor; assumption. Qed.
Lemma ok_and0 l : Forall ok l -> keys (And (map (streamline false) l)) = keys (And l) -> min_length (And (map (streamline false) l)) = min_length (And l) ->
  @ok T (And0 l).
Proof.
  intros F E1 E2. destruct (close_respects (T:=T)) as [R1 R2].
  apply ok_prim; [|exact R1 | intros; apply close_forward; assumption | exact R2 | exact F].
  intros ps H. rewrite <- E1, <- E2. apply (close_announces tok skip). apply (map_keys l _ ps H). reflexivity.
Qed.
Lemma ok_or x l : Forall ok (x :: l) -> keys (First (map (streamline false) (x :: l))) = keys (First (x :: l)) ->
  min_length (First (map (streamline false) (x :: l))) = min_length (First (x :: l)) -> @ok T (Or NoMatch (x :: l)).
Proof.
  intros F E1 E2. destruct (longest_respects (T:=T)) as [R1 R2].
  apply ok_prim; [|exact R1 | intros; apply longest_forward; assumption | exact R2 | exact F].
  intros ps H. rewrite <- E1, <- E2. apply (longest_announces tok skip). apply (map_keys (x :: l) _ ps H). reflexivity.
Qed.
Lemma ok_all (l : list (pe T)) : Forall ok l -> ok (All skip l).
Proof.
  intros F. destruct (together_respects skip (T:=T)) as [R1 R2].
  apply ok_prim; [intros ps _ K; congruence | exact R1 | intros; apply together_forward; assumption | exact R2 | exact F].
Qed.
Lemma ok_nomatch : ok (@NoMatch T).
Proof.
  apply ok_prim; [intros ps _ K; congruence | intros; intros s i _; reflexivity | intros ps _ s i r j H; discriminate | intros; intros s i; reflexivity | constructor].
Qed.
Lemma ok_nm w e : ok e -> ok (nm act w e).
Proof. apply ok_act. apply calm. Qed.
Lemma ok_called e : ok e -> @ok T (called e).
Proof. apply ok_act. intros r i j s r' j' [= _ <-] L. exact L. Qed.
Lemma ok_hide e : ok e -> ok (hide act e).
Proof. apply ok_act. apply calm. Qed.
Lemma ok_grp e : ok e -> ok (grp act e).
Proof. apply ok_act. apply calm. Qed.
Lemma ok_combine e : ok e -> ok (combine act e).
Proof. apply ok_act. apply calm. Qed.
Lemma ok_dict e : ok e -> ok (dict act e).
Proof. apply ok_act. apply calm. Qed.
Lemma ok_kws l : Forall ok (map (fun w => @Kw T (u w)) l).
Proof. induction l; constructor; [constructor | assumption]. Qed.
Lemma ok_keyword x l : ok (EngineSqlModel.kw act (x :: l)).
Proof. apply ok_nm. cbn [map]. apply ok_and; [constructor | apply ok_kws]. Qed.
Lemma ok_flag x l : ok (flag act (x :: l)).
Proof. apply ok_nm, ok_nm, ok_keyword. Qed.
Lemma ok_assign x l e : ok e -> ok (assign act (x :: l) e).
Proof. intros O. apply ok_and; [apply ok_hide, ok_keyword | constructor; [apply ok_nm; exact O | constructor]]. Qed.
Lemma ok_delimited e : ok e -> ok (delimited act e).
Proof.
  intros O. apply ok_and; [exact O|]. constructor; [|constructor]. apply ok_many. apply ok_and; [apply ok_hide; constructor|].
  constructor; [exact O | constructor].
Qed.
Lemma ok_lits w : ok (@lit T w).
Proof. constructor. Qed.

Lemma ok_reserved : ok (RESERVED tok).
Proof.
  assert (W : forall w, ok (word tok w)). { intros w. apply ok_act; [intros r i j s r' j' [= _ <-] L; exact L | repeat constructor]. }
  assert (H : forall w, ok (hidden tok w)). { intros w. apply ok_act; [intros r i j s r' j' [= _ <-] L; exact L | apply W]. }
  assert (P : forall x y, ok x -> ok y -> @ok T (group [x; y])).
  { intros x y Hx Hy. apply ok_act; [intros r i j s r' j' [= _ <-] L; exact L | apply ok_and; [exact Hx | constructor; [exact Hy | constructor]]]. }
  unfold RESERVED. apply ok_first; [apply W|]. repeat (apply Forall_cons; [first [apply W | apply H | apply P; first [apply W | apply H]]|]). apply Forall_nil.
Qed.

Ltac head x := lazymatch x with ?f _ => head f | ?f => f end.
Ltac step :=
  lazymatch goal with
  | |- Forall _ [] => apply Forall_nil
  | |- Forall _ (_ :: _) => apply Forall_cons
  | |- Forall _ (map _ _) => cbn [map]
  | |- ok (RESERVED _) => apply ok_reserved
  | |- ok (Lit _) => apply ok_lit
  | |- ok (Chr _) => apply ok_chr
  | |- ok (Ref _) => apply ok_ref
  | |- ok NoMatch => apply ok_nomatch
  | |- ok (And (_ :: _)) => apply ok_and
  | |- ok (First (_ :: _)) => apply ok_first
  | |- ok (First (map _ durations)) => unfold durations; cbn [map]
  | |- ok (First (map _ times)) => unfold times; cbn [map]
  | |- ok (First (map _ _)) => cbn [map]
  | |- ok (First (_ ++ _)) => cbn [app]
  | |- ok (Many _ None _) => apply ok_many
  | |- ok (Opt _) => apply ok_opt
  | |- ok (Not _) => apply ok_not
  | |- ok (nm _ _ _) => apply ok_nm
  | |- ok (called _) => apply ok_called
  | |- ok (hide _ _) => apply ok_hide
  | |- ok (grp _ _) => apply ok_grp
  | |- ok (EngineSqlModel.combine _ _) => apply ok_combine
  | |- ok (dict _ _) => apply ok_dict
  | |- ok (EngineSqlModel.kw _ (_ :: _)) => apply ok_keyword
  | |- ok (flag _ (_ :: _)) => apply ok_flag
  | |- ok (assign _ (_ :: _) _) => apply ok_assign
  | |- ok (delimited _ _) => apply ok_delimited
  | |- ok (All _ _) => apply ok_all
  | |- ok (choice_of _ (map _ [])) => cbn [map choice_of]
  | |- ok (Or _ (map _ [])) => cbn [map Or]
  | |- ok (choice_of _ (map _ ?l)) => let h := head l in unfold h; cbn [map choice_of]
  | |- ok (regex _ _ _ _) => apply ok_regex; first [apply int_starts | apply real_starts | apply hex_starts | apply quoted_starts | apply ident_starts]
  | |- ok (And0 _) => apply ok_and0; [| vm_compute; reflexivity | vm_compute; reflexivity]
  | |- ok ?x => let h := head x in unfold h
  end.
Lemma ok_ident : ok (ident tok act).
Proof. repeat step. Qed.
Lemma ok_var_name : ok (var_name tok act).
Proof. unfold var_name. apply ok_and; [apply ok_not, ok_reserved | constructor; [apply ok_ident | constructor]]. Qed.
Ltac steps := repeat first [apply ok_var_name | apply ok_ident | step].
Lemma ok_alias : ok (alias tok act).
Proof. steps. Qed.
Lemma ok_over_clause : ok (over_clause tok act).
Proof. steps. Qed.
Ltac steps' := repeat first [apply ok_var_name | apply ok_ident | apply ok_alias | apply ok_over_clause | step].
Lemma ok_compound extra : Forall ok extra -> ok (compound_of tok act extra).
Proof.
  intros E. unfold compound_of. cbn [app]. apply ok_first; [steps'|]. do 21 (apply Forall_cons; [steps'|]).
  apply Forall_app. split; [exact E|]. steps'.
Qed.
Lemma ok_binary : ok (Or NoMatch (map (recorded act) (binary_ops act))).
Proof. unfold binary_ops. cbn [map]. apply ok_or; [steps' | vm_compute; reflexivity | vm_compute; reflexivity]. Qed.

Lemma ok_body n : ok (G n).
Proof.
  assert (C : forall extra, Forall ok extra -> ok (compound_of tok act extra)) by apply ok_compound.
  destruct n as [|[|[|[|[|[|[|[|[|n]]]]]]]]]; cbn [body]; repeat first [apply ok_var_name | apply ok_ident | apply ok_alias | apply ok_over_clause | apply ok_binary |
    lazymatch goal with |- ok (compound_of _ _ _) => apply C end | step].
Qed.
Lemma choices_body n : choices (streamline false (G n)) = true.
Proof.
  do 9 (destruct n as [|n]; [vm_compute; reflexivity|]). reflexivity.
Qed.
Lemma good_body n : good (streamline false (G n)).
Proof. apply fine_good. apply mild_fine; [apply ok_mild, ok_body | apply choices_body]. Qed.

(** More depth does not change a result. *)
Lemma slow_ok slow ref e : (forall n, follows (slow n) (ref n)) -> ok e -> forall s i,
  settled (run tok full skip slow false e s i) -> run tok full skip ref false e s i = run tok full skip slow false e s i.
Proof.
  intros RF. induction e as [w|w|l|f ks m l IH|n|l IH|l IH|mn mx e IH|e IH|e IH|e IH|own f e IH] using pe_rect'; intros O s i S; cbn [EngineModel.run] in *; try reflexivity.
  - inversion O; subst. apply (H4 (map (run tok full skip slow false) l)); [|exact S]. clear - IH H7 RF.
    induction IH as [|x l H IH IHl]; cbn [map]; constructor; inversion H7; subst; [intros s i S; apply H; assumption | apply IHl; assumption].
  - apply RF. exact S.
  - apply and_ext; [|exact S]. rewrite Forall_forall in IH. intros x j Hx. apply (IH x Hx). inversion O; subst.
    destruct Hx as [<-|Hx]; [assumption|]. rewrite Forall_forall in H1. apply H1. exact Hx.
  - apply first_ext; [|exact S]. rewrite Forall_forall in IH. intros x Hx. apply (IH x Hx). inversion O; subst.
    destruct Hx as [<-|Hx]; [assumption|]. rewrite Forall_forall in H1. apply H1. exact Hx.
  - unfold run_many in *. apply many_ext; [|exact S]. intros j. apply IH. inversion O; assumption.
  - unfold run_opt in *. rewrite IH; [reflexivity | inversion O; assumption|].
    destruct (run tok full skip slow false e s i) as [| | |r j]; destruct S as [S|(r' & j' & S)]; try discriminate; try (left; reflexivity); right; eexists _, _; reflexivity.
  - unfold run_look in *. rewrite IH; [reflexivity | inversion O; assumption|].
    destruct (run tok full skip slow false e s i) as [| | |r j]; destruct S as [S|(r' & j' & S)]; try discriminate; try (left; reflexivity); right; eexists _, _; reflexivity.
  - unfold run_not in *. rewrite IH; [reflexivity | inversion O; assumption|].
    destruct (run tok full skip slow false e s i) as [| | |r j]; destruct S as [S|(r' & j' & S)]; try discriminate; try (left; reflexivity); right; eexists _, _; reflexivity.
  - unfold run_act in *. rewrite IH; [reflexivity | inversion O; assumption|].
    destruct (run tok full skip slow false e s i) as [| | |r j]; destruct S as [S|(r' & j' & S)]; try discriminate; try (left; reflexivity); right; eexists _, _; reflexivity.
Qed.
Lemma depth_ok k : forall n, follows (written tok full skip G k n) (written tok full skip G (S k) n).
Proof.
  induction k as [|k IH]; intros n s i S; [destruct S as [S|(r & j & S)]; discriminate|].
  cbn [written] in *. apply slow_ok; [exact IH | apply ok_body | exact S].
Qed.
Lemma depths_ok d k n : follows (written tok full skip G k n) (written tok full skip G (d + k) n).
Proof.
  induction d as [|d IH]; intros s i St; [reflexivity|]. change (S d + k) with (S (d + k)).
  rewrite (depth_ok (d + k) n s i); [apply IH; exact St | rewrite (IH s i St); exact St].
Qed.
Lemma prepared_ok k : forall n, forward (written tok full skip G k n) /\ follows (written tok full skip G k n) (prepared tok full skip G k n).
Proof.
  induction k as [|k IH]; intros n.
  - split; [intros s i r j H; discriminate | intros s i [S|(r & j & S)]; discriminate].
  - split.
    + cbn [written]. intros s i r j H. revert H. apply run_forward; [exact white | intros m; apply IH | apply ok_plain, ok_body].
    + intros s i S. cbn [written prepared] in *.
      destruct (streamline_ok tok full skip (written tok full skip G k) white (fun m => proj1 (IH m)) (G n) (ok_plain _ (ok_body n)) false) as (_ & _ & Q).
      rewrite <- (Q s i) in S |- *. apply quick_ok; [intros m; apply IH | apply good_body | exact S].
Qed.
(** The grammar as it is in the code, where choices of nothing stand in the query of CREATE TABLE ... AS. *)
Lemma none_ok k : forall n, follows (written tok full skip (body tok skip act (First [])) k n) (written tok full skip G k n).
Proof.
  induction k as [|k IH]; intros n s i S; [destruct S as [S|(r & j & S)]; discriminate|]. cbn [written] in *.
  assert (E : run tok full skip (written tok full skip (body tok skip act (First [])) k) false (body tok skip act (First []) n) =
              run tok full skip (written tok full skip (body tok skip act (First [])) k) false (G n)).
  { destruct n as [|[|[|[|[|[|[|[|[|n]]]]]]]]]; reflexivity. }
  rewrite E in S |- *. apply slow_ok; [exact IH | apply ok_body | exact S].
Qed.
(** With enough depth the prepared grammar gives what the written one gives. *)
Lemma sql_ok k n s i : settled (written tok full skip (body tok skip act (First [])) k n s i) ->
  forall d, prepared tok full skip G (d + k) n s i = written tok full skip (body tok skip act (First [])) k n s i.
Proof.
  intros S d. assert (E := none_ok k n s i S). rewrite <- E in S |- *. assert (D := depths_ok d k n s i S). rewrite <- D in S |- *.
  apply prepared_ok. exact S.
Qed.

(** ** Reserved words are no names *)
Lemma var_name_ok q ref w s i : In w reserved_names -> word_at w s i ->
  run tok full skip ref q (var_name tok act) s i = Fail.
Proof.
  intros Hw W. destruct (reserved_words_ok tok full skip ref s i) as (E & R).
  assert (D : exists r j, run tok full skip ref q (RESERVED tok) s i = Done r j).
  { assert (D : exists r j, run tok full skip ref true (RESERVED tok) s i = Done r j) by (apply R; exists w; auto).
    destruct q; [exact D|]. rewrite <- E. exact D. }
  destruct D as (r & j & D). unfold var_name. cbn [EngineModel.run map run_and]. unfold run_not. rewrite Nat.ltb_irrefl, D. reflexivity.
Qed.
End Sql.
