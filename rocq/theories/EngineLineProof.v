(** Simplifying a grammar does not change what it parses. *)
From Coq Require Import String Ascii List Arith NArith Bool Lia.
From Verif Require Import Base EngineModel EngineSpec EngineTblProof EngineProof.
Import ListNotations.

Section Line.
Context {T : Type}.
Variable tok : pystr -> T.
Variable full : list T -> bool.
Variable skip : pystr -> nat -> nat.
Variable ref : nat -> parser T.
Notation run := (run tok full skip ref false).
Hypothesis white : white_space skip.
Hypothesis ahead : forall n, forward (ref n).

(** ** Conditions of elements and their parts *)
Lemma plain_and l : plain (And l) <-> l <> [] /\ forall x, In x l -> @plain T x.
Proof.
  split.
  - intros P. split; [apply (P (And l) (inside_self _))|]. intros x H y I. apply P. apply inside_and with x; assumption.
  - intros [N P] y I. inversion I; subst; [exact N | apply (P y0); assumption].
Qed.
Lemma plain_first l : plain (First l) <-> l <> [] /\ forall x, In x l -> @plain T x.
Proof.
  split.
  - intros P. split; [apply (P (First l) (inside_self _))|]. intros x H y I. apply P. apply inside_first with x; assumption.
  - intros [N P] y I. inversion I; subst; [exact N | apply (P y0); assumption].
Qed.
Lemma plain_many mn mx e : plain (Many mn mx e) <-> (mx = Some mn -> mn <> 0 /\ mn <> 1) /\ @plain T e.
Proof.
  split.
  - intros P. split; [apply (P (Many mn mx e) (inside_self _))|]. intros y I. apply P. constructor. exact I.
  - intros [N P] y I. inversion I; subst; [exact N | apply P; assumption].
Qed.
Lemma plain_opt e : plain (Opt e) <-> @plain T e.
Proof. split; intros P y I; [apply P; constructor; exact I | inversion I; subst; [exact Logic.I | apply P; assumption]]. Qed.
Lemma plain_look e : plain (Look e) <-> @plain T e.
Proof. split; intros P y I; [apply P; constructor; exact I | inversion I; subst; [exact Logic.I | apply P; assumption]]. Qed.
Lemma plain_not e : plain (Not e) <-> @plain T e.
Proof. split; intros P y I; [apply P; constructor; exact I | inversion I; subst; [exact Logic.I | apply P; assumption]]. Qed.
Lemma plain_act own f e : plain (Act own f e) <-> @plain T e.
Proof. split; intros P y I; [apply P; constructor; exact I | inversion I; subst; [exact Logic.I | apply P; assumption]]. Qed.

Lemma plain_prim f ks m l : plain (Prim f ks m l) <->
  ((forall ps, (forall p, In p ps -> forward p) -> forward (f ps)) /\ (forall ps qs, Forall2 same ps qs -> same (f ps) (f qs))) /\
  forall x, In x l -> @plain T x.
Proof.
  split.
  - intros P. split; [apply (P (Prim f ks m l) (inside_self _))|]. intros x H y I. apply P. apply inside_prim with x; assumption.
  - intros [N P] y I. inversion I; subst; [exact N | apply (P y0); assumption].
Qed.

Definition not_first (e : pe T) : Prop := forall l, e <> First l.
Lemma merged_and l : merged (And l) <-> forall x, In x l -> @merged T x.
Proof.
  split.
  - intros M x H g g' I. apply M. apply inside_and with x; assumption.
  - intros M g g' I. inversion I; subst. apply (M y); assumption.
Qed.
Lemma merged_first l : merged (First l) <-> (forall x, In x l -> not_first x) /\ forall x, In x l -> @merged T x.
Proof.
  split.
  - intros M. split; [intros x H g ->; apply (M l g (inside_self _)); exact H|]. intros x H g g' I. apply M. apply inside_first with x; assumption.
  - intros [N M] g g' I. inversion I; subst; [intros H; apply (N _ H g'); reflexivity | apply (M y); assumption].
Qed.
Lemma merged_prim f ks m l : merged (Prim f ks m l) <-> forall x, In x l -> @merged T x.
Proof.
  split.
  - intros M x H g g' I. apply M. apply inside_prim with x; assumption.
  - intros M g g' I. inversion I; subst. apply (M y); assumption.
Qed.
Lemma merged_many mn mx e : merged (Many mn mx e) <-> @merged T e.
Proof. split; intros M g g' I; [apply M; constructor; exact I | inversion I; subst; apply M; assumption]. Qed.
Lemma merged_opt e : merged (Opt e) <-> @merged T e.
Proof. split; intros M g g' I; [apply M; constructor; exact I | inversion I; subst; apply M; assumption]. Qed.
Lemma merged_look e : merged (Look e) <-> @merged T e.
Proof. split; intros M g g' I; [apply M; constructor; exact I | inversion I; subst; apply M; assumption]. Qed.
Lemma merged_not e : merged (Not e) <-> @merged T e.
Proof. split; intros M g g' I; [apply M; constructor; exact I | inversion I; subst; apply M; assumption]. Qed.
Lemma merged_act own f e : merged (Act own f e) <-> @merged T e.
Proof. split; intros M g g' I; [apply M; constructor; exact I | inversion I; subst; apply M; assumption]. Qed.

(** ** No element goes back *)
Lemma and_forward (ps : list (parser T)) s : (forall p, In p ps -> forward p) -> forall idx en acc r j, idx <= en -> run_and skip ps s idx en acc = Done r j -> en <= j.
Proof.
  destruct white as [W _]. induction ps as [|p ps IH]; intros F idx en acc r j L R; cbn [run_and] in R; [injection R as <- <-; lia|].
  set (k := if idx <? en then skip s en else idx) in *.
  assert (K : en <= k) by (unfold k; destruct (Nat.ltb_spec idx en); [apply W | lia]).
  destruct (p s k) as [| | |t e] eqn:E; try discriminate. apply (F p (or_introl eq_refl)) in E.
  apply IH in R; [lia | intros q H; apply F; right; exact H | lia].
Qed.
Lemma many_forward mn mx (p : parser T) s start : forward p -> forall n idx en cnt last acc r j, start <= idx -> start <= en -> start <= last ->
  many_loop full skip mn mx p s start n idx en cnt last acc = Done r j -> start <= j.
Proof.
  destruct white as [W _]. intros F.
  assert (EN : forall cnt last acc r j, start <= last -> many_end mn start cnt last acc = @Done T r j -> start <= j).
  { intros cnt last acc r j L. unfold many_end. destruct (cnt =? 0); [destruct (mn =? 0); [intros [= <- <-]; lia | discriminate]|].
    destruct (cnt <? mn); [discriminate | intros [= <- <-]; exact L]. }
  induction n as [|n IH]; intros idx en cnt last acc r j L1 L2 L3 R; cbn [many_loop] in R; [discriminate|].
  destruct ((en <? length s) && under mx cnt); [|apply EN in R; assumption].
  set (k := if idx <? en then skip s en else idx) in *.
  assert (K : start <= k). { unfold k. destruct (Nat.ltb_spec idx en); [specialize (W s en); lia | lia]. }
  destruct (p s k) as [| | |t e] eqn:E; try discriminate.
  - destruct (mn <=? cnt); [apply EN in R; assumption | discriminate].
  - apply F in E. destruct ((e <=? k) && (e <? length s)).
    + destruct (full t); [|discriminate]. destruct mx as [m|]; [|discriminate]. apply EN in R; [exact R | lia].
    + destruct (full t); apply IH in R; lia.
Qed.
Lemma run_forward e : plain e -> forward (run e).
Proof.
  induction e as [w|w|l|f ks m l IH|n|l IH|l IH|mn mx e IH|e IH|e IH|e IH|own f e IH] using pe_rect'; intros P s i r j R; cbn [EngineModel.run] in R.
  - unfold run_lit in R. destruct (startswith _ _); [injection R as <- <-; lia | discriminate].
  - unfold run_kw in R. destruct (_ && _); [injection R as <- <-; lia | discriminate].
  - unfold run_chr in R. destruct (skipn i s); [discriminate|]. destruct (existsb _ _); [injection R as <- <-; lia | discriminate].
  - apply plain_prim in P. destruct P as [[P1 _] P]. rewrite Forall_forall in IH. apply P1 in R; [exact R|].
    intros p H. apply in_map_iff in H. destruct H as (x & <- & H). apply IH; [exact H | apply P; exact H].
  - apply (ahead n s i r j R).
  - apply plain_and in P. destruct P as [_ P]. rewrite Forall_forall in IH. apply and_forward in R; [exact R | | lia].
    intros p H. apply in_map_iff in H. destruct H as (x & <- & H). apply IH; [exact H | apply P; exact H].
  - apply plain_first in P. destruct P as [_ P]. rewrite Forall_forall in IH. apply first_done in R. destruct R as (p & H & R).
    apply in_map_iff in H. destruct H as (x & <- & H). apply (IH x H (P x H) s i r j R).
  - apply plain_many in P. destruct P as [_ P]. apply many_forward in R; try lia. apply IH. exact P.
  - apply (proj1 (plain_opt _)) in P. unfold run_opt in R. destruct (run e s i) eqn:E; try discriminate; injection R as <- <-; [lia | apply (IH P s i _ _ E)].
  - unfold run_look in R. destruct (run e s i); try discriminate. injection R as <- <-. lia.
  - unfold run_not in R. destruct (run e s i); try discriminate. injection R as <- <-. lia.
  - apply (proj1 (plain_act _ _ _)) in P. unfold run_act in R. destruct (run e s i) as [| | |t e0] eqn:E; try discriminate.
    apply (IH P) in E. destruct (f t i e0 s) as [| | |t' e']; try discriminate. destruct (Nat.ltb_spec e' e0); [discriminate|].
    injection R as <- <-. lia.
Qed.

(** ** A sequence in a sequence *)
Fixpoint and_st (ps : list (parser T)) (s : pystr) (idx en : nat) (acc : list T) : out T + (nat * nat * list T) :=
  match ps with
  | [] => inr (idx, en, acc)
  | p :: r =>
    let idx := if idx <? en then skip s en else idx in
    match p s idx with Done t e => and_st r s idx e (acc ++ t) | x => inl x end
  end.
Lemma and_st_run a b s idx en acc : run_and skip (a ++ b) s idx en acc =
  match and_st a s idx en acc with inl o => o | inr (i, e, c) => run_and skip b s i e c end.
Proof.
  revert idx en acc. induction a as [|p a IH]; intros idx en acc; [reflexivity|]. cbn [app run_and and_st].
  destruct (p s _); try reflexivity. apply IH.
Qed.
Lemma and_st_acc a s : forall idx en acc acc',
  and_st a s idx en (acc ++ acc') = match and_st a s idx en acc' with inl o => inl o | inr (i, e, c) => inr (i, e, acc ++ c) end.
Proof.
  induction a as [|p a IH]; intros idx en acc acc'; [reflexivity|]. cbn [and_st].
  destruct (p s _); try reflexivity. rewrite <- app_assoc. apply IH.
Qed.
Lemma and_st_place (a : list (parser T)) s : (forall p, In p a -> forward p) -> forall idx en acc i e c, idx <= en ->
  and_st a s idx en acc = inr (i, e, c) -> idx <= i /\ i <= e /\ (i = idx \/ skip s i = i).
Proof.
  destruct white as [W1 W2]. induction a as [|p a IH]; intros F idx en acc i e c L H; cbn [and_st] in H; [injection H as <- <- <-; lia|].
  set (k := if idx <? en then skip s en else idx) in *.
  assert (K : idx <= k /\ (k = idx \/ skip s k = k)).
  { unfold k. destruct (Nat.ltb_spec idx en); [|lia]. split; [specialize (W1 s en); lia | right; apply W2]. }
  destruct (p s k) as [| | |t e0] eqn:E; try discriminate. apply (F p (or_introl eq_refl)) in E.
  destruct (IH (fun q Hq => F q (or_intror Hq)) _ _ _ _ _ _ E H) as (H1 & H2 & H3).
  split; [lia|]. split; [exact H2|]. destruct H3 as [->|H3]; [apply K | right; exact H3].
Qed.
Lemma and_st_inl a s : forall idx en acc o, and_st a s idx en acc = inl o -> forall r j, o <> Done r j.
Proof.
  induction a as [|p a IH]; intros idx en acc o E; cbn [and_st] in E; [discriminate|].
  destruct (p s _) eqn:Q; try (injection E as <-; discriminate). exact (IH _ _ _ _ E).
Qed.
Lemma and_nest (g r : list (parser T)) s idx en acc : g <> [] -> (forall p, In p g -> forward p) ->
  run_and skip ((fun s i => run_and skip g s i i []) :: r) s idx en acc = run_and skip (g ++ r) s idx en acc.
Proof.
  intros N F. rewrite and_st_run. cbn [run_and].
  set (k := if idx <? en then skip s en else idx).
  assert (ST : and_st g s idx en acc = and_st g s k k acc).
  { destruct g as [|p g]; [congruence|]. cbn [and_st]. fold k. rewrite Nat.ltb_irrefl. reflexivity. }
  assert (SA : and_st g s k k acc = match and_st g s k k [] with inl o => inl o | inr (i, e, c) => inr (i, e, acc ++ c) end)
    by (rewrite <- (app_nil_r acc) at 1; apply and_st_acc).
  assert (RA : run_and skip g s k k [] = match and_st g s k k [] with inl o => o | inr (i, e, c) => Done c e end)
    by (rewrite <- (app_nil_r g) at 1; apply and_st_run).
  rewrite ST, SA, RA.
  destruct (and_st g s k k []) as [o|[[i e] c]] eqn:E.
  - assert (O : forall r0 j, o <> Done r0 j).
    { intros r0 j. apply (and_st_inl g s k k [] o E). }
    destruct o; try reflexivity. exfalso. apply (O r0 e). reflexivity.
  - cbn [run_and]. destruct (and_st_place g s F k k [] i e c (le_n _) E) as (H1 & H2 & H3).
    destruct r as [|p r]; cbn [run_and]; [reflexivity|].
    replace (if k <? e then skip s e else k) with (if i <? e then skip s e else i); [reflexivity|].
    destruct (Nat.ltb_spec i e), (Nat.ltb_spec k e); try reflexivity; try lia.
    assert (i = e) by lia. subst e. destruct H3 as [->|H3]; [lia | symmetry; exact H3].
Qed.
Lemma and_flat l s : (forall x, In x l -> plain x) -> forall idx en acc,
  run_and skip (map run (concat (map and_parts l))) s idx en acc = run_and skip (map run l) s idx en acc.
Proof.
  induction l as [|x l IH]; intros P idx en acc; [reflexivity|].
  assert (P' : forall y, In y l -> plain y) by (intros y H; apply P; right; exact H).
  cbn [map concat]. rewrite map_app.
  assert (D : and_parts x = [x] \/ exists g, x = And g /\ and_parts x = g).
  { destruct x as [| | | | |g| | | | | |]; try (left; reflexivity). destruct g as [|y g]; [left; reflexivity|]. right. exists (y :: g). auto. }
  destruct D as [->|(g & -> & ->)].
  - cbn [map app run_and]. destruct (run x s _); try reflexivity. apply IH. exact P'.
  - pose proof (P (And g) (or_introl eq_refl)) as Pg. apply plain_and in Pg. destruct Pg as [N Pg].
    cbn [map EngineModel.run]. rewrite (and_nest (map run g) (map run l)).
    + rewrite !and_st_run. destruct (and_st (map run g) s idx en acc) as [o|[[i e] c]]; [reflexivity | apply IH; exact P'].
    + destruct g; [congruence | discriminate].
    + intros p H. apply in_map_iff in H. destruct H as (y & <- & H). apply run_forward. apply Pg. exact H.
Qed.
Lemma first_flat l s i : run_first (map run (concat (map first_parts l))) s i = run_first (map run l) s i.
Proof.
  induction l as [|x l IH]; [reflexivity|]. cbn [map concat]. rewrite map_app, first_app, IH.
  destruct x as [| | | | | |g| | | | |]; cbn [first_parts map EngineModel.run run_first];
    match goal with |- match ?a with _ => _ end = match ?b with _ => _ end => destruct b eqn:E; cbn; try rewrite E; reflexivity | _ => idtac end.
Qed.

(** ** streamline *)
Lemma pointwise_and (f g : pe T -> parser T) l s : (forall x i, In x l -> f x s i = g x s i) -> forall idx en acc,
  run_and skip (map f l) s idx en acc = run_and skip (map g l) s idx en acc.
Proof.
  induction l as [|a l IH]; intros H idx en acc; cbn [map run_and]; [reflexivity|]. rewrite (H a _ (or_introl eq_refl)).
  destruct (g a s _); try reflexivity. apply IH. intros x i Hx. apply H. right. exact Hx.
Qed.
Lemma pointwise_first (f g : pe T -> parser T) l s i : (forall x, In x l -> f x s i = g x s i) ->
  run_first (map f l) s i = run_first (map g l) s i.
Proof.
  induction l as [|a l IH]; intros H; cbn [map run_first]; [reflexivity|]. rewrite (H a (or_introl eq_refl)).
  destruct (g a s i); try reflexivity. apply IH. intros x Hx. apply H. right. exact Hx.
Qed.
Lemma pointwise_many mn mx (f g : parser T) s start : (forall i, f s i = g s i) -> forall n idx en cnt last acc,
  many_loop full skip mn mx f s start n idx en cnt last acc = many_loop full skip mn mx g s start n idx en cnt last acc.
Proof.
  intros H. induction n as [|n IH]; intros idx en cnt last acc; cbn [many_loop]; [reflexivity|]. rewrite H.
  destruct (_ && _); [|reflexivity]. destruct (g s _) as [| | |r e]; try reflexivity.
  destruct (_ && _); [reflexivity|]. destruct (full r); apply IH.
Qed.
Lemma and_parts_In x y : In y (and_parts x) -> y = x \/ exists g, x = @And T g /\ In y g.
Proof. destruct x as [| | | | |g| | | | | |]; try (intros [<-|[]]; auto). destruct g as [|a g]; [intros [<-|[]]; auto | intros H; right; exists (a :: g); auto]. Qed.
Lemma first_parts_In x y : In y (first_parts x) -> (y = x /\ not_first x) \/ exists g, x = @First T g /\ In y g.
Proof. destruct x as [| | | | | |g| | | | |]; try (intros [<-|[]]; left; split; [reflexivity | intros ?; discriminate]). intros H. right. exists g. auto. Qed.

Lemma plain_solid e : plain e -> @is_empty T e = false.
Proof. destruct e as [| | | | |g| | | | | |]; try reflexivity. intros P. apply plain_and in P. destruct P as [N _]. destruct g; [congruence | reflexivity]. Qed.
Lemma shell_solid e e' w : @plain T e' -> shell e e' w = w.
Proof. intros P. unfold shell. rewrite (plain_solid e' P). reflexivity. Qed.

Lemma streamline_ok e : plain e -> forall ann,
  plain (streamline ann e) /\ merged (streamline ann e) /\ forall s i, run (streamline ann e) s i = run e s i.
Proof.
  assert (ATOM : forall e : pe T, plain e -> (forall l, ~ inside (First l) e) -> plain e /\ merged e /\ forall s i, run e s i = run e s i).
  { intros x P N. split; [exact P|]. split; [intros l l' I; destruct (N l I) | reflexivity]. }
  induction e as [w|w|l|f ks m l IH|n|l IH|l IH|mn mx e IH|e IH|e IH|e IH|own f e IH] using pe_rect'; intros P ann.
  - apply ATOM; [exact P | intros l I; inversion I].
  - apply ATOM; [exact P | intros l I; inversion I].
  - apply ATOM; [exact P | intros g I; inversion I].
  - rewrite Forall_forall in IH. apply plain_prim in P. destruct P as [P1 P]. cbn [streamline]. split; [|split].
    + apply (proj2 (plain_prim _ _ _ _)). split; [exact P1|]. intros x H. apply in_map_iff in H. destruct H as (y & <- & H). apply (IH y H (P y H) false).
    + apply (proj2 (merged_prim _ _ _ _)). intros x H. apply in_map_iff in H. destruct H as (y & <- & H). apply (IH y H (P y H) false).
    + intros s i. cbn [EngineModel.run]. apply P1. rewrite map_map. clear - IH P.
      induction l as [|x l IHl]; cbn [map]; constructor.
      * intros s i. apply (IH x (or_introl eq_refl) (P x (or_introl eq_refl)) false).
      * apply IHl; intros y H; [apply IH | apply P]; right; exact H.
  - apply ATOM; [exact P | intros g I; inversion I].
  - rewrite Forall_forall in IH. apply plain_and in P. destruct P as [N P].
    assert (ALL : plain (And (concat (map and_parts (map (streamline false) l)))) /\
      merged (And (concat (map and_parts (map (streamline false) l)))) /\
      forall s i, run (And (concat (map and_parts (map (streamline false) l)))) s i = run (And l) s i).
    { assert (PS : forall x, In x (map (streamline false) l) -> plain x).
      { intros x H. apply in_map_iff in H. destruct H as (y & <- & H). apply (IH y H (P y H) false). }
      split; [|split].
      - apply plain_and. split.
        + destruct l as [|a l]; [congruence|]. cbn. destruct (streamline false a) as [| | | | |g| | | | | |]; try discriminate. destruct g; discriminate.
        + intros x H. apply in_concat in H. destruct H as (q & H1 & H2). apply in_map_iff in H1. destruct H1 as (y & <- & H1).
          apply and_parts_In in H2. destruct H2 as [->|(g & -> & H2)]; [apply PS; exact H1|].
          apply PS in H1. apply plain_and in H1. apply H1. exact H2.
      - apply merged_and. intros x H. apply in_concat in H. destruct H as (q & H1 & H2). apply in_map_iff in H1. destruct H1 as (y & <- & H1).
        apply in_map_iff in H1. destruct H1 as (z & <- & H1). destruct (IH z H1 (P z H1) false) as (_ & M & _).
        apply and_parts_In in H2. destruct H2 as [->|(g & E & H2)]; [exact M|]. rewrite E in M.
        apply (proj1 (merged_and g) M). exact H2.
      - intros s i. cbn [EngineModel.run]. rewrite and_flat by exact PS. rewrite map_map. apply pointwise_and.
        intros x j H. apply (IH x H (P x H) false). }
    cbn [streamline]. destruct l as [|a l]; [congruence|]. destruct l as [|b l].
    + destruct ann; [exact ALL|]. cbn [map]. destruct (IH a (or_introl eq_refl) (P a (or_introl eq_refl)) false) as (I1 & I2 & I3).
      split; [exact I1|]. split; [exact I2|]. intros s i. rewrite I3. cbn [EngineModel.run map run_and]. rewrite Nat.ltb_irrefl.
      destruct (run a s i); reflexivity.
    + exact ALL.
  - rewrite Forall_forall in IH. apply plain_first in P. destruct P as [N P].
    set (l' := concat (map first_parts (map (streamline false) l))).
    assert (EL : forall x, In x l' -> plain x /\ merged x /\ not_first x).
    { intros x H. apply in_concat in H. destruct H as (q & H1 & H2). apply in_map_iff in H1. destruct H1 as (y & <- & H1).
      apply in_map_iff in H1. destruct H1 as (z & <- & H1). destruct (IH z H1 (P z H1) false) as (I1 & I2 & _).
      apply first_parts_In in H2. destruct H2 as [[-> NF]|(g & E & H2)]; [auto|]. rewrite E in I1, I2.
      apply plain_first in I1. apply merged_first in I2. split; [apply I1; exact H2|]. split; [apply I2; exact H2 | apply I2; exact H2]. }
    assert (RU : forall s i, run_first (map run l') s i = run (First l) s i).
    { intros s i. unfold l'. rewrite first_flat, map_map. cbn [EngineModel.run]. apply pointwise_first. intros x H. apply (IH x H (P x H) false). }
    assert (NE : l' <> []).
    { unfold l'. destruct l as [|a l]; [congruence|]. destruct (IH a (or_introl eq_refl) (P a (or_introl eq_refl)) false) as (I1 & _ & _).
      cbn. destruct (streamline false a) as [| | | | | |g| | | | |]; try discriminate. apply plain_first in I1. destruct I1 as [I1 _].
      destruct g; [congruence | discriminate]. }
    assert (ALL : plain (First l') /\ merged (First l') /\ forall s i, run (First l') s i = run (First l) s i).
    { split; [apply plain_first; split; [exact NE | intros x H; apply EL; exact H]|].
      split; [apply (proj2 (merged_first _)); split; intros x H; apply EL; exact H | exact RU]. }
    assert (SF : streamline ann (First l) = match l', ann with [], false => And [] | [x], false => x | q, _ => First q end)
      by (cbn [streamline]; fold l'; generalize l' as q; intros [|x [|y q]]; destruct ann; reflexivity).
    rewrite SF. clearbody l'. destruct l' as [|x q]; [congruence|]. destruct q as [|y q].
    + destruct ann; [exact ALL|]. destruct (EL x (or_introl eq_refl)) as (E1 & E2 & _). split; [exact E1|]. split; [exact E2|].
      intros s i. rewrite <- RU. cbn. destruct (run x s i); reflexivity.
    + exact ALL.
  - apply plain_many in P. destruct P as [X P]. destruct (IH P false) as (I1 & I2 & I3).
    assert (E : streamline ann (Many mn mx e) = Many mn mx (streamline false e)).
    { cbn [streamline]. rewrite !shell_solid by exact I1.
      destruct mn as [|[|mn]]; destruct mx as [[|[|m]]|]; destruct ann; try reflexivity; exfalso; destruct (X eq_refl); congruence. }
    rewrite E. split; [apply plain_many; auto|]. split; [apply (proj2 (merged_many _ _ _)); exact I2|]. intros s i. cbn [EngineModel.run]. unfold run_many.
    apply pointwise_many. intros j. apply I3.
  - apply (proj1 (plain_opt _)) in P. destruct (IH P false) as (I1 & I2 & I3). cbn [streamline]. rewrite shell_solid by exact I1.
    split; [apply (proj2 (plain_opt _)); exact I1|]. split; [apply (proj2 (merged_opt _)); exact I2|]. intros s i. cbn [EngineModel.run]. unfold run_opt. rewrite I3. reflexivity.
  - apply (proj1 (plain_look _)) in P. destruct (IH P false) as (I1 & I2 & I3). cbn [streamline]. rewrite shell_solid by exact I1. destruct ann;
    (split; [apply (proj2 (plain_look _)); exact I1|]; split; [apply (proj2 (merged_look _)); exact I2|]; intros s i; cbn [EngineModel.run]; unfold run_look; rewrite I3; reflexivity).
  - apply (proj1 (plain_not _)) in P. destruct (IH P false) as (I1 & I2 & I3). cbn [streamline]. rewrite (plain_solid _ I1).
    split; [apply (proj2 (plain_not _)); exact I1|]. split; [apply (proj2 (merged_not _)); exact I2|]. intros s i. cbn [EngineModel.run]. unfold run_not. rewrite I3. reflexivity.
  - apply (proj1 (plain_act _ _ _)) in P. destruct own; cbn [streamline].
    + destruct (IH P true) as (I1 & I2 & I3). rewrite (plain_solid _ I1), Bool.andb_false_r.
      split; [apply (proj2 (plain_act _ _ _)); exact I1|]. split; [apply (proj2 (merged_act _ _ _)); exact I2|]. intros s i. cbn [EngineModel.run]. unfold run_act. rewrite I3. reflexivity.
    + destruct (IH P false) as (I1 & I2 & I3).
      split; [apply (proj2 (plain_act _ _ _)); exact I1|]. split; [apply (proj2 (merged_act _ _ _)); exact I2|].
      intros s i. cbn [EngineModel.run]. unfold run_act. rewrite I3. reflexivity.
Qed.
End Line.
