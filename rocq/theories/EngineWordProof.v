(** The choice of the reserved words, and a test of the condition [tidy]. *)
From Coq Require Import String Ascii List Arith NArith Bool Lia.
From Verif Require Import Base FmtSpec EngineModel EngineSpec EngineTblProof EngineProof EngineLineProof.
Import ListNotations.

(** ** A test of [tidy] *)
Definition mid (ms : list pystr) (c n a : list pystr) : bool :=
  forallb (fun y => if existsb (seqb y) a then
    forallb (fun x => if existsb (fun m => startswith x m && startswith y m) ms then existsb (seqb y) n else true) n else true) c.
Fixpoint chk2 (ms : list pystr) (c : list pystr) (l : list (list pystr)) : bool :=
  match l with [] => true | n :: r => forallb (mid ms c n) r && chk2 ms c r end.
Fixpoint chk (ms : list pystr) (l : list (list pystr)) : bool :=
  match l with [] => true | c :: r => chk2 ms c r && chk ms r end.
Lemma chk_tidy kss : chk (concat kss) kss = true -> tidy kss.
Proof.
  intros H bf seg af E _ A c B n C a D x y m ES Y1 Y2 X (q & Q1 & Q2) B1 B2.
  assert (M : In m (concat kss)). { apply in_concat. exists q. split; [rewrite E; apply in_or_app; right; apply in_or_app; left; exact Q1 | exact Q2]. }
  revert H. generalize (concat kss), M. intros ms Mm H. rewrite E, ES in H. clear E ES M Q1 Q2 kss seg.
  rewrite <- !app_assoc in H. cbn in H.
  assert (H1 : chk2 ms c (B ++ n :: C ++ a :: D ++ af) = true).
  { rewrite app_assoc in H. revert H. induction (bf ++ A) as [|z l IH]; cbn; intros H; apply Bool.andb_true_iff in H; destruct H as [H1 H2].
    - rewrite <- !app_assoc in H1. cbn in H1. rewrite <- !app_assoc in H1. exact H1.
    - apply IH. exact H2. }
  assert (H2 : forallb (mid ms c n) (C ++ a :: D ++ af) = true).
  { clear H. revert H1. induction B as [|z l IH]; cbn; intros H1; apply Bool.andb_true_iff in H1; destruct H1 as [H1 H2]; [exact H1 | apply IH; exact H2]. }
  rewrite forallb_forall in H2. assert (Ia : In a (C ++ a :: D ++ af)) by (apply in_or_app; right; left; reflexivity); specialize (H2 a Ia). unfold mid in H2.
  rewrite forallb_forall in H2. specialize (H2 y Y1). rewrite (proj2 (existsb_In y a) Y2) in H2.
  rewrite forallb_forall in H2. specialize (H2 x X).
  assert (Z : existsb (fun m => startswith x m && startswith y m) ms = true).
  { apply existsb_exists. exists m. split; [exact Mm|]. rewrite (proj2 (starts_iff x m) B1), (proj2 (starts_iff y m) B2). reflexivity. }
  rewrite Z in H2. apply existsb_In. exact H2.
Qed.

(** ** A test of [good] and of [plain] *)
Section Good.
Context {T : Type}.
Definition choice (l : list (pe T)) : bool :=
  let kss := map keys l in
  forallb (fun x => null (fst x) || (1 <=? min_length (snd x))) (combine kss l) &&
  forallb (fun ks => forallb (fun k => if seqb (small k) k then true else (length k =? 1) && existsb (seqb (small k)) ks) ks) kss &&
  chk (concat kss) kss.
Definition takes_none (f : list T -> nat -> nat -> pystr -> out T) : Prop := forall r i j s r' j', f r i j s = Done r' j' -> i < j' -> i < j.
Fixpoint fine (e : pe T) : Prop :=
  let all := fix all l := match l with [] => True | x :: r => fine x /\ all r end in
  match e with
  | Prim f ks m l =>
    (forall ps, Forall2 (fun p x => announces p (keys x) (min_length x)) ps l -> announces (f ps) ks m) /\
    (forall ps qs, Forall2 follows ps qs -> follows (f ps) (f qs)) /\ all l
  | And l => all l
  | First l => choice l = true /\ all l
  | Many _ _ e | Opt e | Look e | Not e => fine e
  | Act _ f e => takes_none f /\ fine e
  | _ => True
  end.
Lemma fine_all l x : (fix all l := match l with [] => True | x :: r => fine x /\ all r end) l -> In x l -> fine x.
Proof. induction l as [|y l IH]; intros H []; [subst; apply H | apply IH; [apply H | assumption]]. Qed.
Lemma fine_in e x : inside x e -> fine e -> fine x.
Proof.
  induction 1 as [e|x y l H I IH|x y l H I IH|x mn mx e I IH|x e I IH|x e I IH|x e I IH|x y f ks m l H I IH|x own f e I IH]; cbn [fine]; intros F;
    [exact F | apply IH; apply fine_all with l; assumption | apply IH; apply fine_all with l; [apply F | assumption] | apply IH; exact F | apply IH; exact F |
     apply IH; exact F | apply IH; exact F | apply IH; apply fine_all with l; [apply F | assumption] | apply IH; apply F].
Qed.
Lemma fine_good e : fine e -> good e.
Proof.
  intros F. split; [split|split].
  - intros own f x r i j s r' j' I. apply (fine_in _ _ I) in F. apply F.
  - intros f ks m l ps I. apply (fine_in _ _ I) in F. apply F.
  - intros f ks m l ps qs I. apply (fine_in _ _ I) in F. apply F.
  - intros l I. apply (fine_in _ _ I) in F. destruct F as [F _]. unfold choice in F.
    apply Bool.andb_true_iff in F. destruct F as [F C3]. apply Bool.andb_true_iff in F. destruct F as [C1 C2].
    rewrite forallb_forall in C1, C2. split; [|split].
    + intros x Hx N.
      assert (Ix : In (keys x, x) (combine (map keys l) l)).
      { clear - Hx. induction l as [|y l IH]; [destruct Hx|]. cbn. destruct Hx as [->|Hx]; [left; reflexivity | right; apply IH; exact Hx]. }
      specialize (C1 _ Ix). cbn [fst snd] in C1. apply Bool.orb_true_iff in C1. destruct C1 as [C1|C1]; [destruct (keys x); [congruence | discriminate]|].
      apply Nat.leb_le in C1. lia.
    + intros x k Hx Hk. specialize (C2 _ (in_map keys _ _ Hx)). rewrite forallb_forall in C2. specialize (C2 k Hk).
      destruct (seqb (small k) k) eqn:Sk; [left; apply seqb_iff; exact Sk|]. apply Bool.andb_true_iff in C2. destruct C2 as [C2 C4].
      right. split; [apply Nat.eqb_eq; exact C2 | apply existsb_In; exact C4].
    + apply chk_tidy. exact C3.
Qed.
Fixpoint neat (e : pe T) : Prop :=
  let all := fix all l := match l with [] => True | x :: r => neat x /\ all r end in
  match e with
  | Prim f ks m l =>
    (forall ps, (forall p, In p ps -> forward p) -> forward (f ps)) /\ (forall ps qs, Forall2 same ps qs -> same (f ps) (f qs)) /\ all l
  | And l | First l => l <> [] /\ all l
  | Many mn mx e => (mx = Some mn -> mn <> 0 /\ mn <> 1) /\ neat e
  | Opt e | Look e | Not e | Act _ _ e => neat e
  | _ => True
  end.
Lemma neat_all l x : (fix all l := match l with [] => True | x :: r => neat x /\ all r end) l -> In x l -> neat x.
Proof. induction l as [|y l IH]; intros H []; [subst; apply H | apply IH; [apply H | assumption]]. Qed.
Lemma neat_in e x : inside x e -> neat e -> neat x.
Proof.
  induction 1 as [e|x y l H I IH|x y l H I IH|x mn mx e I IH|x e I IH|x e I IH|x e I IH|x y f ks m l H I IH|x own f e I IH]; cbn [neat]; intros F;
    [exact F | apply IH; apply neat_all with l; [apply F | assumption] | apply IH; apply neat_all with l; [apply F | assumption] | apply IH; apply F | apply IH; exact F |
     apply IH; exact F | apply IH; exact F | apply IH; apply neat_all with l; [apply F | assumption] | apply IH; exact F].
Qed.
Lemma neat_plain e : neat e -> plain e.
Proof.
  intros F x I. apply (neat_in _ _ I) in F. destruct x; try exact Logic.I; cbn [neat] in F; try apply F.
  destruct F as (F1 & F2 & _). split; assumption.
Qed.
Variable tok : pystr -> T.
Variable full : list T -> bool.
Variable skip : pystr -> nat -> nat.
Variable ref : nat -> parser T.
Lemma good_reserved : good (RESERVED tok).
Proof.
  apply fine_good. unfold RESERVED. cbn [fine]. split; [vm_compute; reflexivity|].
  unfold group, hidden, word. cbn [fine]. unfold takes_none. repeat split; intros; congruence.
Qed.

(** ** Words *)
Notation run := (run tok full skip ref).
Lemma word_iff w s i : startswith (lower (skipn i s)) (lower w) && match skipn (i + length w) s with c :: _ => negb (word_char c) | [] => true end = true <->
  word_at w s i.
Proof.
  rewrite Bool.andb_true_iff, starts_iff. unfold word_at, hits. change small with lower.
  apply and_iff_compat_l. destruct (skipn (i + length w) s) as [|c t]; [tauto|].
  unfold word_char. rewrite Bool.negb_true_iff, <- Bool.not_true_iff_false, !Bool.orb_true_iff, !Bool.andb_true_iff, !N.leb_le, !N.eqb_eq. intuition.
Qed.
Lemma run_kw_iff q w s i : (word_at w s i /\ run q (Kw w) s i = Done [tok w] (i + length w)) \/ (~ word_at w s i /\ run q (Kw w) s i = Fail).
Proof.
  cbn [EngineModel.run]. unfold run_kw. pose proof (word_iff w s i) as H.
  destruct (startswith (lower (skipn i s)) (lower w) && _); [left | right]; split; try reflexivity.
  - apply H. reflexivity.
  - intros F. apply H in F. discriminate.
Qed.
Lemma run_word_iff q w s i : (word_at (u w) s i /\ run q (word tok w) s i = Done [tok (u w)] (i + length (u w))) \/ (~ word_at (u w) s i /\ run q (word tok w) s i = Fail).
Proof.
  destruct (run_kw_iff q (u w) s i) as [[H E]|[H E]]; [left | right]; (split; [exact H|]);
    unfold word; cbn [EngineModel.run map run_and] in *; unfold run_act; cbn [run_and]; rewrite Nat.ltb_irrefl, E; [rewrite Nat.ltb_irrefl|]; reflexivity.
Qed.
Lemma run_hidden_iff q w s i : (word_at (u w) s i /\ run q (hidden tok w) s i = Done [] (i + length (u w))) \/ (~ word_at (u w) s i /\ run q (hidden tok w) s i = Fail).
Proof.
  destruct (run_word_iff q w s i) as [[H E]|[H E]]; [left | right]; (split; [exact H|]);
    match goal with |- _ = ?o => change (run_act (fun _ _ j _ => Done [] j) (run q (word tok w)) s i = o) end; unfold run_act; rewrite E; [rewrite Nat.ltb_irrefl|]; reflexivity.
Qed.
(** An element that is a word or fails; or begins with a word. *)
Definition wordy (w : string) (e : pe T) : Prop :=
  forall q s i, (run q e s i = Fail /\ ~ word_at (u w) s i) \/ (word_at (u w) s i /\ exists r j, run q e s i = Done r j).
Definition longer (w : string) (e : pe T) : Prop :=
  forall q s i, run q e s i = Fail \/ (word_at (u w) s i /\ exists r j, run q e s i = Done r j).
Lemma wordy_word w : wordy w (word tok w).
Proof. intros q s i. destruct (run_word_iff q w s i) as [[H E]|[H E]]; [right; split; [exact H | eexists _, _; exact E] | left; auto]. Qed.
Lemma wordy_hidden w : wordy w (hidden tok w).
Proof. intros q s i. destruct (run_hidden_iff q w s i) as [[H E]|[H E]]; [right; split; [exact H | eexists _, _; exact E] | left; auto]. Qed.
Lemma wordy_longer w e : wordy w e -> longer w e.
Proof. intros H q s i. destruct (H q s i) as [[F _]|F]; [left; exact F | right; exact F]. Qed.
Lemma longer_group w v a b : wordy w a -> wordy v b -> longer w (group [a; b]).
Proof.
  intros Ha Hb q s i. unfold group. cbn [EngineModel.run map]. unfold run_act. cbn [run_and]. rewrite Nat.ltb_irrefl.
  destruct (Ha q s i) as [[-> _]|[H (r & j & ->)]]; [left; reflexivity|].
  set (k := if i <? j then skip s j else i). destruct (Hb q s k) as [[-> _]|[_ (r' & j' & ->)]]; [left; reflexivity|].
  right. split; [exact H|]. rewrite Nat.ltb_irrefl. eexists _, _. reflexivity.
Qed.
Lemma choice_words (l : list (pe T)) (ws : list string) : Forall2 longer ws l -> (forall w, In w ws -> exists e, In e l /\ wordy w e) ->
  forall s i, settled (run_first (map (run false) l) s i) /\
  ((exists r j, run_first (map (run false) l) s i = Done r j) <-> exists w, In w ws /\ word_at (u w) s i).
Proof.
  intros F C s i.
  assert (S : forall e, In e l -> run false e s i = Fail \/ exists r j, run false e s i = Done r j).
  { intros e H. assert (G : exists w, longer w e).
    { clear C. induction F as [|w e0 ws l L F IH]; [destruct H|]. destruct H as [<-|H]; [exists w; exact L | apply IH; exact H]. }
    destruct G as (w & G). destruct (G false s i) as [G1|[_ G1]]; auto. }
  assert (ST : settled (run_first (map (run false) l) s i)).
  { clear F C. induction l as [|e l IH]; [left; reflexivity|]. cbn [map run_first].
    destruct (S e (or_introl eq_refl)) as [-> |(r & j & ->)]; [apply IH; intros x Hx; apply S; right; exact Hx | right; eexists _, _; reflexivity]. }
  split; [exact ST|]. split.
  - intros (r & j & R). apply first_done in R. destruct R as (p & H & R). apply in_map_iff in H. destruct H as (e & <- & H).
    assert (G : exists w, In w ws /\ longer w e).
    { clear - F H. induction F as [|w e0 ws l L F IH]; [destruct H|]. destruct H as [<-|H]; [exists w; split; [left; reflexivity | exact L]|].
      destruct (IH H) as (w' & W1 & W2). exists w'. split; [right; exact W1 | exact W2]. }
    destruct G as (w & W1 & W2). exists w. split; [exact W1|]. destruct (W2 false s i) as [E|[E _]]; [rewrite E in R; discriminate | exact E].
  - intros (w & W1 & W2). destruct (C w W1) as (e & E1 & E2). destruct (E2 false s i) as [[_ N]|[_ (r & j & D)]]; [contradiction|].
    destruct (first_cases (run false) l s i ST) as [A|(l1 & x & l2 & r' & j' & -> & A & X)].
    + rewrite (A e E1) in D. discriminate.
    + exists r', j'. rewrite map_app, first_app, (first_fail (run false) l1 s i A). cbn [map run_first]. rewrite X. reflexivity.
Qed.
(** The words of the elements; [false]: the element only begins with the word. *)
Definition tag (k : string * bool) (e : pe T) : Prop := if snd k then wordy (fst k) e else longer (fst k) e.
Definition own (w : string) : string * bool := (w, true).
Definition reserved_strings : list (string * bool) :=
  map own ["all"; "and"; "as"; "asc"; "between"; "by"; "case"; "collate"; "constraint"; "create"; "cross"; "desc"; "distinct"; "except"; "else";
   "end"; "false"; "fetch"; "foreign"; "from"; "full"]%string ++ [("group", false); ("group", true)]%string ++
  map own ["having"; "in"; "index"; "inner"; "intersect"; "interval"]%string ++ [("is", false); ("is", true)]%string ++
  map own ["join"; "key"; "lateral"; "left"; "like"; "limit"; "minus"; "nocase"; "not"; "null"; "offset"; "on"; "or"; "order"; "outer"; "over";
   "partition"; "primary"; "references"; "right"; "rlike"; "select"; "then"; "true"; "union"; "unique"; "using"; "when"; "where"; "window";
   "with"; "within"]%string.
Lemma tags (ks : list (string * bool)) l : Forall2 tag ks l ->
  forallb (fun k => existsb (fun k' => String.eqb (fst k) (fst k') && snd k') ks) ks = true ->
  Forall2 longer (map fst ks) l /\ forall w, In w (map fst ks) -> exists e, In e l /\ wordy w e.
Proof.
  intros F B. split.
  - clear B. induction F as [|[w b] e ks l H F IH]; cbn; constructor; [|exact IH]. destruct b; [apply wordy_longer|]; exact H.
  - intros w H. apply in_map_iff in H. destruct H as (k & <- & H). rewrite forallb_forall in B. specialize (B k H).
    apply existsb_exists in B. destruct B as ([w' b] & H1 & H2). cbn in H2. apply Bool.andb_true_iff in H2. destruct H2 as [H2 ->].
    apply String.eqb_eq in H2. subst w'. clear H. induction F as [|k' e ks l G F IH]; [destruct H1|].
    destruct H1 as [->|H1]; [exists e; split; [left; reflexivity | exact G]|]. destruct (IH H1) as (e' & E1 & E2). exists e'. split; [right; exact E1 | exact E2].
Qed.
Lemma reserved_words_ok s i :
  run true (RESERVED tok) s i = run false (RESERVED tok) s i /\
  ((exists r j, run true (RESERVED tok) s i = Done r j) <-> exists w, In w reserved_names /\ word_at w s i).
Proof.
  assert (F : Forall2 tag reserved_strings (match RESERVED tok with First l => l | _ => [] end)).
  { unfold RESERVED, reserved_strings. cbn [map app]. repeat (apply Forall2_cons;
      [cbn; first [apply wordy_word | apply wordy_hidden | eapply longer_group; first [apply wordy_word | apply wordy_hidden]]|]).
    apply Forall2_nil. }
  apply tags in F; [|vm_compute; reflexivity]. destruct F as [F1 F2].
  destruct (choice_words _ _ F1 F2 s i) as [S R].
  change (run_first _ s i) with (run false (RESERVED tok) s i) in S, R.
  pose proof (quick_ok tok full skip ref ref _ (fun n s i H => eq_refl) good_reserved s i S) as Q. split; [exact Q|]. rewrite Q, R.
  split; intros (w & W1 & W2).
  - exists (u w). split; [|exact W2].
    assert (H : forallb (fun v => existsb (seqb (u v)) reserved_names) (map fst reserved_strings) = true) by (vm_compute; reflexivity).
    rewrite forallb_forall in H. apply existsb_In. apply H. exact W1.
  - assert (H : forallb (fun w => existsb (fun v => seqb w (u v)) (map fst reserved_strings)) reserved_names = true) by (vm_compute; reflexivity).
    rewrite forallb_forall in H. specialize (H w W1). apply existsb_exists in H.
    destruct H as (v & H1 & H2). apply seqb_iff in H2. subst w. exists v. auto.
Qed.
End Good.

(** ** Flat grammars *)
Section Flat.
Context {T : Type}.
Fixpoint nofirst (e : pe T) : bool :=
  match e with
  | First _ => false
  | And l | Prim _ _ _ l => forallb nofirst l
  | Many _ _ e | Opt e | Look e | Not e | Act _ _ e => nofirst e
  | _ => true
  end.
Fixpoint noact (e : pe T) : bool :=
  match e with
  | Act _ _ _ | Prim _ _ _ _ => false
  | And l | First l => forallb noact l
  | Many _ _ e | Opt e | Look e | Not e => noact e
  | _ => true
  end.
Lemma nofirst_ok e l : nofirst e = true -> ~ inside (First l) e.
Proof.
  intros N I. remember (First l) as x eqn:E. revert N. induction I as [e|x y g H I IH|x y g H I IH|x mn mx e I IH|x e I IH|x e I IH|x e I IH|x y f ks m g H I IH|x own f e I IH]; cbn; intros N;
    try (apply IH; assumption).
  - subst. discriminate.
  - rewrite forallb_forall in N. apply (IH E). apply N. exact H.
  - discriminate.
  - rewrite forallb_forall in N. apply (IH E). apply N. exact H.
Qed.
Lemma noact_in e x : inside x e -> noact e = true -> noact x = true.
Proof.
  induction 1 as [e|x y g H I IH|x y g H I IH|x mn mx e I IH|x e I IH|x e I IH|x e I IH|x y f ks m g H I IH|x own' f' e I IH]; cbn; intros N;
    try (apply IH; assumption); try discriminate; try exact N; apply IH; rewrite forallb_forall in N; apply N; exact H.
Qed.
Lemma noact_ok e : noact e = true -> modest e.
Proof.
  intros N. split.
  - intros own f x r i j s r' j' I. apply noact_in in I; [discriminate I | exact N].
  - intros f ks m l ps I. apply noact_in in I; [discriminate I | exact N].
Qed.
Lemma flat_first l g : forallb nofirst l = true -> inside (First g) (First l) -> g = l.
Proof.
  intros N I. inversion I; subst; [reflexivity|]. exfalso. rewrite forallb_forall in N.
  apply (nofirst_ok y g); [apply N; assumption | assumption].
Qed.
End Flat.
