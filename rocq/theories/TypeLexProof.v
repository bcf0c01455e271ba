(** Proofs about the lexer of TypeModel: in texts of words, blanks, symbols and quoted parts the tokens that are parentheses are the
    parentheses outside the quotes. *)
From Coq Require Import String Ascii List Arith NArith ZArith Bool Lia ZifyBool ZifyNat ZifyN.
From Verif Require Import Base BaseProof ExecModel ClassifyModel TypeModel.
Import ListNotations.
Open Scope N_scope.

(** ** Texts *)
Definition wordb (c : N) : bool := ((48 <=? c) && (c <=? 57)) || ((65 <=? c) && (c <=? 90)) || ((97 <=? c) && (c <=? 122)) || (c =? 95).
Definition blankb (c : N) : bool := (c =? 32) || (c =? 9) || (c =? 10) || (c =? 13).
Definition symb (c : N) : bool := existsb (N.eqb c) [44; 59; 42; 47; 43; 45; 126; 38; 124; 60; 62; 61; 33].
Definition plainb (c : N) : bool := wordb c || blankb c || symb c.
(** The word ZONE. *)
Definition zone (s : pystr) : Prop := map low (firstn 4 s) = u "zone" /\ wordb (nth 4 s 0) = false.
Definition ok_next (c : N) (s : pystr) : Prop :=
  (c = 45 -> hd 0 s <> 45) /\ (c = 47 -> hd 0 s <> 42) /\ (wordb c = true -> hd 0 s <> 39) /\ (blankb c = true -> ~ zone s).
Inductive body39 : pystr -> Prop :=
| b39_nil : body39 []
| b39_chr c b : c <> 39 -> c <> 92 -> body39 b -> body39 (c :: b)
| b39_two b : body39 b -> body39 (39 :: 39 :: b)
| b39_esc c b : body39 b -> body39 (92 :: c :: b).
Inductive body96 : pystr -> Prop :=
| b96_nil : body96 []
| b96_chr c b : c <> 96 -> body96 b -> body96 (c :: b)
| b96_two b : body96 b -> body96 (96 :: 96 :: b).
(** [l]: the parentheses outside the quotes, [true] for the opening ones. *)
Inductive Ck : pystr -> list bool -> Prop :=
| ck_nil : Ck [] []
| ck_plain c s l : plainb c = true -> ok_next c s -> Ck s l -> Ck (c :: s) l
| ck_open s l : Ck s l -> Ck (40 :: s) (true :: l)
| ck_close s l : Ck s l -> Ck (41 :: s) (false :: l)
| ck_single b s l : body39 b -> hd 0 s <> 39 -> Ck s l -> Ck (39 :: b ++ 39 :: s) l
| ck_back b s l : body96 b -> hd 0 s <> 96 -> Ck s l -> Ck (96 :: b ++ 96 :: s) l.

Lemma Ck_inv c s l : Ck (c :: s) l ->
  (plainb c = true /\ ok_next c s /\ Ck s l) \/ (c = 40 /\ exists l', l = true :: l' /\ Ck s l') \/ (c = 41 /\ exists l', l = false :: l' /\ Ck s l') \/
  (c = 39 /\ exists b r, s = b ++ 39 :: r /\ body39 b /\ hd 0 r <> 39 /\ Ck r l) \/
  (c = 96 /\ exists b r, s = b ++ 96 :: r /\ body96 b /\ hd 0 r <> 96 /\ Ck r l).
Proof.
  intros H. inversion H; subst.
  - left. auto.
  - right. left. eauto.
  - do 2 right. left. eauto.
  - do 3 right. left. split; [reflexivity|]. eexists _, _. eauto.
  - do 4 right. split; [reflexivity|]. eexists _, _. eauto.
Qed.
Definition nonQ (c : N) : bool := negb (existsb (N.eqb c) [39; 96; 40; 41]).
Lemma plain_head c s l : Ck (c :: s) l -> nonQ c = true -> plainb c = true /\ ok_next c s /\ Ck s l.
Proof.
  intros H N. apply Ck_inv in H. destruct H as [H|[[-> _]|[[-> _]|[[-> _]|[-> _]]]]]; [exact H|discriminate N..].
Qed.
Lemma Ck_skip x y l : Ck (x ++ y) l -> Forall (fun c => nonQ c = true) x -> Ck y l.
Proof.
  revert l. induction x as [|c x IH]; intros l H F; [exact H|]. inversion F; subst. apply plain_head in H; [|assumption]. now apply IH.
Qed.
Lemma low_eq c k : (k < 97 \/ 122 < k) -> low c = k -> c = k.
Proof. unfold low. destruct ((65 <=? c) && (c <=? 90)) eqn:E; lia. Qed.
Lemma low_plain c : plainb (low c) = plainb c.
Proof. unfold plainb, wordb, blankb, symb, low. cbn [existsb]. destruct ((65 <=? c) && (c <=? 90)) eqn:E; lia. Qed.
Lemma low_word c : wordb (low c) = wordb c.
Proof. unfold wordb, low. destruct ((65 <=? c) && (c <=? 90)) eqn:E; lia. Qed.
Lemma low_blank c : blankb (low c) = blankb c.
Proof. unfold blankb, low. destruct ((65 <=? c) && (c <=? 90)) eqn:E; lia. Qed.
Lemma low_low c : low (low c) = low c.
Proof. unfold low. destruct ((65 <=? c) && (c <=? 90)) eqn:E; [|now rewrite E]. destruct ((65 <=? c + 32) && (c + 32 <=? 90)) eqn:F; lia. Qed.
Lemma low_ne c k : (k < 97 \/ 122 < k) -> (k < 65 \/ 90 < k) -> c <> k -> low c <> k.
Proof. unfold low. destruct ((65 <=? c) && (c <=? 90)) eqn:E; lia. Qed.
Lemma hd_low s k : (k < 97 \/ 122 < k) -> (k < 65 \/ 90 < k) -> hd 0 s <> k -> hd 0 (map low s) <> k.
Proof. intros H1 H2. destruct s; [exact id|]. cbn. now apply low_ne. Qed.
Lemma body39_low b : body39 b -> body39 (map low b).
Proof.
  induction 1; cbn [map]; [constructor| |change (low 39) with 39; now constructor|change (low 92) with 92; now constructor].
  constructor; [apply low_ne; lia|apply low_ne; lia|assumption].
Qed.
Lemma body96_low b : body96 b -> body96 (map low b).
Proof. induction 1; cbn [map]; [constructor| |change (low 96) with 96; now constructor]. constructor; [apply low_ne; lia|assumption]. Qed.
Lemma zone_low s : zone (map low s) -> zone s.
Proof.
  intros [A B]. split.
  - rewrite <- A. rewrite firstn_map, map_map. apply map_ext. intros c. symmetry. apply low_low.
  - rewrite <- (low_word (nth 4 s 0)). change 0 with (low 0) in B at 1. now rewrite map_nth in B.
Qed.
Lemma Ck_low s l : Ck s l -> Ck (map low s) l.
Proof.
  induction 1; cbn [map]; rewrite ?map_app; cbn [map]; repeat match goal with |- context [low (Npos ?k)] => change (low (Npos k)) with (Npos k) end; try (constructor; assumption).
  - destruct H0 as (A & B & C & D). constructor; [now rewrite low_plain|repeat split|assumption].
    + intros E. apply low_eq in E; [|lia]. apply hd_low; auto; lia.
    + intros E. apply low_eq in E; [|lia]. apply hd_low; auto; lia.
    + rewrite low_word. intros E. apply hd_low; auto; lia.
    + rewrite low_blank. intros E Z. apply (D E). now apply zone_low.
  - constructor; [now apply body39_low|apply hd_low; auto; lia|assumption].
  - constructor; [now apply body96_low|apply hd_low; auto; lia|assumption].
Qed.

Section Lexer.
Set Default Proof Using "Type".
Variables (uword uspace udigit ulet : N -> bool).
Notation ms := (ms uword).
Notation wordc := (wordc uword). Notation spacec := (spacec uspace). Notation digitc := (digitc udigit). Notation letterc := (letterc ulet).
Notation rules := (rules uword uspace udigit ulet). Notation sp := (sp uspace). Notation name_re := (name_re uword ulet).

(** ** Matches *)
Definition rep (f : place -> list place) (greedy : bool) : nat -> place -> list place :=
  fix go n s :=
    match n with
    | O => [s]
    | S m => let more := flat_map (go m) (f s) in if greedy then more ++ [s] else s :: more
    end.
Lemma rep_S f (g : bool) n s : rep f g (S n) s = if g then flat_map (rep f g n) (f s) ++ [s] else s :: flat_map (rep f g n) (f s).
Proof. reflexivity. Qed.
Lemma ms_rep g a s : ms (Rep g a) s = rep (ms a) g (length (snd s)) s.
Proof. reflexivity. Qed.
Lemma rep_ind (P : place -> place -> Prop) (f : place -> list place) g : (forall s, P s s) -> (forall s m e, In m (f s) -> P m e -> P s e) ->
  forall n s e, In e (rep f g n s) -> P s e.
Proof.
  intros P0 P1 n. induction n as [|n IH]; intros s e H.
  - cbn in H. destruct H as [<-|[]]. apply P0.
  - rewrite rep_S in H.
    assert (X : In e (flat_map (rep f g n) (f s)) \/ s = e).
    { destruct g; [apply in_app_iff in H; destruct H as [H|[H|[]]]; auto|destruct H as [H|H]; auto]. }
    destruct X as [X|<-]; [|apply P0]. apply in_flat_map in X. destruct X as (m & A & B). apply (P1 s m e A). now apply IH.
Qed.
Fixpoint qfree (r : re) : bool :=
  match r with
  | Cls f => negb (f 39) && negb (f 96) && negb (f 40) && negb (f 41)
  | Sq a b | Alt a b => qfree a && qfree b
  | Rep _ a => qfree a
  | _ => true
  end.
Fixpoint nonnull (r : re) : bool :=
  match r with Cls _ => true | Sq a b => nonnull a || nonnull b | Alt a b => nonnull a && nonnull b | _ => false end.
Lemma same_place r : (match r with Look _ _ | Behind _ | NotBehind _ | Bnd | Eol | Eps => True | _ => False end) ->
  forall s e, In e (ms r s) -> e = s.
Proof.
  clear uspace udigit ulet. intros K s e H. destruct r; try contradiction; cbn [TypeModel.ms] in H;
    repeat match goal with H : context [match ?x with _ => _ end] |- _ => destruct x end; cbn in H; intuition.
Qed.
Definition took (r : re) (s e : place) : Prop :=
  exists x, snd s = x ++ snd e /\ (qfree r = true -> Forall (fun c => nonQ c = true) x) /\ (nonnull r = true -> x <> []).
Lemma ms_took r : forall s e, In e (ms r s) -> took r s e.
Proof.
  induction r as [f| |a IHa b IHb|a IHa b IHb|g a IHa|p a IHa|f|f| |]; intros s e H.
  2,6-10: apply same_place in H; [|exact I]; subst e; exists []; cbn; repeat split; [constructor|discriminate].
  - cbn [TypeModel.ms] in H. destruct s as [p [|c t]]; cbn [snd] in H; [contradiction|]. destruct (f c) eqn:F; [|contradiction]. destruct H as [<-|[]].
    exists [c]. split; [reflexivity|]. split; [|discriminate]. cbn [qfree]. intros Z. constructor; [|constructor]. unfold nonQ. cbn [existsb].
    destruct (N.eqb c 39) eqn:E1; [apply N.eqb_eq in E1; subst c; rewrite F in Z; cbn in Z; discriminate|].
    destruct (N.eqb c 96) eqn:E2; [apply N.eqb_eq in E2; subst c; rewrite F in Z; cbn in Z; lia|].
    destruct (N.eqb c 40) eqn:E3; [apply N.eqb_eq in E3; subst c; rewrite F in Z; cbn in Z; lia|].
    destruct (N.eqb c 41) eqn:E4; [apply N.eqb_eq in E4; subst c; rewrite F in Z; cbn in Z; lia|]. reflexivity.
  - cbn [TypeModel.ms] in H. apply in_flat_map in H. destruct H as (m & A & B). destruct (IHa _ _ A) as (x & E & F & G). destruct (IHb _ _ B) as (y & E' & F' & G').
    exists (x ++ y). rewrite <- app_assoc, <- E'. split; [exact E|]. cbn [qfree nonnull]. split.
    + intros Z. apply andb_true_iff in Z. apply Forall_app. intuition.
    + intros Z. apply orb_true_iff in Z. intros N. apply app_eq_nil in N. destruct N as [-> ->]. destruct Z; [now apply G|now apply G'].
  - cbn [TypeModel.ms] in H. apply in_app_iff in H. cbn [qfree nonnull]. unfold took. cbn [qfree nonnull]. destruct H as [H|H]; [destruct (IHa _ _ H) as (x & E & F & G)|destruct (IHb _ _ H) as (x & E & F & G)];
      exists x; split; [exact E| |exact E|]; split; intros Z; apply andb_true_iff in Z; intuition.
  - rewrite ms_rep in H. revert H. apply (rep_ind (took (Rep g a))).
    + intros s0. exists []. cbn. repeat split; [constructor|discriminate].
    + intros s0 m e0 A (y & E' & F' & _). destruct (IHa _ _ A) as (x & E & F & _). exists (x ++ y). rewrite <- app_assoc, <- E'. split; [exact E|]. split; [|discriminate].
      cbn [qfree] in *. intros Z. apply Forall_app. auto.
Qed.
Lemma sq_in a b s e : In e (ms (Sq a b) s) -> exists m, In m (ms a s) /\ In e (ms b m).
Proof. cbn [TypeModel.ms]. apply in_flat_map. Qed.
Lemma alt_in a b s e : In e (ms (Alt a b) s) -> In e (ms a s) \/ In e (ms b s).
Proof. cbn [TypeModel.ms]. apply in_app_iff. Qed.
Lemma cls_in f s e : In e (ms (Cls f) s) -> exists c, f c = true /\ snd s = c :: snd e.
Proof.
  cbn [TypeModel.ms]. destruct s as [p [|c t]]; cbn [snd]; [contradiction|]. destruct (f c) eqn:F; [|contradiction]. intros [<-|[]]. eauto.
Qed.
Lemma chr_in c s e : In e (ms (chr c) s) -> snd s = c :: snd e.
Proof. intros H. apply cls_in in H. destruct H as (d & E & ->). apply N.eqb_eq in E. now subst. Qed.
Lemma lits_in l : forall s e, In e (ms (fold_right (fun c r => Sq (chr c) r) Eps l) s) -> snd s = l ++ snd e.
Proof.
  induction l as [|c l IH]; intros s e H; cbn [fold_right] in H.
  - apply same_place in H; [now subst|exact I].
  - apply sq_in in H. destruct H as (m & A & B). apply chr_in in A. apply IH in B. rewrite A, B. reflexivity.
Qed.
Lemma lit_in w s e : In e (ms (lit w) s) -> snd s = u w ++ snd e.
Proof. apply lits_in. Qed.
Lemma rep_cls f g s e : In e (ms (Rep g (Cls f)) s) -> exists x, snd s = x ++ snd e /\ Forall (fun c => f c = true) x.
Proof.
  rewrite ms_rep. apply (rep_ind (fun s e => exists x, snd s = x ++ snd e /\ Forall (fun c => f c = true) x)).
  - intros. now exists [].
  - intros s0 m e0 A (x & E & F). apply cls_in in A. destruct A as (c & C & E'). exists (c :: x). rewrite E', E. split; [reflexivity|now constructor].
Qed.
Lemma plus_cls f s e : In e (ms (plus (Cls f)) s) -> exists x, snd s = x ++ snd e /\ Forall (fun c => f c = true) x /\ x <> [].
Proof.
  intros H. apply sq_in in H. destruct H as (m & A & B). apply cls_in in A. destruct A as (c & C & E). apply rep_cls in B. destruct B as (x & E' & F).
  exists (c :: x). rewrite E, E'. repeat split; [now constructor|discriminate].
Qed.
Lemma head_in {A} (l : list A) e r : l = e :: r -> In e l.
Proof. intros ->. now left. Qed.

(** ** The rules *)
Definition stepped (x : pystr) (l l' : list bool) : Prop :=
  x = [40] /\ l = true :: l' \/ x = [41] /\ l = false :: l' \/ l' = l /\ x <> [40] /\ x <> [41] /\ x <> [46].
Definition spaces_type (t : ttype) : bool := match t with TSpace | TNewline => true | _ => false end.
Definition safe (x : (place -> list place) * ttype) : Prop := forall p s l e r, Ck s l -> fst x (p, s) = e :: r ->
  exists y l', s = y ++ snd e /\ y <> [] /\ Ck (snd e) l' /\ stepped y l l' /\ (spaces_type (snd x) = true -> Forall (fun c => spacec c = true) y).

Lemma plain_first c s l : Ck (c :: s) l -> nonQ c = true -> plainb c = true.
Proof. intros H N. now destruct (plain_head c s l H N). Qed.
Lemma stepped_free y s l : Ck (y ++ s) l -> Forall (fun c => nonQ c = true) y -> stepped y l l.
Proof.
  intros H F. right. right. split; [reflexivity|]. destruct y as [|c y]; [repeat split; discriminate|]. inversion F; subst.
  repeat split; intros E; injection E as -> ->; try discriminate. apply plain_first in H; [discriminate H|reflexivity].
Qed.
Lemma safe_free r t : spaces_type t = false -> qfree r = true -> nonnull r = true -> safe (ms r, t).
Proof.
  intros ST Q N p s l e q C H. apply head_in, ms_took in H. destruct H as (x & E & F & G). cbn [snd] in E. subst s. specialize (F Q). specialize (G N).
  exists x, l. split; [reflexivity|]. split; [exact G|]. split; [now apply (Ck_skip x)|]. split; [now apply (stepped_free x (snd e))|]. cbn. rewrite ST. discriminate.
Qed.
Lemma safe_space_free r t : qfree r = true -> nonnull r = true -> (forall s e, In e (ms r s) -> exists x, snd s = x ++ snd e /\ Forall (fun c => spacec c = true) x) ->
  safe (ms r, t).
Proof.
  intros Q N SP p s l e q C H. apply head_in in H. pose proof H as H'. apply ms_took in H. destruct H as (x & E & F & G). cbn [snd] in E. subst s. specialize (F Q). specialize (G N).
  exists x, l. split; [reflexivity|]. split; [exact G|]. split; [now apply (Ck_skip x)|]. split; [now apply (stepped_free x (snd e))|]. intros _.
  destruct (SP _ _ H') as (y & E & FY). cbn [snd] in E. apply app_inv_tail in E. now subst y.
Qed.
(** Rules that never match. *)
Lemma safe_never f t : (forall p s l e, Ck s l -> ~ In e (f (p, s))) -> safe (f, t).
Proof. intros H p s l e r C E. apply head_in in E. now contradiction (H p s l e C). Qed.
Lemma never_first r t (c : N) : (forall s e, In e (ms r s) -> exists q, snd s = c :: q) -> plainb c = false -> nonQ c = true -> safe (ms r, t).
Proof.
  intros H P N. apply safe_never. intros p s l e C I. destruct (H _ _ I) as (q & E). cbn [snd] in E. subst s. apply plain_first in C; [congruence|exact N].
Qed.
Lemma seq_first (c : N) r s e : In e (ms (Sq (chr c) r) s) -> exists q, snd s = c :: q.
Proof. intros H. apply sq_in in H. destruct H as (m & A & _). apply chr_in in A. eauto. Qed.
Lemma behind_first f (c : N) r s e : In e (ms (Sq (NotBehind f) (Sq (chr c) r)) s) -> exists q, snd s = c :: q.
Proof. intros H. apply sq_in in H. destruct H as (m & A & B). apply same_place in A; [|exact I]. subst m. now apply seq_first in B. Qed.

(** Comments. *)
Lemma no_dash s l : Ck s l -> forall q, s <> 45 :: 45 :: q.
Proof. intros C q ->. apply plain_head in C; [|reflexivity]. destruct C as (_ & (A & _) & _). now apply A. Qed.
Lemma no_hash s l : Ck s l -> forall q, s <> 35 :: q.
Proof. intros C q ->. apply plain_first in C; [discriminate|reflexivity]. Qed.
Lemma no_star s l : Ck s l -> forall q, s <> 47 :: 42 :: q.
Proof. intros C q ->. apply plain_head in C; [|reflexivity]. destruct C as (_ & (_ & A & _) & _). now apply A. Qed.
Lemma safe_dashes r t : safe (ms (Sq dashes r), t).
Proof.
  apply safe_never. intros p s l e C H. apply sq_in in H. destruct H as (m & A & _). apply alt_in in A. destruct A as [A|A]; apply lit_in in A; cbn [snd] in A; subst s.
  - now apply (no_dash _ _ C (snd m)).
  - now apply (no_hash _ _ C (32 :: snd m)).
Qed.
Lemma safe_slash w r t : (exists v, u w = 47 :: 42 :: v) -> safe (ms (Sq (lit w) r), t).
Proof.
  intros (v & E). apply safe_never. intros p s l e C H. apply sq_in in H. destruct H as (m & A & _). apply lit_in in A. cbn [snd] in A. subst s. rewrite E in C.
  now apply (no_star _ _ C (v ++ snd m)).
Qed.

(** Quoted parts. *)
Definition a96 : re := Alt (Sq (chr 96) (chr 96)) (noneof [96]).
Definition a39 : re := Alt (Sq (chr 39) (chr 39)) (Alt (Sq (chr 92) (chr 92)) (Alt (Sq (chr 92) (chr 39)) (noneof [39]))).
Lemma flat_head {A B} (f : A -> list B) a r e q : f a = e :: q -> exists q', flat_map f (a :: r) = e :: q'.
Proof. intros H. cbn. rewrite H. cbn. eauto. Qed.
Lemma flat_app_head {A B} (f : A -> list B) l r e q : flat_map f l = e :: q -> exists q', flat_map f (l ++ r) = e :: q'.
Proof. intros H. rewrite flat_map_app, H. cbn. eauto. Qed.
Lemma neq_eqb (a c : N) : c <> a -> (a =? c) = false.
Proof. intros H. apply N.eqb_neq. congruence. Qed.
Lemma rep_first (f k : place -> list place) n s m r e q :
  f s = m :: r -> flat_map k (rep f true n m) = e :: q -> exists q', flat_map k (rep f true (S n) s) = e :: q'.
Proof.
  intros F K. rewrite rep_S, F. cbn [flat_map]. rewrite <- app_assoc. rewrite flat_map_app, K. cbn. eauto.
Qed.
Lemma rep_stop (f k : place -> list place) n s e q : f s = [] -> k s = e :: q -> exists q', flat_map k (rep f true n s) = e :: q'.
Proof. intros F K. destruct n as [|n]; [cbn [rep]|rewrite rep_S, F]; cbn [flat_map app]; rewrite K; cbn; eauto. Qed.
Ltac ev := repeat (cbn -[N.eqb]; match goal with
  | |- context [N.eqb (Npos ?a) (Npos ?b)] => let v := eval compute in (N.eqb (Npos a) (Npos b)) in change (N.eqb (Npos a) (Npos b)) with v
  | H : ?c <> Npos ?k |- context [N.eqb (Npos ?k) ?c] => rewrite (neq_eqb (Npos k) c H)
  | H : ?c <> Npos ?k |- context [N.eqb ?c (Npos ?k)] => rewrite (N.eqb_sym c (Npos k))
  end); reflexivity.
Lemma head96 b : body96 b -> forall s n p, hd 0 s <> 96 -> (length b <= n)%nat ->
  exists q, flat_map (ms (chr 96)) (rep (ms a96) true n (p, b ++ 96 :: s)) = (Some 96, s) :: q.
Proof. clear uspace udigit ulet.
  induction 1 as [|c b NC B IH|b B IH]; intros s n p HS L; cbn [length app] in *.
  - apply (rep_stop (ms a96) (ms (chr 96)) n _ (Some 96, s) []); [|reflexivity]. unfold a96, noneof. destruct s as [|d s]; [reflexivity|]. cbn [hd] in HS. ev.
  - destruct n as [|n]; [lia|]. destruct (IH s n (Some c) HS ltac:(lia)) as [q E]. apply (rep_first _ _ n _ (Some c, b ++ 96 :: s) [] _ q); [|exact E].
    unfold a96, noneof. ev.
  - destruct n as [|n]; [lia|]. destruct (IH s n (Some 96) HS ltac:(lia)) as [q E]. apply (rep_first _ _ n _ (Some 96, b ++ 96 :: s) [] _ q); [reflexivity|exact E].
Qed.
Lemma head39 b : body39 b -> forall s n p, hd 0 s <> 39 -> (length b <= n)%nat ->
  exists q, flat_map (ms (chr 39)) (rep (ms a39) true n (p, b ++ 39 :: s)) = (Some 39, s) :: q.
Proof. clear uspace udigit ulet.
  induction 1 as [|c b NC NB B IH|b B IH|c b B IH]; intros s n p HS L; cbn [length app] in *.
  - apply (rep_stop (ms a39) (ms (chr 39)) n _ (Some 39, s) []); [|reflexivity]. unfold a39, noneof. destruct s as [|d s]; [reflexivity|]. cbn [hd] in HS. ev.
  - destruct n as [|n]; [lia|]. destruct (IH s n (Some c) HS ltac:(lia)) as [q E]. apply (rep_first _ _ n _ (Some c, b ++ 39 :: s) [] _ q); [|exact E].
    unfold a39, noneof. ev.
  - destruct n as [|n]; [lia|]. destruct (IH s n (Some 39) HS ltac:(lia)) as [q E]. apply (rep_first _ _ n _ (Some 39, b ++ 39 :: s) [] _ q); [reflexivity|exact E].
  - destruct n as [|[|n]]; [lia..|]. destruct (N.eq_dec c 92) as [->|N1]; [|destruct (N.eq_dec c 39) as [->|N2]].
    + destruct (IH s (S n) (Some 92) HS ltac:(lia)) as [q E]. apply (rep_first _ _ _ _ (Some 92, b ++ 39 :: s) [(Some 92, 92 :: b ++ 39 :: s)] _ q); [|exact E]. unfold a39, noneof. ev.
    + destruct (IH s (S n) (Some 39) HS ltac:(lia)) as [q E]. apply (rep_first _ _ _ _ (Some 39, b ++ 39 :: s) [(Some 92, 39 :: b ++ 39 :: s)] _ q); [|exact E]. unfold a39, noneof. ev.
    + destruct (IH s n (Some c) HS ltac:(lia)) as [q E].
      assert (X : exists q', flat_map (ms (chr 39)) (rep (ms a39) true (S n) (Some 92, c :: b ++ 39 :: s)) = (Some 39, s) :: q').
      { apply (rep_first _ _ _ _ (Some c, b ++ 39 :: s) [] _ q); [|exact E]. unfold a39, noneof. ev. }
      destruct X as [q' E']. apply (rep_first _ _ _ _ (Some 92, c :: b ++ 39 :: s) [] _ q'); [|exact E']. unfold a39, noneof. ev.
Qed.
Lemma quote96 b s p : body96 b -> hd 0 s <> 96 -> exists q, ms (Sq (chr 96) (Sq (Rep true a96) (chr 96))) (p, 96 :: b ++ 96 :: s) = (Some 96, s) :: q.
Proof. clear uspace udigit ulet.
  intros B H. cbn [TypeModel.ms chr snd]. rewrite N.eqb_refl. cbn [flat_map]. rewrite app_nil_r. apply (head96 b B); [exact H|]. cbn [snd]. rewrite app_length. lia.
Qed.
Lemma quote39 b s p : body39 b -> hd 0 s <> 39 -> exists q, ms (Sq (chr 39) (Sq (Rep true a39) (chr 39))) (p, 39 :: b ++ 39 :: s) = (Some 39, s) :: q.
Proof. clear uspace udigit ulet.
  intros B H. cbn [TypeModel.ms chr snd]. rewrite N.eqb_refl. cbn [flat_map]. rewrite app_nil_r. apply (head39 b B); [exact H|]. cbn [snd]. rewrite app_length. lia.
Qed.
Lemma stepped_quote (c d : N) x l : stepped (c :: x ++ [d]) l l.
Proof. clear uword uspace ulet udigit.
  right. right. split; [reflexivity|]. repeat split; intros E; apply (f_equal (@length N)) in E; cbn in E; rewrite app_length in E; cbn in E; lia.
Qed.
Lemma Ck96 q l : Ck (96 :: q) l -> exists b s, q = b ++ 96 :: s /\ body96 b /\ hd 0 s <> 96 /\ Ck s l.
Proof. intros C. apply Ck_inv in C. destruct C as [[C _]|[[C _]|[[C _]|[[C _]|[_ C]]]]]; [discriminate C..|exact C]. Qed.
Lemma Ck39 q l : Ck (39 :: q) l -> exists b s, q = b ++ 39 :: s /\ body39 b /\ hd 0 s <> 39 /\ Ck s l.
Proof. intros C. apply Ck_inv in C. destruct C as [[C _]|[[C _]|[[C _]|[[_ C]|[C _]]]]]; [discriminate C..|exact C|discriminate C]. Qed.
Lemma safe_96 : safe (ms (Sq (chr 96) (Sq (Rep true a96) (chr 96))), TOther).
Proof.
  intros p s l e r C H. cbn [fst] in H. destruct (seq_first _ _ _ _ (head_in _ _ _ H)) as (q & E). cbn [snd] in E. subst s.
  destruct (Ck96 _ _ C) as (b & s & -> & B & HS & C'). destruct (quote96 b s p B HS) as (q' & E). pose proof (eq_trans (eq_sym E) H) as X. injection X as <- _.
  exists (96 :: b ++ [96]), l. cbn [snd]. split; [cbn; now rewrite <- app_assoc|]. split; [discriminate|]. split; [exact C'|]. split; [apply stepped_quote|discriminate].
Qed.
Lemma safe_39 : safe (ms (Sq (chr 39) (Sq (Rep true a39) (chr 39))), TOther).
Proof.
  intros p s l e r C H. cbn [fst] in H. destruct (seq_first _ _ _ _ (head_in _ _ _ H)) as (q & E). cbn [snd] in E. subst s.
  destruct (Ck39 _ _ C) as (b & s & -> & B & HS & C'). destruct (quote39 b s p B HS) as (q' & E). pose proof (eq_trans (eq_sym E) H) as X. injection X as <- _.
  exists (39 :: b ++ [39]), l. cbn [snd]. split; [cbn; now rewrite <- app_assoc|]. split; [discriminate|]. split; [exact C'|]. split; [apply stepped_quote|discriminate].
Qed.

(** AT TIME ZONE. *)
Lemma space_plain c : spacec c = true -> plainb c = true -> blankb c = true.
Proof. clear uword ulet udigit. unfold spacec, TypeModel.spacec, plainb, wordb, blankb, symb. cbn [existsb]. intros A B. destruct (c <? 128) eqn:E; lia. Qed.
Lemma space_nonQ c : spacec c = true -> nonQ c = true.
Proof. clear uword ulet udigit.
  intros H. unfold nonQ. cbn [existsb]. unfold TypeModel.spacec in H. destruct (c <? 128) eqn:E; lia.
Qed.
Lemma lit_nonQ w : forallb nonQ (u w) = true -> Forall (fun c => nonQ c = true) (u w).
Proof. intros H. now apply Forall_forall, forallb_forall. Qed.
Lemma Ck_spaces x y l : Ck (x ++ y) l -> Forall (fun c => spacec c = true) x -> Ck y l.
Proof. intros C F. apply (Ck_skip x); [exact C|]. eapply Forall_impl; [|exact F]. intros c. apply space_nonQ. Qed.
Lemma Ck_lit w y l : Ck (u w ++ y) l -> forallb nonQ (u w) = true -> Ck y l.
Proof. intros C F. apply (Ck_skip (u w)); [exact C|]. now apply lit_nonQ. Qed.
Lemma no_zone x y z l : Ck (x ++ u "zone" ++ y ++ z) l -> Forall (fun c => spacec c = true) x -> x <> [] -> Forall (fun c => spacec c = true) y -> y <> [] -> False.
Proof.
  intros C FX NX FY NY. destruct (exists_last NX) as (x' & c & ->). apply Forall_app in FX. destruct FX as [FX FC]. inversion FC as [|? ? Hc _]; subst.
  rewrite <- app_assoc in C. apply Ck_spaces in C; [|exact FX]. destruct y as [|d y]; [congruence|]. inversion FY as [|? ? Hd _]; subst.
  assert (CD : Ck (d :: y ++ z) l).
  { change ([c] ++ u "zone" ++ (d :: y) ++ z) with ([c] ++ u "zone" ++ (d :: y ++ z)) in C. apply Ck_spaces in C; [|constructor; [exact Hc|constructor]]. now apply Ck_lit in C. }
  cbn [app] in C. apply plain_head in C; [|now apply space_nonQ]. destruct C as (P & (_ & _ & _ & Z) & _).
  apply Z; [now apply space_plain|]. split; [reflexivity|]. cbn. apply plain_first in CD; [|now apply space_nonQ].
  pose proof (space_plain d Hd CD) as B. clear -B. unfold blankb, wordb in *. lia.
Qed.
Lemma safe_zone r t : safe (ms (Sq (Alt (lit "at") (lit "with'")) (Sq sp (Sq (words uspace "time" "zone") (Sq sp r)))), t).
Proof.
  apply safe_never. intros p s l e C H. apply sq_in in H. destruct H as (m & A & H). apply sq_in in H. destruct H as (m1 & A1 & H). apply sq_in in H. destruct H as (m2 & A2 & H).
  apply sq_in in H. destruct H as (m3 & A3 & _). apply sq_in in A2. destruct A2 as (m4 & A4 & A5). apply sq_in in A5. destruct A5 as (m5 & A5 & A6).
  apply plus_cls in A1, A3, A5. destruct A1 as (x1 & E1 & F1 & N1). destruct A3 as (x3 & E3 & F3 & N3). destruct A5 as (x5 & E5 & F5 & N5).
  apply lit_in in A4, A6. assert (CM : Ck (snd m) l).
  { apply alt_in in A. destruct A as [A|A]; apply lit_in in A; cbn [snd] in A; subst s.
    - now apply Ck_lit in C.
    - exfalso. change (u "with'" ++ snd m) with (u "wit" ++ 104 :: 39 :: snd m) in C. apply Ck_lit in C; [|reflexivity].
      apply plain_head in C; [|reflexivity]. destruct C as (_ & (_ & _ & X & _) & _). now apply X. }
  rewrite E1 in CM. apply Ck_spaces in CM; [|exact F1]. rewrite A4 in CM. apply Ck_lit in CM; [|reflexivity]. rewrite E5, A6, E3 in CM.
  now apply (no_zone x5 x3 (snd m3) l CM).
Qed.

(** Punctuation. *)
Lemma safe_punct t : spaces_type t = false -> safe (ms (oneof [59; 58; 40; 41; 91; 93; 44; 46]), t).
Proof.
  intros ST p s l e r C H. apply head_in, cls_in in H. destruct H as (c & M & E). cbn [snd] in E. subst s. exists [c].
  assert (X : exists l', Ck (snd e) l' /\ stepped [c] l l').
  { apply Ck_inv in C. destruct C as [(P & _ & C)|[(-> & l' & -> & C)|[(-> & l' & -> & C)|[(-> & _)|(-> & _)]]]]; [|exists l'; split; [exact C|]..|discriminate M|discriminate M].
    - exists l. split; [exact C|]. right. right. split; [reflexivity|]. repeat split; intros E; injection E as ->; discriminate P.
    - now left.
    - right. now left. }
  destruct X as (l' & C' & S). exists l'. split; [reflexivity|]. split; [discriminate|]. split; [exact C'|]. split; [exact S|]. cbn. rewrite ST. discriminate.
Qed.
Lemma safe_dollar t : safe (dollar uword uspace ulet, t).
Proof.
  apply safe_never. intros p s l e C H. unfold dollar in H. apply in_flat_map in H. destruct H as (m & A & _). apply behind_first in A. destruct A as (q & E). cbn [snd] in E. subst s.
  apply plain_first in C; [discriminate|reflexivity].
Qed.
Lemma all_safe : Forall safe rules.
Proof.
  unfold TypeModel.rules. repeat apply Forall_cons; try apply Forall_nil.
  all: try (apply safe_free; reflexivity).
  - apply safe_dashes.
  - apply safe_slash. eexists. reflexivity.
  - apply safe_dashes.
  - apply safe_slash. eexists. reflexivity.
  - apply safe_space_free; [reflexivity..|]. intros s e H. apply alt_in in H. destruct H as [H|H]; [apply lit_in in H; exists [13; 10]|apply alt_in in H; destruct H as [H|H]; apply chr_in in H; [exists [13]|exists [10]]]; (split; [exact H|repeat constructor]).
  - apply safe_space_free; [reflexivity..|]. intros s e H. apply sq_in in H. destruct H as (m & A & B). apply cls_in in A. destruct A as (c & A & E). apply rep_cls in B. destruct B as (x & E' & F).
    exists (c :: x). rewrite E, E'. split; [reflexivity|now constructor].
  - apply safe_96.
  - apply (never_first _ _ 180); [apply seq_first|reflexivity..].
  - apply safe_dollar.
  - apply (never_first _ _ 37); [apply seq_first|reflexivity..].
  - apply safe_39.
  - apply (never_first _ _ 34); [apply seq_first|reflexivity..].
  - apply (never_first _ _ 34); [|reflexivity..]. intros s e H. apply alt_in in H. destruct H as [H|H]; now apply seq_first in H.
  - apply (never_first _ _ 91); [apply behind_first|reflexivity..].
  - apply safe_zone.
  - now apply safe_punct.
Qed.

(** ** Tokens *)
Lemma first_rule_cases l s : (exists f t e r, In (f, t) l /\ f s = e :: r /\ first_rule l s = ((length (snd s) - length (snd e))%nat, t)) \/
  ((forall f t, In (f, t) l -> f s = []) /\ first_rule l s = (1%nat, TOther)).
Proof.
  induction l as [|[f t] l IH]; [right; split; [contradiction|reflexivity]|]. cbn [first_rule]. destruct (f s) as [|e r] eqn:F.
  - destruct IH as [(f' & t' & e & r & I & E & R)|[A R]]; [left; exists f', t', e, r; split; [now right|]; now split|].
    right. split; [|exact R]. intros f' t' [E|I]; [injection E as <- <-; exact F|now apply (A f' t')].
  - left. exists f, t, e, r. split; [now left|]. now split.
Qed.
Lemma step_rule p s l : Ck s l -> s <> [] -> exists y z l' k t, first_rule rules (p, s) = (k, t) /\ s = y ++ z /\ y <> [] /\ k = length y /\ Ck z l' /\ stepped y l l' /\
  (spaces_type t = true -> Forall (fun c => spacec c = true) y).
Proof.
  intros C NE. destruct (first_rule_cases rules (p, s)) as [(f & t & e & r & I & E & R)|[A R]].
  - pose proof all_safe as S. rewrite Forall_forall in S. specialize (S _ I p s l e r C E). destruct S as (y & l' & -> & NY & C' & ST & SP).
    exists y, (snd e), l', (length y), t. repeat split; try assumption. rewrite R. f_equal. cbn [snd]. rewrite app_length. lia.
  - destruct s as [|c s]; [congruence|]. pose proof (Ck_inv _ _ _ C) as V. destruct V as [(P & _ & C')|[(-> & l' & -> & C')|[(-> & l' & -> & C')|[(-> & b & s' & -> & B & HS & C')|(-> & b & s' & -> & B & HS & C')]]]].
    + exists [c], s, l, 1%nat, TOther. repeat split; try assumption; try discriminate. right. right. split; [reflexivity|]. repeat split; intros E; injection E as ->; discriminate P.
    + exists [40], s, l', 1%nat, TOther. repeat split; try assumption; try discriminate. now left.
    + exists [41], s, l', 1%nat, TOther. repeat split; try assumption; try discriminate. right. now left.
    + exfalso. destruct (quote39 b s' p B HS) as (q & E).
      assert (X : ms (Sq (chr 39) (Sq (Rep true a39) (chr 39))) (p, 39 :: b ++ 39 :: s') = []).
      { apply (A (ms (Sq (chr 39) (Sq (Rep true a39) (chr 39)))) TOther). unfold TypeModel.rules. do 26 right. left. reflexivity. }
      pose proof (eq_trans (eq_sym E) X) as Y. discriminate Y.
    + exfalso. destruct (quote96 b s' p B HS) as (q & E).
      assert (X : ms (Sq (chr 96) (Sq (Rep true a96) (chr 96))) (p, 96 :: b ++ 96 :: s') = []).
      { apply (A (ms (Sq (chr 96) (Sq (Rep true a96) (chr 96)))) TOther). unfold TypeModel.rules. do 9 right. left. reflexivity. }
      pose proof (eq_trans (eq_sym E) X) as Y. discriminate Y.
Qed.

Variable uc : N -> pystr.
Notation lex := (lex uword uspace udigit ulet uc).
Definition tok_type (t : ttype) (v : pystr) : ttype := match t with TWord => word_type uc v | _ => t end.
Lemma lex_S n p c s : lex (S n) p (c :: s) = let '(k, t) := first_rule rules (p, map low (c :: s)) in
  (tok_type t (c :: firstn (pred k) s), c :: firstn (pred k) s) :: lex n (Some (low (last (c :: firstn (pred k) s) c))) (skipn (pred k) s).
Proof. reflexivity. Qed.
Lemma lex_cons n p c s l : Ck (map low (c :: s)) l -> exists v z l' k t,
  c :: s = v ++ z /\ v <> [] /\ first_rule rules (p, map low (c :: s)) = (k, t) /\ k = length v /\
  lex (S n) p (c :: s) = (tok_type t v, v) :: lex n (Some (low (last v c))) z /\
  Ck (map low z) l' /\ stepped (map low v) l l' /\ (spaces_type t = true -> Forall (fun c => spacec c = true) (map low v)).
Proof.
  intros C. destruct (step_rule p _ l C ltac:(discriminate)) as (y & z & l' & k & t & R & E & NY & K & C' & S & SP).
  assert (L : (length y <= length (c :: s))%nat). { rewrite <- (map_length low (c :: s)), E, app_length. lia. }
  assert (EV : y = map low (firstn k (c :: s))). { rewrite <- firstn_map, E, K, firstn_app, Nat.sub_diag, firstn_all, firstn_O. now rewrite app_nil_r. }
  assert (EZ : z = map low (skipn k (c :: s))). { rewrite <- skipn_map, E, K, skipn_app, Nat.sub_diag, skipn_all. reflexivity. }
  assert (KS : exists m, k = Datatypes.S m). { destruct y; [congruence|]. cbn in K. eauto. } destruct KS as (m & KS).
  assert (FV : firstn k (c :: s) = c :: firstn (pred k) s). { rewrite KS. reflexivity. }
  assert (FZ : skipn k (c :: s) = skipn (pred k) s). { rewrite KS. reflexivity. }
  exists (firstn k (c :: s)), (skipn k (c :: s)), l', k, t.
  split; [symmetry; apply firstn_skipn|]. split; [rewrite FV; discriminate|]. split; [exact R|].
  split; [rewrite firstn_length_le; [reflexivity|lia]|]. split.
  - rewrite lex_S. unfold pystr in *. rewrite R, <- FV, <- FZ. reflexivity.
  - rewrite EV in S, SP. rewrite EZ in C'. auto.
Qed.
(** The parentheses among tokens. *)
Definition par_tok (x : ttype * pystr) : list bool := if seqb (snd x) [40] then [true] else if seqb (snd x) [41] then [false] else [].
Definition fine_tok (x : ttype * pystr) : Prop := snd x <> [46] /\ (kept x = false -> par_tok x = []).
Lemma map_low1 v k : (k < 97 \/ 122 < k) -> (k < 65 \/ 90 < k) -> (map low v = [k] <-> v = [k]).
Proof. clear uword uspace ulet udigit uc.
  intros H1 H2. split; [|intros ->; cbn; unfold low; destruct ((65 <=? k) && (k <=? 90)) eqn:X; [lia|reflexivity]].
  destruct v as [|c [|d v]]; cbn; try discriminate. intros E. injection E as E. f_equal. now apply low_eq.
Qed.
Lemma lex_pars : forall n p s l, Ck (map low s) l -> (length s <= n)%nat -> flat_map par_tok (lex n p s) = l /\ Forall fine_tok (lex n p s).
Proof.
  induction n as [|n IH]; intros p s l C L.
  - destruct s; [|cbn in L; lia]. cbn in *. inversion C. split; [reflexivity|constructor].
  - destruct s as [|c s]; [cbn in *; inversion C; split; [reflexivity|constructor]|].
    destruct (lex_cons n p c s l C) as (v & z & l' & k & t & E & NV & R & K & LX & C' & S & SP). rewrite LX.
    assert (LZ : (length z <= n)%nat). { apply (f_equal (@length N)) in E. rewrite app_length in E. destruct v; [congruence|]. cbn in *. lia. }
    destruct (IH (Some (low (last v c))) z l' C' LZ) as [I1 I2]. cbn [flat_map]. rewrite I1.
    assert (X : par_tok (tok_type t v, v) ++ l' = l /\ v <> [46]).
    { unfold par_tok. cbn [snd]. destruct S as [[S ->]|[[S ->]|(-> & S1 & S2 & S3)]].
      - apply (proj1 (map_low1 v 40 ltac:(lia) ltac:(lia))) in S. subst v. split; [reflexivity|discriminate].
      - apply (proj1 (map_low1 v 41 ltac:(lia) ltac:(lia))) in S. subst v. split; [reflexivity|discriminate].
      - assert (v <> [40]) by (intros ->; now apply S1). assert (v <> [41]) by (intros ->; now apply S2).
        destruct (seqb v [40]) eqn:Q1; [apply seqb_eq in Q1; congruence|]. destruct (seqb v [41]) eqn:Q2; [apply seqb_eq in Q2; congruence|]. split; [reflexivity|]. intros ->. now apply S3. }
    destruct X as [X1 X2]. split; [exact X1|]. constructor; [|exact I2]. split; [exact X2|]. intros KF. unfold par_tok. cbn [snd].
    assert (ST : spaces_type t = true).
    { unfold kept in KF. cbn [fst] in KF. destruct t; cbn in KF |- *; try discriminate; try reflexivity. unfold word_type in KF. destruct (smem _ _); discriminate. }
    specialize (SP ST). destruct (seqb v [40]) eqn:Q1; [apply seqb_eq in Q1; subst v; inversion SP; discriminate|]. destruct (seqb v [41]) eqn:Q2; [apply seqb_eq in Q2; subst v; inversion SP; discriminate|]. reflexivity.
Qed.
End Lexer.
