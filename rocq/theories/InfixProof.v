(** Proofs about operator expressions. *)
From Coq Require Import String Ascii List Arith Bool Lia.
From Verif Require Import Base InfixModel InfixSpec.
Import ListNotations.

Section Proof.
Context {V : Type}.
Variable act : nat -> list V -> V.
Variable tbl : list lvl.
Hypothesis TOK : table_ok tbl.
Notation tree := (etree V).
Notation it := (V * option nat)%type.

Fixpoint size (t : tree) : nat :=
  match t with
  | Leaf _ => 0
  | Pre _ _ t | Suf _ t _ => S (size t)
  | Bin _ l _ r => S (size l + size r)
  | Tri _ a _ b _ c => S (size a + size b + size c)
  end.
(** All levels are [m] or later; some node has the level [m]. *)
Fixpoint ge (m : nat) (t : tree) : Prop :=
  match t with
  | Leaf _ => True
  | Pre k _ t | Suf k t _ => m <= k /\ ge m t
  | Bin k l _ r => m <= k /\ ge m l /\ ge m r
  | Tri k a _ b _ c => m <= k /\ ge m a /\ ge m b /\ ge m c
  end.
Fixpoint has (m : nat) (t : tree) : bool :=
  match t with
  | Leaf _ => false
  | Pre k _ t | Suf k t _ => (k =? m) || has m t
  | Bin k l _ r => (k =? m) || has m l || has m r
  | Tri k a _ b _ c => (k =? m) || has m a || has m b || has m c
  end.
Definition nolab (o : nat) (l : list it) : Prop := Forall (fun x => snd x <> Some o) l.

Lemma nolab_app o a b : nolab o (a ++ b) <-> nolab o a /\ nolab o b.
Proof. apply Forall_app. Qed.

(** Without nodes of level [m] its operator does not occur. *)
Lemma no_op1 m o k : op1 tbl m = Some o -> k <> m -> op1 tbl k <> Some o.
Proof. intros H N E. apply N. now apply (proj1 TOK k m o). Qed.
Lemma no_op2 m o k : op1 tbl m = Some o -> m <= k -> op2 tbl k <> Some o.
Proof. intros H N E. pose proof (proj1 (proj2 TOK) k m o E H). lia. Qed.
Lemma free m o t : op1 tbl m = Some o -> ge m t -> has m t = false -> nolab o (yield tbl t).
Proof.
  intros H. unfold nolab. induction t as [v|k w t IH|k t IH w|k l IHl w r IHr|k a IHa w b IHb w' c IHc]; cbn [ge has yield]; intros G N.
  - repeat constructor. discriminate.
  - apply orb_false_iff in N as [N N1]. apply Nat.eqb_neq in N. destruct G. constructor; [now apply (no_op1 m)|now apply IH].
  - apply orb_false_iff in N as [N N1]. apply Nat.eqb_neq in N. destruct G. apply Forall_app. split; [now apply IH|].
    repeat constructor. now apply (no_op1 m).
  - apply orb_false_iff in N as [N N2]. apply orb_false_iff in N as [N N1]. apply Nat.eqb_neq in N. destruct G as (G & G1 & G2).
    apply Forall_app. split; [now apply IHl|]. constructor; [now apply (no_op1 m)|now apply IHr].
  - apply orb_false_iff in N as [N N3]. apply orb_false_iff in N as [N N2]. apply orb_false_iff in N as [N N1]. apply Nat.eqb_neq in N.
    destruct G as (G & G1 & G2 & G3).
    apply Forall_app. split; [now apply IHa|]. constructor; [now apply (no_op1 m)|]. apply Forall_app. split; [now apply IHb|].
    constructor; [now apply (no_op2 m)|now apply IHc].
Qed.

(** The parts of a node whose operands are all operands of the sequence. *)
Definition shape (m : nat) (mid : list it) : Prop :=
  match nth_error tbl m with
  | Some (LPre o) => exists w v, mid = [(w, Some o); (v, None)]
  | Some (LSuf o) => exists v w, mid = [(v, None); (w, Some o)]
  | Some (LBin o _) => exists a w b, mid = [(a, None); (w, Some o); (b, None)]
  | Some (LTri o o' _) => exists a w b w' c, mid = [(a, None); (w, Some o); (b, None); (w', Some o'); (c, None)]
  | None => False
  end.
(** The next reduction: at the first occurrence of the operator [o], or at the last one ([side]). *)
Definition rdx (side : bool) (m o : nat) (t : tree) : Prop :=
  exists p mid q t', yield tbl t = p ++ mid ++ q /\ nolab o (if side then q else p) /\ shape m mid /\
    yield tbl t' = p ++ (act m (map fst mid), None) :: q /\ value act t' = value act t /\ lev t' <= lev t /\
    respects tbl t' /\ size t' < size t.

Lemma lift (side : bool) m o (R : tree -> tree) (c : tree) (pre post : list it) n :
  (forall t : tree, yield tbl (R t) = pre ++ yield tbl t ++ post) -> (forall t : tree, value act t = value act c -> value act (R t) = value act (R c)) ->
  (forall t : tree, lev (R t) = lev (R c)) -> (forall t : tree, size (R t) = size t + n) ->
  (forall t : tree, lev t <= lev c -> respects tbl t -> respects tbl (R t)) ->
  nolab o (if side then post else pre) -> rdx side m o c -> rdx side m o (R c).
Proof.
  intros HY HV HL HS HR N (p & mid & q & t' & Y & NL & SH & Y' & VV & LL & RR & SS).
  exists (pre ++ p), mid, (q ++ post), (R t'). split; [|split; [|split; [|split; [|split; [|split; [|split]]]]]].
  - rewrite HY, Y. now rewrite <- !app_assoc.
  - destruct side; apply nolab_app; auto.
  - exact SH.
  - rewrite HY, Y'. now rewrite <- !app_assoc.
  - now apply HV.
  - now rewrite HL.
  - now apply HR.
  - rewrite !HS. lia.
Qed.
Lemma here side m o (t : tree) mid v : yield tbl t = mid -> shape m mid -> value act t = v -> v = act m (map fst mid) -> 0 < size t -> rdx side m o t.
Proof.
  intros Y S E EV SZ. exists [], mid, [], (Leaf v). rewrite app_nil_r, Y. repeat split; auto; try (destruct side; constructor); cbn; try lia.
  now rewrite EV.
Qed.

Lemma leaf_of m (t : tree) : ge m t -> lev t < S m -> exists v, t = Leaf v.
Proof. destruct t; cbn; intros; [eauto|lia..]. Qed.
Lemma leaf_or m (t : tree) : ge m t -> lev t <= S m -> (exists v, t = Leaf v) \/ has m t = true.
Proof. destruct t; cbn; intros; [eauto|right; destruct (Nat.eqb_spec k m); cbn; auto; lia..]. Qed.

Lemma op1_at k l : nth_error tbl k = Some l -> op1 tbl k = Some match l with LPre o | LSuf o | LBin o _ | LTri o _ _ => o end.
Proof. unfold op1. intros ->. now destruct l. Qed.
Lemma op2_at k o o' b : nth_error tbl k = Some (LTri o o' b) -> op2 tbl k = Some o'.
Proof. unfold op2. now intros ->. Qed.

(** The first occurrence of a suffix, binary or ternary operator of the earliest level. *)
Lemma left_redex m o t : op1 tbl m = Some o -> (forall o', nth_error tbl m <> Some (LPre o')) ->
  respects tbl t -> ge m t -> has m t = true -> rdx false m o t.
Proof.
  intros HO NP. induction t as [v|k w t IH|k t IH w|k l IHl w r IHr|k a IHa w b IHb w' c IHc]; cbn [respects ge has]; intros RS G H.
  - discriminate.
  - destruct RS as ((o1 & K) & L & RS), G as (G & G1).
    assert (k <> m) by (intros ->; now apply (NP o1)).
    destruct (Nat.eqb_spec k m) as [->|_]; [contradiction|]. cbn in H.
    apply (lift false m o (fun t => Pre k w t) t [(w, op1 tbl k)] [] 1); auto.
    + intros t'. cbn. now rewrite app_nil_r.
    + cbn. now intros t' ->.
    + cbn. intros. lia.
    + cbn. intros t' ? ?. repeat split; eauto. lia.
    + repeat constructor. now apply (no_op1 m).
  - destruct RS as ((o1 & K) & L & RS), G as (G & G1).
    assert (LF : has m t = true -> rdx false m o (Suf k t w)).
    { intros HH. apply (lift false m o (fun t => Suf k t w) t [] [(w, op1 tbl k)] 1); auto.
      - cbn. now intros t' ->.
      - cbn. intros. lia.
      - cbn. intros t' ? ?. repeat split; eauto. lia.
      - constructor. }
    destruct (Nat.eqb_spec k m) as [->|NE]; [|now apply LF].
    destruct (leaf_or m t G1 L) as [[v ->]|HH]; [|now apply LF].
    eapply here; [reflexivity| |reflexivity| |cbn; lia].
    + unfold shape. rewrite K. cbn. rewrite (op1_at _ _ K). eauto.
    + reflexivity.
  - destruct RS as ((o1 & K) & L1 & L2 & R1 & R2), G as (G & G1 & G2).
    assert (LF : has m l = true -> rdx false m o (Bin k l w r)).
    { intros HH. apply (lift false m o (fun t => Bin k t w r) l [] ((w, op1 tbl k) :: yield tbl r) (S (size r))); auto.
      - cbn. now intros t' ->.
      - cbn. intros. lia.
      - cbn. intros t' ? ?. repeat split; eauto. lia.
      - constructor. }
    destruct (has m l) eqn:HL; [now apply LF|].
    destruct (Nat.eqb_spec k m) as [->|NE].
    + destruct (leaf_or m l G1 L1) as [[v ->]|HH]; [|congruence].
      destruct (leaf_of m r G2 L2) as [v' ->].
      eapply here; [reflexivity| |reflexivity| |cbn; lia].
      * unfold shape. rewrite K. cbn. rewrite (op1_at _ _ K). eauto.
      * reflexivity.
    + cbn in H. apply (lift false m o (fun t => Bin k l w t) r (yield tbl l ++ [(w, op1 tbl k)]) [] (S (size l))); auto.
      * intros t'. cbn. rewrite app_nil_r, <- app_assoc. reflexivity.
      * cbn. now intros t' ->.
      * cbn. intros. lia.
      * cbn. intros t' ? ?. repeat split; eauto. lia.
      * apply nolab_app. split; [now apply (free m)|]. repeat constructor. now apply (no_op1 m).
  - destruct RS as ((o1 & o2 & K) & L1 & L2 & L3 & R1 & R2 & R3), G as (G & G1 & G2 & G3).
    assert (LF : has m a = true -> rdx false m o (Tri k a w b w' c)).
    { intros HH. apply (lift false m o (fun t => Tri k t w b w' c) a [] ((w, op1 tbl k) :: yield tbl b ++ (w', op2 tbl k) :: yield tbl c) (S (size b + size c))); auto.
      - cbn. now intros t' ->.
      - cbn. intros. lia.
      - cbn. intros t' ? ?. repeat split; eauto. lia.
      - constructor. }
    destruct (has m a) eqn:HA; [now apply LF|].
    destruct (Nat.eqb_spec k m) as [->|NE].
    + destruct (leaf_or m a G1 L1) as [[v ->]|HH]; [|congruence].
      destruct (leaf_of m b G2 L2) as [v' ->]. destruct (leaf_of m c G3 L3) as [v'' ->].
      eapply here; [reflexivity| |reflexivity| |cbn; lia].
      * unfold shape. rewrite K. cbn. rewrite (op1_at _ _ K), (op2_at _ _ _ _ K). eauto 10.
      * reflexivity.
    + cbn in H. destruct (has m b) eqn:HB.
      * apply (lift false m o (fun t => Tri k a w t w' c) b (yield tbl a ++ [(w, op1 tbl k)]) ((w', op2 tbl k) :: yield tbl c) (S (size a + size c))); auto.
        -- intros t'. cbn. rewrite <- app_assoc. reflexivity.
        -- cbn. now intros t' ->.
        -- cbn. intros. lia.
        -- cbn. intros t' ? ?. repeat split; eauto. lia.
        -- apply nolab_app. split; [now apply (free m)|]. repeat constructor. now apply (no_op1 m).
      * apply (lift false m o (fun t => Tri k a w b w' t) c (yield tbl a ++ (w, op1 tbl k) :: yield tbl b ++ [(w', op2 tbl k)]) [] (S (size a + size b))); auto.
        -- intros t'. cbn. rewrite app_nil_r, <- app_assoc. cbn. rewrite <- app_assoc. reflexivity.
        -- cbn. now intros t' ->.
        -- cbn. intros. lia.
        -- cbn. intros t' ? ?. repeat split; eauto. lia.
        -- apply nolab_app. split; [now apply (free m)|]. constructor; [now apply (no_op1 m)|].
           apply nolab_app. split; [now apply (free m)|]. repeat constructor. now apply (no_op2 m).
Qed.

(** The last occurrence of a prefix operator of the earliest level. *)
Lemma right_redex m o t : op1 tbl m = Some o -> nth_error tbl m = Some (LPre o) ->
  respects tbl t -> ge m t -> has m t = true -> rdx true m o t.
Proof.
  intros HO NP. induction t as [v|k w t IH|k t IH w|k l IHl w r IHr|k a IHa w b IHb w' c IHc]; cbn [respects ge has]; intros RS G H.
  - discriminate.
  - destruct RS as ((o1 & K) & L & RS), G as (G & G1).
    assert (LF : has m t = true -> rdx true m o (Pre k w t)).
    { intros HH. apply (lift true m o (fun t => Pre k w t) t [(w, op1 tbl k)] [] 1); auto.
      - intros t'. cbn. now rewrite app_nil_r.
      - cbn. now intros t' ->.
      - cbn. intros. lia.
      - cbn. intros t' ? ?. repeat split; eauto. lia.
      - constructor. }
    destruct (Nat.eqb_spec k m) as [->|NE]; [|now apply LF].
    destruct (leaf_or m t G1 L) as [[v ->]|HH]; [|now apply LF].
    eapply here; [reflexivity| |reflexivity| |cbn; lia].
    + unfold shape. rewrite K. cbn. rewrite (op1_at _ _ K). eauto.
    + reflexivity.
  - destruct RS as ((o1 & K) & L & RS), G as (G & G1).
    destruct (Nat.eqb_spec k m) as [->|NE]; [congruence|]. cbn in H.
    apply (lift true m o (fun t => Suf k t w) t [] [(w, op1 tbl k)] 1); auto.
    + cbn. now intros t' ->.
    + cbn. intros. lia.
    + cbn. intros t' ? ?. repeat split; eauto. lia.
    + repeat constructor. now apply (no_op1 m).
  - destruct RS as ((o1 & K) & L1 & L2 & R1 & R2), G as (G & G1 & G2).
    destruct (Nat.eqb_spec k m) as [->|NE]; [congruence|]. cbn in H.
    destruct (has m r) eqn:HR.
    + apply (lift true m o (fun t => Bin k l w t) r (yield tbl l ++ [(w, op1 tbl k)]) [] (S (size l))); auto.
      * intros t'. cbn. rewrite app_nil_r, <- app_assoc. reflexivity.
      * cbn. now intros t' ->.
      * cbn. intros. lia.
      * cbn. intros t' ? ?. repeat split; eauto. lia.
      * constructor.
    + rewrite orb_false_r in H.
      apply (lift true m o (fun t => Bin k t w r) l [] ((w, op1 tbl k) :: yield tbl r) (S (size r))); auto.
      * cbn. now intros t' ->.
      * cbn. intros. lia.
      * cbn. intros t' ? ?. repeat split; eauto. lia.
      * constructor; [now apply (no_op1 m)|now apply (free m)].
  - destruct RS as ((o1 & o2 & K) & L1 & L2 & L3 & R1 & R2 & R3), G as (G & G1 & G2 & G3).
    destruct (Nat.eqb_spec k m) as [->|NE]; [congruence|]. cbn in H.
    destruct (has m c) eqn:HC; [|rewrite orb_false_r in H; destruct (has m b) eqn:HB; [|rewrite orb_false_r in H]].
    + apply (lift true m o (fun t => Tri k a w b w' t) c (yield tbl a ++ (w, op1 tbl k) :: yield tbl b ++ [(w', op2 tbl k)]) [] (S (size a + size b))); auto.
      * intros t'. cbn. rewrite app_nil_r, <- app_assoc. cbn. rewrite <- app_assoc. reflexivity.
      * cbn. now intros t' ->.
      * cbn. intros. lia.
      * cbn. intros t' ? ?. repeat split; eauto. lia.
      * constructor.
    + apply (lift true m o (fun t => Tri k a w t w' c) b (yield tbl a ++ [(w, op1 tbl k)]) ((w', op2 tbl k) :: yield tbl c) (S (size a + size c))); auto.
      * intros t'. cbn. rewrite <- app_assoc. reflexivity.
      * cbn. now intros t' ->.
      * cbn. intros. lia.
      * cbn. intros t' ? ?. repeat split; eauto. lia.
      * constructor; [now apply (no_op2 m)|now apply (free m)].
    + apply (lift true m o (fun t => Tri k t w b w' c) a [] ((w, op1 tbl k) :: yield tbl b ++ (w', op2 tbl k) :: yield tbl c) (S (size b + size c))); auto.
      * cbn. now intros t' ->.
      * cbn. intros. lia.
      * cbn. intros t' ? ?. repeat split; eauto. lia.
      * constructor; [now apply (no_op1 m)|]. apply nolab_app. split; [now apply (free m)|]. constructor; [now apply (no_op2 m)|now apply (free m)].
Qed.

(** ** Scanning *)
Lemma is_op_no o (x : it) : snd x <> Some o -> is_op o x = false.
Proof. unfold is_op. destruct (snd x) as [o'|]; [|reflexivity]. intros N. apply Nat.eqb_neq. congruence. Qed.
Lemma first_none o f l i : (forall j (x : it), f j x = true -> is_op o x = true) -> nolab o l -> first_at f i l = None.
Proof.
  intros HF N. revert i. induction N as [|x l H N IH]; intros i; cbn; [reflexivity|].
  destruct (f i x) eqn:E; [apply HF in E; rewrite is_op_no in E by exact H; discriminate|apply IH].
Qed.
Lemma last_none o f l i : (forall j (x : it), f j x = true -> is_op o x = true) -> nolab o l -> last_at f i l = None.
Proof.
  intros HF N. revert i. induction N as [|x l H N IH]; intros i; cbn; [reflexivity|].
  rewrite IH. destruct (f i x) eqn:E; [apply HF in E; rewrite is_op_no in E by exact H; discriminate|reflexivity].
Qed.
Lemma first_found o f l x r i : (forall j (x : it), f j x = true -> is_op o x = true) -> nolab o l -> f (i + length l) x = true ->
  first_at f i (l ++ x :: r) = Some (i + length l).
Proof.
  intros HF N. revert i. induction N as [|y l H N IH]; intros i E; cbn in *.
  - rewrite Nat.add_0_r in *. now rewrite E.
  - destruct (f i y) eqn:E'; [apply HF in E'; rewrite is_op_no in E' by exact H; discriminate|].
    rewrite IH; [f_equal; lia|]. now replace (S i + length l) with (i + S (length l)) by lia.
Qed.
Lemma last_found o f l x r i : (forall j (x : it), f j x = true -> is_op o x = true) -> nolab o r -> f (i + length l) x = true ->
  last_at f i (l ++ x :: r) = Some (i + length l).
Proof.
  intros HF N. revert i. induction l as [|y l IH]; intros i E; cbn in *.
  - rewrite (last_none o) by assumption. rewrite Nat.add_0_r in *. now rewrite E.
  - rewrite IH; [f_equal; lia|]. now replace (S i + length l) with (i + S (length l)) by lia.
Qed.

Lemma firstn_in {A} n (l : list A) x : In x (firstn n l) -> In x l.
Proof. intros H. rewrite <- (firstn_skipn n l). apply in_or_app. now left. Qed.
Lemma nolab_firstn o n (l : list it) : nolab o l -> nolab o (firstn n l).
Proof. unfold nolab. rewrite !Forall_forall. intros H x I. apply H. now apply firstn_in in I. Qed.
Lemma nolab_tl o (l : list it) : nolab o l -> nolab o (tl l).
Proof. intros N. destruct N; [constructor|assumption]. Qed.
Lemma nolab_removelast o (l : list it) : nolab o l -> nolab o (removelast l).
Proof. rewrite removelast_firstn_len. apply nolab_firstn. Qed.
Lemma nolab_inner o n l : nolab o l -> nolab o (inner n l).
Proof. intros N. now apply nolab_firstn, nolab_tl. Qed.

Lemma at_level_none k l (flat : list it) : nolab match l with LPre o | LSuf o | LBin o _ | LTri o _ _ => o end flat -> at_level act k l flat = None.
Proof.
  intros N. destruct l as [o|o|o ra|o o' ra]; unfold at_level, scan; cbn in N.
  - rewrite (last_none o); [reflexivity|auto|now apply nolab_removelast].
  - rewrite (first_none o); [reflexivity|auto|now apply nolab_inner].
  - destruct ra; [rewrite (last_none o)|rewrite (first_none o)]; try reflexivity; auto; now apply nolab_inner.
  - destruct ra; [rewrite (last_none o)|rewrite (first_none o)]; try reflexivity; try (now apply nolab_inner);
      intros j x E; apply andb_true_iff in E; tauto.
Qed.

Lemma put_at k (p mid q : list it) : put act k (length p) (length mid) (p ++ mid ++ q) = p ++ (act k (map fst mid), None) :: q.
Proof.
  unfold put. rewrite firstn_app, Nat.sub_diag, firstn_all, firstn_O, app_nil_r.
  rewrite (skipn_app (length p)), skipn_all, Nat.sub_diag. cbn [app skipn].
  rewrite firstn_app, firstn_all, Nat.sub_diag, firstn_O, app_nil_r.
  f_equal. f_equal. rewrite <- app_length. rewrite app_assoc, skipn_app, skipn_all, Nat.sub_diag. reflexivity.
Qed.
(** The part that is searched, after the first token. *)
Lemma tl_len (p : list it) a : length (tl (p ++ [a])) = length p.
Proof. destruct p; cbn; [reflexivity|rewrite app_length; cbn; lia]. Qed.
Lemma inner_split n (p : list it) a x r : n <= length r -> exists r', inner n (p ++ a :: x :: r) = tl (p ++ [a]) ++ x :: r'.
Proof.
  intros H. exists (firstn (length r - n) r).
  assert (E1 : length (p ++ a :: x :: r) - 1 - n = length (tl (p ++ [a])) + (1 + (length r - n))).
  { rewrite tl_len, app_length. cbn [length]. lia. }
  assert (E2 : tl (p ++ a :: x :: r) = tl (p ++ [a]) ++ x :: r) by (destruct p; cbn; [reflexivity|rewrite <- app_assoc; reflexivity]).
  change (inner n (p ++ a :: x :: r)) with (firstn (length (p ++ a :: x :: r) - 1 - n) (tl (p ++ a :: x :: r))).
  rewrite E1, E2. exact (firstn_app_2 (1 + (length r - n)) (tl (p ++ [a])) (x :: r)).
Qed.

Lemma at_level_left m o p mid q : op1 tbl m = Some o -> (forall o', nth_error tbl m <> Some (LPre o')) -> nolab o p -> shape m mid ->
  exists l, nth_error tbl m = Some l /\ at_level act m l (p ++ mid ++ q) = Some (p ++ (act m (map fst mid), None) :: q).
Proof.
  unfold op1, shape. intros HO NP N S. destruct TOK as (_ & _ & NB & NT). specialize (NP o). specialize (NB m). specialize (NT m).
  destruct (nth_error tbl m) as [[o1|o1|o1 ra|o1 o2 ra]|]; [| | | |discriminate]; injection HO as ->; eexists; (split; [reflexivity|]).
  - contradiction.
  - destruct S as (v & w & ->). unfold at_level, scan. cbn [app].
    destruct (inner_split 0 p (v, None) (w, Some o) q ltac:(lia)) as (r' & ->).
    rewrite (first_found o); [|auto|apply nolab_tl, nolab_app; split; [exact N|repeat constructor; discriminate]|unfold is_op; cbn; apply Nat.eqb_refl].
    rewrite tl_len. cbn [option_map Nat.add]. f_equal. exact (put_at m p [(v, None); (w, Some o)] q).
  - destruct ra; [now destruct (NB o)|]. destruct S as (a & w & b & ->). unfold at_level, scan. cbn [app].
    destruct (inner_split 1 p (a, None) (w, Some o) ((b, None) :: q) ltac:(cbn; lia)) as (r' & ->).
    rewrite (first_found o); [|auto|apply nolab_tl, nolab_app; split; [exact N|repeat constructor; discriminate]|unfold is_op; cbn; apply Nat.eqb_refl].
    rewrite tl_len. cbn [option_map Nat.add]. f_equal. exact (put_at m p [(a, None); (w, Some o); (b, None)] q).
  - destruct ra; [now destruct (NT o o2)|]. destruct S as (a & w & b & w' & c & ->). unfold at_level, scan. cbn [app].
    destruct (inner_split 3 p (a, None) (w, Some o) ((b, None) :: (w', Some o2) :: (c, None) :: q) ltac:(cbn; lia)) as (r' & ->).
    rewrite (first_found o).
    + rewrite tl_len. cbn [option_map Nat.add]. f_equal. exact (put_at m p [(a, None); (w, Some o); (b, None); (w', Some o2); (c, None)] q).
    + intros j x E. apply andb_true_iff in E. tauto.
    + apply nolab_tl, nolab_app; split; [exact N|repeat constructor; discriminate].
    + rewrite tl_len. cbn [Nat.add]. rewrite nth_error_app2 by lia. replace (length p + 3 - length p) with 3 by lia.
      cbn. unfold is_op. cbn. now rewrite !Nat.eqb_refl.
Qed.
Lemma at_level_right m o p mid q : nth_error tbl m = Some (LPre o) -> nolab o q -> shape m mid ->
  at_level act m (LPre o) (p ++ mid ++ q) = Some (p ++ (act m (map fst mid), None) :: q).
Proof.
  unfold shape. intros -> N (w & v & ->). unfold at_level, scan.
  rewrite removelast_app by discriminate.
  change (removelast ([(w, Some o); (v, None)] ++ q)) with ((w, Some o) :: removelast ((v, None) :: q)).
  rewrite (last_found o).
  - cbn [option_map Nat.add]. f_equal. exact (put_at m p [(w, Some o); (v, None)] q).
  - auto.
  - apply nolab_removelast. constructor; [discriminate|exact N].
  - unfold is_op. cbn. apply Nat.eqb_refl.
Qed.

(** ** The loop *)
Lemma at_levels_skip ls k m (flat : list it) : (forall j l, nth_error ls j = Some l -> j < m -> at_level act (k + j) l flat = None) ->
  m <= length ls -> at_levels act k ls flat = at_levels act (k + m) (skipn m ls) flat.
Proof.
  revert ls k. induction m as [|m IH]; intros ls k H L; cbn [skipn]; [f_equal; lia|].
  destruct ls as [|l ls]; [cbn in L; lia|]. cbn [at_levels skipn]. specialize (H 0 l eq_refl) as H0. rewrite Nat.add_0_r in H0. rewrite H0 by lia.
  rewrite IH; [f_equal; lia| |cbn in L; lia].
  intros j l' J LJ. specialize (H (S j) l' J). replace (S k + j) with (k + S j) by lia. apply H. lia.
Qed.
Lemma ge_weak j m t : j <= m -> ge m t -> ge j t.
Proof. intros L. induction t; cbn; intuition lia. Qed.
Lemma ge_no j m t : j < m -> ge m t -> has j t = false.
Proof.
  intros L. induction t as [v|k w t IH|k t IH w|k l IHl w r IHr|k a IHa w b IHb w' c IHc]; cbn; intros G; auto;
    rewrite !orb_false_iff; rewrite Nat.eqb_neq; intuition lia.
Qed.
Lemma least t : (exists v, t = Leaf v) \/ exists m, ge m t /\ has m t = true.
Proof.
  assert (X : forall n (t : tree), ge n t \/ exists m, m < n /\ ge m t /\ has m t = true).
  { induction n as [|n IH]; intros u.
    - left. induction u; cbn; intuition lia.
    - destruct (IH u) as [G|(m & L & H)]; [|right; exists m; split; [lia|exact H]].
      destruct (has n u) eqn:E; [right; exists n; split; [lia|]; now split|]. left.
      clear IH. induction u as [v|k w u IH|k u IH w|k l IHl w r IHr|k a IHa w b IHb w' c IHc]; cbn in *; auto;
        repeat (apply orb_false_iff in E as [E ?]); apply Nat.eqb_neq in E; repeat split; intuition lia. }
  destruct (X (S (fold_right max 0 (map (fun _ => 0) [t]) + lev t)) t) as [G|(m & _ & H)]; [|right; now exists m].
  destruct t; [left; eauto|exfalso; cbn in G; lia..].
Qed.

Lemma op1_some t m : respects tbl t -> has m t = true -> exists l, nth_error tbl m = Some l.
Proof.
  induction t as [v|k w t IH|k t IH w|k l IHl w r IHr|k a IHa w b IHb w' c IHc]; cbn; intros R H; [discriminate| | | |].
  - destruct R as ((o & K) & _ & R). apply orb_true_iff in H as [H|H]; [apply Nat.eqb_eq in H; subst; eauto|auto].
  - destruct R as ((o & K) & _ & R). apply orb_true_iff in H as [H|H]; [apply Nat.eqb_eq in H; subst; eauto|auto].
  - destruct R as ((o & K) & _ & _ & R1 & R2). rewrite !orb_true_iff, Nat.eqb_eq in H. destruct H as [[H|H]|H]; [subst; eauto|auto..].
  - destruct R as ((o & o' & K) & _ & _ & _ & R1 & R2 & R3). rewrite !orb_true_iff, Nat.eqb_eq in H. destruct H as [[[H|H]|H]|H]; [subst; eauto|auto..].
Qed.

Lemma one_step t : respects tbl t -> (exists v, t = Leaf v) \/
  exists t', at_levels act 0 tbl (yield tbl t) = Some (yield tbl t') /\ respects tbl t' /\ value act t' = value act t /\ size t' < size t.
Proof.
  intros R. destruct (least t) as [L|(m & G & H)]; [now left|right].
  destruct (op1_some t m R H) as (lm & K). pose proof (op1_at _ _ K) as HO. set (o := match lm with LPre o | LSuf o | LBin o _ | LTri o _ _ => o end) in *.
  assert (SK : at_levels act 0 tbl (yield tbl t) = at_levels act m (skipn m tbl) (yield tbl t)).
  { apply (at_levels_skip tbl 0 m).
    - intros j l J L. apply at_level_none. apply (free j); [now apply op1_at|apply (ge_weak j m); [lia|exact G]|now apply (ge_no j m)].
    - apply Nat.lt_le_incl. apply nth_error_Some. congruence. }
  assert (ST : exists rest, skipn m tbl = lm :: rest).
  { clear -K. revert tbl K. induction m as [|m IH]; intros [|x l] K; try discriminate; cbn in *; [injection K as ->; eauto|now apply IH]. }
  destruct ST as (rest & ST).
  assert (DEC : (exists o', lm = LPre o') \/ forall o', nth_error tbl m <> Some (LPre o')).
  { rewrite K. destruct lm; [left; eauto|right; discriminate..]. }
  destruct DEC as [(o' & ->)|NP].
  - destruct (right_redex m o t HO K R G H) as (p & mid & q & t' & Y & N & S & Y' & VV & _ & RR & SS).
    exists t'. split; [|now split]. rewrite SK, ST. cbn [at_levels]. rewrite Y, Y'.
    rewrite (at_level_right m o' p mid q K N S). reflexivity.
  - destruct (left_redex m o t HO NP R G H) as (p & mid & q & t' & Y & N & S & Y' & VV & _ & RR & SS).
    exists t'. split; [|now split]. rewrite SK, ST. cbn [at_levels]. rewrite Y, Y'.
    destruct (at_level_left m o p mid q HO NP N S) as (l & E1 & E2). rewrite K in E1. injection E1 as <-. now rewrite E2.
Qed.

Lemma yield_len t : size t < length (yield tbl t) /\ ((exists v, t = Leaf v) \/ 1 < length (yield tbl t)).
Proof.
  induction t as [v|k w t IH|k t IH w|k l IHl w r IHr|k a IHa w b IHb w' c IHc]; cbn; [split; [lia|left; eauto]|..];
    repeat match goal with H : _ /\ _ |- _ => destruct H as [? _] end;
    repeat first [rewrite app_length | progress cbn [length]]; (split; [lia|right; lia]).
Qed.
Lemma loop_ok n : forall t, size t < n -> respects tbl t -> loop act n tbl (yield tbl t) = Ok [(value act t, None)].
Proof.
  induction n as [|n IH]; intros t L R; [lia|]. cbn [loop].
  destruct (one_step t R) as [[v ->]|(t' & E & R' & VV & SS)]; [reflexivity|].
  destruct (proj2 (yield_len t)) as [[v ->]|G]; [reflexivity|].
  destruct (Nat.leb_spec (length (yield tbl t)) 1) as [X|_]; [lia|].
  rewrite E. rewrite (IH t'); [now rewrite VV|lia|exact R'].
Qed.
Lemma make_tree_ok t : respects tbl t -> make_tree act tbl (yield tbl t) = Ok (value act t).
Proof.
  intros R. unfold make_tree. rewrite loop_ok; [reflexivity| |exact R].
  pose proof (proj1 (yield_len t)). lia.
Qed.
End Proof.

(** ** One tree at most *)
Section Unique.
Context {V : Type}.
Variable tbl : list lvl.
Notation T := (option (etree V)).
Fixpoint emb (t : etree V) : etree T :=
  match t with
  | Leaf v => Leaf (Some (Leaf v))
  | Pre k w t => Pre k (Some (Leaf w)) (emb t)
  | Suf k t w => Suf k (emb t) (Some (Leaf w))
  | Bin k l w r => Bin k (emb l) (Some (Leaf w)) (emb r)
  | Tri k a w b w' c => Tri k (emb a) (Some (Leaf w)) (emb b) (Some (Leaf w')) (emb c)
  end.
Definition build (k : nat) (l : list T) : T :=
  match nth_error tbl k, l with
  | Some (LPre _), [Some (Leaf w); Some t] => Some (Pre k w t)
  | Some (LSuf _), [Some t; Some (Leaf w)] => Some (Suf k t w)
  | Some (LBin _ _), [Some a; Some (Leaf w); Some b] => Some (Bin k a w b)
  | Some (LTri _ _ _), [Some a; Some (Leaf w); Some b; Some (Leaf w'); Some c] => Some (Tri k a w b w' c)
  | _, _ => None
  end.
Lemma emb_lev t : lev (emb t) = lev t.
Proof. now destruct t. Qed.
Lemma emb_respects t : respects tbl t -> respects tbl (emb t).
Proof. induction t; cbn; rewrite ?emb_lev; tauto. Qed.
Lemma emb_yield t : yield tbl (emb t) = map (fun x => (Some (Leaf (fst x)), snd x)) (yield tbl t).
Proof.
  induction t as [v|k w t IH|k t IH w|k l IHl w r IHr|k a IHa w b IHb w' c IHc]; cbn; rewrite ?map_app; cbn; rewrite ?map_app; cbn; congruence.
Qed.
Lemma emb_value t : respects tbl t -> value build (emb t) = Some t.
Proof.
  induction t as [v|k w t IH|k t IH w|k l IHl w r IHr|k a IHa w b IHb w' c IHc]; cbn; intros R; [reflexivity|..].
  - destruct R as ((o & K) & _ & R). rewrite IH by exact R. unfold build. now rewrite K.
  - destruct R as ((o & K) & _ & R). rewrite IH by exact R. unfold build. now rewrite K.
  - destruct R as ((o & K) & _ & _ & R1 & R2). rewrite IHl, IHr by assumption. unfold build. now rewrite K.
  - destruct R as ((o & o' & K) & _ & _ & _ & R1 & R2 & R3). rewrite IHa, IHb, IHc by assumption. unfold build. now rewrite K.
Qed.
Lemma yield_inj (t t' : etree V) : table_ok tbl -> respects tbl t -> respects tbl t' -> yield tbl t = yield tbl t' -> t = t'.
Proof.
  intros TOK R R' E.
  pose proof (make_tree_ok build tbl TOK (emb t) (emb_respects t R)) as H.
  pose proof (make_tree_ok build tbl TOK (emb t') (emb_respects t' R')) as H'.
  rewrite emb_yield, E, <- emb_yield, H', !emb_value in H by assumption. now injection H.
Qed.
End Unique.

(** ** One tree at least *)
Section Exists.
Context {V : Type}.
Variable tbl : list lvl.
Hypothesis SF : suffix_first tbl.
Notation tree := (etree V).

(** Adding a binary operator of level [k] and its right operand. *)
Fixpoint ins (t : tree) (k : nat) (w : V) (r : tree) : tree :=
  match t with
  | Bin j a w' b => if j <=? k then Bin k t w r else Bin j a w' (ins b k w r)
  | Pre j w' a => if j <=? k then Bin k t w r else Pre j w' (ins a k w r)
  | _ => Bin k t w r
  end.
(** Trees without ternary operators. *)
Fixpoint notri (t : tree) : Prop :=
  match t with
  | Leaf _ => True | Pre _ _ t | Suf _ t _ => notri t | Bin _ a _ b => notri a /\ notri b | Tri _ _ _ _ _ _ => False
  end.
Lemma ins_yield t k w r : yield tbl (ins t k w r) = yield tbl t ++ (w, op1 tbl k) :: yield tbl r.
Proof.
  induction t as [v|j w' t IH|j t IH w'|j a IHa w' b IHb|j a IHa w' b IHb w'' c IHc]; cbn [ins]; try reflexivity.
  - destruct (j <=? k); [reflexivity|]. cbn [yield]. now rewrite IH.
  - destruct (j <=? k); [reflexivity|]. cbn [yield]. rewrite IHb. now rewrite <- app_assoc.
Qed.
Lemma ins_lev t k w r : lev (ins t k w r) <= max (lev t) (S k).
Proof. destruct t; cbn [ins]; try destruct (_ <=? _); cbn [lev]; lia. Qed.
Lemma ins_notri t k w r : notri t -> notri r -> notri (ins t k w r).
Proof. induction t; cbn [ins]; try destruct (_ <=? _); cbn [notri]; tauto. Qed.
Lemma ins_respects t k w r o : nth_error tbl k = Some (LBin o false) -> notri t -> respects tbl t -> respects tbl r -> lev r < S k ->
  respects tbl (ins t k w r).
Proof.
  intros K. induction t as [v|j w' t IH|j t IH w'|j a IHa w' b IHb|j a IHa w' b IHb w'' c IHc]; intros N R Rr L; cbn [ins].
  - cbn. repeat split; eauto; lia.
  - destruct (Nat.leb_spec j k) as [J|J].
    + cbn [respects lev] in *. repeat split; try tauto; try lia; eauto.
    + cbn [respects lev notri] in *. destruct R as (X & L1 & R). repeat split; [exact X| |now apply IH].
      pose proof (ins_lev t k w r). lia.
  - cbn [respects lev] in *. destruct R as ((o' & X) & L1 & R). repeat split; eauto; try lia.
    destruct (Nat.le_gt_cases j k) as [J|J]; [lia|]. destruct (SF j k o' _ X K J) as (? & [=]).
  - destruct (Nat.leb_spec j k) as [J|J].
    + cbn [respects lev] in *. repeat split; try tauto; try lia; eauto.
    + cbn [respects lev notri] in *. destruct R as (X & L1 & L2 & R1 & R2). repeat split; try tauto.
      pose proof (ins_lev b k w r). lia.
  - contradiction.
Qed.

Lemma suffixed_tree k l : suffixed tbl k l -> exists t : tree, yield tbl t = l /\ respects tbl t /\ notri t /\ lev t <= S k /\
  (forall j l', nth_error tbl j = Some l' -> (forall o, l' <> LSuf o) -> lev t <= j).
Proof.
  induction 1 as [k v|k k' l w o K L H (t & Y & R & N & LV & LS)].
  - exists (Leaf v). cbn. repeat split; auto; lia.
  - exists (Suf k t w). cbn. rewrite Y, (op1_at tbl k _ K). repeat split; eauto; try lia.
    intros j l' J NS. destruct (Nat.le_gt_cases j k) as [X|X]; [|lia].
    destruct (Nat.eq_dec j k) as [->|NE]; [rewrite K in J; injection J as <-; now destruct (NS o)|].
    destruct (SF k j o l' K J ltac:(lia)) as (o' & ->). now destruct (NS o').
Qed.
Lemma operand_tree k l : operand tbl k l -> exists t : tree, yield tbl t = l /\ respects tbl t /\ notri t /\
  (forall j b l', nth_error tbl j = Some l' -> (forall o, l' <> LSuf o) -> j <= b -> k <= b -> lev t <= b).
Proof.
  induction 1 as [k j l H|k k' l w o K L H (t & Y & R & N & LV)].
  - destruct (suffixed_tree j l H) as (t & Y & R & N & _ & LS). exists t. repeat split; auto.
    intros i b l' I NS J _. specialize (LS i l' I NS). lia.
  - exists (Pre k w t). cbn. rewrite Y, (op1_at tbl k _ K). repeat split; eauto; try lia.
    apply (LV k (S k) (LPre o)); auto; discriminate.
Qed.
Lemma covered_tree l : covered tbl l -> exists t : tree, yield tbl t = l /\ respects tbl t /\ notri t.
Proof.
  induction 1 as [k l H|k l w o r K H (t & Y & R & N) HO].
  - destruct (operand_tree k l H) as (t & Y & R & N & _). eauto.
  - destruct (operand_tree k r HO) as (u & Y' & R' & N' & LV). exists (ins t k w u). split; [|split].
    + now rewrite ins_yield, Y, Y', (op1_at tbl k _ K).
    + apply (ins_respects t k w u o); auto. specialize (LV k k _ K ltac:(discriminate)). lia.
    + now apply ins_notri.
Qed.
End Exists.

(** ** The table of the grammar *)
Lemma first_ops : map (op1 sql_levels) (seq 0 32) = map Some (seq 0 32).
Proof. reflexivity. Qed.
Lemma op1_sql k o : op1 sql_levels k = Some o -> o = k /\ k < 32.
Proof.
  intros H. assert (L : k < 32).
  { unfold op1 in H. destruct (nth_error sql_levels k) eqn:E; [|discriminate]. change 32 with (length sql_levels). apply nth_error_Some. congruence. }
  split; [|exact L].
  assert (E : nth_error (map (op1 sql_levels) (seq 0 32)) k = Some (op1 sql_levels k)).
  { apply map_nth_error. rewrite (nth_error_nth' _ 0) by (rewrite seq_length; exact L). f_equal. now rewrite seq_nth. }
  rewrite first_ops in E. rewrite (map_nth_error Some k (seq 0 32) (d := k)) in E.
  - injection E as E. congruence.
  - rewrite (nth_error_nth' _ 0) by (rewrite seq_length; exact L). f_equal. now rewrite seq_nth.
Qed.
Lemma sql_levels_ok : table_ok sql_levels.
Proof.
  split; [|split; [|split]].
  - intros i j o I J. apply op1_sql in I as [-> _]. now apply op1_sql in J as [-> _].
  - intros i j o I J. apply op1_sql in J as [-> _]. unfold op2 in I.
    do 32 (destruct i as [|i]; [cbn in I; try discriminate; injection I as <-; unfold O_and; lia|]). cbn in I. destruct i; discriminate.
  - intros k o. do 32 (destruct k as [|k]; [discriminate|]). destruct k; discriminate.
  - intros k o o'. do 32 (destruct k as [|k]; [discriminate|]). destruct k; discriminate.
Qed.
Lemma sql_suffix_first : suffix_first sql_levels.
Proof.
  intros i j o l I J L. assert (i < 5).
  { do 5 (destruct i as [|i]; [lia|]). exfalso. do 27 (destruct i as [|i]; [discriminate|]). destruct i; discriminate. }
  do 5 (destruct j as [|j]; [injection J as <-; eauto|]). lia.
Qed.

(** ** Every sequence *)
Section Total.
Context {V : Type}.
Variable act : nat -> list V -> V.
Lemma first_bound f (l : list (V * option nat)) i j : first_at f i l = Some j -> j < i + length l.
Proof.
  revert i. induction l as [|x l IH]; intros i; cbn; [discriminate|]. destruct (f i x); [intros [= ->]; lia|].
  intros H. apply IH in H. lia.
Qed.
Lemma last_bound f (l : list (V * option nat)) i j : last_at f i l = Some j -> j < i + length l.
Proof.
  revert i. induction l as [|x l IH]; intros i; cbn; [discriminate|]. destruct (last_at f (S i) l) eqn:E.
  - intros [= ->]. apply IH in E. lia.
  - destruct (f i x); [intros [= ->]; lia|discriminate].
Qed.
Lemma scan_bound ra f (l : list (V * option nat)) j : scan ra f l = Some j -> j < length l.
Proof. unfold scan. destruct ra; intros H; [apply last_bound in H|apply first_bound in H]; exact H. Qed.
Lemma inner_len n (flat : list (V * option nat)) : length (inner n flat) <= length flat - 1 - n.
Proof. apply firstn_le_length. Qed.
Lemma put_len k i n (flat : list (V * option nat)) : 2 <= n -> i + 2 <= length flat -> length (put act k i n flat) < length flat /\ put act k i n flat <> [].
Proof.
  intros N L. split; [|unfold put; intros H; apply app_eq_nil in H as [_ H]; discriminate].
  unfold put. rewrite app_length. cbn [length]. rewrite firstn_length, skipn_length. lia.
Qed.
Lemma at_level_len k l (flat flat' : list (V * option nat)) : at_level act k l flat = Some flat' -> length flat' < length flat /\ flat' <> [].
Proof.
  destruct l as [o|o|o ra|o o' ra]; unfold at_level; intros H;
    match type of H with option_map _ (scan ?r ?f ?x) = _ => destruct (scan r f x) as [i|] eqn:E; [|discriminate]; apply scan_bound in E end;
    injection H as <-; apply put_len; try lia.
  - rewrite removelast_firstn_len in E. pose proof (firstn_le_length (pred (length flat)) flat). lia.
  - pose proof (inner_len 0 flat). lia.
  - pose proof (inner_len 1 flat). lia.
  - pose proof (inner_len 3 flat). lia.
Qed.
Lemma at_levels_len ls k (flat flat' : list (V * option nat)) : at_levels act k ls flat = Some flat' -> length flat' < length flat /\ flat' <> [].
Proof.
  revert k. induction ls as [|l ls IH]; intros k; cbn; [discriminate|].
  destruct (at_level act k l flat) eqn:E; [intros [= ->]; now apply at_level_len in E|apply IH].
Qed.
Lemma loop_total ls n : forall flat : list (V * option nat), flat <> [] -> length flat < n -> exists l, loop act n ls flat = Ok l /\ l <> [].
Proof.
  induction n as [|n IH]; intros flat N L; [lia|]. cbn [loop]. destruct (length flat <=? 1); [eauto|].
  destruct (at_levels act 0 ls flat) as [flat'|] eqn:E; [|eauto]. apply at_levels_len in E as [E1 E2]. apply IH; [exact E2|lia].
Qed.
End Total.
Lemma make_tree_total (V : Type) tbl (act : nat -> list V -> V) flat : flat <> [] -> exists v, make_tree act tbl flat = Ok v.
Proof.
  intros N. unfold make_tree. destruct (loop_total act tbl (S (length flat)) flat N ltac:(lia)) as (l & -> & NE).
  destruct l as [|x l]; [contradiction|]. cbn. eauto.
Qed.

Lemma prefix_lost (V : Type) (act : nat -> list V -> V) k j o o' (a w w' b : V) :
  nth_error sql_levels j = Some (LPre o') -> k < j ->
  (nth_error sql_levels k = Some (LBin o false) ->
   make_tree act sql_levels [(a, None); (w, Some o); (w', Some o'); (b, None)] = Ok (act k [a; w; w'])) /\
  (nth_error sql_levels k = Some (LPre o) ->
   make_tree act sql_levels [(w, Some o); (w', Some o'); (b, None)] = Ok (act k [w; w'])).
Proof.
  intros J L. assert (X : j = 8 \/ j = 10 \/ j = 28).
  { do 32 (destruct j as [|j]; [first [discriminate J|lia]|]). destruct j; discriminate J. }
  destruct X as [X|[X|X]]; subst j; injection J as <-;
    do 28 (destruct k as [|k]; [first [exfalso; lia|split; intros K; first [discriminate K|injection K as <-; reflexivity]]|]); lia.
Qed.
