(** Lemmas about the vocabulary of [Base]. *)
From Coq Require Import String Ascii Decimal DecimalZ List NArith ZArith Bool Lia Arith.
From Verif Require Import Base.
Import ListNotations.

Lemma seqb_eq a b : seqb a b = true <-> a = b.
Proof.
  revert b; induction a as [|x a IH]; intros [|y b]; cbn [seqb]; split; intros H;
    try reflexivity; try discriminate.
  - apply andb_true_iff in H. destruct H as [H1 H2].
    apply N.eqb_eq in H1. apply IH in H2. subst; reflexivity.
  - injection H as -> ->. rewrite N.eqb_refl. apply IH. reflexivity.
Qed.

Lemma seqb_refl a : seqb a a = true.
Proof. apply seqb_eq; reflexivity. Qed.

Lemma seqb_neq a b : seqb a b = false <-> a <> b.
Proof.
  split; intros H.
  - intros E. apply seqb_eq in E. congruence.
  - destruct (seqb a b) eqn:E; [apply seqb_eq in E; contradiction | reflexivity].
Qed.

Lemma seqb_sym a b : seqb a b = seqb b a.
Proof.
  destruct (seqb a b) eqn:E.
  - apply seqb_eq in E; subst. symmetry; apply seqb_refl.
  - symmetry. apply seqb_neq. apply seqb_neq in E. congruence.
Qed.

Lemma seqb_spec a b : reflect (a = b) (seqb a b).
Proof.
  destruct (seqb a b) eqn:E; constructor; [apply seqb_eq | apply seqb_neq]; exact E.
Qed.

Lemma pystr_eq_dec (a b : pystr) : {a = b} + {a <> b}.
Proof. destruct (seqb_spec a b); [left|right]; assumption. Qed.

Lemma smem_In x l : smem x l = true <-> In x l.
Proof.
  unfold smem. rewrite existsb_exists. split.
  - intros (y & Hy & E). apply seqb_eq in E. subst; exact Hy.
  - intros H. exists x. split; [exact H | apply seqb_refl].
Qed.

(** ** Dictionaries *)
Lemma dget_dset_same {V} (d : dict V) k v : dget (dset d k v) k = Some v.
Proof.
  induction d as [|[k' v'] d IH]; cbn [dset].
  - cbn [dget]. rewrite seqb_refl. reflexivity.
  - destruct (seqb k k') eqn:E; cbn [dget]; rewrite E; [reflexivity | exact IH].
Qed.

Lemma dget_dset_other {V} (d : dict V) k k' v :
  k <> k' -> dget (dset d k v) k' = dget d k'.
Proof.
  intros N0. induction d as [|[k1 v1] d IH]; cbn [dset].
  - cbn [dget]. destruct (seqb_spec k' k) as [E|E]; [congruence | reflexivity].
  - destruct (seqb_spec k k1) as [E|E]; cbn [dget].
    + subst k1. destruct (seqb_spec k' k) as [E'|E']; [congruence | reflexivity].
    + destruct (seqb k' k1); [reflexivity | exact IH].
Qed.

Lemma dget_dset {V} (d : dict V) k k' v :
  dget (dset d k v) k' = if seqb k' k then Some v else dget d k'.
Proof.
  destruct (seqb_spec k' k) as [E|E].
  - subst. apply dget_dset_same.
  - apply dget_dset_other. congruence.
Qed.

Lemma dget_In {V} (d : dict V) k v : dget d k = Some v -> In (k, v) d.
Proof.
  induction d as [|[k1 v1] d IH]; cbn [dget]; [discriminate|].
  destruct (seqb_spec k k1) as [E|E]; intros H.
  - injection H as ->. subst. left; reflexivity.
  - right. apply IH, H.
Qed.

Lemma dget_None {V} (d : dict V) k : dget d k = None <-> ~ In k (dkeys d).
Proof.
  unfold dkeys. induction d as [|[k1 v1] d IH]; cbn [dget map fst].
  - split; [intros _ [] | reflexivity].
  - destruct (seqb_spec k k1) as [E|E].
    + split; [discriminate|]. intros H. exfalso. apply H. left. symmetry; exact E.
    + rewrite IH. split.
      * intros H [H1|H1]; [congruence | contradiction].
      * intros H H1. apply H. right; exact H1.
Qed.

Lemma dget_Some_key {V} (d : dict V) k v : dget d k = Some v -> In k (dkeys d).
Proof. intros H. apply dget_In in H. unfold dkeys. apply in_map_iff. exists (k, v). auto. Qed.

Lemma dget_NoDup {V} (d : dict V) k v :
  NoDup (dkeys d) -> In (k, v) d -> dget d k = Some v.
Proof.
  unfold dkeys. induction d as [|[k1 v1] d IH]; cbn [map fst dget]; intros ND H; [destruct H|].
  apply NoDup_cons_iff in ND. destruct ND as [N1 ND].
  destruct H as [H|H].
  - injection H as -> ->. rewrite seqb_refl. reflexivity.
  - destruct (seqb_spec k k1) as [E|E].
    + subst. exfalso. apply N1. apply in_map_iff. exists (k1, v). auto.
    + apply IH; assumption.
Qed.

Lemma dkeys_dset {V} (d : dict V) k v :
  dkeys (dset d k v) = if dmem d k then dkeys d else dkeys d ++ [k].
Proof.
  unfold dmem, dkeys. induction d as [|[k1 v1] d IH]; cbn [dset dget map fst app]; [reflexivity|].
  destruct (seqb_spec k k1) as [E|E]; cbn [map fst].
  - reflexivity.
  - rewrite IH. destruct (dget d k); reflexivity.
Qed.

Lemma dkeys_dset_In {V} (d : dict V) k v k' :
  In k' (dkeys (dset d k v)) <-> k' = k \/ In k' (dkeys d).
Proof.
  rewrite dkeys_dset. unfold dmem. destruct (dget d k) eqn:E.
  - apply dget_Some_key in E. split; [tauto|]. intros [->|H]; assumption.
  - rewrite in_app_iff. cbn [In]. split; [intros [H|[H|[]]]; auto | intros [H|H]; auto].
Qed.

Lemma dset_NoDup {V} (d : dict V) k v : NoDup (dkeys d) -> NoDup (dkeys (dset d k v)).
Proof.
  intros ND. rewrite dkeys_dset. unfold dmem. destruct (dget d k) eqn:E; [exact ND|].
  apply dget_None in E.
  apply NoDup_rev in ND. rewrite <- (rev_involutive (dkeys d ++ [k])).
  apply NoDup_rev. rewrite rev_app_distr. cbn [rev app].
  constructor; [rewrite <- in_rev; exact E | exact ND].
Qed.

Lemma dget_dpop_same {V} (d : dict V) k : NoDup (dkeys d) -> dget (dpop d k) k = None.
Proof.
  unfold dkeys. induction d as [|[k1 v1] d IH]; cbn [map fst dpop]; intros ND; [reflexivity|].
  apply NoDup_cons_iff in ND. destruct ND as [N1 ND].
  destruct (seqb_spec k k1) as [E|E].
  - subst. apply dget_None. exact N1.
  - cbn [dget]. destruct (seqb_spec k k1) as [E'|E']; [contradiction | apply IH, ND].
Qed.

Lemma dget_dpop_other {V} (d : dict V) k k' : k <> k' -> dget (dpop d k) k' = dget d k'.
Proof.
  intros N0. induction d as [|[k1 v1] d IH]; cbn [dpop]; [reflexivity|].
  destruct (seqb_spec k k1) as [E|E]; cbn [dget].
  - subst. destruct (seqb_spec k' k1) as [E'|E']; [congruence | reflexivity].
  - destruct (seqb k' k1); [reflexivity | exact IH].
Qed.

Lemma dkeys_dpop_incl {V} (d : dict V) k x : In x (dkeys (dpop d k)) -> In x (dkeys d).
Proof.
  unfold dkeys. induction d as [|[k1 v1] d IH]; cbn [dpop map fst]; [auto|].
  destruct (seqb k k1); cbn [map fst In]; intros H; [right; exact H|].
  destruct H as [H|H]; [left; exact H | right; apply IH, H].
Qed.

Lemma dpop_NoDup {V} (d : dict V) k : NoDup (dkeys d) -> NoDup (dkeys (dpop d k)).
Proof.
  unfold dkeys. induction d as [|[k1 v1] d IH]; cbn [dpop map fst]; intros ND; [exact ND|].
  apply NoDup_cons_iff in ND. destruct ND as [N1 ND].
  destruct (seqb k k1); cbn [map fst]; [exact ND|].
  constructor; [|apply IH, ND].
  intros H. apply N1. exact (dkeys_dpop_incl d k k1 H).
Qed.

(** ** mapM *)
Lemma mapM_Ok_length {A B} (f : A -> res B) l ys : mapM f l = Ok ys -> length ys = length l.
Proof.
  revert ys; induction l as [|x l IH]; cbn [mapM]; intros ys H.
  - injection H as <-. reflexivity.
  - unfold bind in H. destruct (f x); [|discriminate]. destruct (mapM f l); [|discriminate].
    injection H as <-. cbn [length]. rewrite (IH _ eq_refl). reflexivity.
Qed.

Lemma mapM_map {A B} (f : A -> res B) (g : A -> B) l :
  (forall x, In x l -> f x = Ok (g x)) -> mapM f l = Ok (map g l).
Proof.
  induction l as [|x l IH]; cbn [mapM map]; intros H; [reflexivity|].
  rewrite (H x (or_introl eq_refl)). cbn [bind]. rewrite IH; [reflexivity|].
  intros y Hy. apply H. right; exact Hy.
Qed.

Lemma mapM_nth {A B} (f : A -> res B) l ys i x :
  mapM f l = Ok ys -> nth_error l i = Some x -> exists y, f x = Ok y /\ nth_error ys i = Some y.
Proof.
  revert ys i; induction l as [|x0 l IH]; cbn [mapM]; intros ys i H Hx.
  - destruct i; discriminate.
  - unfold bind in H. destruct (f x0) as [y|] eqn:E; [|discriminate].
    destruct (mapM f l) as [ys'|] eqn:E'; [|discriminate]. injection H as <-.
    destruct i as [|i]; cbn [nth_error] in *.
    + injection Hx as <-. exists y. auto.
    + apply (IH _ _ eq_refl Hx).
Qed.

(** ** rstrip *)
Lemma rstrip_all c n : rstrip c (repeat c n) = [].
Proof.
  induction n as [|n IH]; cbn [repeat rstrip]; [reflexivity|].
  rewrite IH. rewrite N.eqb_refl. reflexivity.
Qed.

Lemma rstrip_app_pad c s n : rstrip c (s ++ repeat c n) = rstrip c s.
Proof.
  induction s as [|x s IH]; cbn [app rstrip].
  - apply rstrip_all.
  - rewrite IH. reflexivity.
Qed.

Lemma rstrip_decomp c s : exists n, s = rstrip c s ++ repeat c n.
Proof.
  induction s as [|x s [n IH]]; cbn [rstrip].
  - exists 0. reflexivity.
  - destruct (rstrip c s) as [|y r] eqn:E.
    + destruct (N.eqb_spec x c) as [->|Hx].
      * exists (S n). cbn [repeat app]. rewrite IH at 1. reflexivity.
      * exists n. cbn [app]. rewrite IH at 1. reflexivity.
    + exists n. cbn [app]. rewrite IH at 1. reflexivity.
Qed.

Lemma rstrip_last c s x : rstrip c s = s -> s <> [] -> last s x <> c.
Proof.
  induction s as [|y s IH]; intros H Hne; [congruence|].
  cbn [rstrip] in H. destruct s as [|z s].
  - cbn in H. cbn [last]. destruct (N.eqb_spec y c); [discriminate | assumption].
  - destruct (rstrip c (z :: s)) as [|w r] eqn:E.
    + destruct (N.eqb y c); discriminate.
    + injection H as H. cbn [last]. apply IH; [congruence | discriminate].
Qed.

Lemma rstrip_fix c s : (s = [] \/ last s 0%N <> c) -> rstrip c s = s.
Proof.
  induction s as [|y s IH]; intros H; [reflexivity|].
  destruct H as [H|H]; [discriminate|].
  cbn [rstrip]. destruct s as [|z s].
  - cbn in *. destruct (N.eqb_spec y c); [contradiction | reflexivity].
  - rewrite IH; [reflexivity|]. right. exact H.
Qed.

(** ** split and join *)
Lemma split_not_nil c s : split c s <> [].
Proof.
  destruct s as [|x s]; cbn [split]; [discriminate|].
  destruct (N.eqb x c); [discriminate|]. destruct (split c s); discriminate.
Qed.

Lemma split_nochar c s : has_char c s = false -> split c s = [s].
Proof.
  unfold has_char. induction s as [|x s IH]; cbn [existsb split]; intros H; [reflexivity|].
  apply orb_false_iff in H. destruct H as [H1 H2].
  rewrite N.eqb_sym, H1. rewrite IH by exact H2. reflexivity.
Qed.

Lemma split_app c s t :
  has_char c s = false -> split c (s ++ c :: t) = s :: split c t.
Proof.
  unfold has_char. induction s as [|x s IH]; cbn [existsb app split]; intros H.
  - rewrite N.eqb_refl. reflexivity.
  - apply orb_false_iff in H. destruct H as [H1 H2].
    rewrite N.eqb_sym, H1. rewrite IH by exact H2. reflexivity.
Qed.

Lemma join_split c s : join [c] (split c s) = s.
Proof.
  induction s as [|x s IH]; cbn [split]; [reflexivity|].
  destruct (N.eqb_spec x c) as [->|Hx].
  - pose proof (split_not_nil c s) as Hn.
    destruct (split c s) as [|p ps] eqn:E; [congruence|].
    cbn [join] in *. cbn [app]. rewrite <- IH. reflexivity.
  - pose proof (split_not_nil c s) as Hn.
    destruct (split c s) as [|p ps] eqn:E; [congruence|].
    destruct ps as [|q ps]; cbn [join] in *; cbn [app]; rewrite <- IH; reflexivity.
Qed.

Lemma split_join c l :
  l <> [] -> (forall p, In p l -> has_char c p = false) -> split c (join [c] l) = l.
Proof.
  induction l as [|p l IH]; intros Hne H; [congruence|].
  destruct l as [|q l].
  - cbn [join]. apply split_nochar. apply H. left; reflexivity.
  - change (join [c] (p :: q :: l)) with (p ++ [c] ++ join [c] (q :: l)).
    cbn [app]. rewrite split_app by (apply H; left; reflexivity).
    f_equal. apply IH; [discriminate|]. intros r Hr. apply H. right; exact Hr.
Qed.

Lemma split_parts_nochar c s p : In p (split c s) -> has_char c p = false.
Proof.
  revert p; induction s as [|x s IH]; cbn [split]; intros p H.
  - destruct H as [<-|[]]. reflexivity.
  - destruct (N.eqb_spec x c) as [->|Hx].
    + destruct H as [<-|H]; [reflexivity | apply IH, H].
    + destruct (split c s) as [|q qs] eqn:E.
      * destruct H as [<-|[]]. unfold has_char; cbn [existsb].
        destruct (N.eqb_spec c x); [congruence | reflexivity].
      * destruct H as [<-|H].
        -- unfold has_char; cbn [existsb]. destruct (N.eqb_spec c x); [congruence|].
           cbn [orb]. apply IH. left; reflexivity.
        -- apply IH. right; exact H.
Qed.

(** ** Decimal rendering of integers *)
Lemma parse_uint_chars d : parse_uint (uint_chars d) = Some d.
Proof.
  induction d as [|d IH|d IH|d IH|d IH|d IH|d IH|d IH|d IH|d IH|d IH];
    cbn [uint_chars parse_uint]; try rewrite IH; reflexivity.
Qed.

Lemma to_int_not_nil z :
  match Z.to_int z with Pos d => d <> Nil | Neg d => d <> Nil end.
Proof.
  destruct z as [|p|p]; cbn; [discriminate| |];
    intros E; apply (f_equal N.of_uint) in E.
  - change (Pos.to_uint p) with (N.to_uint (Npos p)) in E.
    rewrite DecimalN.Unsigned.of_to in E. discriminate.
  - change (Pos.to_uint p) with (N.to_uint (Npos p)) in E.
    rewrite DecimalN.Unsigned.of_to in E. discriminate.
Qed.

Lemma uint_chars_digit d c : In c (uint_chars d) -> (48 <= c <= 57)%N.
Proof.
  induction d as [|d IH|d IH|d IH|d IH|d IH|d IH|d IH|d IH|d IH|d IH];
    cbn [uint_chars In]; intros H; try contradiction;
    (destruct H as [<-|H]; [lia | apply IH, H]).
Qed.

Lemma uint_chars_nil d : uint_chars d = [] -> d = Nil.
Proof. destruct d; cbn; intros H; try discriminate; reflexivity. Qed.

Lemma parse_str_int z : parse_int (str_int z) = Ok z.
Proof.
  unfold str_int, parse_int. pose proof (to_int_not_nil z) as Hn.
  pose proof (DecimalZ.of_to z) as Hz.
  destruct (Z.to_int z) as [d|d] eqn:E.
  - destruct (uint_chars d) as [|c r] eqn:E1.
    + apply uint_chars_nil in E1. contradiction.
    + assert (Hc : (48 <= c <= 57)%N).
      { apply (uint_chars_digit d). rewrite E1. left; reflexivity. }
      destruct (N.eqb_spec c 45) as [->|_]; [lia|].
      rewrite <- E1, parse_uint_chars. rewrite Hz. reflexivity.
  - cbn [N.eqb Pos.eqb]. destruct (uint_chars d) as [|c r] eqn:E1.
    + apply uint_chars_nil in E1. contradiction.
    + rewrite <- E1, parse_uint_chars. rewrite Hz. reflexivity.
Qed.

Lemma str_int_inj a b : str_int a = str_int b -> a = b.
Proof.
  intros H. pose proof (parse_str_int a) as Ha. pose proof (parse_str_int b) as Hb.
  rewrite H in Ha. congruence.
Qed.

Lemma str_int_char z c : In c (str_int z) -> c = 45%N \/ (48 <= c <= 57)%N.
Proof.
  unfold str_int. destruct (Z.to_int z) as [d|d].
  - intros H. right. apply (uint_chars_digit d), H.
  - intros [H|H]; [left; congruence | right; apply (uint_chars_digit d), H].
Qed.

Lemma str_int_nonempty z : str_int z <> [].
Proof.
  intros H. pose proof (parse_str_int z) as P. rewrite H in P. discriminate.
Qed.

Lemma rstrip_idem c s : rstrip c (rstrip c s) = rstrip c s.
Proof. destruct (rstrip_decomp c s) as [n H]. rewrite H at 2. rewrite rstrip_app_pad. reflexivity. Qed.

Lemma rstrip_end c s : rstrip c s = [] \/ last (rstrip c s) 0%N <> c.
Proof.
  destruct (rstrip c s) as [|x r] eqn:E; [left; reflexivity|]. right.
  apply rstrip_last; [|discriminate]. rewrite <- E. apply rstrip_idem.
Qed.
