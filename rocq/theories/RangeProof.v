(** Classes of characters in patterns. *)
From Coq Require Import String Ascii List Arith NArith Bool Lia.
From Verif Require Import Base RangeModel RangeSpec.
Import ListNotations.
Local Open Scope N_scope.

(** ** The set *)
Lemma insert_in c l x : In x (insert c l) <-> x = c \/ In x l.
Proof.
  induction l as [|d r IH]; cbn [insert In]; [intuition|]. destruct (N.eqb_spec c d) as [->|]; [cbn [In]; intuition|].
  destruct (c <? d); cbn [In]; [intuition | rewrite IH; intuition].
Qed.
Lemma set_in s x : In x (sorted_set s) <-> In x s.
Proof. induction s as [|c s IH]; [reflexivity|]. cbn [sorted_set fold_right In]. rewrite insert_in. fold (sorted_set s). rewrite IH. intuition. Qed.
(** Strictly increasing, from above [a]. *)
Fixpoint rising (a : option N) (l : pystr) : Prop :=
  match l with [] => True | c :: r => match a with Some p => p < c | None => True end /\ rising (Some c) r end.
Lemma insert_rising c l : forall a, match a with Some p => p < c | None => True end -> rising a l -> rising a (insert c l).
Proof.
  induction l as [|d r IH]; intros a A R; cbn [insert]; [split; [exact A | exact I]|]. destruct R as (D & R).
  destruct (N.eqb_spec c d) as [->|N]; [split; assumption|]. destruct (N.ltb_spec c d); [split; [exact A | split; assumption]|].
  split; [exact D|]. apply IH; [lia | exact R].
Qed.
Lemma set_rising s : rising None (sorted_set s).
Proof. induction s as [|c s IH]; [exact I|]. cbn [sorted_set fold_right]. apply insert_rising; [exact I | exact IH]. Qed.

(** ** Pieces of the class *)
Definition piece (r : N * N) : pystr := if N.eqb (fst r) (snd r) then esc (snd r) else esc (fst r) ++ u "-" ++ esc (snd r).
Fixpoint pieces (start prev : option N) (l : pystr) : list (N * N) :=
  match l with
  | [] => []
  | c :: r =>
    if match prev with Some p => N.eqb (p + 1) c | None => false end then pieces (match start with None => prev | Some _ => start end) (Some c) r
    else
      match start, prev with
      | Some s, Some p => (s, p) :: pieces None (Some c) r
      | None, Some p => (p, p) :: pieces None (Some c) r
      | _, None => pieces None (Some c) r
      end
  end.
Lemma ranges_pieces l : forall start prev, ranges start prev l = flat_map piece (pieces start prev l).
Proof.
  induction l as [|c r IH]; intros start prev; [reflexivity|]. cbn [ranges pieces].
  destruct (match prev with Some p => N.eqb (p + 1) c | None => false end); [apply IH|].
  assert (X : forall p, piece (p, p) = esc p) by (intros p; unfold piece; cbn [fst snd]; rewrite N.eqb_refl; reflexivity).
  destruct start as [s|], prev as [p|]; cbn [flat_map]; rewrite ?IH, ?X; reflexivity.
Qed.
(** What is not yet written: from [start] to [prev]. *)
Definition pending (start : option N) (p : N) : N := match start with Some s => s | None => p end.
Lemma last_cons (l : pystr) : forall c p, last (c :: l) p = last l c.
Proof. induction l as [|d l IH]; intros c p; [reflexivity|]. change (last (c :: d :: l) p) with (last (d :: l) p). rewrite !IH. reflexivity. Qed.
Lemma pieces_ok l : forall start p, rising (Some p) l -> pending start p <= p -> last l p <> 6 ->
  forall x, (exists r, In r (pieces start (Some p) (l ++ [7])) /\ fst r <= x <= snd r) <-> (pending start p <= x <= p \/ In x l).
Proof.
  induction l as [|c l IH]; intros start p R S L x.
  - cbn [app pieces last] in *. rewrite (proj2 (N.eqb_neq (p + 1) 7)) by lia. cbn [pieces In]. split.
    + intros (r & H & X). left. destruct start as [s|]; cbn [In pending] in *; destruct H as [<-|[]]; exact X.
    + intros [X|[]]. destruct start as [s|]; cbn [pending] in *; eexists; (split; [left; reflexivity | exact X]).
  - destruct R as (P & R). assert (L' : last l c <> 6) by (rewrite last_cons in L; exact L).
    cbn [app pieces]. destruct (N.eqb_spec (p + 1) c) as [E|E].
    + replace (match start with Some _ => start | None => Some p end) with (Some (pending start p)) by (destruct start; reflexivity).
      rewrite (IH (Some (pending start p)) c R) by (cbn [pending]; lia || exact L'). cbn [pending In]. split; intros [X|X]; try (right; right; exact X).
      * destruct (N.eq_dec x c) as [->|]; [right; left; reflexivity | left; lia].
      * left. lia.
      * destruct X as [<-|X]; [left; lia | right; exact X].
    + specialize (IH None c R (N.le_refl c) L' x). cbn [pending] in IH.
      assert (Q : (exists r, In r ((pending start p, p) :: pieces None (Some c) (l ++ [7])) /\ fst r <= x <= snd r) <-> pending start p <= x <= p \/ In x (c :: l)).
      { split.
        - intros (r & [<-|H] & X); [left; exact X|]. right. destruct (proj1 IH (ex_intro _ r (conj H X))) as [Y|Y]; [left; lia | right; exact Y].
        - intros [X|[<-|X]]; [exists (pending start p, p); split; [left; reflexivity | exact X] | |].
          + destruct (proj2 IH (or_introl (conj (N.le_refl c) (N.le_refl c)))) as (r & H & Y). exists r. split; [right; exact H | exact Y].
          + destruct (proj2 IH (or_intror X)) as (r & H & Y). exists r. split; [right; exact H | exact Y]. }
      destruct start; exact Q.
Qed.
Lemma pieces_le l : forall start p, rising (Some p) l -> pending start p <= p -> Forall (fun r => fst r <= snd r) (pieces start (Some p) (l ++ [7])).
Proof.
  induction l as [|c l IH]; intros start p R S; cbn [app pieces].
  - destruct (p + 1 =? 7); cbn [pieces]; [constructor|]. destruct start; (constructor; [cbn in *; lia | constructor]).
  - destruct R as (P & R). destruct (p + 1 =? c).
    + apply IH; [exact R|]. destruct start; cbn [pending] in *; lia.
    + destruct start; (constructor; [cbn [fst snd pending] in *; lia | apply IH; [exact R | cbn [pending]; lia]]).
Qed.

(** ** Reading *)
Lemma esc_cases c : esc c = u "\n" /\ c = 10 \/ esc c = u "\r" /\ c = 13 \/ esc c = u "\t" /\ c = 9 \/ (esc c = [92; c] /\ In c specials) \/ (esc c = [c] /\ ~ In c specials).
Proof.
  unfold esc. destruct (N.eqb_spec c 10); [left; auto|]. destruct (N.eqb_spec c 13); [right; left; auto|]. destruct (N.eqb_spec c 9); [right; right; left; auto|].
  right; right; right. destruct (existsb (N.eqb c) specials) eqn:E.
  - left. split; [reflexivity|]. apply existsb_exists in E. destruct E as (x & I & E). apply N.eqb_eq in E. subst x. exact I.
  - right. split; [reflexivity|]. intros I. assert (existsb (N.eqb c) specials = true) by (apply existsb_exists; exists c; split; [exact I | apply N.eqb_refl]). congruence.
Qed.
Lemma read_esc c r : read_char (esc c ++ r) = Some (c, r).
Proof.
  destruct (esc_cases c) as [(-> & ->)|[(-> & ->)|[(-> & ->)|[(-> & I)|(-> & I)]]]]; try reflexivity.
  - cbn [app]. vm_compute in I. repeat (destruct I as [<-|I]; [reflexivity|]). destruct I.
  - cbn [app read_char]. destruct (N.eqb_spec c 92) as [->|]; [|reflexivity]. destruct I. vm_compute. tauto.
Qed.
Lemma esc_head c : exists a t, esc c = a :: t /\ a <> 93 /\ a <> 45 /\ a <> 94 /\ a <> 91 /\ meta a = false.
Proof.
  destruct (esc_cases c) as [(-> & ->)|[(-> & ->)|[(-> & ->)|[(-> & I)|(-> & I)]]]]; eexists _, _; (split; [reflexivity|]); try (repeat split; discriminate).
  assert (X : forall d, In d specials -> c <> d) by (intros d H ->; exact (I H)).
  split; [apply X; vm_compute; tauto|]. split; [apply X; vm_compute; tauto|]. split; [apply X; vm_compute; tauto|]. split; [apply X; vm_compute; tauto|].
  unfold meta. destruct (existsb (N.eqb c) (u ".^$*?+{}[]|()")) eqn:E; [|reflexivity]. apply existsb_exists in E. destruct E as (d & H & E). apply N.eqb_eq in E. subst d.
  destruct I. vm_compute in H |- *. tauto.
Qed.
Definition begins (l : pystr) : Prop := exists a t, l = a :: t /\ a <> 45.
Lemma no_range l : begins l -> range_end l = None.
Proof. intros (a & t & -> & H). destruct t as [|b t]; [reflexivity|]. cbn. rewrite (proj2 (N.eqb_neq a 45) H). reflexivity. Qed.
Lemma pieces_begin ps : begins (flat_map piece ps ++ u "]").
Proof.
  destruct ps as [|(lo, hi) ps]; [eexists _, _; split; [reflexivity | discriminate]|]. cbn [flat_map]. unfold piece at 1. cbn [fst snd].
  destruct (lo =? hi); [destruct (esc_head hi) as (a & t & -> & _ & H & _) | destruct (esc_head lo) as (a & t & -> & _ & H & _)];
    eexists _, _; (split; [reflexivity | exact H]).
Qed.
Lemma read_pieces ps : Forall (fun r => fst r <= snd r) ps -> forall fuel first, (ps = [] -> first = false) -> (length (flat_map piece ps ++ u "]") <= fuel)%nat ->
  read_items fuel first (flat_map piece ps ++ u "]") = Some ps.
Proof.
  intros F. induction F as [|(lo, hi) ps H F IH]; intros fuel first E L.
  - rewrite (E eq_refl). destruct fuel as [|fuel]; [cbn in L; lia|]. reflexivity.
  - cbn [flat_map] in *. set (rest := flat_map piece ps ++ u "]") in *. rewrite <- app_assoc in *. fold rest in L |- *. cbn [fst snd] in H.
    unfold piece in *. cbn [fst snd] in *.
    assert (B : begins rest) by apply pieces_begin.
    destruct (N.eqb_spec lo hi) as [<-|D].
    + destruct (esc_head lo) as (a & t & A & N93 & _). destruct fuel as [|fuel]; [rewrite A in L; cbn in L; lia|].
      pose proof (read_esc lo rest) as R. rewrite A in *. cbn [app] in *. cbn [read_items]. rewrite (proj2 (N.eqb_neq a 93) N93). cbn [andb]. rewrite R, (no_range rest B).
      rewrite IH; [reflexivity | reflexivity |]. cbn [length] in L. rewrite app_length in L. lia.
    + destruct (esc_head lo) as (a & t & A & N93 & _). destruct fuel as [|fuel]; [rewrite A in L; cbn in L; lia|].
      rewrite <- !app_assoc in *. pose proof (read_esc lo (u "-" ++ esc hi ++ rest)) as R. rewrite A in *. cbn [app] in R, L |- *. cbn [read_items].
      rewrite (proj2 (N.eqb_neq a 93) N93). cbn [andb]. rewrite R.
      assert (X : range_end (u "-" ++ esc hi ++ rest) = Some (esc hi ++ rest)).
      { destruct (esc_head hi) as (b & t' & -> & N' & _). cbn. rewrite (proj2 (N.eqb_neq b 93) N'). reflexivity. }
      rewrite X, (read_esc hi rest), (proj2 (N.leb_le lo hi) H). rewrite IH; [reflexivity | reflexivity |]. cbn [length] in L. rewrite !app_length in L. lia.
Qed.
Lemma inside_iff ps x : inside ps x = true <-> exists r, In r ps /\ fst r <= x <= snd r.
Proof.
  unfold inside. rewrite existsb_exists. split; intros (r & H & E); exists r; (split; [exact H|]).
  - apply andb_true_iff in E. rewrite !N.leb_le in E. exact E.
  - apply andb_true_iff. rewrite !N.leb_le. exact E.
Qed.
Lemma class_read ps (exclude : bool) : ps <> [] -> Forall (fun r => fst r <= snd r) ps ->
  exists f, one_char ((if exclude then u "[^" else u "[") ++ flat_map piece ps ++ u "]") = Some f /\ forall c, f c = xorb exclude (inside ps c).
Proof.
  intros N F. pose proof (fun fuel : nat => read_pieces ps F fuel true (fun E => False_ind (true = false) (N E))) as R. destruct exclude.
  - cbn [app u]. unfold one_char. cbn [N.eqb Pos.eqb]. rewrite R by apply Nat.le_refl. eexists. split; [reflexivity|]. intros c. reflexivity.
  - assert (H : exists a t, flat_map piece ps ++ u "]" = a :: t /\ a <> 94).
    { destruct ps as [|(lo, hi) ps]; [destruct (N eq_refl)|]. cbn [flat_map]. unfold piece at 1. cbn [fst snd].
      destruct (lo =? hi); [destruct (esc_head hi) as (a & t & -> & _ & _ & H & _) | destruct (esc_head lo) as (a & t & -> & _ & _ & H & _)];
        eexists _, _; (split; [reflexivity | exact H]). }
    destruct H as (a & t & E & H). rewrite E in *. cbn [app u]. unfold one_char. cbn [N.eqb Pos.eqb app]. rewrite (proj2 (N.eqb_neq a 94) H).
    rewrite R by apply Nat.le_refl. eexists. split; [reflexivity|]. intros c. destruct (inside ps c); reflexivity.
Qed.
Lemma bool_iff a b : (a = true <-> b = true) -> a = b.
Proof. destruct a, b; intuition. Qed.
Lemma in_existsb (s : pystr) c : existsb (N.eqb c) s = true <-> In c s.
Proof.
  rewrite existsb_exists. split; [intros (x & H & E); apply N.eqb_eq in E; subst x; exact H | intros H; exists c; split; [exact H | apply N.eqb_refl]].
Qed.
Lemma rising_last l : forall p x, rising (Some p) l -> In x (p :: l) -> x <= last l p.
Proof.
  induction l as [|c l IH]; intros p x R H.
  - destruct H as [<-|[]]. cbn. lia.
  - destruct R as (P & R). rewrite last_cons. destruct H as [<-|H]; [|apply IH; assumption]. pose proof (IH c c R (or_introl eq_refl)). lia.
Qed.
Lemma last_in (l : pystr) : forall p, In (last l p) (p :: l).
Proof. induction l as [|c l IH]; intros p; [left; reflexivity|]. rewrite last_cons. right. apply IH. Qed.
Lemma set_class s (exclude : bool) : s <> [] -> (In 6 s -> exists c, In c s /\ 6 < c) ->
  exists f, one_char ((if exclude then u "[^" else u "[") ++ ranges None None (sorted_set s ++ [7]) ++ u "]") = Some f /\
  forall c, f c = xorb exclude (existsb (N.eqb c) s).
Proof.
  intros Ne H. pose proof (set_rising s) as R. pose proof (set_in s) as I. destruct (sorted_set s) as [|p l].
  - destruct s as [|c s]; [destruct (Ne eq_refl)|]. destruct (proj2 (I c) (or_introl eq_refl)).
  - destruct R as (_ & R). rewrite ranges_pieces. cbn [app pieces].
    assert (L : last l p <> 6).
    { intros E. pose proof (last_in l p) as K. rewrite E in K. apply I in K. destruct (H K) as (c & C & Q). apply I in C. pose proof (rising_last l p c R C). lia. }
    pose proof (pieces_ok l None p R (N.le_refl p) L) as Q. cbn [pending] in Q.
    destruct (class_read (pieces None (Some p) (l ++ [7])) exclude) as (f & E & F).
    + intros Z. destruct (proj2 (Q p) (or_introl (conj (N.le_refl p) (N.le_refl p)))) as (r & X & _). rewrite Z in X. destruct X.
    + apply pieces_le; [exact R | cbn; lia].
    + exists f. split; [exact E|]. intros c. rewrite F. f_equal. apply bool_iff. rewrite inside_iff, Q, in_existsb, <- I. cbn [In]. split; intros [X|X]; [left; lia | right; exact X | left; lia | right; exact X].
Qed.
