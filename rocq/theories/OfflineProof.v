(** Proofs about offline decryption. *)
From Coq Require Import String Ascii List NArith ZArith Bool Lia.
From Verif Require Import Base BaseProof CryptoModel JsonModel RewriteModel OfflineModel.
Import ListNotations.

Section Pool.
Context {I V : Type} (pickles : bool) (f : I -> res V) (data : list I) (W : nat).
Notation state := (pstate I V).

Definition owned (x : I) : res V := if pickles then f x else Err AttributeError.

Record inv (s : state) : Prop := {
  i_todo : p_todo s = skipn (p_next s) data;
  i_next : (p_next s <= length data)%nat;
  i_queue : forall j x, In (j, x) (p_queue s) -> nth_error data j = Some x /\ pickles = true;
  i_busy : forall j x, In (Some (j, x)) (p_busy s) -> nth_error data j = Some x /\ pickles = true;
  i_workers : length (p_busy s) = W;
  i_cover : forall j x, (j < p_next s)%nat -> nth_error data j = Some x ->
    In (j, x) (p_queue s) \/ In (Some (j, x)) (p_busy s) \/ p_done s j = Some (owned x);
  i_done : forall j r, p_done s j = Some r -> exists x, nth_error data j = Some x /\ r = owned x }.

Lemma set_nth_len {A} (l : list A) : forall i x, length (set_nth l i x) = length l.
Proof. induction l as [|y l IH]; intros [|i] x; cbn [set_nth length]; try reflexivity. rewrite IH. reflexivity. Qed.
Lemma set_nth_in {A} (l : list A) : forall i x y, In y (set_nth l i x) -> y = x \/ In y l.
Proof.
  induction l as [|z l IH]; intros [|i] x y; cbn [set_nth In]; try tauto.
  - intros [<-|H]; auto.
  - intros [<-|H]; auto. apply IH in H. tauto.
Qed.
Lemma set_nth_new {A} (l : list A) : forall i x z, nth_error l i = Some z -> In x (set_nth l i x).
Proof. induction l as [|y l IH]; intros [|i] x z; cbn [set_nth nth_error In]; try discriminate; [auto|]. intros H. right. eapply IH. exact H. Qed.
Lemma set_nth_old {A} (l : list A) : forall i x y z, nth_error l i = Some z -> In y l -> y = z \/ In y (set_nth l i x).
Proof.
  induction l as [|w l IH]; intros [|i] x y z; cbn [set_nth nth_error In]; try tauto.
  - intros [= ->] [->|H]; auto.
  - intros H [->|G]; auto. destruct (IH i x y z H G); auto.
Qed.

Lemma skipn_cons_nth {A} (l : list A) : forall n x t, x :: t = skipn n l -> nth_error l n = Some x /\ t = skipn (S n) l.
Proof.
  induction l as [|y l IH]; intros [|n] x t H; cbn [skipn nth_error] in *; try discriminate.
  - injection H as -> ->. split; reflexivity.
  - apply IH in H. exact H.
Qed.

Lemma inv_step s s' : pstep pickles f s s' -> inv s -> inv s'.
Proof.
  intros H [I1 I2 I3 I4 I5 I6 I7]. destruct H as [x t n q b d Hp|x t n q b d Hp|t n j x q b w d Hw|t n q b w j x d Hw];
    cbn [p_todo p_next p_queue p_busy p_done] in *.
  - destruct (skipn_cons_nth _ _ _ _ I1) as [N1 N2].
    assert (Hlt : (n < length data)%nat) by (apply nth_error_Some; congruence).
    constructor; cbn [p_todo p_next p_queue p_busy p_done]; try assumption.
    + intros j y H. apply in_app_iff in H. destruct H as [H|[H|[]]]; [apply I3; exact H|].
      injection H as <- <-. split; assumption.
    + intros j y Hj Hy. destruct (Nat.eq_dec j n) as [->|Hn].
      * left. apply in_app_iff. right. left. congruence.
      * destruct (I6 j y ltac:(lia) Hy) as [H|[H|H]]; [left; apply in_app_iff; left; exact H|right; left; exact H|right; right; exact H].
  - destruct (skipn_cons_nth _ _ _ _ I1) as [N1 N2].
    assert (Hlt : (n < length data)%nat) by (apply nth_error_Some; congruence).
    constructor; cbn [p_todo p_next p_queue p_busy p_done]; try assumption.
    + intros j y Hj Hy. unfold set_done. destruct (Nat.eqb_spec j n) as [->|Hn].
      * right. right. unfold owned. rewrite Hp. reflexivity.
      * apply (I6 j y); [lia|exact Hy].
    + intros j r. unfold set_done. destruct (Nat.eqb_spec j n) as [->|Hn]; [|apply I7].
      intros [= <-]. exists x. split; [exact N1|]. unfold owned. rewrite Hp. reflexivity.
  - constructor; cbn [p_todo p_next p_queue p_busy p_done]; try assumption.
    + intros i y H. apply I3. right. exact H.
    + intros i y H. apply set_nth_in in H. destruct H as [H|H]; [|apply I4; exact H].
      injection H as -> ->. apply I3. left. reflexivity.
    + rewrite set_nth_len. exact I5.
    + intros i y Hi Hy. destruct (I6 i y Hi Hy) as [[H|H]|[H|H]].
      * injection H as -> ->. right. left. eapply set_nth_new. exact Hw.
      * left. exact H.
      * right. left. destruct (set_nth_old _ _ (Some (j, x)) _ _ Hw H) as [G|G]; [discriminate|exact G].
      * right. right. exact H.
  - destruct (I4 j x) as [N1 Hp]; [eapply nth_error_In; exact Hw|].
    constructor; cbn [p_todo p_next p_queue p_busy p_done]; try assumption.
    + intros i y H. apply set_nth_in in H. destruct H as [H|H]; [discriminate|apply I4; exact H].
    + rewrite set_nth_len. exact I5.
    + intros i y Hi Hy. unfold set_done. destruct (I6 i y Hi Hy) as [H|[H|H]].
      * left. exact H.
      * destruct (set_nth_old _ _ None _ _ Hw H) as [G|G].
        -- injection G as -> ->. right. right. rewrite Nat.eqb_refl. unfold owned. rewrite Hp. reflexivity.
        -- right. left. exact G.
      * right. right. destruct (Nat.eqb_spec i j) as [->|_]; [|exact H].
        assert (x = y) by congruence. subst y. unfold owned. rewrite Hp. reflexivity.
    + intros i r. unfold set_done. destruct (Nat.eqb_spec i j) as [->|_]; [|apply I7].
      intros [= <-]. exists x. split; [exact N1|]. unfold owned. rewrite Hp. reflexivity.
Qed.
Lemma inv_steps k s s' : psteps pickles f k s s' -> inv s -> inv s'.
Proof. intros H. induction H; [auto|]. intros G. apply IHpsteps. eapply inv_step; eassumption. Qed.
Lemma inv_init : inv (p_init data W).
Proof.
  constructor; cbn [p_init p_todo p_next p_queue p_busy p_done].
  - reflexivity.
  - lia.
  - intros j x [].
  - intros j x H. apply repeat_spec in H. discriminate.
  - apply repeat_length.
  - intros j x H. lia.
  - discriminate.
Qed.

Lemma final_done s : inv s -> p_final s -> forall j x, nth_error data j = Some x -> p_done s j = Some (owned x).
Proof.
  intros [I1 I2 I3 I4 I5 I6 I7] (F1 & F2 & F3) j x Hj.
  assert (Hlt : (j < length data)%nat) by (apply nth_error_Some; congruence).
  assert (Hn : (p_next s >= length data)%nat).
  { rewrite F1 in I1. destruct (Nat.lt_ge_cases (p_next s) (length data)) as [H|H]; [|exact H].
    exfalso. apply (f_equal (@length I)) in I1. rewrite skipn_length in I1. cbn [length] in I1. lia. }
  destruct (I6 j x ltac:(lia) Hj) as [H|[H|H]]; [|exfalso|exact H].
  - rewrite F2 in H. destruct H.
  - rewrite Forall_forall in F3. apply F3 in H. discriminate.
Qed.

Lemma mapM_seq (g : nat -> res V) (h : I -> res V) : forall (l : list I) k,
  (forall i x, nth_error l i = Some x -> g (k + i)%nat = h x) -> mapM g (seq k (length l)) = mapM h l.
Proof.
  induction l as [|x l IH]; intros k H; [reflexivity|]. cbn [length seq mapM].
  rewrite <- (Nat.add_0_r k) at 1. rewrite (H 0%nat x eq_refl). rewrite (IH (S k)); [reflexivity|].
  intros i y Hi. replace (S k + i)%nat with (k + S i)%nat by lia. apply H. exact Hi.
Qed.

Lemma gets_final s : inv s -> p_final s -> gets s (length data) = mapM owned data.
Proof.
  intros H F. unfold gets. apply (mapM_seq _ owned data 0). intros i x Hi. cbn [Nat.add].
  rewrite (final_done s H F i x Hi). reflexivity.
Qed.

(** Termination. *)
Fixpoint occupied (l : list (option (nat * I))) : nat :=
  match l with [] => 0 | None :: r => occupied r | Some _ :: r => S (occupied r) end.
Definition work (s : state) : nat := 3 * length (p_todo s) + 2 * length (p_queue s) + occupied (p_busy s).
Lemma occupied_take b : forall w y, nth_error b w = Some None -> occupied (set_nth b w (Some y)) = S (occupied b).
Proof.
  induction b as [|z b IH]; intros [|w] y; cbn [nth_error set_nth occupied]; try discriminate.
  - intros [= ->]. reflexivity.
  - intros H. rewrite (IH w y H). destruct z; reflexivity.
Qed.
Lemma occupied_finish b : forall w y, nth_error b w = Some (Some y) -> S (occupied (set_nth b w None)) = occupied b.
Proof.
  induction b as [|z b IH]; intros [|w] y; cbn [nth_error set_nth occupied]; try discriminate.
  - intros [= ->]. reflexivity.
  - intros H. destruct z; rewrite <- (IH w y H); reflexivity.
Qed.
Lemma work_step s s' : pstep pickles f s s' -> (work s' < work s)%nat.
Proof.
  intros H. destruct H as [x t n q b d Hp|x t n q b d Hp|t n j x q b w d Hw|t n q b w j x d Hw];
    unfold work; cbn [p_todo p_queue p_busy length].
  - rewrite app_length. cbn [length]. lia.
  - lia.
  - rewrite (occupied_take _ _ _ Hw). lia.
  - rewrite <- (occupied_finish _ _ _ Hw). lia.
Qed.
Lemma work_steps k s s' : psteps pickles f k s s' -> (k + work s' <= work s)%nat.
Proof. intros H. induction H; [lia|]. apply work_step in H. lia. Qed.
Lemma occupied_repeat n : occupied (repeat None n) = 0%nat.
Proof. induction n; [reflexivity|]. exact IHn. Qed.

Lemma busy_cases (b : list (option (nat * I))) : Forall (eq None) b \/ exists w y, nth_error b w = Some (Some y).
Proof.
  induction b as [|z b IH]; [left; constructor|]. destruct z as [y|].
  - right. exists 0%nat, y. reflexivity.
  - destruct IH as [IH|(w & y & H)]; [left; constructor; [reflexivity|exact IH]|right; exists (S w), y; exact H].
Qed.
Lemma progress s : inv s -> (1 <= W)%nat -> p_final s \/ exists s', pstep pickles f s s'.
Proof.
  intros [_ _ _ _ I5 _ _] HW. destruct s as [t n q b d]. cbn [p_busy] in I5. unfold p_final. cbn [p_todo p_queue p_busy].
  destruct (busy_cases b) as [Hb|(w & [j y] & Hw)].
  - destruct t as [|x t].
    + destruct q as [|[j x] q].
      * left. auto.
      * right. destruct b as [|z b]; [cbn in I5; lia|]. inversion Hb; subst.
        eexists. apply (step_take pickles f [] n j x q (None :: b) 0 d). reflexivity.
    + right. destruct pickles eqn:E; eexists; [apply step_submit|apply step_refuse]; reflexivity.
  - right. eexists. eapply step_finish. exact Hw.
Qed.
Lemma reach_final : (1 <= W)%nat -> forall n s, (work s <= n)%nat -> inv s ->
  exists k s', psteps pickles f k s s' /\ p_final s'.
Proof.
  intros HW. induction n as [|n IH]; intros s Hs H.
  - destruct (progress s H HW) as [F|[s' G]]; [exists 0%nat, s; split; [constructor|exact F]|].
    apply work_step in G. lia.
  - destruct (progress s H HW) as [F|[s' G]]; [exists 0%nat, s; split; [constructor|exact F]|].
    pose proof (work_step _ _ G) as Hlt. destruct (IH s') as (k & s2 & G2 & F); [lia|eapply inv_step; eassumption|].
    exists (S k), s2. split; [econstructor; eassumption|exact F].
Qed.
End Pool.

Lemma pool_result {I V} pickles (f : I -> res V) data n r : pool_run pickles f data n r -> (1 <= n)%nat ->
  r = mapM (owned pickles f) data.
Proof.
  intros H Hn. destruct H as [|w k s H F]; [lia|].
  apply (gets_final pickles f data (S w)); [|exact F]. eapply inv_steps; [exact H|apply inv_init].
Qed.
Lemma pool_answers {I V} pickles (f : I -> res V) data n : exists r, pool_run pickles f data n r.
Proof.
  destruct n as [|w]; [eexists; constructor|].
  destruct (reach_final pickles f data (S w) ltac:(lia) _ (p_init data (S w)) (Nat.le_refl _) (inv_init pickles f data (S w)))
    as (k & s & H & F).
  eexists. eapply run_some; eassumption.
Qed.
Lemma pool_bounded {I V} pickles (f : I -> res V) data n k s : psteps pickles f k (p_init data n) s -> (k <= 3 * length data)%nat.
Proof.
  intros H. apply work_steps in H. unfold work in H. cbn [p_init p_todo p_queue p_busy length] in H.
  rewrite occupied_repeat in H. lia.
Qed.
Lemma pool_not_stuck {I V} pickles (f : I -> res V) data n k s : (1 <= n)%nat ->
  psteps pickles f k (p_init data n) s -> p_final s \/ exists s', pstep pickles f s s'.
Proof. intros Hn H. apply (progress pickles f data n); [|exact Hn]. eapply inv_steps; [exact H|apply inv_init]. Qed.

Lemma mapM_err_first {A B} (f : A -> res B) e x l : f x = Err e -> mapM f (x :: l) = Err e.
Proof. intros H. cbn [mapM]. rewrite H. reflexivity. Qed.

Lemma mapM_app' {A B} (f : A -> res B) l l' : mapM f (l ++ l') = do a <- mapM f l; do b <- mapM f l'; Ok (a ++ b).
Proof.
  induction l as [|x l IH]; cbn [app mapM bind].
  - destruct (mapM f l'); reflexivity.
  - destruct (f x); [|reflexivity]. cbn [bind]. rewrite IH. destruct (mapM f l); [|reflexivity]. cbn [bind].
    destruct (mapM f l'); reflexivity.
Qed.
Lemma spark_slices {A B} (f : A -> res B) parts : (do p <- mapM (fun x => mapM f x) parts; Ok (concat p)) = mapM f (concat parts).
Proof.
  induction parts as [|x parts IH]; [reflexivity|]. cbn [mapM concat]. rewrite mapM_app', <- IH.
  destruct (mapM f x); [|reflexivity]. cbn [bind]. destruct (mapM _ parts); reflexivity.
Qed.
Lemma mapM_split {A B C} (f : A -> res B) (g : B -> res C) l r : mapM f l = Ok r ->
  mapM (fun x => do y <- f x; g y) l = mapM g r.
Proof.
  revert r. induction l as [|x l IH]; intros r; cbn [mapM].
  - intros [= <-]. reflexivity.
  - destruct (f x) as [y|e]; [|discriminate]. cbn [bind]. destruct (mapM f l) as [ys|e]; [|discriminate].
    cbn [bind]. intros [= <-]. cbn [mapM]. rewrite (IH ys eq_refl). reflexivity.
Qed.
