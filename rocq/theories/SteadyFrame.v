(** * What a connection method may touch, and the transaction flag *)
From Coq Require Import List Arith NArith ZArith Bool Lia.
From Verif Require Import SteadyModel SteadySpec SteadyProof.
Import ListNotations.
Open Scope steady_scope.

(** The raw connection a driver call is about. *)
Definition raw_of (k : call) : option nat :=
  match k with
  | KConnect => None
  | KSession r _ | KClose r | KPing r | KBegin r | KCommit r | KRollback r | KCancel r
  | KCursor r | KExec r _ _ | KCurClose r _ => Some r
  end.

Section Own.
(** [own n r]: raw connection [r] is ours once the log has [n] entries. *)
Variable own : nat -> nat -> Prop.
Variable n0 : nat.
Hypothesis own_mono : forall n m r, n <= m -> own n r -> own m r.
Hypothesis own_new : forall n r, n0 <= r -> r < n -> own n r.
Variable g : cfg.
Variable drv : nat -> answer.

Definition ev_own (n : nat) (e : event) : Prop := match raw_of (fst e) with Some r => own n r | None => True end.

Definition okst (s : st) : Prop :=
  own (length (s_log s)) (c_raw (s_con s)) /\ own (length (s_log s)) (k_raw (s_cur s)) /\ n0 <= length (s_log s).

Definition hoare {A} (n : nat) (Q : nat -> A -> Prop) (m : M A) : Prop := forall s, okst s -> n <= length (s_log s) ->
  okst (snd (m s)) /\
  (exists d, s_log (snd (m s)) = s_log s ++ d /\ Forall (ev_own (length (s_log (snd (m s))))) d) /\
  match fst (m s) with Ret a => Q (length (s_log (snd (m s)))) a | Raise _ => True end.

Ltac use O := cbn; eapply own_mono; [| exact O]; lia.
Tactic Notation "bi" simple_intropattern(a) simple_intropattern(b) := intros a ? ? b.

Lemma ev_own_mono : forall n m l, n <= m -> Forall (ev_own n) l -> Forall (ev_own m) l.
Proof.
  intros n m l H. apply Forall_impl. intros e. unfold ev_own. destruct (raw_of (fst e)); auto. apply own_mono, H.
Qed.

Lemma h_ret : forall A n (Q : nat -> A -> Prop) a, (forall m, n <= m -> Q m a) -> hoare n Q (ret a).
Proof. intros A n Q a H s S L. cbn. repeat split; try apply S; auto. exists []. rewrite app_nil_r. auto. Qed.
Lemma h_raise : forall A n (Q : nat -> A -> Prop) e, hoare n Q (raise e).
Proof. intros A n Q e s S L. cbn. repeat split; try apply S; auto. exists []. rewrite app_nil_r. auto. Qed.
Lemma h_bind : forall A B n (Q : nat -> A -> Prop) (R : nat -> B -> Prop) m f,
  hoare n Q m -> (forall a n', n <= n' -> Q n' a -> hoare n' R (f a)) -> hoare n R (bindM m f).
Proof.
  intros A B n Q R m f Hm Hf s S L. unfold bindM. specialize (Hm s S L).
  destruct (m s) as [[a | e] s1]; cbn in *.
  - destruct Hm as (S1 & (d1 & L1 & F1) & HQ).
    assert (L' : n <= length (s_log s1)) by (rewrite L1, app_length; lia).
    destruct (Hf a _ L' HQ s1 S1 (le_n _)) as (S2 & (d2 & L2 & F2) & HR).
    split; [exact S2 |]. split; [| exact HR].
    exists (d1 ++ d2). rewrite L2, L1, app_assoc. split; [easy |]. apply Forall_app. rewrite <- L1, <- L2. split; [| exact F2].
    eapply ev_own_mono; [| exact F1]. rewrite L2, app_length. lia.
  - destruct Hm as (S1 & X & _). auto.
Qed.
Lemma h_attempt : forall A n (Q : nat -> A -> Prop) m, hoare n Q m ->
  hoare n (fun n o => match o with Ret a => Q n a | Raise _ => True end) (attempt m).
Proof.
  intros A n Q m Hm s S L. unfold attempt. specialize (Hm s S L). destruct (m s) as [o s1]. cbn in *.
  destruct Hm as (S1 & X & HQ). auto.
Qed.
Lemma h_weak : forall A n (Q R : nat -> A -> Prop) m, hoare n Q m -> (forall n a, Q n a -> R n a) -> hoare n R m.
Proof.
  intros A n Q R m Hm HR s S L. destruct (Hm s S L) as (S1 & X & HQ). split; [auto |]. split; [auto |].
  destruct (fst (m s)); auto.
Qed.
Lemma h_get_con : forall n, hoare n (fun n c => own n (c_raw c)) get_con.
Proof. intros n s S L. cbn. repeat split; try apply S. exists []. rewrite app_nil_r. auto. Qed.
Lemma h_get_cur : forall n, hoare n (fun n k => own n (k_raw k)) get_cur.
Proof. intros n s S L. cbn. repeat split; try apply S. exists []. rewrite app_nil_r. auto. Qed.
Lemma h_put_con : forall n c, own n (c_raw c) -> hoare n (fun _ _ => True) (put_con c).
Proof. intros n c O s S L. cbn. repeat split; try apply S; auto. { use O. } exists []. rewrite app_nil_r. auto. Qed.
Lemma h_put_cur : forall n c, own n (k_raw c) -> hoare n (fun _ _ => True) (put_cur c).
Proof. intros n c O s S L. cbn. repeat split; try apply S; auto. { use O. } exists []. rewrite app_nil_r. auto. Qed.
Lemma h_driver : forall n k, (forall r, raw_of k = Some r -> own n r) -> hoare n (fun _ _ => True) (driver drv k).
Proof.
  intros n k O s S L. rewrite driver_spec. cbn [fst snd]. split; [| split].
  - destruct S as (A & B & C). unfold okst. cbn. rewrite app_length. cbn.
    repeat split; [use A | use B | lia].
  - eexists. cbn. split; [reflexivity |]. constructor; [| constructor]. unfold ev_own. cbn. rewrite app_length.
    destruct (raw_of k) eqn:E; auto. eapply own_mono; [| apply O; reflexivity]. lia.
  - destruct (drv _); exact I.
Qed.
Lemma h_new : forall n k, (forall r, raw_of k = Some r -> own n r) -> hoare n own (driver_new drv k).
Proof.
  intros n k O s S L. unfold driver_new. pose proof (h_driver n k O s S L) as H.
  rewrite driver_spec in *. cbn [fst snd] in *. destruct S as (_ & _ & Z0).
  destruct (drv (length (s_log s))); cbn in *; destruct H as (S1 & X & _); split; auto; split; auto.
  apply own_new; [exact Z0 |]. rewrite app_length. cbn. lia.
Qed.
Lemma h_quiet : forall n k, (forall r, raw_of k = Some r -> own n r) -> hoare n (fun _ _ => True) (quiet drv k).
Proof.
  intros n k O. unfold quiet. eapply h_bind; [apply h_attempt, h_driver, O |]. intros. apply h_ret; auto.
Qed.
Lemma h_session : forall n l raw, own n raw -> hoare n (fun _ _ => True) (session_loop drv raw l).
Proof.
  intros n l; revert n; induction l; intros n raw O; cbn; [apply h_ret; auto |].
  eapply h_bind; [apply h_driver; intros r [= <-]; use O |]. intros. apply IHl; use O.
Qed.
Lemma h_create : forall n, hoare n own (create g drv).
Proof.
  intros n. unfold create. eapply h_bind; [apply h_new; discriminate |]. bi raw O.
  eapply h_bind; [apply h_attempt with (Q := fun _ _ => True) |].
  - unfold setsession. destruct (g_session g); [apply h_ret; auto |].
    eapply h_bind; [apply h_new; intros r [= <-]; use O |]. bi k _.
    eapply h_bind; [apply h_session; use O |]. intros. 
    eapply h_bind; [apply h_driver; intros r [= <-]; use O |]. intros. apply h_ret; auto.
  - bi [] _; [apply h_ret; intros; use O |]. eapply h_bind; [apply h_quiet; intros r [= <-]; use O |].
    intros. apply h_raise.
Qed.
Lemma h_store : forall n raw, own n raw -> hoare n (fun _ _ => True) (store_con raw).
Proof. intros n raw O. unfold store_con. eapply h_bind; [apply h_get_con |]. bi c _. apply h_put_con; use O. Qed.
Lemma h_close_con : forall n, hoare n (fun _ _ => True) (close_con drv).
Proof.
  intros n. unfold close_con. eapply h_bind; [apply h_get_con |]. bi c O.
  destruct (c_closed c); [apply h_ret; auto |].
  eapply h_bind; [apply h_quiet; intros r [= <-]; use O |]. intros. apply h_put_con; use O.
Qed.
Lemma h_reopen : forall n, hoare n (fun _ _ => True) (reopen g drv).
Proof.
  intros n. unfold reopen. eapply h_bind; [apply h_attempt, h_create |]. bi [raw | e] O; [| apply h_ret; auto].
  eapply h_bind; [apply h_close_con |]. intros. eapply h_bind; [apply h_store; use O |]. intros. apply h_ret; auto.
Qed.
Lemma h_set_trans : forall n b, hoare n (fun _ _ => True) (set_trans b).
Proof. intros n b. unfold set_trans. eapply h_bind; [apply h_get_con |]. bi c O. apply h_put_con; use O. Qed.
Lemma h_use_con : forall n, hoare n (fun _ _ => True) use_con.
Proof. intros n. unfold use_con. eapply h_bind; [apply h_get_con |]. bi c O. apply h_put_con; use O. Qed.
Lemma h_ping : forall n b, hoare n (fun _ _ => True) (ping_check g drv b).
Proof.
  intros n b. unfold ping_check. eapply h_bind; [apply h_get_con |]. bi c O.
  destruct (N.eqb _ _); [apply h_ret; auto |].
  eapply h_bind; [apply h_attempt, h_driver; intros r [= <-]; use O |]. bi r _.
  eapply h_bind with (Q := fun _ _ => True).
  - destruct r; [apply h_ret; auto |]. destruct (g_type g (x_class e)); [| apply h_ret; auto].
    eapply h_weak; [apply h_attempt, h_driver; intros r [= <-]; use O |]. auto.
  - bi r1 _. eapply h_bind with (Q := fun _ _ => True).
    + destruct r1 as [[v |] | e]; try (apply h_ret; auto).
      destruct (g_probe g (x_class e)); [| apply h_ret; auto].
      eapply h_bind; [apply h_put_con; use O |]. intros. apply h_ret; auto.
    + bi rc _. destruct (_ && _); [| apply h_ret; auto].
      eapply h_bind; [apply h_reopen |]. intros. apply h_ret; auto.
Qed.
Lemma h_begin : forall n, hoare n (fun _ _ => True) (begin g drv).
Proof.
  intros n. unfold begin. eapply h_bind; [apply h_set_trans |]. intros. eapply h_bind; [apply h_get_con |]. bi c O.
  destruct (g_has_begin g); [| apply h_ret; auto].
  eapply h_bind; [apply h_driver; intros r [= <-]; use O |]. intros. apply h_ret; auto.
Qed.
Lemma h_cancel : forall n, hoare n (fun _ _ => True) (cancel g drv).
Proof.
  intros n. unfold cancel. eapply h_bind; [apply h_set_trans |]. intros. eapply h_bind; [apply h_get_con |]. bi c O.
  destruct (g_has_cancel g); [| apply h_ret; auto].
  eapply h_bind; [apply h_driver; intros r [= <-]; use O |]. intros. apply h_ret; auto.
Qed.
Lemma h_finish : forall n k, (forall r, raw_of (k r) = Some r) -> hoare n (fun _ _ => True) (finish g drv k).
Proof.
  intros n k K. unfold finish. eapply h_bind; [apply h_set_trans |]. intros. eapply h_bind; [apply h_get_con |]. bi c O.
  eapply h_bind; [apply h_attempt, h_driver; rewrite K; intros r [= <-]; use O |].
  bi [v | e] _; [apply h_ret; auto |]. destruct (g_failures g (x_class e)); [| apply h_raise].
  eapply h_bind; [apply h_reopen |]. intros. apply h_raise.
Qed.
Lemma h_reset : forall n f, hoare n (fun _ _ => True) (reset g drv f).
Proof.
  intros n f. unfold reset. eapply h_bind; [apply h_get_con |]. bi c O.
  destruct (_ && _); [| apply h_ret; auto].
  eapply h_bind; [apply h_attempt, h_finish; reflexivity |]. intros. apply h_ret; auto.
Qed.
Lemma h_close : forall n, hoare n (fun _ _ => True) (close g drv).
Proof.
  intros n. unfold close. destruct (g_closeable g); [apply h_close_con |].
  eapply h_bind; [apply h_get_con |]. bi c O. destruct (c_trans c); [apply h_reset | apply h_ret; auto].
Qed.
Lemma h_con_cursor : forall n, hoare n (fun n p => own n (fst p)) (con_cursor g drv).
Proof.
  intros n. unfold con_cursor. eapply h_bind; [apply h_get_con |]. bi c0 O0. cbv zeta.
  eapply h_bind with (Q := fun _ _ => True); [destruct (c_trans c0); [apply h_ret; auto | apply h_ping] |].
  intros. eapply h_bind; [apply h_get_con |]. bi c O.
  eapply h_bind; [apply h_attempt with (Q := own) |].
  - destruct (overused g c (c_trans c0)); [apply h_raise |]. apply h_new. intros r [= <-]. use O.
  - bi [k | e] K; [apply h_ret; intros; use O |]. destruct (negb _); [apply h_raise |].
    eapply h_bind; [apply h_attempt, h_create |]. bi nn N.
    eapply h_bind with (Q := fun n r => match r with Some p => own n (fst p) | None => True end).
    + destruct nn as [raw | e2]; [| apply h_ret; auto].
      eapply h_bind; [apply h_attempt, h_new; intros r [= <-]; use N |]. bi [k | e3] K2.
      * eapply h_bind; [apply h_close_con |]. intros. eapply h_bind; [apply h_store; use N |]. intros.
        destruct (c_trans c0); [apply h_raise | apply h_ret; intros; use N].
      * eapply h_bind; [apply h_quiet; intros r [= <-]; use N |]. intros. apply h_ret; auto.
    + bi [p |] P; [apply h_ret; intros; use P |].
      eapply h_bind with (Q := fun _ _ => True); [destruct (c_trans c0); [apply h_set_trans | apply h_ret; auto] |].
      intros. apply h_raise.
Qed.
Lemma h_cursor : forall n, hoare n (fun _ _ => True) (cursor g drv).
Proof. intros n. unfold cursor. eapply h_bind; [apply h_con_cursor |]. bi k O. apply h_put_cur; use O. Qed.
Lemma h_close_cur : forall n, hoare n (fun _ _ => True) (close_cur drv).
Proof.
  intros n. unfold close_cur. eapply h_bind; [apply h_get_cur |]. bi k O.
  destruct (k_closed k); [apply h_ret; auto |].
  eapply h_bind; [apply h_quiet; intros r [= <-]; use O |]. intros. apply h_put_cur; use O.
Qed.
Lemma h_set_cur : forall n raw k, own n raw -> hoare n (fun _ _ => True) (set_cur raw k).
Proof. intros n raw k O. unfold set_cur. eapply h_bind; [apply h_get_cur |]. intros. apply h_put_cur; use O. Qed.
Lemma h_switch : forall n raw k, own n raw -> hoare n (fun _ _ => True) (switch drv raw k).
Proof.
  intros n raw k O. unfold switch. eapply h_bind; [apply h_close_cur |]. intros.
  eapply h_bind; [apply h_close_con |]. intros. eapply h_bind; [apply h_store; use O |]. intros. apply h_set_cur; use O.
Qed.
Lemma h_execute : forall n sql, hoare n (fun _ _ => True) (execute g drv sql).
Proof.
  intros n sql. unfold execute. eapply h_bind; [apply h_get_con |]. bi c0 O0. cbv zeta.
  eapply h_bind with (Q := fun _ _ => True); [destruct (c_trans c0); [apply h_ret; auto | apply h_ping] |].
  intros. eapply h_bind; [apply h_get_con |]. bi c O. eapply h_bind; [apply h_get_cur |]. bi k K.
  eapply h_bind; [apply h_attempt with (Q := fun _ _ => True) |].
  - destruct (overused g c (c_trans c0)); [apply h_raise |]. apply h_driver. intros r [= <-]. use K.
  - bi [v | e] _.
    + eapply h_bind; [apply h_use_con |]. intros. apply h_ret; auto.
    + destruct (negb _); [apply h_raise |].
      eapply h_bind with (Q := fun _ _ => True).
      * destruct (c_trans c0); [apply h_ret; auto |]. unfold second_try.
        eapply h_bind; [apply h_attempt, h_con_cursor |]. bi [[raw k2] | e2] R; [| apply h_ret; auto].
        eapply h_bind; [apply h_attempt, h_driver; intros r [= <-]; use R |]. bi [v | e2] _.
        -- eapply h_bind; [apply h_close_cur |]. intros. eapply h_bind; [apply h_set_cur; use R |]. intros.
           eapply h_bind; [apply h_use_con |]. intros. apply h_ret; auto.
        -- eapply h_bind; [apply h_quiet; intros r [= <-]; use R |]. intros. apply h_ret; auto.
      * bi [v |] _; [apply h_ret; auto |]. unfold third_try.
        eapply h_bind; [apply h_attempt, h_create |]. bi [raw | e2] R; [| apply h_raise].
        eapply h_bind; [apply h_attempt, h_new; intros r [= <-]; use R |]. bi [k2 | e2] R2.
        -- destruct (c_trans c0).
           ++ eapply h_bind; [apply h_switch; use R |]. intros. apply h_raise.
           ++ eapply h_bind; [apply h_attempt, h_driver; intros r [= <-]; use R |]. bi [v | e3] _.
              ** eapply h_bind; [apply h_switch; use R |]. intros. eapply h_bind; [apply h_use_con |]. intros.
                 apply h_ret; auto.
              ** destruct (g_sub _ _ _).
                 { eapply h_bind; [apply h_quiet; intros r [= <-]; use R |]. intros.
                   eapply h_bind; [apply h_quiet; intros r [= <-]; use R |]. intros. apply h_raise. }
                 { eapply h_bind; [apply h_switch; use R |]. intros. eapply h_bind; [apply h_use_con |]. intros.
                   apply h_raise. }
        -- eapply h_bind; [apply h_quiet; intros r [= <-]; use R |]. intros. apply h_raise.
Qed.
Lemma h_do_op : forall n o, hoare n (fun _ _ => True) (do_op g drv o).
Proof.
  intros n []; cbn [do_op].
  1: eapply h_bind; [apply h_begin |]. 
  2, 3: eapply h_bind; [apply h_finish; reflexivity |].
  4: eapply h_bind; [apply h_cancel |].
  5: eapply h_bind; [apply h_cursor |].
  6: apply h_execute.
  all: intros; apply h_ret; auto.
Qed.
Lemma h_do_ops : forall n l, hoare n (fun _ _ => True) (do_ops g drv l).
Proof.
  intros n l; revert n; induction l; intros n; cbn; [apply h_ret; auto |]. eapply h_bind; [apply h_do_op |]. intros. apply IHl.
Qed.
End Own.

(** ** The transaction flag *)

(** The method does not open a transaction. *)
Definition no_open {A} (m : M A) : Prop := forall s,
  c_trans (s_con (snd (m s))) = true -> c_trans (s_con s) = true.

Section Flag.
Variable g : cfg.
Variable drv : nat -> answer.

Lemma f_ret : forall A (a : A), no_open (ret a). Proof. intros A a s H. exact H. Qed.
Lemma f_raise : forall A e, no_open (@raise A e). Proof. intros A a s H. exact H. Qed.
Lemma f_get_con : no_open get_con. Proof. intros s H. exact H. Qed.
Lemma f_get_cur : no_open get_cur. Proof. intros s H. exact H. Qed.
Lemma f_put_cur : forall k, no_open (put_cur k). Proof. intros k s H. exact H. Qed.
Lemma f_driver : forall k, no_open (driver drv k).
Proof. intros k s H. rewrite driver_spec in H. exact H. Qed.
Lemma f_new : forall k, no_open (driver_new drv k).
Proof.
  intros k s H. unfold driver_new in H. rewrite driver_spec in H.
  destruct (drv _); exact H.
Qed.
Lemma f_bind : forall A B (m : M A) (f : A -> M B), no_open m -> (forall a, no_open (f a)) -> no_open (bindM m f).
Proof.
  intros A B m f Hm Hf s H. unfold bindM in H. apply Hm. destruct (m s) as [[a | e] s1]; [| exact H].
  cbn [snd]. apply (Hf a). exact H.
Qed.
Lemma f_attempt : forall A (m : M A), no_open m -> no_open (attempt m).
Proof. intros A m Hm s H. apply Hm. unfold attempt in H. destruct (m s). exact H. Qed.
Lemma f_if : forall A (b : bool) (m1 m2 : M A), no_open m1 -> no_open m2 -> no_open (if b then m1 else m2).
Proof. intros A []; auto. Qed.
Lemma f_store : forall raw, no_open (store_con raw).
Proof. intros raw s H. discriminate H. Qed.
Lemma f_quiet : forall k, no_open (quiet drv k).
Proof. intros k. unfold quiet. apply f_bind; [apply f_attempt, f_driver | intros; apply f_ret]. Qed.
Lemma f_set_false : no_open (set_trans false).
Proof. intros s H. discriminate H. Qed.
Lemma f_use : no_open use_con.
Proof. intros s H. exact H. Qed.
Lemma f_close_con : no_open (close_con drv).
Proof.
  intros s H. unfold close_con, bindM, get_con in H. destruct (c_closed (s_con s)); [exact H |].
  destruct (quiet_ret drv (KClose (c_raw (s_con s))) s) as (s1 & E). rewrite E in H. discriminate H.
Qed.

Ltac flag_tac := repeat (first
  [ apply f_store | apply f_quiet | apply f_set_false | apply f_use | apply f_close_con
  | apply f_bind; [ | intros ?] | apply f_ret | apply f_raise | apply f_attempt
  | apply f_get_con | apply f_get_cur | apply f_put_cur
  | apply f_driver | apply f_new | apply f_if
  | match goal with |- no_open (match ?x with _ => _ end) => destruct x end ]).

Lemma f_session : forall l raw, no_open (session_loop drv raw l).
Proof. induction l; intros raw; cbn; flag_tac. apply IHl. Qed.
Lemma f_create : no_open (create g drv).
Proof.
  unfold create, setsession. destruct (g_session g) as [| q l]; flag_tac.
  all: apply (f_session l).
Qed.
Lemma f_reopen : no_open (reopen g drv).
Proof. unfold reopen. apply f_bind; [apply f_attempt, f_create |]. intros. flag_tac. Qed.
Lemma f_ping : forall b, no_open (ping_check g drv b).
Proof.
  intros b s H. unfold ping_check, bindM, get_con in H. destruct (N.eqb _ _); [exact H |].
  destruct (c_trans (s_con s)) eqn:T; [easy |]. exfalso. unfold attempt in H.
  assert (X : forall s1, c_trans (s_con s1) = false -> c_trans (s_con (snd (reopen g drv s1))) = false).
  { intros s1 T1. destruct (c_trans (s_con (snd (reopen g drv s1)))) eqn:E; [| easy].
    apply f_reopen in E. congruence. }
  rewrite driver_spec in H. cbn [s_con] in H.
  repeat match type of H with
  | context [reopen g drv ?x] =>
      let Y := fresh in pose proof (X x) as Y; cbn [s_con] in Y; specialize (Y T);
      destruct (reopen g drv x) as [[? | ?] ?]; cbn in H, Y
  | context [match drv ?n with _ => _ end] => destruct (drv n) as [[? |] | ?]; cbn in H
  | context [driver drv ?k ?x] => rewrite driver_spec in H; cbn in H
  | context [if ?b then _ else _] => destruct b; cbn in H
  | context [match ?x with _ => _ end] => destruct x; cbn in H
  end; congruence.
Qed.
Lemma f_con_cursor : no_open (con_cursor g drv).
Proof.
  unfold con_cursor. apply f_bind; [apply f_get_con |]. intros c0. cbv zeta.
  apply f_bind; [apply f_if; [apply f_ret | apply f_ping] |]. intros.
  apply f_bind; [apply f_get_con |]. intros c.
  apply f_bind; [flag_tac |]. intros [k | e]; [apply f_ret |].
  apply f_if; [apply f_raise |]. apply f_bind; [apply f_attempt, f_create |]. intros n. flag_tac.
Qed.
Lemma f_cursor : no_open (cursor g drv).
Proof. unfold cursor. apply f_bind; [apply f_con_cursor |]. intros; apply f_put_cur. Qed.
Lemma f_close_cur : no_open (close_cur drv).
Proof. unfold close_cur. flag_tac. Qed.
Lemma f_switch : forall raw k, no_open (switch drv raw k).
Proof.
  intros. unfold switch. apply f_bind; [apply f_close_cur |]. intros. unfold set_cur. flag_tac.
Qed.
Lemma f_execute : forall sql, no_open (execute g drv sql).
Proof.
  intros sql. unfold execute. apply f_bind; [apply f_get_con |]. intros c0. cbv zeta.
  apply f_bind; [apply f_if; [apply f_ret | apply f_ping] |]. intros.
  apply f_bind; [apply f_get_con |]. intros c. apply f_bind; [apply f_get_cur |]. intros k.
  apply f_bind; [flag_tac |]. intros [v | e]; [flag_tac |].
  apply f_if; [apply f_raise |]. apply f_bind.
  - apply f_if; [apply f_ret |]. unfold second_try. apply f_bind; [apply f_attempt, f_con_cursor |].
    intros [[raw k2] | e2]; [| apply f_ret]. apply f_bind; [flag_tac |]. intros [v | e2]; [| flag_tac].
    apply f_bind; [apply f_close_cur |]. intros. unfold set_cur. flag_tac.
  - intros [v |]; [apply f_ret |]. unfold third_try. apply f_bind; [apply f_attempt, f_create |].
    intros [raw | e2]; [| apply f_raise]. apply f_bind; [flag_tac |]. intros [k2 | e2]; [| flag_tac].
    apply f_if.
    + apply f_bind; [apply f_switch |]. intros. apply f_raise.
    + apply f_bind; [flag_tac |]. intros [v | e3].
      * apply f_bind; [apply f_switch |]. intros. flag_tac.
      * apply f_if; [flag_tac |]. apply f_bind; [apply f_switch |]. intros. flag_tac.
Qed.

Lemma finish_flag : forall k s, c_trans (s_con (snd (finish g drv k s))) = false.
Proof.
  intros k s. unfold finish, bindM, set_trans, get_con, put_con, bindM. cbn.
  unfold attempt. rewrite driver_spec. cbn.
  destruct (drv _) as [v | e]; [reflexivity |].
  destruct (g_failures g (x_class e)); [| reflexivity].
  set (s1 := St _ _ _). assert (T : c_trans (s_con s1) = false) by reflexivity. clearbody s1.
  pose proof (f_reopen s1) as F. destruct (reopen g drv s1) as [[b | e1] s2]; cbn in *;
    destruct (c_trans (s_con s2)); auto; rewrite F in T by reflexivity; discriminate.
Qed.
Lemma cancel_flag : forall s, c_trans (s_con (snd (cancel g drv s))) = false.
Proof.
  intros s. unfold cancel, bindM, set_trans, get_con, put_con, bindM, ret. cbn.
  destruct (g_has_cancel g); [| reflexivity]. rewrite driver_spec. cbn. destruct (drv _); reflexivity.
Qed.
Lemma begin_flag : forall s, c_trans (s_con (snd (begin g drv s))) = true.
Proof.
  intros s. unfold begin, bindM, set_trans, get_con, put_con, bindM, ret. cbn.
  destruct (g_has_begin g); [| reflexivity]. rewrite driver_spec. cbn. destruct (drv _); reflexivity.
Qed.

Lemma bind_ret_state : forall A B (m : M A) (b : B) s, snd ((m ;; ret b) s) = snd (m s).
Proof. intros. unfold bindM, ret. destruct (m s) as [[a | e] s1]; reflexivity. Qed.

(** Flag set after the calls implies that the calls left a transaction open. *)
Lemma flag_in_transaction : forall l s, c_trans (s_con s) = false ->
  c_trans (s_con (run_ops g drv l s)) = true -> in_transaction l = true.
Proof.
  intros l. unfold in_transaction.
  assert (X : forall b s, (c_trans (s_con s) = true -> b = true) ->
    c_trans (s_con (run_ops g drv l s)) = true ->
    fold_left (fun b o => match o with OBegin => true | _ => if ends o then false else b end) l b = true).
  { induction l as [| o l IH]; intros b s Hb H; [exact (Hb H) |]. cbn [fold_left run_ops] in *.
    eapply IH; [| exact H]. destruct o; cbn [do_op ends]; intros T; try reflexivity;
      try (rewrite bind_ret_state in T).
    - unfold commit in T. rewrite finish_flag in T. discriminate.
    - unfold rollback in T. rewrite finish_flag in T. discriminate.
    - rewrite cancel_flag in T. discriminate.
    - apply Hb. apply (f_cursor s). exact T.
    - apply Hb. apply (f_execute sql s). exact T. }
  intros s Hs H. eapply X; [| exact H]. congruence.
Qed.
End Flag.

(** ** What survives a batch of statements *)

Section Batch.
Variable g : cfg.
Variable drv : nat -> answer.

Lemma work_app : forall a b, work_of (a ++ b) = fold_left work_step b (work_of a).
Proof. intros. unfold work_of. apply fold_left_app. Qed.

Lemma work_execs : forall r k l w, fold_left work_step (map (fun p => (KExec r k (fst p), Returns (snd p))) l) w =
  Work (wk_pending w ++ map (fun p => (r, fst p)) l) (wk_durable w).
Proof.
  induction l as [| q l IH]; intros w; cbn [map fold_left].
  - rewrite app_nil_r. destruct w; reflexivity.
  - rewrite IH. cbn. rewrite <- app_assoc. reflexivity.
Qed.

Lemma filter_none : forall r (l : list (nat * nat)), (forall q, ~ In (r, q) l) ->
  filter (fun p => Nat.eqb (fst p) r) l = [] /\ filter (fun p => negb (Nat.eqb (fst p) r)) l = l.
Proof.
  induction l as [| [a q] l IH]; intros H; [easy |]. cbn.
  destruct (Nat.eqb_spec a r) as [-> | N]; [exfalso; apply (H q); left; easy |].
  destruct IH as [I1 I2]; [intros x Hx; apply (H x); right; easy |]. cbn. rewrite I1, I2. easy.
Qed.
Lemma filter_all : forall r (l : list nat),
  filter (fun p => Nat.eqb (fst p) r) (map (fun q => (r, q)) l) = map (fun q => (r, q)) l.
Proof. induction l; cbn; [easy |]. rewrite Nat.eqb_refl, IHl. easy. Qed.

(** Statements inside a transaction that all return. *)
Lemma execs_transaction : forall l s s',
  c_trans (s_con s) = true ->
  do_ops g drv (map OExec l) s = (Ret tt, s') ->
  exists vs, length vs = length l /\
    s_log s' = s_log s ++ map (fun p => (KExec (k_raw (s_cur s)) (k_cur (s_cur s)) (fst p), Returns (snd p))) (combine l vs) /\
    c_raw (s_con s') = c_raw (s_con s) /\ c_trans (s_con s') = true /\ s_cur s' = s_cur s.
Proof.
  induction l as [| q l IH]; intros s s' T H.
  - cbn in H. injection H as <-. exists []. cbn. rewrite app_nil_r. auto.
  - cbn [map do_ops do_op] in H. unfold bindM in H. destruct (execute g drv q s) as [o s1] eqn:E.
    destruct (execute_transaction g drv s q o s1 T E) as (d & L & A & X).
    destruct o as [v | e]; [| discriminate].
    destruct (drv (length (s_log s))) as [v' | e]; [| discriminate].
    destruct X as ([= <-] & -> & K & R & T1 & C).
    destruct (IH s1 s' T1 H) as (vs & Lv & L2 & R2 & T2 & K2).
    exists (v :: vs). rewrite L2, L, K, R2, R, K2, T2. cbn. rewrite <- app_assoc. auto.
Qed.

Lemma map_fst_combine : forall A B (l : list A) (m : list B), length m = length l -> map fst (combine l m) = l.
Proof. induction l; intros [| b m]; cbn; intros H; try discriminate; [easy |]. f_equal. apply IHl. lia. Qed.

Lemma do_ops_app : forall l1 l2 s, do_ops g drv (l1 ++ l2) s =
  match do_ops g drv l1 s with (Ret _, s1) => do_ops g drv l2 s1 | (Raise e, s1) => (Raise e, s1) end.
Proof.
  induction l1; intros l2 s; cbn; [easy |]. unfold bindM. destruct (do_op g drv a s) as [[v | e] s1]; auto.
Qed.

Lemma durable_commit : forall log r l vs v k,
  length vs = length l ->
  (forall q, ~ In (r, q) (wk_pending (work_of log))) ->
  durable (log ++ map (fun p => (KExec r k (fst p), Returns (snd p))) (combine l vs) ++ [(KCommit r, Returns v)]) =
  durable log ++ l.
Proof.
  intros log r l vs v k Lv H. unfold durable. rewrite work_app, fold_left_app, work_execs. cbn.
  destruct (filter_none _ _ H) as [F1 F2].
  assert (Eq : map (fun p : nat * option Z => (r, fst p)) (combine l vs) = map (fun q => (r, q)) l)
    by (rewrite <- (map_map fst (fun q => (r, q))), map_fst_combine; auto).
  rewrite Eq, filter_app, F1, filter_all. cbn [app]. rewrite map_map, map_id. reflexivity.
Qed.

Lemma durable_skip : forall log e r,
  match fst e with KExec _ _ _ | KCommit _ | KRollback _ | KClose _ => False | _ => True end ->
  (forall q, ~ In (r, q) (wk_pending (work_of log))) ->
  durable (log ++ [e]) = durable log /\ (forall q, ~ In (r, q) (wk_pending (work_of (log ++ [e])))).
Proof.
  intros log [k a] r H P. unfold durable. rewrite work_app. cbn.
  destruct k; cbn in *; try easy; destruct a; easy.
Qed.

Lemma transaction_durable : forall l s s',
  (forall q, ~ In (c_raw (s_con s), q) (wk_pending (work_of (s_log s)))) ->
  do_ops g drv (OBegin :: OCursor :: map OExec l ++ [OCommit]) s = (Ret tt, s') ->
  durable (s_log s') = durable (s_log s) ++ l.
Proof.
  intros l s s' P H. cbn [do_ops] in H. unfold bindM at 1 in H.
  (* begin *)
  assert (B : exists s1, do_op g drv OBegin s = (Ret None, s1) /\ c_trans (s_con s1) = true /\
     c_raw (s_con s1) = c_raw (s_con s) /\ durable (s_log s1) = durable (s_log s) /\
     (forall q, ~ In (c_raw (s_con s), q) (wk_pending (work_of (s_log s1)))) \/
     exists e s1, do_op g drv OBegin s = (Raise e, s1)).
  { cbn [do_op]. unfold begin, set_trans, bindM, get_con, put_con, ret. cbn.
    destruct (g_has_begin g).
    - rewrite driver_spec. cbn. destruct (drv (length (s_log s))) as [v | e] eqn:D.
      + eexists. left. split; [reflexivity |]. cbn.
        destruct (durable_skip (s_log s) (KBegin (c_raw (s_con s)), Returns v) (c_raw (s_con s)) I P). auto.
      + exists s. right. eauto.
    - eexists. left. split; [reflexivity |]. cbn. auto. }
  destruct B as (s1 & [(E1 & T1 & R1 & D1 & P1) | (e & s1' & E1)]); rewrite E1 in H; [| discriminate].
  (* cursor *)
  unfold bindM at 1 in H. cbn [do_op] in H.
  destruct (bindM (cursor g drv) (fun _ => ret None) s1) as [[v2 | e2] s2] eqn:E2; [| discriminate].
  assert (C : c_trans (s_con s2) = true /\ c_raw (s_con s2) = c_raw (s_con s1) /\
     k_raw (s_cur s2) = c_raw (s_con s1) /\ durable (s_log s2) = durable (s_log s1) /\
     (forall q, ~ In (c_raw (s_con s), q) (wk_pending (work_of (s_log s2))))).
  { unfold cursor, con_cursor, bindM, get_con, ret in E2. rewrite T1 in E2. cbn beta iota zeta in E2.
    unfold overused in E2. rewrite andb_false_r in E2. unfold attempt, driver_new in E2. rewrite driver_spec in E2.
    destruct (drv (length (s_log s1))) as [v | e] eqn:D.
    - cbn in E2. injection E2 as <- <-. cbn.
      destruct (durable_skip (s_log s1) (KCursor (c_raw (s_con s1)), Returns v) (c_raw (s_con s)) I P1). auto.
    - exfalso. cbn in E2. destruct (g_failures g (x_class e)); cbn in E2; [| discriminate].
      set (sx := St _ _ _) in E2. destruct (create g drv sx) as [[raw | e4] s4]; cbn in E2.
      + destruct (driver drv (KCursor raw) s4) as [[v | e5] s5]; cbn in E2.
        * destruct (c_closed (s_con s5)); [cbn in E2; discriminate E2 |].
          destruct (quiet_ret drv (KClose (c_raw (s_con s5))) s5) as (s6 & E6). unfold bindM in E2. rewrite E6 in E2.
          cbn in E2. discriminate E2.
        * destruct (quiet_ret drv (KClose raw) s5) as (s6 & E6). rewrite E6 in E2. cbn in E2. discriminate E2.
      + discriminate. }
  destruct C as (T2 & R2 & K2 & D2 & P2).
  (* statements *)
  rewrite do_ops_app in H.
  destruct (do_ops g drv (map OExec l) s2) as [[u | e3] s3] eqn:E3; [| discriminate]. destruct u.
  destruct (execs_transaction l s2 s3 T2 E3) as (vs & Lv & L3 & R3 & T3 & K3).
  (* commit *)
  cbn [do_ops do_op] in H. unfold commit, finish, set_trans, bindM, get_con, put_con, attempt, ret in H.
  rewrite driver_spec in H. cbn in H.
  destruct (drv (length (s_log s3))) as [v | e] eqn:D.
  - cbn in H. injection H as <-. cbn. rewrite L3, R3, R2, R1, K2, R1, <- app_assoc.
    rewrite durable_commit by auto. rewrite D2, D1. reflexivity.
  - exfalso. destruct (g_failures g (x_class e)); [| discriminate].
    destruct (reopen g drv _) as [[? | ?] ?]; discriminate.
Qed.

(** Without [begin], nothing is lost as long as the driver never raises. *)
Lemma execs_quiet : forall l s s',
  N.land 4 (c_ping (s_con s)) = 0%N -> g_maxusage g = 0 ->
  do_ops g drv (map OExec l) s = (Ret tt, s') ->
  (forall i a, nth_error (s_log s') i = Some a -> length (s_log s) <= i -> raised (snd a) = false) ->
  exists vs, length vs = length l /\
    s_log s' = s_log s ++ map (fun p => (KExec (k_raw (s_cur s)) (k_cur (s_cur s)) (fst p), Returns (snd p))) (combine l vs) /\
    c_raw (s_con s') = c_raw (s_con s).
Proof.
  induction l as [| q l IH]; intros s s' PG MU H NR.
  - cbn in H. injection H as <-. exists []. cbn. rewrite app_nil_r. auto.
  - cbn [map do_ops do_op] in H. unfold bindM in H. destruct (execute g drv q s) as [o s1] eqn:E.
    assert (X : exists d, s_log s1 = s_log s ++ (KExec (k_raw (s_cur s)) (k_cur (s_cur s)) q, drv (length (s_log s))) :: d).
    { unfold execute, bindM, get_con, get_cur, attempt in E.
      assert (PE : (if c_trans (s_con s) then ret tt else ping_check g drv 4) s = (Ret tt, s)).
      { destruct (c_trans (s_con s)); [easy |]. unfold ping_check, bindM, get_con. rewrite PG. easy. }
      rewrite PE in E. cbn beta iota zeta in E.
      unfold overused in E. rewrite MU in E. cbn [Nat.eqb negb andb] in E. rewrite driver_spec in E.
      set (s2 := St _ _ _) in E. 
      destruct (drv (length (s_log s))) as [v | e] eqn:D.
      - injection E as <- <-. exists []. cbn. easy.
      - destruct (negb (g_failures g (x_class e))); [injection E as <- <-; exists []; easy |].
        assert (X : exists d, s_log s1 = s_log s2 ++ d).
        { destruct (second_try_spec g drv q s2) as (r & s3 & d3 & E3 & L3 & _).
          destruct (c_trans (s_con s)).
          - unfold ret at 1 in E. unfold third_try, bindM, attempt in E.
            destruct (create g drv s2) as [[raw | e4] s4] eqn:C.
            + destruct (create_no_exec g drv _ _ _ C) as (d4 & L4 & _).
              destruct (driver_new drv (KCursor raw) s4) as [[k | e5] s5] eqn:D5;
                destruct (only_new no_exec drv (KCursor raw) eq_refl _ _ _ D5) as (d5 & L5 & _).
              * destruct (switch_ret drv raw k s5) as (s6 & E6). rewrite E6 in E.
                destruct (switch_no_exec drv raw k _ _ _ E6) as (d6 & L6 & _).
                injection E as <- <-. exists (d4 ++ d5 ++ d6). rewrite L6, L5, L4, !app_assoc. easy.
              * destruct (quiet_ret drv (KClose raw) s5) as (s6 & E6). rewrite E6 in E.
                destruct (quiet_no_exec drv (KClose raw) eq_refl _ _ _ E6) as (d6 & L6 & _).
                injection E as <- <-. exists (d4 ++ d5 ++ d6). rewrite L6, L5, L4, !app_assoc. easy.
            + destruct (create_no_exec g drv _ _ _ C) as (d4 & L4 & _). injection E as <- <-. eauto.
          - rewrite E3 in E. destruct r as [v |].
            + injection E as <- <-. eauto.
            + destruct (third_try_spec g drv q e s3) as (o3 & s4 & d4 & E4 & L4 & _). rewrite E4 in E.
              injection E as <- <-. exists (d3 ++ d4). rewrite L4, L3, app_assoc. easy. }
        destruct X as (d & Ld). exists d. rewrite Ld. unfold s2. cbn. rewrite <- app_assoc. easy. }
    destruct X as (d & L1).
    destruct o as [v | e]; [| discriminate].
    assert (GL : exists d2, s_log s' = s_log s1 ++ d2).
    { destruct (h_do_ops (fun _ _ => True) 0 (fun _ _ _ _ _ => I) (fun _ _ _ _ => I) g drv 0 (map OExec l) s1) as (_ & (d2 & L2 & _) & _).
      - repeat split. cbn. lia.
      - lia.
      - rewrite H in L2. eauto. }
    destruct GL as (d2 & L2).
    assert (ND : raised (drv (length (s_log s))) = false).
    { apply (NR (length (s_log s)) (KExec (k_raw (s_cur s)) (k_cur (s_cur s)) q, drv (length (s_log s)))); [| lia].
      rewrite L2, L1, <- app_assoc, nth_error_app2, Nat.sub_diag by lia. easy. }
    destruct (drv (length (s_log s))) as [v1 | e1] eqn:D; [| discriminate].
    assert (S1 : s1 = St (s_log s ++ [(KExec (k_raw (s_cur s)) (k_cur (s_cur s)) q, Returns v1)])
                   (Con (c_raw (s_con s)) (c_trans (s_con s)) (c_closed (s_con s)) (S (c_usage (s_con s))) (c_ping (s_con s)))
                   (s_cur s)).
    { revert E. unfold execute, bindM, get_con, get_cur, attempt.
      assert (PE : (if c_trans (s_con s) then ret tt else ping_check g drv 4) s = (Ret tt, s)).
      { destruct (c_trans (s_con s)); [easy |]. unfold ping_check, bindM, get_con. rewrite PG. easy. }
      rewrite PE. cbn beta iota zeta. unfold overused. rewrite MU. cbn [Nat.eqb negb andb]. rewrite driver_spec, D.
      cbn. intros [= _ <-]. easy. }
    subst s1. cbn [s_log s_con s_cur] in *.
    match type of H with do_ops _ _ _ ?t = _ => pose proof (IH t s' PG MU H) as IH1 end.
    destruct IH1 as (vs & Lv & L3 & R3); [intros i a Hi Hl; apply (NR i a Hi); cbn in Hl; rewrite app_length in Hl; lia |].
    exists (v1 :: vs). cbn [s_log s_con s_cur c_raw] in *. rewrite L3, R3. cbn. rewrite <- app_assoc. auto.
Qed.

Lemma batch_quiet : forall l s s',
  N.land 2 (c_ping (s_con s)) = 0%N -> N.land 4 (c_ping (s_con s)) = 0%N -> g_maxusage g = 0 ->
  (forall q, ~ In (c_raw (s_con s), q) (wk_pending (work_of (s_log s)))) ->
  do_ops g drv (OCursor :: map OExec l ++ [OCommit]) s = (Ret tt, s') ->
  (forall i a, nth_error (s_log s') i = Some a -> length (s_log s) <= i -> raised (snd a) = false) ->
  durable (s_log s') = durable (s_log s) ++ l.
Proof.
  intros l s s' PG2 PG4 MU P H NR. cbn [do_ops] in H. unfold bindM at 1 in H. cbn [do_op] in H.
  destruct (bindM (cursor g drv) (fun _ => ret None) s) as [[v2 | e2] s2] eqn:E2; [| discriminate].
  assert (GL : exists d, s_log s' = s_log s2 ++ d).
  { destruct (h_do_ops (fun _ _ => True) 0 (fun _ _ _ _ _ => I) (fun _ _ _ _ => I) g drv 0 (map OExec l ++ [OCommit]) s2) as (_ & (d2 & L2 & _) & _).
    - repeat split. cbn. lia.
    - lia.
    - rewrite H in L2. eauto. }
  destruct GL as (d & GL).
  assert (C : exists v, s2 = St (s_log s ++ [(KCursor (c_raw (s_con s)), Returns v)]) (s_con s)
      (Cur (c_raw (s_con s)) (length (s_log s)) false)).
  { unfold cursor, con_cursor, bindM, get_con in E2.
    assert (PE : (if c_trans (s_con s) then ret tt else ping_check g drv 2) s = (Ret tt, s)).
    { destruct (c_trans (s_con s)); [easy |]. unfold ping_check, bindM, get_con. rewrite PG2. easy. }
    cbv zeta in E2. rewrite PE in E2. cbn beta iota zeta in E2.
    unfold overused in E2. rewrite MU in E2. cbn [Nat.eqb negb andb] in E2.
    unfold attempt, driver_new in E2. rewrite driver_spec in E2.
    destruct (drv (length (s_log s))) as [v | e] eqn:D.
    - cbn in E2. injection E2 as _ <-. eauto.
    - exfalso. assert (Q : exists d1, s_log s2 = s_log s ++ (KCursor (c_raw (s_con s)), Raises e) :: d1).
      { set (sx := St _ _ _) in E2.
        assert (X : exists d1, s_log s2 = s_log sx ++ d1).
        { revert E2. cbn beta iota zeta. 
          destruct (g_failures g (x_class e)); cbn [negb].
          2:{ discriminate. }
          destruct (create g drv sx) as [[raw | e4] s4] eqn:C4; destruct (create_no_exec g drv _ _ _ C4) as (d4 & L4 & _).
          - destruct (driver drv (KCursor raw) s4) as [[v | e5] s5] eqn:D5;
              destruct (only_driver no_exec drv (KCursor raw) eq_refl _ _ _ D5) as (d5 & L5 & _).
            + destruct (close_con drv s5) as [[v6 | e6] s6] eqn:E6;
                destruct (close_con_no_exec drv _ _ _ E6) as (d6 & L6 & _).
              * unfold store_con, bindM, get_con, put_con.
                destruct (c_trans (s_con s)); cbn; unfold raise, ret; cbn; [discriminate |]; intros [= _ <-]; cbn;
                  exists (d4 ++ d5 ++ d6); rewrite L6, L5, L4, !app_assoc; easy.
              * discriminate.
            + destruct (quiet_ret drv (KClose raw) s5) as (s6 & E6). rewrite E6.
              destruct (quiet_no_exec drv (KClose raw) eq_refl _ _ _ E6) as (d6 & L6 & _).
              unfold set_trans, bindM, get_con, put_con, raise.
              destruct (c_trans (s_con s)); cbn; discriminate.
          - unfold set_trans, bindM, get_con, put_con, raise.
            destruct (c_trans (s_con s)); cbn; discriminate. }
        destruct X as (d1 & X). exists d1. rewrite X. unfold sx. cbn. rewrite <- app_assoc. easy. }
      destruct Q as (d1 & Q).
      assert (BAD : raised (Raises e) = false); [| discriminate].
      apply (NR (length (s_log s)) (KCursor (c_raw (s_con s)), Raises e)); [| lia].
      rewrite GL, Q, <- app_assoc, nth_error_app2, Nat.sub_diag by lia. easy. }
  destruct C as (v & ->). cbn [s_log] in *.
  destruct (durable_skip (s_log s) (KCursor (c_raw (s_con s)), Returns v) (c_raw (s_con s)) I P) as (D1 & P1).
  rewrite do_ops_app in H. set (s2 := St _ _ _) in *.
  destruct (do_ops g drv (map OExec l) s2) as [[u | e3] s3] eqn:E3; [| discriminate]. destruct u.
  cbn [do_ops do_op] in H. unfold commit, finish, set_trans, bindM, get_con, put_con, attempt, ret in H.
  rewrite driver_spec in H. cbn in H.
  destruct (drv (length (s_log s3))) as [vc | e] eqn:D.
  - cbn in H. injection H as <-. cbn in *.
    destruct (execs_quiet l s2 s3 PG4 MU E3) as (vs & Lv & L3 & R3).
    { intros i a Hi Hl. apply (NR i a).
      - rewrite nth_error_app1; [exact Hi |]. apply nth_error_Some. congruence.
      - unfold s2 in Hl. cbn in Hl. rewrite app_length in Hl. lia. }
    rewrite L3, R3. unfold s2. cbn. rewrite <- app_assoc.
    pose proof (durable_commit (s_log s ++ [(KCursor (c_raw (s_con s)), Returns v)]) (c_raw (s_con s)) l vs vc (length (s_log s)) Lv P1) as DC.
    rewrite D1 in DC. exact DC.
  - exfalso. destruct (g_failures g (x_class e)); [| discriminate].
    destruct (reopen g drv _) as [[? | ?] ?]; discriminate.
Qed.
End Batch.
