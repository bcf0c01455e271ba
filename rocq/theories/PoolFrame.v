(** * What the connections of a pool do to the database *)
From Coq Require Import List Arith NArith ZArith Bool Lia Permutation.
From Verif Require Import SteadyModel SteadySpec SteadyProof SteadyFrame PoolModel PoolSpec PoolProof.
Import ListNotations.
Open Scope steady_scope.

(** ** The connection object after a ping, a reset, a client's calls *)

Definition no_touch (k : call) : bool := match k with KExec _ _ _ | KBegin _ => false | _ => true end.

Section Con.
Variable g : cfg.
Variable drv : nat -> answer.

(** The same connection, or a raw connection opened since the log had [n] entries. *)
Definition same_or_new (n : nat) (c c1 : con) : Prop :=
  (c_raw c1 = c_raw c /\ c_trans c1 = c_trans c /\ c_closed c1 = c_closed c) \/
  (n <= c_raw c1 /\ c_trans c1 = false /\ c_closed c1 = false).

Definition pure_con {A} (m : M A) : Prop := forall s, s_con (snd (m s)) = s_con s.
Lemma pc_ret : forall A (a : A), pure_con (ret a). Proof. easy. Qed.
Lemma pc_raise : forall A e, pure_con (@raise A e). Proof. easy. Qed.
Lemma pc_driver : forall k, pure_con (driver drv k).
Proof. intros k s. rewrite driver_spec. reflexivity. Qed.
Lemma pc_new : forall k, pure_con (driver_new drv k).
Proof. intros k s. unfold driver_new. rewrite driver_spec. destruct (drv _); reflexivity. Qed.
Lemma pc_bind : forall A B (m : M A) (f : A -> M B), pure_con m -> (forall a, pure_con (f a)) -> pure_con (bindM m f).
Proof.
  intros A B m f Hm Hf s. unfold bindM. specialize (Hm s). destruct (m s) as [[a | e] s1]; cbn in *; [| exact Hm].
  rewrite Hf. exact Hm.
Qed.
Lemma pc_attempt : forall A (m : M A), pure_con m -> pure_con (attempt m).
Proof. intros A m Hm s. unfold attempt. specialize (Hm s). destruct (m s); exact Hm. Qed.
Lemma pc_session : forall l raw, pure_con (session_loop drv raw l).
Proof. induction l; intros raw; cbn; [apply pc_ret |]. apply pc_bind; [apply pc_driver | intros; apply IHl]. Qed.
Lemma pc_create : pure_con (create g drv).
Proof.
  unfold create. apply pc_bind; [apply pc_new |]. intros raw. apply pc_bind.
  - apply pc_attempt. unfold setsession. destruct (g_session g); [apply pc_ret |].
    apply pc_bind; [apply pc_new |]. intros k. apply pc_bind; [apply pc_session |]. intros.
    apply pc_bind; [apply pc_driver |]. intros. apply pc_ret.
  - intros [u | e]; [apply pc_ret |]. apply pc_bind; [| intros; apply pc_raise].
    unfold quiet. apply pc_bind; [apply pc_attempt, pc_driver | intros; apply pc_ret].
Qed.

Lemma create_raw : forall s raw s1, create g drv s = (Ret raw, s1) -> length (s_log s) = raw.
Proof.
  intros s raw s1 H. unfold create, bindM, driver_new in H. rewrite driver_spec in H.
  destruct (drv (length (s_log s))) as [v | e]; [| discriminate]. cbn in H.
  destruct (attempt _ _) as [[[u | e] | e] s2]; [injection H as <- _; reflexivity | | discriminate].
  destruct (quiet drv _ s2) as [[u | e1] s3]; discriminate.
Qed.

Lemma close_con_ret : forall s, fst (close_con drv s) = Ret tt.
Proof.
  intros s. unfold close_con, bindM, get_con. destruct (c_closed (s_con s)); [reflexivity |].
  destruct (quiet_ret drv (KClose (c_raw (s_con s))) s) as (s3 & Q). rewrite Q. reflexivity.
Qed.
Lemma reopen_con : forall s, same_or_new (length (s_log s)) (s_con s) (s_con (snd (reopen g drv s))).
Proof.
  intros s. unfold reopen, bindM, attempt. pose proof (pc_create s) as P.
  destruct (create g drv s) as [[raw | e] s1] eqn:E; cbn [snd] in *.
  - right. apply create_raw in E. pose proof (close_con_ret s1) as C.
    destruct (close_con drv s1) as [o s2]. cbn [fst] in C. subst o. cbn. repeat split; lia.
  - left. cbn. rewrite P. auto.
Qed.

Lemma son_trans_log : forall n m c c1, n <= m -> same_or_new m c c1 -> same_or_new n c c1.
Proof. intros n m c c1 L [H | (A & B & C)]; [left; exact H | right; repeat split; auto; lia]. Qed.

Lemma ping_con : forall b s, same_or_new (length (s_log s)) (s_con s) (s_con (snd (ping_check g drv b s))).
Proof.
  intros b s. unfold ping_check, bindM, get_con. destruct (N.eqb _ _); [left; auto |].
  unfold attempt. rewrite driver_spec. cbn [s_con].
  assert (X : forall s1, c_raw (s_con s1) = c_raw (s_con s) -> c_trans (s_con s1) = c_trans (s_con s) ->
    c_closed (s_con s1) = c_closed (s_con s) -> length (s_log s) <= length (s_log s1) ->
    same_or_new (length (s_log s)) (s_con s) (s_con (snd (reopen g drv s1)))).
  { intros s1 A B C L. pose proof (reopen_con s1) as R. apply (son_trans_log _ _ _ _ L) in R.
    destruct R as [(A1 & B1 & C1) | R]; [left; rewrite A1, B1, C1; auto | right; exact R]. }
  repeat match goal with
  | |- context [reopen g drv ?x] =>
      let Y := fresh in assert (Y : same_or_new (length (s_log s)) (s_con s) (s_con (snd (reopen g drv x))))
        by (apply X; cbn; rewrite ?app_length; cbn; auto; lia);
      destruct (reopen g drv x) as [[? | ?] ?]; cbn in *
  | |- context [match drv ?n with _ => _ end] => destruct (drv n) as [[? |] | ?]; cbn
  | |- context [driver drv ?k ?x] => rewrite driver_spec; cbn
  | |- context [if ?b then _ else _] => destruct b; cbn
  | |- context [match ?x with _ => _ end] => destruct x; cbn
  end; auto; left; auto.
Qed.

(** [_reset(True)] on an open connection: a rollback, then perhaps a new connection. *)
Lemma reopen_no_touch : only no_touch (reopen g drv).
Proof.
  unfold reopen, store_con, create, setsession, close_con, quiet.
  assert (X : forall l raw, only no_touch (session_loop drv raw l)).
  { induction l; intros raw; cbn; [apply only_ret |]. apply only_bind; [apply only_driver; reflexivity | intros; apply IHl]. }
  apply only_bind; [apply only_attempt |].
  - apply only_bind; [apply only_new; reflexivity |]. intros raw. apply only_bind.
    + apply only_attempt. destruct (g_session g) as [| q l]; [apply only_ret |].
      apply only_bind; [apply only_new; reflexivity |]. intros k. apply only_bind; [exact (X (q :: l) raw) |].
      intros. apply only_bind; [apply only_driver; reflexivity | intros; apply only_ret].
    + intros [u | e]; [apply only_ret |]. apply only_bind; [| intros; apply only_raise].
      apply only_bind; [apply only_attempt, only_driver; reflexivity | intros; apply only_ret].
  - intros [raw | e]; [| apply only_ret]. apply only_bind.
    + apply only_bind; [apply only_get_con |]. intros c. apply only_if; [apply only_ret |].
      apply only_bind; [apply only_bind; [apply only_attempt, only_driver; reflexivity | intros; apply only_ret] |].
      intros. apply only_put_con.
    + intros. apply only_bind; [| intros; apply only_ret].
      apply only_bind; [apply only_get_con | intros; apply only_put_con].
Qed.
Lemma ping_no_touch : forall b, only no_touch (ping_check g drv b).
Proof.
  intros b. unfold ping_check. apply only_bind; [apply only_get_con |]. intros c. apply only_if; [apply only_ret |].
  apply only_bind; [apply only_attempt, only_driver; reflexivity |]. intros r.
  apply only_bind.
  - destruct r; [apply only_ret |]. apply only_if; [apply only_attempt, only_driver; reflexivity | apply only_ret].
  - intros r1. apply only_bind.
    + destruct r1 as [[v |] | e]; try apply only_ret. apply only_if; [| apply only_ret].
      apply only_bind; [apply only_put_con | intros; apply only_ret].
    + intros rc. apply only_if; [| apply only_ret]. apply only_bind; [apply reopen_no_touch | intros; apply only_ret].
Qed.

Definition after_rollback (s : st) : st :=
  St (s_log s ++ [(KRollback (c_raw (s_con s)), drv (length (s_log s)))])
     (Con (c_raw (s_con s)) false (c_closed (s_con s)) (c_usage (s_con s)) (c_ping (s_con s))) (s_cur s).
Lemma reset_eq : forall s, c_closed (s_con s) = false ->
  snd (reset g drv true s) = match drv (length (s_log s)) with
    | Raises e => if g_failures g (x_class e) then snd (reopen g drv (after_rollback s)) else after_rollback s
    | _ => after_rollback s
    end.
Proof.
  intros s Hc. unfold reset, bindM at 1, get_con at 1. rewrite Hc. cbn [negb orb andb].
  unfold bindM at 1, attempt at 1, rollback, finish.
  unfold bindM at 1. unfold set_trans at 1. unfold bindM at 1, get_con at 1, put_con at 1.
  unfold bindM at 1, get_con at 1. cbn [s_con c_raw]. unfold bindM at 1, attempt at 1. rewrite driver_spec.
  cbn [s_log s_con s_cur]. fold (after_rollback s).
  destruct (drv (length (s_log s))) as [v | e]; [reflexivity |].
  destruct (g_failures g (x_class e)); [| reflexivity]. unfold bindM.
  destruct (reopen g drv (after_rollback s)) as [[] ?]; reflexivity.
Qed.

Lemma reset_true : forall s s1, c_closed (s_con s) = false -> snd (reset g drv true s) = s1 ->
  c_trans (s_con s1) = false /\ c_closed (s_con s1) = false /\
  (c_raw (s_con s1) = c_raw (s_con s) \/ length (s_log s) <= c_raw (s_con s1)) /\
  exists a d, s_log s1 = s_log s ++ (KRollback (c_raw (s_con s)), a) :: d /\ Forall (fun e => no_touch (fst e) = true) d.
Proof.
  intros s s1 Hc H. rewrite (reset_eq s Hc) in H. set (s0 := after_rollback s) in *.
  assert (H0 : c_trans (s_con s0) = false /\ c_closed (s_con s0) = false /\
    (c_raw (s_con s0) = c_raw (s_con s) \/ length (s_log s) <= c_raw (s_con s0)) /\
    exists a d, s_log s0 = s_log s ++ (KRollback (c_raw (s_con s)), a) :: d /\ Forall (fun e => no_touch (fst e) = true) d).
  { cbn. rewrite Hc. repeat split; auto. exists (drv (length (s_log s))), []. auto. }
  assert (L0 : length (s_log s) <= length (s_log s0)) by (cbn; rewrite app_length; lia).
  destruct (drv (length (s_log s))) as [v | e]; [subst s1; exact H0 |].
  destruct (g_failures g (x_class e)); [| subst s1; exact H0].
  pose proof (reopen_con s0) as R. destruct (reopen g drv s0) as [o s2] eqn:E. cbn [snd] in *. subst s2.
  destruct (reopen_no_touch _ _ _ E) as (d2 & L2 & F2). clearbody s0.
  destruct H0 as (T0 & C0 & R0 & a & d & Ld & Fd). split; [| split; [| split]].
  - destruct R as [(_ & R & _) | (_ & R & _)]; congruence.
  - destruct R as [(_ & _ & R) | (_ & _ & R)]; congruence.
  - destruct R as [(R & _ & _) | (R & _)]; [rewrite R; exact R0 | right; lia].
  - exists a, (d ++ d2). rewrite L2, Ld, <- app_assoc. split; [reflexivity |]. apply Forall_app; auto.
Qed.
End Con.

(** ** Closedness: a client's calls never leave its connection closed *)

Section Open.
Variable g : cfg.
Variable drv : nat -> answer.

Definition ho {A} (Q : A -> Prop) (m : M A) : Prop := forall s, c_closed (s_con s) = false ->
  c_closed (s_con (snd (m s))) = false /\ match fst (m s) with Ret a => Q a | Raise _ => True end.
Definition any {A} (a : A) : Prop := True.

Lemma o_pure : forall A (m : M A), pure_con m -> ho any m.
Proof. intros A m H s C. rewrite H. split; [exact C |]. destruct (fst (m s)); exact I. Qed.
Lemma o_bind : forall A B (Q : A -> Prop) (R : B -> Prop) m f, ho Q m -> (forall a, Q a -> ho R (f a)) -> ho R (bindM m f).
Proof.
  intros A B Q R m f Hm Hf s C. unfold bindM. specialize (Hm s C). destruct (m s) as [[a | e] s1]; cbn in *.
  - destruct Hm as (C1 & HQ). apply (Hf a HQ s1 C1).
  - split; [apply Hm | exact I].
Qed.
Lemma o_attempt : forall A (Q : A -> Prop) m, ho Q m -> ho any (attempt m).
Proof.
  intros A Q m Hm s C. unfold attempt. specialize (Hm s C). destruct (m s) as [o s1]. cbn in *. split; [apply Hm | exact I].
Qed.
Lemma o_get : ho (fun c => c_closed c = false) get_con.
Proof. intros s C. cbn. auto. Qed.
Lemma o_getk : ho any get_cur. Proof. intros s C. cbn. split; [exact C | exact I]. Qed.
Lemma o_put : forall c, c_closed c = false -> ho any (put_con c).
Proof. intros c H s C. cbn. split; [exact H | exact I]. Qed.
Lemma o_putk : forall c, ho any (put_cur c). Proof. intros c s C. cbn. split; [exact C | exact I]. Qed.
Lemma o_ret : forall A (a : A), ho any (ret a). Proof. intros A a s C. cbn. split; [exact C | exact I]. Qed.
Lemma o_raise : forall A e, ho any (@raise A e). Proof. intros A a s C. cbn. split; [exact C | exact I]. Qed.
Lemma o_driver : forall k, ho any (driver drv k). Proof. intros. apply o_pure, pc_driver. Qed.
Lemma o_new : forall k, ho any (driver_new drv k). Proof. intros. apply o_pure, pc_new. Qed.
Lemma o_create : ho any (create g drv). Proof. apply o_pure, pc_create. Qed.
Lemma o_quiet : forall k, ho any (quiet drv k).
Proof. intros. unfold quiet. eapply o_bind; [eapply o_attempt, o_driver |]. intros. apply o_ret. Qed.
Lemma o_if : forall A (Q : A -> Prop) (b : bool) m1 m2, ho Q m1 -> ho Q m2 -> ho Q (if b then m1 else m2).
Proof. intros A Q []; auto. Qed.
Lemma o_son : forall A (m : M A), (forall s, same_or_new (length (s_log s)) (s_con s) (s_con (snd (m s)))) -> ho any m.
Proof.
  intros A m H s C. split; [| destruct (fst (m s)); exact I]. destruct (H s) as [(_ & _ & E) | (_ & _ & E)]; congruence.
Qed.
Lemma o_reopen : ho any (reopen g drv). Proof. apply o_son, reopen_con. Qed.
Lemma o_ping : forall b, ho any (ping_check g drv b). Proof. intros. apply o_son, ping_con. Qed.
Lemma o_trans : forall b, ho any (set_trans b).
Proof. intros. unfold set_trans. eapply o_bind; [apply o_get |]. intros c H. apply o_put. exact H. Qed.
Lemma o_use : ho any use_con.
Proof. unfold use_con. eapply o_bind; [apply o_get |]. intros c H. apply o_put. exact H. Qed.
(** [_close(); _store(...)] leaves the connection open whatever it was. *)
Lemma o_renew : forall A (Q : A -> Prop) raw (m : M A), ho Q m -> ho Q (close_con drv ;; store_con raw ;; m).
Proof.
  intros A Q raw m Hm s C. unfold bindM. pose proof (close_con_ret drv s) as E.
  destruct (close_con drv s) as [o s1]. cbn in E. subst o. cbn. apply Hm. reflexivity.
Qed.

Ltac open_tac := repeat (first
  [ apply o_renew | apply o_reopen | apply o_ping | apply o_trans | apply o_use | apply o_create | apply o_quiet
  | eapply o_bind; [solve [apply o_get] | intros ? ?] | eapply o_bind; [| intros ? _]
  | apply o_ret | apply o_raise | eapply o_attempt
  | apply o_getk | apply o_putk | apply o_put; assumption | apply o_driver | apply o_new
  | match goal with
    | |- ho _ (if ?b then _ else _) => destruct b
    | |- ho _ (match ?x with _ => _ end) => destruct x
    end ]).

Lemma o_begin : ho any (begin g drv). Proof. unfold begin. open_tac. Qed.
Lemma o_cancel : ho any (cancel g drv). Proof. unfold cancel. open_tac. Qed.
Lemma o_finish : forall k, ho any (finish g drv k). Proof. intros. unfold finish. open_tac. Qed.
Lemma o_reset : forall f, ho any (reset g drv f).
Proof. intros f. unfold reset, rollback. eapply o_bind; [apply o_get |]. intros. apply o_if; [| apply o_ret].
  eapply o_bind; [eapply o_attempt, o_finish | intros; apply o_ret]. Qed.
Lemma o_con_cursor : ho any (con_cursor g drv).
Proof. unfold con_cursor. cbv zeta. open_tac. Qed.
Lemma o_close_cur : ho any (close_cur drv). Proof. unfold close_cur. open_tac. Qed.
Lemma o_switch : forall raw k, ho any (switch drv raw k).
Proof.
  intros. unfold switch. eapply o_bind; [apply o_close_cur |]. intros ? _. apply o_renew. unfold set_cur. open_tac.
Qed.
Lemma o_set_cur : forall raw k, ho any (set_cur raw k). Proof. intros. unfold set_cur. open_tac. Qed.
Lemma o_execute : forall sql, ho any (execute g drv sql).
Proof.
  intros sql. unfold execute. cbv zeta. eapply o_bind; [apply o_get |]. intros c0 _.
  eapply o_bind; [apply o_if; [apply o_ret | apply o_ping] |]. intros ? _.
  eapply o_bind; [apply o_get |]. intros c _. eapply o_bind; [apply o_getk |]. intros k _.
  eapply o_bind; [eapply o_attempt, o_if; [apply o_raise | apply o_driver] |]. intros [v | e] _.
  { open_tac. }
  apply o_if; [apply o_raise |]. eapply o_bind.
  - apply o_if; [apply o_ret |]. unfold second_try. eapply o_bind; [eapply o_attempt, o_con_cursor |].
    intros [[raw k2] | e2] _; [| apply o_ret]. eapply o_bind; [eapply o_attempt, o_driver |]. intros [v | e2] _.
    + eapply o_bind; [apply o_close_cur |]. intros ? _. eapply o_bind; [apply o_set_cur |]. intros ? _. open_tac.
    + open_tac.
  - intros [v |] _; [apply o_ret |]. unfold third_try. eapply o_bind; [eapply o_attempt, o_create |].
    intros [raw | e2] _; [| apply o_raise]. eapply o_bind; [eapply o_attempt, o_new |].
    intros [k2 | e2] _; [| open_tac]. apply o_if.
    + eapply o_bind; [apply o_switch |]. intros. apply o_raise.
    + eapply o_bind; [eapply o_attempt, o_driver |]. intros [v | e3] _.
      * eapply o_bind; [apply o_switch |]. intros ? _. open_tac.
      * apply o_if; [open_tac |]. eapply o_bind; [apply o_switch |]. intros ? _. open_tac.
Qed.
Lemma o_do_op : forall o, ho any (do_op g drv o).
Proof.
  intros []; cbn [do_op].
  1: eapply o_bind; [apply o_begin |].
  2, 3: eapply o_bind; [apply o_finish |].
  4: eapply o_bind; [apply o_cancel |].
  5: unfold cursor; eapply o_bind; [eapply o_bind; [apply o_con_cursor | intros; apply o_putk] |].
  6: apply o_execute.
  all: intros; apply o_ret.
Qed.
Lemma o_do_ops : forall l, ho any (do_ops g drv l).
Proof. induction l; cbn; [apply o_ret |]. eapply o_bind; [apply o_do_op |]. intros. apply IHl. Qed.
End Open.
