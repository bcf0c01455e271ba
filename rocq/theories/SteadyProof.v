From Coq Require Import List Arith NArith ZArith Bool Lia.
From Verif Require Import SteadyModel SteadySpec.
Import ListNotations.
Open Scope steady_scope.

(** ** Driver calls made by a method *)

Definition only {A} (P : call -> bool) (m : M A) : Prop :=
  forall s o s', m s = (o, s') ->
    exists d, s_log s' = s_log s ++ d /\ Forall (fun e => P (fst e) = true) d.

Section Only.
Variable P : call -> bool.
Variable g : cfg.
Variable drv : nat -> answer.

Lemma only_ret : forall A (a : A), only P (ret a).
Proof. intros A a s o s' [= <- <-]. exists []. rewrite app_nil_r. auto. Qed.
Lemma only_raise : forall A e, only P (@raise A e).
Proof. intros A a s o s' [= <- <-]. exists []. rewrite app_nil_r. auto. Qed.
Lemma only_bind : forall A B (m : M A) (f : A -> M B),
  only P m -> (forall a, only P (f a)) -> only P (bindM m f).
Proof.
  intros A B m f Hm Hf s o s' H. unfold bindM in H.
  destruct (m s) as [[a | e] s1] eqn:E.
  - destruct (Hm _ _ _ E) as (d1 & L1 & F1). destruct (Hf _ _ _ _ H) as (d2 & L2 & F2).
    exists (d1 ++ d2). rewrite L2, L1, app_assoc. split; [easy | apply Forall_app; auto].
  - injection H as <- <-. apply (Hm _ _ _ E).
Qed.
Lemma only_attempt : forall A (m : M A), only P m -> only P (attempt m).
Proof.
  intros A m Hm s o s' H. unfold attempt in H. destruct (m s) as [o1 s1] eqn:E.
  injection H as <- <-. apply (Hm _ _ _ E).
Qed.
Lemma only_get_con : only P get_con.
Proof. intros s o s' [= <- <-]. exists []. rewrite app_nil_r. auto. Qed.
Lemma only_get_cur : only P get_cur.
Proof. intros s o s' [= <- <-]. exists []. rewrite app_nil_r. auto. Qed.
Lemma only_put_con : forall c, only P (put_con c).
Proof. intros c s o s' [= <- <-]. exists []. rewrite app_nil_r. auto. Qed.
Lemma only_put_cur : forall c, only P (put_cur c).
Proof. intros c s o s' [= <- <-]. exists []. rewrite app_nil_r. auto. Qed.
Lemma only_driver : forall k, P k = true -> only P (driver drv k).
Proof.
  intros k Hk s o s' H. unfold driver in H.
  exists [(k, drv (length (s_log s)))]. destruct (drv (length (s_log s))); injection H as <- <-; simpl; auto.
Qed.
Lemma only_new : forall k, P k = true -> only P (driver_new drv k).
Proof.
  intros k Hk s o s' H. unfold driver_new in H.
  destruct (driver drv k s) as [[v | e] s1] eqn:E; injection H as <- <-; eapply only_driver; eauto.
Qed.
Lemma only_if : forall A (b : bool) (m1 m2 : M A), only P m1 -> only P m2 -> only P (if b then m1 else m2).
Proof. intros A [] m1 m2 H1 H2; auto. Qed.
End Only.

Create HintDb only.
#[export] Hint Resolve only_ret only_raise only_bind only_attempt only_get_con only_get_cur
  only_put_con only_put_cur only_driver only_new only_if : only.

(** Not a statement of a client. *)
Definition no_exec (k : call) : bool := match k with KExec _ _ _ => false | _ => true end.
(** Neither a statement of a client, nor begin, commit, rollback. *)

Ltac known := fail.
Ltac only_tac := repeat (first
  [ known | apply only_bind; [ | intros ?] | apply only_ret | apply only_raise | apply only_attempt
  | apply only_get_con | apply only_get_cur | apply only_put_con | apply only_put_cur
  | apply only_driver; reflexivity | apply only_new; reflexivity | apply only_if
  | match goal with
    | |- only _ (match ?x with _ => _ end) => destruct x
    end ]).

Section NoExec.
Variable g : cfg.
Variable drv : nat -> answer.

Lemma session_no_exec : forall l raw, only no_exec (session_loop drv raw l).
Proof. induction l; intros raw; simpl; only_tac; auto. Qed.
Ltac known ::= first [apply session_no_exec].
Lemma create_no_exec : only no_exec (create g drv).
Proof. unfold create, setsession, quiet. only_tac. Qed.
Ltac known ::= first [apply session_no_exec | apply create_no_exec].
Lemma close_con_no_exec : only no_exec (close_con drv).
Proof. unfold close_con, quiet. only_tac. Qed.
Ltac known ::= first [apply session_no_exec | apply create_no_exec | apply close_con_no_exec].
Lemma reopen_no_exec : only no_exec (reopen g drv).
Proof.
  unfold reopen, store_con. only_tac.
Qed.
Ltac known ::= first [apply session_no_exec | apply create_no_exec | apply close_con_no_exec | apply reopen_no_exec].
Lemma ping_no_exec : forall b, only no_exec (ping_check g drv b).
Proof. intros b. unfold ping_check. only_tac. Qed.
Ltac known ::= first [apply session_no_exec | apply create_no_exec | apply close_con_no_exec | apply reopen_no_exec | apply ping_no_exec].
Lemma con_cursor_no_exec : only no_exec (con_cursor g drv).
Proof.
  unfold con_cursor, quiet, store_con, set_trans. cbv zeta.
  only_tac.
Qed.
Ltac known ::= first [apply session_no_exec | apply create_no_exec | apply close_con_no_exec | apply reopen_no_exec | apply ping_no_exec | apply con_cursor_no_exec].
Lemma close_cur_no_exec : only no_exec (close_cur drv).
Proof. unfold close_cur, quiet. only_tac. Qed.
Ltac known ::= first [apply session_no_exec | apply create_no_exec | apply close_con_no_exec | apply reopen_no_exec | apply ping_no_exec | apply con_cursor_no_exec | apply close_cur_no_exec].
Lemma switch_no_exec : forall raw k, only no_exec (switch drv raw k).
Proof.
  intros. unfold switch, store_con, set_cur. only_tac.
Qed.
Lemma use_con_no_exec : only no_exec use_con.
Proof. unfold use_con. only_tac. Qed.
Lemma quiet_no_exec : forall k, no_exec k = true -> only no_exec (quiet drv k).
Proof. intros k H. unfold quiet. apply only_bind; [apply only_attempt, only_driver, H | intros; apply only_ret]. Qed.

Lemma no_exec_attempts : forall d, Forall (fun e => no_exec (fst e) = true) d -> attempts d = [].
Proof.
  induction d as [| [k a] d IH]; intros F; [easy |]. inversion F; subst; clear F.
  simpl. rewrite IH by easy. destruct k; simpl in *; try easy.
Qed.
Arguments attempts : simpl never.
Lemma attempts_app : forall a b, attempts (a ++ b) = attempts a ++ attempts b.
Proof. intros. apply flat_map_app. Qed.

(** A method that sends no client statement. *)
Lemma only_attempts : forall A (m : M A), only no_exec m ->
  forall s o s', m s = (o, s') -> exists d, s_log s' = s_log s ++ d /\ attempts d = [].
Proof.
  intros A m Hm s o s' H. destruct (Hm _ _ _ H) as (d & L & F). exists d. split; [easy |].
  apply no_exec_attempts, F.
Qed.

(** ** C50: inside a transaction *)

Lemma execute_transaction : forall s sql o s',
  c_trans (s_con s) = true ->
  execute g drv sql s = (o, s') ->
  let k := s_cur s in
  let a := drv (length (s_log s)) in
  exists d,
    s_log s' = s_log s ++ (KExec (k_raw k) (k_cur k) sql, a) :: d /\
    attempts d = [] /\
    match a with
    | Returns v => o = Ret v /\ d = [] /\ s_cur s' = s_cur s /\
                   c_raw (s_con s') = c_raw (s_con s) /\ c_trans (s_con s') = true /\
                   c_closed (s_con s') = c_closed (s_con s)
    | Raises e => o = Raise e
    end.
Proof.
  intros s sql o s' T H k a. unfold execute, bindM, get_con, get_cur, ret, attempt in H.
  rewrite T in H. cbn beta iota zeta in H.
  unfold overused in H. rewrite andb_false_r in H. unfold driver in H.
  change (drv (length (s_log s))) with a in H.
  destruct a as [v | e] eqn:Ea.
  - unfold use_con, bindM, get_con, put_con in H. cbn in H. injection H as <- <-.
    exists []. cbn. rewrite T. auto 10.
  - cbn beta iota zeta in H. 
    destruct (g_failures g (x_class e)) eqn:F; cbn [negb] in H.
    + unfold third_try in H. 
      set (s1 := St _ _ _) in H.
      assert (X : exists d, s_log s' = s_log s1 ++ d /\ attempts d = [] /\ o = Raise e).
      { clearbody s1. unfold bindM, attempt in H.
        destruct (create g drv s1) as [[raw | e1] s2] eqn:C.
        - destruct (only_attempts _ _ create_no_exec _ _ _ C) as (d1 & L1 & A1).
          destruct (driver_new drv (KCursor raw) s2) as [[k2 | e2] s3] eqn:D.
          + destruct (only_attempts _ _ (only_new no_exec drv (KCursor raw) eq_refl) _ _ _ D) as (d2 & L2 & A2).
            destruct (switch drv raw k2 s3) as [[x | e3] s4] eqn:W.
            * destruct (only_attempts _ _ (switch_no_exec raw k2) _ _ _ W) as (d3 & L3 & A3).
              injection H as <- <-. exists (d1 ++ d2 ++ d3). rewrite L3, L2, L1, !app_assoc.
              split; [easy |]. rewrite !attempts_app, A1, A2, A3. easy.
            * exfalso. revert W. clear. unfold switch, close_cur, close_con, store_con, set_cur, quiet,
                bindM, attempt, get_cur, get_con, put_con, put_cur, ret. cbn.
              destruct (k_closed _); cbn; repeat (destruct (driver _ _ _); cbn); destruct (c_closed _); cbn;
                repeat (destruct (driver _ _ _); cbn); discriminate.
          + destruct (only_attempts _ _ (only_new no_exec drv (KCursor raw) eq_refl) _ _ _ D) as (d2 & L2 & A2).
            destruct (quiet drv (KClose raw) s3) as [[x | e3] s4] eqn:W.
            * destruct (only_attempts _ _ (quiet_no_exec (KClose raw) eq_refl) _ _ _ W) as (d3 & L3 & A3).
              injection H as <- <-. exists (d1 ++ d2 ++ d3). rewrite L3, L2, L1, !app_assoc.
              split; [easy |]. rewrite !attempts_app, A1, A2, A3. easy.
            * exfalso. revert W. clear. unfold quiet, bindM, attempt, ret. destruct (driver _ _ _); discriminate.
        - destruct (only_attempts _ _ create_no_exec _ _ _ C) as (d1 & L1 & A1).
          injection H as <- <-. exists d1. auto. }
      destruct X as (d & L & A & O). exists d. split; [| split; [exact A | exact O]].
      rewrite L. unfold s1. cbn. rewrite <- app_assoc. reflexivity.
    + unfold raise in H. injection H as <- <-. exists []. cbn. auto.
Qed.

(** ** C51: outside a transaction *)

Lemma quiet_ret : forall k s, exists s', quiet drv k s = (Ret tt, s').
Proof. intros k s. unfold quiet, bindM, attempt, ret. destruct (driver drv k s). eauto. Qed.
Lemma switch_ret : forall raw k s, exists s', switch drv raw k s = (Ret tt, s').
Proof.
  intros raw k s. unfold switch, close_cur, close_con, store_con, set_cur, quiet,
    bindM, attempt, get_cur, get_con, put_con, put_cur, ret. cbn.
  destruct (k_closed _); cbn; repeat (destruct (driver _ _ _); cbn); destruct (c_closed _); cbn;
    repeat (destruct (driver _ _ _); cbn); eauto.
Qed.
Lemma close_cur_ret : forall s, exists s', close_cur drv s = (Ret tt, s').
Proof.
  intros s. unfold close_cur, quiet, bindM, attempt, get_cur, put_cur, ret. cbn.
  destruct (k_closed _); cbn; repeat (destruct (driver _ _ _); cbn); eauto.
Qed.
Lemma ping_ret : forall b s, exists s', ping_check g drv b s = (Ret tt, s').
Proof.
  intros b s. unfold ping_check, bindM, get_con. destruct (N.eqb _ _); [unfold ret; eauto |].
  assert (R : forall s1, exists b1 s2, reopen g drv s1 = (Ret b1, s2)).
  { intros s1. unfold reopen, bindM, attempt, close_con, store_con, get_con, quiet, bindM, attempt, ret, put_con.
    destruct (create g drv s1) as [[raw | e] s2]; [| eauto].
    cbn. destruct (c_closed _); cbn; repeat (destruct (driver _ _ _); cbn); eauto. }
  unfold attempt.
  repeat match goal with
  | |- exists s', (let (_, _) := driver drv ?k ?x in _) = _ => destruct (driver drv k x) as [[? | ?] ?]; cbn
  | |- context [driver drv ?k ?x] => destruct (driver drv k x) as [[[? |] | ?] ?]; cbn
  | |- context [reopen g drv ?x] => destruct (R x) as (? & ? & ->); cbn
  | |- context [if ?b then _ else _] => destruct b; cbn
  end; unfold ret; eauto.
Qed.

Lemma driver_spec : forall k s,
  driver drv k s =
  (match drv (length (s_log s)) with Returns v => Ret v | Raises e => Raise e end,
   St (s_log s ++ [(k, drv (length (s_log s)))]) (s_con s) (s_cur s)).
Proof. intros. unfold driver. destruct (drv _); reflexivity. Qed.

Ltac step_no_exec E lem :=
  let d := fresh "d" in let L := fresh "L" in let A := fresh "A" in
  destruct (only_attempts _ _ lem _ _ _ E) as (d & L & A).

Lemma second_try_spec : forall sql s, exists r s' d,
  second_try g drv sql s = (Ret r, s') /\ s_log s' = s_log s ++ d /\
  match r with
  | Some v => attempts d = [(sql, Returns v)]
  | None => attempts d = [] \/ exists e, attempts d = [(sql, Raises e)]
  end.
Proof.
  intros sql s. unfold second_try, bindM, attempt.
  destruct (con_cursor g drv s) as [[[raw k] | e] s1] eqn:C; step_no_exec C con_cursor_no_exec.
  - rewrite driver_spec. set (s2 := St _ _ _).
    assert (L2 : s_log s2 = s_log s ++ d ++ [(KExec raw k sql, drv (length (s_log s1)))])
      by (unfold s2; cbn; rewrite L, app_assoc; easy).
    clearbody s2. cbn beta iota zeta. destruct (drv (length (s_log s1))) as [v | e] eqn:D.
    + destruct (close_cur_ret s2) as (s3 & E3). rewrite E3. step_no_exec E3 close_cur_no_exec.
      unfold set_cur, use_con, bindM, get_cur, put_cur, get_con, put_con, ret. cbn.
      eexists _, _, (d ++ [(KExec raw k sql, Returns v)] ++ d0). split; [reflexivity |].
      rewrite L0, L2, <- !app_assoc. split; [reflexivity |].
      rewrite !attempts_app. rewrite A, A0. reflexivity.
    + destruct (quiet_ret (KCurClose raw k) s2) as (s3 & E3). rewrite E3.
      step_no_exec E3 (quiet_no_exec (KCurClose raw k) eq_refl).
      unfold ret. eexists _, _, (d ++ [(KExec raw k sql, Raises e)] ++ d0). split; [reflexivity |].
      rewrite L0, L2, <- !app_assoc. split; [reflexivity |].
      right. exists e. rewrite !attempts_app. rewrite A, A0. reflexivity.
  - unfold ret. eexists _, _, d. split; [reflexivity | auto].
Qed.

Lemma third_try_spec : forall sql error s, exists o s' d,
  third_try g drv sql false error s = (o, s') /\ s_log s' = s_log s ++ d /\
  match o with
  | Ret v => attempts d = [(sql, Returns v)]
  | Raise e => (attempts d = [] /\ e = error) \/
               exists e2, attempts d = [(sql, Raises e2)] /\ (e = error \/ e = e2)
  end.
Proof.
  intros sql error s. unfold third_try, bindM, attempt.
  destruct (create g drv s) as [[raw | e] s1] eqn:C; step_no_exec C create_no_exec.
  - destruct (driver_new drv (KCursor raw) s1) as [[k | e] s2] eqn:D;
      step_no_exec D (only_new no_exec drv (KCursor raw) eq_refl).
    + rewrite driver_spec. set (s3 := St _ _ _).
      assert (L2 : s_log s3 = s_log s ++ d ++ d0 ++ [(KExec raw k sql, drv (length (s_log s2)))])
        by (unfold s3; cbn; rewrite L0, L, !app_assoc; easy).
      clearbody s3. cbn beta iota zeta. destruct (drv (length (s_log s2))) as [v | e2] eqn:D2.
      * destruct (switch_ret raw k s3) as (s4 & E4). rewrite E4. step_no_exec E4 (switch_no_exec raw k).
        unfold use_con, bindM, get_con, put_con, ret. cbn.
        eexists _, _, (d ++ d0 ++ [(KExec raw k sql, Returns v)] ++ d1). split; [reflexivity |].
        rewrite L1, L2, <- !app_assoc. split; [reflexivity |].
        rewrite !attempts_app. rewrite A, A0, A1. reflexivity.
      * destruct (g_sub g (x_class e2) (x_class error)).
        -- destruct (quiet_ret (KCurClose raw k) s3) as (s4 & E4). rewrite E4.
           step_no_exec E4 (quiet_no_exec (KCurClose raw k) eq_refl).
           destruct (quiet_ret (KClose raw) s4) as (s5 & E5). rewrite E5.
           step_no_exec E5 (quiet_no_exec (KClose raw) eq_refl).
           unfold raise. eexists _, _, (d ++ d0 ++ [(KExec raw k sql, Raises e2)] ++ d1 ++ d2). split; [reflexivity |].
           rewrite L3, L1, L2, <- !app_assoc. split; [reflexivity |].
           right. exists e2. rewrite !attempts_app. rewrite A, A0, A1, A2. auto.
        -- destruct (switch_ret raw k s3) as (s4 & E4). rewrite E4. step_no_exec E4 (switch_no_exec raw k).
           unfold use_con, bindM, get_con, put_con, raise. cbn.
           eexists _, _, (d ++ d0 ++ [(KExec raw k sql, Raises e2)] ++ d1). split; [reflexivity |].
           rewrite L1, L2, <- !app_assoc. split; [reflexivity |].
           right. exists e2. rewrite !attempts_app. rewrite A, A0, A1. auto.
    + destruct (quiet_ret (KClose raw) s2) as (s5 & E5). rewrite E5.
      step_no_exec E5 (quiet_no_exec (KClose raw) eq_refl).
      unfold raise. eexists _, _, (d ++ d0 ++ d1). split; [reflexivity |].
      rewrite L1, L0, L, <- !app_assoc. split; [reflexivity |].
      left. rewrite !attempts_app, A, A0, A1. auto.
  - unfold raise. eexists _, _, d. auto.
Qed.

Lemma execute_outside : forall s sql o s',
  c_trans (s_con s) = false ->
  execute g drv sql s = (o, s') ->
  exists d errs,
    s_log s' = s_log s ++ d /\
    match o with
    | Ret v => attempts d = map (fun e => (sql, Raises e)) errs ++ [(sql, Returns v)] /\ (length errs <= 2)%nat
    | Raise e => attempts d = map (fun e => (sql, Raises e)) errs /\ (length errs <= 3)%nat /\
                 (In e errs \/ (e = g_failure g /\ g_maxusage g <> 0))
    end /\
    (g_maxusage g = 0 ->
     match errs with
     | e :: r => g_failures g (x_class e) = true \/ (r = [] /\ o = Raise e)
     | [] => True
     end).
Proof.
  intros s sql o s' T H. unfold execute, bindM, get_con, get_cur in H. rewrite T in H.
  destruct (ping_ret 4 s) as (s1 & E1). rewrite E1 in H. step_no_exec E1 (ping_no_exec 4).
  cbn beta iota zeta in H. unfold attempt in H.
  destruct (overused g (s_con s1) false) eqn:O.
  - assert (MU : g_maxusage g <> 0).
    { unfold overused in O. destruct (Nat.eqb_spec (g_maxusage g) 0); [discriminate | easy]. }
    unfold raise at 1 in H. cbn beta iota zeta in H.
    destruct (g_failures g (x_class (g_failure g))) eqn:F; cbn [negb] in H.
    + destruct (second_try_spec sql s1) as (r & s2 & d2 & E2 & L2 & A2). rewrite E2 in H.
      destruct r as [v |].
      * unfold ret in H. injection H as <- <-. exists (d ++ d2), []. rewrite L2, L, app_assoc.
        rewrite attempts_app, A, A2. cbn. auto with arith.
      * destruct (third_try_spec sql (g_failure g) s2) as (o3 & s3 & d3 & E3 & L3 & A3).
        rewrite E3 in H. injection H as <- <-.
        exists (d ++ d2 ++ d3).
        assert (B2 : exists e2, (length e2 <= 1)%nat /\ attempts d2 = map (fun e => (sql, Raises e)) e2).
        { destruct A2 as [A2 | (e2 & A2)]; [exists [] | exists [e2]]; cbn; auto. }
        destruct B2 as (e2 & Le & B2).
        destruct o3 as [v | e].
        -- exists e2. rewrite L3, L2, L, !app_assoc, !attempts_app, A, B2, A3.
           cbn. repeat split; auto; try lia.
        -- destruct A3 as [(A3 & ->) | (e3 & A3 & Ee)].
           ++ exists e2. rewrite L3, L2, L, !app_assoc, !attempts_app, A, B2, A3, app_nil_r.
              cbn. repeat split; auto; try lia.
           ++ exists (e2 ++ [e3]). rewrite L3, L2, L, !app_assoc, !attempts_app, A, B2, A3, map_app, app_length.
              cbn. repeat split; auto; try lia.
              rewrite in_app_iff. cbn. destruct Ee as [-> | ->]; auto.
    + injection H as <- <-. exists d, []. rewrite A. cbn. repeat split; auto; lia.
  - rewrite driver_spec in H. set (s2 := St _ _ _) in H.
    set (ev := (KExec (k_raw (s_cur s1)) (k_cur (s_cur s1)) sql, drv (length (s_log s1)))) in *.
    assert (L1 : s_log s2 = s_log s ++ d ++ [ev]) by (unfold s2; cbn; rewrite L, app_assoc; easy).
    clearbody s2.
    destruct (drv (length (s_log s1))) as [v | error] eqn:D.
    + unfold use_con, bindM, get_con, put_con, ret in H. cbn in H. injection H as <- <-.
      exists (d ++ [ev]), []. cbn. rewrite attempts_app, A. unfold ev. cbn. rewrite L1. repeat split; auto; lia.
    + cbn beta iota zeta in H. destruct (g_failures g (x_class error)) eqn:F; cbn [negb] in H.
      * assert (A1 : attempts [ev] = [(sql, Raises error)]) by reflexivity. clearbody ev.
        destruct (second_try_spec sql s2) as (r & s3 & d2 & E2 & L2 & A2). rewrite E2 in H.
        destruct r as [v |].
        -- unfold ret in H. injection H as <- <-. exists (d ++ [ev] ++ d2), [error].
           rewrite L2, L1, !app_assoc, !attempts_app, A, A1, A2. cbn. auto with arith.
        -- destruct (third_try_spec sql error s3) as (o3 & s4 & d3 & E3 & L3 & A3).
           rewrite E3 in H. injection H as <- <-.
           exists (d ++ [ev] ++ d2 ++ d3).
           assert (B2 : exists e2, (length e2 <= 1)%nat /\ attempts d2 = map (fun e => (sql, Raises e)) e2).
           { destruct A2 as [A2 | (e2 & A2)]; [exists [] | exists [e2]]; cbn; auto. }
           destruct B2 as (e2 & Le & B2).
           destruct o3 as [v | e].
           ++ exists (error :: e2). rewrite L3, L2, L1, !app_assoc, !attempts_app, A, A1, B2, A3.
              cbn. repeat split; auto; lia.
           ++ destruct A3 as [(A3 & ->) | (e3 & A3 & Ee)].
              ** exists (error :: e2). rewrite L3, L2, L1, !app_assoc, !attempts_app, A, A1, B2, A3, app_nil_r.
                 cbn. repeat split; auto; try lia.
              ** exists (error :: e2 ++ [e3]).
                 rewrite L3, L2, L1, !app_assoc, !attempts_app, A, A1, B2, A3. cbn [map length app].
                 rewrite map_app, app_length. cbn. repeat split; auto; try lia.
                 rewrite in_app_iff. cbn. destruct Ee as [-> | ->]; auto.
      * unfold raise in H. injection H as <- <-. exists (d ++ [ev]), [error]. cbn.
        rewrite attempts_app, A. unfold ev. cbn. repeat split; auto; lia.
Qed.
End NoExec.
