(** The usage limit of failover connections (C82). *)
From Coq Require Import List Arith NArith ZArith Bool Lia.
From Verif Require Import SteadyModel SteadySpec SteadyProof UsageSpec UsageProof.
Import ListNotations.
Open Scope steady_scope.

(** ** C82 *)
(** maxusage > 0, a connection with a fresh cursor, no transaction: whatever the driver answers and whatever
    the client calls (other than begin), no raw connection answers more than maxusage statements. *)
Lemma c82_limit g drv l s : g_maxusage g <> 0 -> fresh_cursor s -> c_trans (s_con s) = false ->
  c_raw (s_con s) < length (s_log s) -> attempts (s_log s) = [] -> c_usage (s_con s) = 0 ->
  ~ In OBegin l -> silent (s_log (run_ops g drv l s)) ->
  forall r, served r (s_log (run_ops g drv l s)) <= g_maxusage g.
Proof.
  intros M [K C] T R A Z N S r. destruct (g_maxusage g) as [|m] eqn:E; [congruence|].
  assert (S0 : forall r, served r (s_log s) = 0).
  { intro r0. unfold served. clear - A. induction (s_log s) as [|[k a] d IH]; [reflexivity|].
    cbn [filter]. destruct k; cbn in A |- *; try (apply IH, A). discriminate A. }
  apply (u_all m 0). apply (run_U g drv m E l N); [|exact S].
  constructor; try assumption; try (rewrite S0; lia); try (intros; rewrite S0; lia); try lia.
Qed.
Theorem C82_limit : forall g drv l s, g_maxusage g <> 0 -> fresh_cursor s -> c_trans (s_con s) = false ->
  c_raw (s_con s) < length (s_log s) -> attempts (s_log s) = [] -> c_usage (s_con s) = 0 ->
  ~ In OBegin l -> silent (s_log (run_ops g drv l s)) ->
  forall r, served r (s_log (run_ops g drv l s)) <= g_maxusage g.
Proof. exact c82_limit. Qed.
Print Assumptions C82_limit.

(** The limit is exact: if no call fails, n statements open (n - 1) / maxusage further connections. *)
Definition connects (l : list event) : nat := length (filter (fun e => match fst e with KConnect => true | _ => false end) l).
Lemma connects_app a b : connects (a ++ b) = connects a + connects b.
Proof. unfold connects. rewrite filter_app, app_length. reflexivity. Qed.

Section Exact.
Variables (g : cfg) (drv : nat -> answer) (m : nat).
Hypotheses (Hm : g_maxusage g = S m) (Hd : forall n, exists v, drv n = Returns v)
  (Hs : g_session g = []) (Hf : g_failures g (x_class (g_failure g)) = true).
Definition calm (s : st) : Prop :=
  c_trans (s_con s) = false /\ N.land 4 (c_ping (s_con s)) = 0%N /\ N.land 2 (c_ping (s_con s)) = 0%N.
Lemma step_free q s : calm s -> c_usage (s_con s) <= m ->
  calm (snd (execute g drv q s)) /\ c_usage (s_con (snd (execute g drv q s))) = S (c_usage (s_con s)) /\
  connects (s_log (snd (execute g drv q s))) = connects (s_log s).
Proof.
  intros (T & P4 & P2) L. unfold execute, ping_check, attempt, use_con, bindM, get_con, get_cur, put_con, driver, ret, raise, overused, calm.
  cbv zeta. rewrite T. cbn [s_con s_log s_cur]. rewrite P4. cbn [N.eqb]. rewrite Hm. cbn [Nat.eqb negb andb s_con].
  assert (Y : Nat.leb (S m) (c_usage (s_con s)) = false) by (apply Nat.leb_gt; lia). rewrite Y. cbn [andb].
  destruct (Hd (length (s_log s))) as [v ->]. cbn [snd s_con s_log c_trans c_usage c_ping]. rewrite connects_app, T. cbn. auto.
Qed.
Lemma step_full q s : calm s -> c_usage (s_con s) = S m ->
  calm (snd (execute g drv q s)) /\ c_usage (s_con (snd (execute g drv q s))) = 1 /\
  connects (s_log (snd (execute g drv q s))) = S (connects (s_log s)).
Proof.
  intros (T & P4 & P2) L.
  unfold execute, second_try, con_cursor, create, setsession, close_con, store_con, close_cur, set_cur, quiet, ping_check, attempt, use_con,
    get_con, get_cur, put_con, put_cur, overused. cbv zeta. unfold bindM, driver_new, driver, ret, raise.
  rewrite T. cbn [s_con s_log s_cur]. rewrite P4. cbn [N.eqb s_con s_log s_cur]. rewrite L, Hm, Nat.leb_refl. cbn [Nat.eqb negb andb].
  rewrite Hf. cbn [negb s_con s_log s_cur]. rewrite T, P2. cbn [N.eqb s_con s_log s_cur]. rewrite L, Nat.leb_refl. cbn [Nat.eqb negb andb].
  rewrite Hf, Hs. cbn [negb s_con s_log s_cur].
  destruct (c_closed (s_con s)) eqn:CC, (k_closed (s_cur s)) eqn:KC;
  repeat (match goal with |- context [drv ?n] => let v := fresh in destruct (Hd n) as [v ->] end;
    cbn [fst snd s_con s_log s_cur c_trans c_closed c_raw c_usage c_ping k_closed k_raw k_cur]; rewrite ?CC, ?KC);
  unfold calm; cbn [fst snd s_con s_log s_cur c_trans c_closed c_raw c_usage c_ping k_closed k_raw k_cur];
  rewrite !connects_app; cbn; (split; [auto|split; [reflexivity|lia]]).
Qed.
Lemma run_exact l : forall s c0 i u0, calm s -> connects (s_log s) = c0 + i -> c_usage (s_con s) = u0 -> u0 <= S m -> (1 <= u0 \/ i = 0) ->
  connects (s_log (run_ops g drv (map OExec l) s)) = c0 + (i * S m + u0 + length l - 1) / S m.
Proof.
  induction l as [|q l IH]; intros s c0 i u0 C N U0 L D; cbn [map run_ops do_op length].
  - rewrite N. f_equal. rewrite Nat.add_0_r.
    destruct (Nat.eq_dec u0 0) as [->|NZ].
    + destruct D as [D|D]; [lia|]. subst i. replace (0 * S m + 0 - 1) with 0 by lia. rewrite Nat.div_small; lia.
    + apply (Nat.div_unique _ _ _ (u0 - 1)); lia.
  - destruct (Nat.eq_dec u0 (S m)) as [E|E].
    + destruct (step_full q s C ltac:(lia)) as (C' & U' & N'). 
      rewrite (IH _ c0 (S i) 1 C'); [f_equal; f_equal; lia|rewrite N', N; lia|exact U'|lia|lia].
    + destruct (step_free q s C ltac:(lia)) as (C' & U' & N').
      rewrite (IH _ c0 i (S u0) C'); [f_equal; f_equal; lia|rewrite N', N; lia|rewrite U'; lia|lia|lia].
Qed.
End Exact.
Theorem C82_exact : forall g drv l s, g_maxusage g <> 0 -> (forall n, exists v, drv n = Returns v) ->
  g_session g = [] -> g_failures g (x_class (g_failure g)) = true ->
  c_trans (s_con s) = false -> N.land 4 (c_ping (s_con s)) = 0%N -> N.land 2 (c_ping (s_con s)) = 0%N -> c_usage (s_con s) = 0 ->
  connects (s_log (run_ops g drv (map OExec l) s)) = connects (s_log s) + (length l - 1) / g_maxusage g.
Proof.
  intros g drv l s M D S F T P4 P2 Z. destruct (g_maxusage g) as [|m] eqn:E; [congruence|].
  rewrite (run_exact g drv m E D S F l s (connects (s_log s)) 0 0); try reflexivity; try lia. split; auto.
Qed.
Print Assumptions C82_exact.

(** Inside a transaction there is no limit: any number of statements runs on one connection. *)
Lemma tx_run g drv l : forall s, (forall n, exists v, drv n = Returns v) -> c_trans (s_con s) = true ->
  s_cur (run_ops g drv (map OExec l) s) = s_cur s /\
  served (k_raw (s_cur s)) (s_log (run_ops g drv (map OExec l) s)) = served (k_raw (s_cur s)) (s_log s) + length l.
Proof.
  induction l as [|q l IH]; intros s D T; cbn [map run_ops do_op length]; [split; [reflexivity|lia]|].
  assert (X : snd (execute g drv q s) =
    St (s_log s ++ [(KExec (k_raw (s_cur s)) (k_cur (s_cur s)) q, drv (length (s_log s)))])
       (Con (c_raw (s_con s)) true (c_closed (s_con s)) (S (c_usage (s_con s))) (c_ping (s_con s))) (s_cur s)).
  { unfold execute, attempt, use_con, bindM, get_con, get_cur, put_con, driver, ret, raise, overused. cbv zeta. rewrite T.
    cbn [negb s_con s_log s_cur]. rewrite andb_false_r. destruct (D (length (s_log s))) as [v ->]. cbn [snd s_con s_log s_cur]. rewrite T. reflexivity. }
  rewrite X. destruct (IH (St (s_log s ++ [(KExec (k_raw (s_cur s)) (k_cur (s_cur s)) q, drv (length (s_log s)))])
       (Con (c_raw (s_con s)) true (c_closed (s_con s)) (S (c_usage (s_con s))) (c_ping (s_con s))) (s_cur s)) D eq_refl) as [A B].
  cbn [s_cur s_log] in A, B. split; [exact A|]. rewrite B, served_app. destruct (D (length (s_log s))) as [v ->].
  unfold served at 2. cbn. rewrite Nat.eqb_refl. cbn. lia.
Qed.
Theorem C82_transaction_refuted : forall g drv l s, (forall n, exists v, drv n = Returns v) ->
  served (k_raw (s_cur s)) (s_log (run_ops g drv (OBegin :: map OExec l) s)) = served (k_raw (s_cur s)) (s_log s) + length l.
Proof.
  intros g drv l s D. cbn [run_ops do_op].
  assert (X : exists x, s_cur (snd (do_op g drv OBegin s)) = s_cur s /\ c_trans (s_con (snd (do_op g drv OBegin s))) = true /\
     s_log (snd (do_op g drv OBegin s)) = s_log s ++ x /\ forall r, served r x = 0).
  { cbn [do_op]. unfold begin, set_trans, bindM, get_con, put_con, driver, ret. cbn [s_con s_log s_cur].
    destruct (g_has_begin g); cbn [s_con s_log s_cur c_raw].
    - destruct (D (length (s_log s))) as [v ->]. eexists. repeat split.
    - exists []. rewrite app_nil_r. repeat split. }
  cbn [do_op] in X. destruct X as (x & A & B & C & Z). destruct (tx_run g drv l _ D B) as [_ E].
  rewrite A in E. rewrite E, C, served_app, Z. lia.
Qed.
Print Assumptions C82_transaction_refuted.

(** A test for the hypothesis of C82_limit. *)
Fixpoint silentb (c : list nat) (l : list event) : bool :=
  match l with
  | [] => true
  | (KClose r, _) :: t => silentb (r :: c) t
  | (KExec r _ _, a) :: t => (negb (existsb (Nat.eqb r) c) || raised a) && silentb c t
  | _ :: t => silentb c t
  end.
Lemma silentb_ok l : forall c, silentb c l = true -> forall l1 r k q a l2,
  l = l1 ++ (KExec r k q, a) :: l2 -> In r c \/ closed r l1 -> raised a = true.
Proof.
  induction l as [|[k0 a0] l IH]; intros c H l1 r k q a l2 E D; [destruct l1; discriminate|].
  destruct l1 as [|e l1]; cbn [app] in E; injection E as E1 E2.
  - subst. cbn [silentb] in H. destruct D as [D|[]]. apply andb_prop in H. destruct H as [H _].
    apply orb_prop in H. destruct H as [H|H]; [|exact H]. apply negb_true_iff in H.
    assert (X : existsb (Nat.eqb r) c = true) by (apply existsb_exists; exists r; split; [exact D|apply Nat.eqb_refl]). congruence.
  - subst e. assert (T : exists c', silentb c' l = true /\ (In r c' \/ closed r l1)).
    { unfold closed in *. destruct k0; cbn [silentb] in H; try (exists c; split; [exact H|destruct D as [D|[D|D]]; [left|discriminate|right]; exact D]).
      - eexists. split; [exact H|]. cbn [In]. destruct D as [D|[D|D]]; [auto|injection D as ->; auto|auto].
      - apply andb_prop in H. destruct H as [_ H]. exists c. split; [exact H|]. destruct D as [D|[D|D]]; [left|discriminate|right]; exact D. }
    destruct T as (c' & H' & D'). exact (IH c' H' l1 r k q a l2 E2 D').
Qed.
(** maxusage 2, call 4 loses the connection: six statements, no connection answers more than two. *)
Definition ex_cfg : cfg :=
  Cfg (Nat.eqb 1) Nat.eqb (Exc 1 99) (fun _ => false) (fun _ => false) 2 [] 1%N true true true.
Definition ex_drv (n : nat) : answer := if Nat.eqb n 4 then Raises (Exc 1 n) else Returns (Some 1%Z).
Definition ex_start : st :=
  snd ((connect ex_cfg ex_drv ;; cursor ex_cfg ex_drv) (St [] (Con 0 false true 0 0%N) (Cur 0 0 true))).
Definition ex_ops : list op := [OExec 11; OExec 12; OExec 13; OCommit; OExec 14; OExec 15; OExec 16].
Example C82_example :
  fresh_cursor ex_start /\ attempts (s_log ex_start) = [] /\ c_usage (s_con ex_start) = 0 /\
  exec_raws (s_log (run_ops ex_cfg ex_drv ex_ops ex_start)) = [0; 0; 5; 5; 12; 12] /\
  silent (s_log (run_ops ex_cfg ex_drv ex_ops ex_start)).
Proof.
  split; [split; reflexivity|]. split; [reflexivity|]. split; [reflexivity|]. split; [reflexivity|].
  intros l1 r k q a l2 E C. refine (silentb_ok _ [] _ l1 r k q a l2 E (or_intror C)). reflexivity.
Qed.
