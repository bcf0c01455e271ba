(** * The usage limit of a connection *)
From Coq Require Import List Arith NArith ZArith Bool Lia.
From Verif Require Import SteadyModel SteadySpec SteadyProof UsageSpec.
Import ListNotations.
Open Scope steady_scope.

Lemma served_app r a b : served r (a ++ b) = served r a + served r b.
Proof. unfold served. rewrite filter_app, app_length. reflexivity. Qed.
Lemma silent_prefix a b : silent (a ++ b) -> silent a.
Proof. intros H l1 r k q x l2 E. apply (H l1 r k q x (l2 ++ b)). rewrite E, <- app_assoc. reflexivity. Qed.

Section Usage.
Variable g : cfg.
Variable drv : nat -> answer.
Variable m : nat.
Hypothesis Hm : g_maxusage g = S m.

Definition ext {A} (x : M A) : Prop := forall s, exists d, s_log (snd (x s)) = s_log s ++ d.
(** Partial correctness, for logs in which closed connections are silent. *)
Definition tri {A} (P : st -> Prop) (x : M A) (Q : A -> st -> Prop) (X : st -> Prop) : Prop :=
  ext x /\ forall s, P s -> silent (s_log (snd (x s))) ->
  match fst (x s) with Ret a => Q a (snd (x s)) | Raise _ => X (snd (x s)) end.

Lemma t_bind A B (P : st -> Prop) (Q : A -> st -> Prop) (R : B -> st -> Prop) (X : st -> Prop) x f :
  tri P x Q X -> (forall a, tri (Q a) (f a) R X) -> tri P (bindM x f) R X.
Proof.
  intros [E1 H1] H2. split.
  - intro s. unfold bindM. destruct (E1 s) as [d1 D1]. destruct (x s) as [[a|e] s1]; cbn [snd] in D1; [|exists d1; exact D1].
    destruct (H2 a) as [E2 _]. destruct (E2 s1) as [d2 D2]. exists (d1 ++ d2). rewrite D2, D1, app_assoc. reflexivity.
  - intros s HP S. unfold bindM in *. specialize (H1 s HP). destruct (x s) as [[a|e] s1]; cbn [fst snd] in *; [|exact (H1 S)].
    destruct (H2 a) as [E2 H3]. apply H3; [|exact S]. apply H1.
    destruct (E2 s1) as [d D]. rewrite D in S. exact (silent_prefix _ _ S).
Qed.
Lemma t_ret A (P : st -> Prop) (Q : A -> st -> Prop) (X : st -> Prop) a : (forall s, P s -> Q a s) -> tri P (ret a) Q X.
Proof. intro H. split; [intro s; exists []; rewrite app_nil_r; reflexivity|]. intros s HP _. exact (H s HP). Qed.
Lemma t_raise A (P : st -> Prop) (Q : A -> st -> Prop) (X : st -> Prop) e : (forall s, P s -> X s) -> tri P (raise e) Q X.
Proof. intro H. split; [intro s; exists []; rewrite app_nil_r; reflexivity|]. intros s HP _. exact (H s HP). Qed.
Lemma t_attempt A (P : st -> Prop) (Q : A -> st -> Prop) (X Y : st -> Prop) x : tri P x Q X ->
  tri P (attempt x) (fun o s => match o with Ret a => Q a s | Raise _ => X s end) Y.
Proof.
  intros [E H]. split.
  - intro s. destruct (E s) as [d D]. exists d. unfold attempt. destruct (x s). exact D.
  - intros s HP S. unfold attempt in *. specialize (H s HP). destruct (x s) as [o s1]. cbn [fst snd] in *. exact (H S).
Qed.
Lemma t_conseq A (P P' : st -> Prop) (Q Q' : A -> st -> Prop) (X X' : st -> Prop) x :
  tri P x Q X -> (forall s, P' s -> P s) -> (forall a s, Q a s -> Q' a s) -> (forall s, X s -> X' s) -> tri P' x Q' X'.
Proof.
  intros [E H] HP HQ HX. split; [exact E|]. intros s Ps S. specialize (H s (HP s Ps) S). destruct (fst (x s)); auto.
Qed.
Lemma t_get_con (P : st -> Prop) (X : st -> Prop) : tri P get_con (fun c s => P s /\ c = s_con s) X.
Proof. split; [intro s; exists []; rewrite app_nil_r; reflexivity|]. intros s HP _. cbn. auto. Qed.
Lemma t_get_cur (P : st -> Prop) (X : st -> Prop) : tri P get_cur (fun c s => P s /\ c = s_cur s) X.
Proof. split; [intro s; exists []; rewrite app_nil_r; reflexivity|]. intros s HP _. cbn. auto. Qed.
Lemma t_put_con (P : st -> Prop) (Q : unit -> st -> Prop) (X : st -> Prop) c : (forall s, P s -> Q tt (St (s_log s) c (s_cur s))) -> tri P (put_con c) Q X.
Proof. intro H. split; [intro s; exists []; rewrite app_nil_r; reflexivity|]. intros s HP _. exact (H s HP). Qed.
Lemma t_put_cur (P : st -> Prop) (Q : unit -> st -> Prop) (X : st -> Prop) c : (forall s, P s -> Q tt (St (s_log s) (s_con s) c)) -> tri P (put_cur c) Q X.
Proof. intro H. split; [intro s; exists []; rewrite app_nil_r; reflexivity|]. intros s HP _. exact (H s HP). Qed.
Lemma t_driver (P : st -> Prop) (Q : option Z -> st -> Prop) (X : st -> Prop) k :
  (forall s v, P s -> silent (s_log s ++ [(k, Returns v)]) -> Q v (St (s_log s ++ [(k, Returns v)]) (s_con s) (s_cur s))) ->
  (forall s e, P s -> X (St (s_log s ++ [(k, Raises e)]) (s_con s) (s_cur s))) ->
  tri P (driver drv k) Q X.
Proof.
  intros HQ HX. split.
  - intro s. rewrite driver_spec. eexists. reflexivity.
  - intros s HP S. rewrite driver_spec in *. cbn [fst snd s_log] in *. destruct (drv (length (s_log s))); auto.
Qed.
Lemma t_new (P : st -> Prop) (Q : nat -> st -> Prop) (X : st -> Prop) k :
  (forall s v, P s -> Q (length (s_log s)) (St (s_log s ++ [(k, Returns v)]) (s_con s) (s_cur s))) ->
  (forall s e, P s -> X (St (s_log s ++ [(k, Raises e)]) (s_con s) (s_cur s))) ->
  tri P (driver_new drv k) Q X.
Proof.
  intros HQ HX. split.
  - intro s. unfold driver_new. rewrite driver_spec. destruct (drv _); eexists; reflexivity.
  - intros s HP S. unfold driver_new in *. rewrite driver_spec in *. destruct (drv (length (s_log s))); cbn [fst snd] in *; auto.
Qed.

(** The limit holds; [e]: statements of the current connection not yet counted. *)
Record U (e : nat) (s : st) : Prop := {
  u_trans : c_trans (s_con s) = false;
  u_open : c_closed (s_con s) = false;
  u_cur : served (c_raw (s_con s)) (s_log s) <= e + c_usage (s_con s);
  u_max : e + c_usage (s_con s) <= S m;
  u_all : forall r, served r (s_log s) <= S m;
  u_new : forall r, length (s_log s) <= r -> served r (s_log s) = 0;
  u_raw : c_raw (s_con s) < length (s_log s);
  u_kraw : k_raw (s_cur s) < length (s_log s);
  u_k : k_raw (s_cur s) = c_raw (s_con s) \/ closed (k_raw (s_cur s)) (s_log s) }.
(** A connection just opened. *)
Definition Fr (e raw : nat) (s : st) : Prop := served raw (s_log s) <= e /\ raw < length (s_log s) /\
  c_raw (s_con s) <> raw /\ k_raw (s_cur s) <> raw.

Lemma closed_app r a b : closed r a -> closed r (a ++ b).
Proof. unfold closed. rewrite map_app. intro. apply in_or_app. auto. Qed.
Lemma served_no r k a : no_exec k = true -> served r [(k, a)] = 0.
Proof. destruct k; try discriminate; reflexivity. Qed.
Lemma served_raise r k e : served r [(k, Raises e)] = 0.
Proof. destruct k; reflexivity. Qed.
Lemma U_ext e s x : (forall r, served r [x] = 0) -> U e s -> U e (St (s_log s ++ [x]) (s_con s) (s_cur s)).
Proof.
  intros Z [A B C D E F G H I]. constructor; cbn [s_log s_con s_cur]; try assumption.
  - rewrite served_app, Z. lia.
  - intro r. rewrite served_app, Z. specialize (E r). lia.
  - intros r L. rewrite served_app, Z. rewrite app_length in L. cbn in L. rewrite F; lia.
  - rewrite app_length. lia.
  - rewrite app_length. lia.
  - destruct I as [I|I]; [left; exact I|right; apply closed_app, I].
Qed.
Lemma Fr_ext e raw s x : (forall r, served r [x] = 0) -> Fr e raw s -> Fr e raw (St (s_log s ++ [x]) (s_con s) (s_cur s)).
Proof.
  intros Z (A & B & C & D). split; [|split; [|split; assumption]]; cbn [s_log]; [rewrite served_app, Z; lia|rewrite app_length; lia].
Qed.

(** Facts stable under driver calls other than statements. *)
Definition stable (P : st -> Prop) : Prop :=
  forall s x, (forall r, served r [x] = 0) -> P s -> P (St (s_log s ++ [x]) (s_con s) (s_cur s)).
Lemma st_U e : stable (U e). Proof. intros s x Z. apply U_ext, Z. Qed.
Lemma st_Fr e raw : stable (Fr e raw). Proof. intros s x Z. apply Fr_ext, Z. Qed.
Lemma st_and P Q : stable P -> stable Q -> stable (fun s => P s /\ Q s).
Proof. intros A B s x Z [H1 H2]. split; [apply A|apply B]; assumption. Qed.
Lemma st_con c : stable (fun s => c = s_con s). Proof. intros s x Z H. exact H. Qed.
Lemma st_cur c : stable (fun s => c = s_cur s). Proof. intros s x Z H. exact H. Qed.
Lemma st_conp (F : con -> Prop) : stable (fun s => F (s_con s)). Proof. intros s x Z H. exact H. Qed.

Lemma t_drv (P : st -> Prop) k (X : st -> Prop) : stable P -> no_exec k = true -> (forall s, P s -> X s) -> tri P (driver drv k) (fun _ => P) X.
Proof.
  intros ST NE HX. apply t_driver.
  - intros s v HP _. apply ST; [intro r; apply served_no, NE|exact HP].
  - intros s e HP. apply HX, ST; [intro r; apply served_no, NE|exact HP].
Qed.
Lemma t_quiet (P : st -> Prop) k (X : st -> Prop) : stable P -> no_exec k = true -> tri P (quiet drv k) (fun _ => P) X.
Proof.
  intros ST NE. unfold quiet. eapply t_bind; [eapply t_attempt with (Q := fun _ => P) (X := P); apply t_drv; auto|].
  intro o. apply t_ret. destruct o; auto.
Qed.
Lemma t_newp (P : st -> Prop) k (X : st -> Prop) : stable P -> no_exec k = true -> (forall s, P s -> X s) -> tri P (driver_new drv k) (fun _ => P) X.
Proof.
  intros ST NE HX. apply t_new.
  - intros s v HP. apply ST; [intro r; apply served_no, NE|exact HP].
  - intros s e HP. apply HX, ST; [intro r; apply served_no, NE|exact HP].
Qed.
Lemma t_session (P : st -> Prop) l raw (X : st -> Prop) : stable P -> (forall s, P s -> X s) -> tri P (session_loop drv raw l) (fun _ => P) X.
Proof.
  intros ST HX. induction l as [|q l IH]; cbn; [apply t_ret; auto|].
  eapply t_bind; [apply t_drv; [exact ST|reflexivity|exact HX]|]. intros ?. exact IH.
Qed.
Lemma t_create (P : st -> Prop) e (X : st -> Prop) : stable P -> (forall s, P s -> U e s) -> (forall s, P s -> X s) ->
  tri P (create g drv) (fun raw s => P s /\ Fr 0 raw s) X.
Proof.
  intros ST HU HX. unfold create.
  eapply t_bind with (Q := fun raw s => P s /\ Fr 0 raw s).
  - apply t_new.
    + intros s v HP. split; [apply ST; [intro r; apply served_no; reflexivity|exact HP]|].
      split; [|split]; cbn [s_log]; [|rewrite app_length; cbn; lia|].
      * rewrite served_app, (served_no _ KConnect) by reflexivity. rewrite (u_new e s (HU s HP)); lia.
      * destruct (HU s HP). cbn [s_con s_cur]. lia.
    + intros s er HP. apply HX, ST; [intro r; apply served_no; reflexivity|exact HP].
  - intro raw. set (PF := fun s => P s /\ Fr 0 raw s).
    assert (SF : stable PF) by (apply st_and; [exact ST|apply st_Fr]).
    eapply t_bind.
    + eapply t_attempt with (Q := fun _ => PF) (X := PF). unfold setsession.
      destruct (g_session g) as [|q0 l0]; [apply t_ret; auto|].
      eapply t_bind; [apply t_newp; [exact SF|reflexivity|auto]|]. intro k.
      eapply t_bind; [apply t_session; [exact SF|auto]|]. intros ?.
      eapply t_bind; [apply t_drv; [exact SF|reflexivity|auto]|]. intros ?. apply t_ret. auto.
    + intros [a|er].
      * apply t_ret. auto.
      * eapply t_bind; [apply t_quiet; [exact SF|reflexivity]|]. intros ?. apply t_raise. intros s [HP _]. auto.
Qed.
(** Closing the old connection and storing the new one. *)
Lemma t_replace e0 e raw (X : st -> Prop) : e <= S m ->
  tri (fun s => U e0 s /\ Fr e raw s) (close_con drv ;; store_con raw)
    (fun _ s => U e s /\ c_raw (s_con s) = raw /\ c_usage (s_con s) = 0) X.
Proof.
  intro HE. unfold close_con, store_con. eapply t_bind with
    (Q := fun _ s => Fr e raw s /\ (forall r, served r (s_log s) <= S m) /\
      (forall r, length (s_log s) <= r -> served r (s_log s) = 0) /\
      k_raw (s_cur s) < length (s_log s) /\ (closed (k_raw (s_cur s)) (s_log s))).
  - eapply t_bind; [apply t_get_con|]. intro c. destruct (c_closed c) eqn:CC.
    { apply t_ret. intros s [[HU _] ->]. destruct HU. congruence. }
    eapply t_bind with (Q := fun _ s => (U e0 s /\ Fr e raw s) /\ c = s_con s /\ closed (c_raw c) (s_log s)).
    + unfold quiet. eapply t_bind with (Q := fun _ s => (U e0 s /\ Fr e raw s) /\ c = s_con s /\ closed (c_raw c) (s_log s)).
      * eapply t_conseq; [apply t_attempt with (X := fun s => (U e0 s /\ Fr e raw s) /\ c = s_con s /\ closed (c_raw c) (s_log s))
             (Q := fun _ s => (U e0 s /\ Fr e raw s) /\ c = s_con s /\ closed (c_raw c) (s_log s)) (P := fun s => (U e0 s /\ Fr e raw s) /\ c = s_con s); apply t_driver| | |].
        -- intros s v [[A B] C] _. split; [split; [apply U_ext|apply Fr_ext]; auto|]. split; [exact C|].
           unfold closed. cbn [s_log]. rewrite map_app. apply in_or_app. right. left. reflexivity.
        -- intros s v [[A B] C]. split; [split; [apply U_ext|apply Fr_ext]; auto|]. split; [exact C|].
           unfold closed. cbn [s_log]. rewrite map_app. apply in_or_app. right. left. reflexivity.
        -- auto.
        -- intros [?|?] s H; exact H.
        -- intros s H. exact H.
      * intros ?. apply t_ret. auto.
    + intros ?. apply t_put_con. intros s ((HU & HF) & C & CL). cbn [s_log s_con s_cur]. destruct HU.
      split; [subst c; exact HF|]. split; [assumption|]. split; [assumption|]. split; [assumption|].
      destruct u_k0 as [K|K]; [rewrite K, <- C; exact CL|exact K].
  - intros ?. eapply t_bind; [apply t_get_con|]. intro c. apply t_put_con.
    intros s ((HF & A & B & K & CL) & _). split; [|split; reflexivity].
    constructor; cbn [s_log s_con s_cur c_trans c_closed c_raw c_usage]; try reflexivity; try assumption; try lia.
    + destruct HF. lia.
    + apply HF.
    + right. exact CL.
Qed.
Lemma bind_assoc A B C (x : M A) (f : A -> M B) (h : B -> M C) (P : st -> Prop) Q (X : st -> Prop) :
  tri P (bindM (bindM x f) h) Q X -> tri P (bindM x (fun a => bindM (f a) h)) Q X.
Proof.
  assert (E : forall s, bindM x (fun a => bindM (f a) h) s = bindM (bindM x f) h s).
  { intro s. unfold bindM. destruct (x s) as [[a|e] s1]; reflexivity. }
  intros [H1 H2]. split; intro s; rewrite E; [apply H1|apply H2].
Qed.
Lemma t_reopen (X : st -> Prop) : (forall s, U 0 s -> X s) -> tri (U 0) (reopen g drv) (fun _ => U 0) X.
Proof.
  intro HX. unfold reopen.
  eapply t_bind; [eapply t_attempt with (X := U 0); apply t_create with (e := 0); [apply st_U|auto|auto]|].
  intros [raw|e]; [|apply t_ret; auto]. apply bind_assoc.
  eapply t_bind; [apply t_replace with (e0 := 0) (e := 0); lia|]. intros ?. apply t_ret. intros s [H _]. exact H.
Qed.
Lemma t_ping b (X : st -> Prop) : (forall s, U 0 s -> X s) -> tri (U 0) (ping_check g drv b) (fun _ => U 0) X.
Proof.
  intro HX. unfold ping_check. eapply t_bind; [apply t_get_con|]. intro c.
  destruct (N.eqb _ _); [apply t_ret; intros s [H _]; exact H|].
  set (P := fun s => U 0 s /\ c = s_con s).
  assert (SP : stable P) by (apply st_and; [apply st_U|apply st_con]).
  assert (D : forall X, tri P (attempt (driver drv (KPing (c_raw c)))) (fun _ => P) X).
  { intro Y. eapply t_conseq; [apply t_attempt with (Q := fun _ => P) (X := P) (Y := Y); apply t_drv; [exact SP|reflexivity|auto]| | |];
      auto. intros [?|?]; auto. }
  eapply t_bind; [apply D|]. intro r. eapply t_bind with (Q := fun _ => P).
  { destruct r as [v|e]; [apply t_ret; auto|]. destruct (g_type g (x_class e)); [apply D|apply t_ret; auto]. }
  intro r2. eapply t_bind with (Q := fun _ => U 0).
  { destruct r2 as [[v|]|e]; try (apply t_ret; intros s [H _]; exact H).
    destruct (g_probe g (x_class e)); [|apply t_ret; intros s [H _]; exact H].
    eapply t_bind; [apply t_put_con with (Q := fun _ => U 0)|intros ?; apply t_ret; auto].
    intros s [H ->]. destruct H. constructor; assumption. }
  intro rc. destruct (_ && _); [|apply t_ret; auto].
  eapply t_bind; [apply t_reopen, HX|]. intros ?. apply t_ret. auto.
Qed.
Lemma t_set_trans (X : st -> Prop) : tri (U 0) (set_trans false) (fun _ => U 0) X.
Proof.
  unfold set_trans. eapply t_bind; [apply t_get_con|]. intro c. apply t_put_con.
  intros s [H ->]. destruct H. constructor; try assumption. reflexivity.
Qed.
Lemma t_finish k : (forall r, no_exec (k r) = true) -> tri (U 0) (finish g drv k) (fun _ => U 0) (U 0).
Proof.
  intro NE. unfold finish. eapply t_bind; [apply t_set_trans|]. intros ?.
  eapply t_bind; [apply t_get_con|]. intro c.
  eapply t_bind; [apply t_attempt with (Q := fun _ => U 0) (X := U 0)|].
  { eapply t_conseq; [apply t_drv; [apply st_U with (e := 0)|apply NE|intros s H; exact H]| | |]; auto. intros s [H _]. exact H. }
  intros [v|e]; [apply t_ret; auto|]. destruct (g_failures g (x_class e)); [|apply t_raise; auto].
  eapply t_bind; [apply t_reopen; auto|]. intros ?. apply t_raise. auto.
Qed.
Lemma t_cancel : tri (U 0) (cancel g drv) (fun _ => U 0) (U 0).
Proof.
  unfold cancel. eapply t_bind; [apply t_set_trans|]. intros ?.
  eapply t_bind; [apply t_get_con|]. intro c.
  destruct (g_has_cancel g); [|apply t_ret; intros s [H _]; exact H].
  eapply t_bind with (Q := fun _ => U 0); [|intros ?; apply t_ret; auto].
  eapply t_conseq; [apply t_drv; [apply st_U with (e := 0)|reflexivity|intros s H; exact H]| | |]; auto.
  intros s [H _]. exact H.
Qed.
Lemma t_agree A (P : st -> Prop) (x x' : M A) Q (X : st -> Prop) :
  ext x -> (forall s, P s -> x s = x' s) -> tri P x' Q X -> tri P x Q X.
Proof. intros E H [_ T]. split; [exact E|]. intros s HP. rewrite (H s HP). exact (T s HP). Qed.
Lemma only_ext A K (x : M A) : only K x -> ext x.
Proof. intros H s. destruct (H s _ _ (surjective_pairing (x s))) as (d & D & _). exists d. exact D. Qed.

Lemma t_con_cursor :
  tri (U 0) (con_cursor g drv)
    (fun p s => U 0 s /\ c_raw (s_con s) = fst p /\ c_usage (s_con s) < S m) (U 0).
Proof.
  eapply t_agree with (x' :=
    ping_check g drv 2 ;;
    let* c := get_con in
    let* r := attempt (if overused g c false then raise (g_failure g) else driver_new drv (KCursor (c_raw c))) in
    match r with
    | Ret k => ret (c_raw c, k)
    | Raise e =>
      if negb (g_failures g (x_class e)) then raise e
      else
        let* n := attempt (create g drv) in
        let* again :=
          (match n with
           | Raise _ => ret None
           | Ret raw =>
             let* r2 := attempt (driver_new drv (KCursor raw)) in
             match r2 with
             | Ret k => close_con drv ;; store_con raw ;; ret (Some (raw, k))
             | Raise _ => quiet drv (KClose raw) ;; ret None
             end
           end) in
        match again with
        | Some k => ret k
        | None => raise e
        end
    end).
  { eapply only_ext, con_cursor_no_exec. }
  { intros s H. unfold con_cursor. cbv zeta. unfold bindM at 1. unfold get_con at 1. rewrite (u_trans 0 s H). reflexivity. }
  eapply t_bind; [apply t_ping; auto|]. intros ?. eapply t_bind; [apply t_get_con|]. intro c.
  set (P := fun s => U 0 s /\ c = s_con s).
  assert (SP : stable P) by (apply st_and; [apply st_U|apply st_con]).
  eapply t_bind with (Q := fun o s => P s /\ match o with Ret _ => c_usage c < S m | Raise _ => True end).
  { destruct (overused g c false) eqn:OV.
    - eapply t_conseq; [apply t_attempt with (P := P) (Q := fun _ _ => False) (X := P); apply t_raise; auto| | |]; auto.
      + intros [k|e] s H; [destruct H|auto].
      + intros s H. exact H.
    - eapply t_conseq; [apply t_attempt with (P := P) (Q := fun _ => P) (X := P); apply t_newp; [exact SP|reflexivity|auto]| | |]; auto.
      + intros [k|e] s H; split; auto. unfold overused in OV. rewrite Hm in OV. cbn [Nat.eqb negb andb] in OV.
        rewrite andb_true_r in OV. apply Nat.leb_gt in OV. exact OV.
      + intros s H. exact H. }
  intros [k|e].
  { apply t_ret. intros s [[A ->] B]. auto. }
  destruct (negb _); [apply t_raise; intros s [[A _] _]; exact A|].
  eapply t_bind with (P := fun s => P s /\ True) (Q := fun o s => U 0 s /\ match o with Ret raw => Fr 0 raw s | Raise _ => True end).
  { eapply t_conseq; [apply t_attempt with (P := U 0) (Q := fun raw s => U 0 s /\ Fr 0 raw s) (X := U 0);
      apply t_create with (e := 0); [apply st_U|auto|auto]| | |]; auto.
    - intros s [[A _] _]. exact A.
    - intros [raw|e2] s H; [exact H|auto].
    - intros s H. exact H. }
  intro n. eapply t_bind with (Q := fun o s => U 0 s /\ match o with Some p => c_raw (s_con s) = fst p /\ c_usage (s_con s) < S m | None => True end).
  { destruct n as [raw|e2]; [|apply t_ret; auto].
    set (PF := fun s => U 0 s /\ Fr 0 raw s).
    assert (SF : stable PF) by (apply st_and; [apply st_U|apply st_Fr]).
    eapply t_bind with (Q := fun _ => PF).
    { eapply t_conseq; [apply t_attempt with (P := PF) (Q := fun _ => PF) (X := PF); apply t_newp; [exact SF|reflexivity|auto]| | |]; auto.
      - intros [k|e3] s H; exact H.
      - intros s H. exact H. }
    intros [k|e3].
    - apply bind_assoc. eapply t_bind; [apply t_replace with (e0 := 0) (e := 0); lia|]. intros ?. apply t_ret.
      intros s (A & B & C). cbn [fst]. rewrite B, C. split; [exact A|]. split; [reflexivity|lia].
    - eapply t_bind; [apply t_quiet; [exact SF|reflexivity]|]. intros ?. apply t_ret. intros s [A _]. auto. }
  intros [k|]; [apply t_ret|apply t_raise]; intros s H; apply H.
Qed.
Lemma t_cursor : tri (U 0) (cursor g drv) (fun _ => U 0) (U 0).
Proof.
  unfold cursor. eapply t_bind; [apply t_con_cursor|]. intro k. apply t_put_cur. intros s (A & B & _). destruct A.
  constructor; try assumption; cbn [s_cur k_raw s_con s_log]; [rewrite <- B; assumption|left; congruence].
Qed.
Lemma t_close_cur (P X : st -> Prop) : stable P -> (forall s k, P s -> k_raw k = k_raw (s_cur s) -> P (St (s_log s) (s_con s) k)) ->
  tri P (close_cur drv) (fun _ => P) X.
Proof.
  intros SP HK. unfold close_cur. eapply t_bind; [apply t_get_cur|]. intro k.
  destruct (k_closed k); [apply t_ret; intros s [H _]; exact H|].
  eapply t_bind; [apply t_quiet; [apply st_and; [exact SP|apply st_cur]|reflexivity]|]. intros ?.
  apply t_put_cur. intros s [H ->]. apply HK; [exact H|reflexivity].
Qed.
Lemma U_cur e s k : U e s -> k_raw k = k_raw (s_cur s) -> U e (St (s_log s) (s_con s) k).
Proof. intros H K. destruct H. constructor; cbn [s_log s_con s_cur]; try rewrite K; assumption. Qed.
Lemma t_set_cur e raw k (X : st -> Prop) :
  tri (fun s => U e s /\ c_raw (s_con s) = raw) (set_cur raw k) (fun _ => U e) X.
Proof.
  unfold set_cur. eapply t_bind; [apply t_get_cur|]. intro k0. apply t_put_cur. intros s [[A B] _]. destruct A.
  constructor; try assumption; cbn [s_cur k_raw s_con s_log]; [rewrite <- B; assumption|left; congruence].
Qed.
Lemma t_use_con (X : st -> Prop) : tri (U 1) use_con (fun _ => U 0) X.
Proof.
  unfold use_con. eapply t_bind; [apply t_get_con|]. intro c. apply t_put_con. intros s [H ->]. destruct H.
  constructor; cbn [s_log s_con s_cur c_trans c_closed c_raw c_usage]; try assumption; lia.
Qed.
Lemma t_switch e raw k (X : st -> Prop) : e <= S m -> tri (fun s => U 0 s /\ Fr e raw s) (switch drv raw k) (fun _ => U e) X.
Proof.
  intro HE. unfold switch. eapply t_bind.
  { apply t_close_cur with (P := fun s => U 0 s /\ Fr e raw s); [apply st_and; [apply st_U|apply st_Fr]|].
    intros s k0 [A B] K. split; [apply U_cur; assumption|]. unfold Fr in *. cbn [s_log s_con s_cur]. rewrite K. exact B. }
  intros ?. apply bind_assoc. eapply t_bind; [apply t_replace with (e0 := 0) (e := e); exact HE|]. intros ?.
  eapply t_conseq; [apply t_set_cur with (e := e) (raw := raw)| | |]; auto.
  - intros s (A & B & _). auto.
  - intros s H. exact H.
Qed.
(** One statement on the current connection. *)
Lemma U_served s k q v : U 0 s -> c_usage (s_con s) < S m ->
  U 1 (St (s_log s ++ [(KExec (c_raw (s_con s)) k q, Returns v)]) (s_con s) (s_cur s)).
Proof.
  intros H L. destruct H.
  assert (S1 : forall r, served r [(KExec (c_raw (s_con s)) k q, Returns v)] <= 1) by
    (intro r; unfold served; cbn; destruct (Nat.eqb r _); cbn; lia).
  assert (S0 : forall r, r <> c_raw (s_con s) -> served r [(KExec (c_raw (s_con s)) k q, Returns v)] = 0) by
    (intros r N; unfold served; cbn; apply Nat.eqb_neq in N; rewrite N; reflexivity).
  constructor; cbn [s_log s_con s_cur]; try assumption.
  - rewrite served_app. specialize (S1 (c_raw (s_con s))). lia.
  - intro r. rewrite served_app. destruct (Nat.eq_dec r (c_raw (s_con s))) as [->|N].
    + specialize (S1 (c_raw (s_con s))). lia.
    + rewrite (S0 r N). specialize (u_all0 r). lia.
  - intros r R. rewrite app_length in R. cbn in R. rewrite served_app, (u_new0 r) by lia. rewrite S0; lia.
  - rewrite app_length. lia.
  - rewrite app_length. lia.
  - destruct u_k0 as [K|K]; [left; exact K|right; apply closed_app, K].
Qed.
Lemma Fr_served raw k q v s : Fr 0 raw s -> U 0 s ->
  U 0 (St (s_log s ++ [(KExec raw k q, Returns v)]) (s_con s) (s_cur s)) /\
  Fr 1 raw (St (s_log s ++ [(KExec raw k q, Returns v)]) (s_con s) (s_cur s)).
Proof.
  intros (F1 & F2 & C & K) H. destruct H.
  assert (S1 : forall r, served r [(KExec raw k q, Returns v)] <= 1) by
    (intro r; unfold served; cbn; destruct (Nat.eqb r _); cbn; lia).
  assert (S0 : forall r, r <> raw -> served r [(KExec raw k q, Returns v)] = 0) by
    (intros r N; unfold served; cbn; apply Nat.eqb_neq in N; rewrite N; reflexivity).
  split.
  - constructor; cbn [s_log s_con s_cur]; try assumption.
    + rewrite served_app, S0 by congruence. lia.
    + intro r. rewrite served_app. destruct (Nat.eq_dec r raw) as [->|N].
      * specialize (S1 raw). lia.
      * rewrite (S0 r N). specialize (u_all0 r). lia.
    + intros r R. rewrite app_length in R. cbn in R. rewrite served_app, (u_new0 r) by lia. rewrite S0; lia.
    + rewrite app_length. lia.
    + rewrite app_length. lia.
    + destruct u_k0 as [X|X]; [left; exact X|right; apply closed_app, X].
  - split; [|split; [|split; assumption]]; cbn [s_log]; [rewrite served_app; specialize (S1 raw); lia|rewrite app_length; lia].
Qed.
Lemma t_third sql error : tri (U 0) (third_try g drv sql false error) (fun _ => U 0) (U 0).
Proof.
  unfold third_try. eapply t_bind with (Q := fun o s => U 0 s /\ match o with Ret raw => Fr 0 raw s | Raise _ => True end).
  { eapply t_conseq; [apply t_attempt with (P := U 0) (Q := fun raw s => U 0 s /\ Fr 0 raw s) (X := U 0);
      apply t_create with (e := 0); [apply st_U|auto|auto]| | |]; auto.
    - intros [raw|e2] s H; [exact H|auto].
    - intros s H. exact H. }
  intros [raw|e]; [|apply t_raise; intros s [H _]; exact H].
  set (PF := fun s => U 0 s /\ Fr 0 raw s).
  assert (SF : stable PF) by (apply st_and; [apply st_U|apply st_Fr]).
  eapply t_bind with (Q := fun _ => PF).
  { eapply t_conseq; [apply t_attempt with (P := PF) (Q := fun _ => PF) (X := PF); apply t_newp; [exact SF|reflexivity|auto]| | |]; auto.
    - intros [k|e3] s H; exact H.
    - intros s H. exact H. }
  intros [k|e].
  2: { eapply t_bind; [apply t_quiet; [exact SF|reflexivity]|]. intros ?. apply t_raise. intros s [H _]. exact H. }
  eapply t_bind with (Q := fun o s => match o with Ret _ => U 0 s /\ Fr 1 raw s | Raise _ => PF s end).
  { apply t_attempt. apply t_driver.
    - intros s v [A B] _. apply Fr_served; assumption.
    - intros s e H. apply SF; [intro r; apply served_raise|exact H]. }
  intros [v|e2].
  - eapply t_bind; [apply t_switch with (e := 1); lia|]. intros ?. eapply t_bind; [apply t_use_con|]. intros ?. apply t_ret. auto.
  - destruct (g_sub g (x_class e2) (x_class error)).
    + eapply t_bind; [apply t_quiet; [exact SF|reflexivity]|]. intros ?.
      eapply t_bind; [apply t_quiet; [exact SF|reflexivity]|]. intros ?. apply t_raise. intros s [H _]. exact H.
    + eapply t_bind with (Q := fun _ => U 1).
      * eapply t_conseq; [apply t_switch with (e := 1); lia| | |]; auto.
        -- intros s [A (B & C)]. split; [exact A|]. split; [lia|exact C].
        -- intros s H. exact H.
      * intros ?. eapply t_bind; [apply t_use_con|]. intros ?. apply t_raise. auto.
Qed.
Lemma t_second sql (X : st -> Prop) : tri (U 0) (second_try g drv sql) (fun _ => U 0) X.
Proof.
  unfold second_try. eapply t_bind; [apply t_attempt, t_con_cursor|].
  intros [[raw k]|e]; [|apply t_ret; auto]. cbn [fst].
  eapply t_bind with (Q := fun o s => match o with Ret _ => U 1 s /\ c_raw (s_con s) = raw | Raise _ => U 0 s end).
  { apply t_attempt with (Q := fun _ s => U 1 s /\ c_raw (s_con s) = raw) (X := U 0). apply t_driver.
    - intros s v (A & B & C) _. split; [|exact B]. rewrite <- B. apply U_served; assumption.
    - intros s e (A & _). apply U_ext; [intro r; apply served_raise|exact A]. }
  intros [v|e].
  - eapply t_bind.
    { apply t_close_cur with (P := fun s => U 1 s /\ c_raw (s_con s) = raw).
      - apply st_and; [apply st_U|intros s x _ H; exact H].
      - intros s k0 [A B] K. split; [apply U_cur; assumption|exact B]. }
    intros ?. eapply t_bind; [apply t_set_cur|]. intros ?. eapply t_bind; [apply t_use_con|]. intros ?. apply t_ret. auto.
  - eapply t_bind; [apply t_quiet; [apply st_U|reflexivity]|]. intros ?. apply t_ret. auto.
Qed.

Ltac known ::= first [apply session_no_exec | fail].
Lemma only_weak A (K K' : call -> bool) (x : M A) : only K x -> (forall k, K k = true -> K' k = true) -> only K' x.
Proof.
  intros H W s o s' E. destruct (H s o s' E) as (d & D & F). exists d. split; [exact D|]. eapply Forall_impl; [|exact F]. intros e. apply W.
Qed.
Definition any (_ : call) : bool := true.
Lemma any_of A (x : M A) : only no_exec x -> only any x.
Proof. intro H. eapply only_weak; [exact H|reflexivity]. Qed.
Ltac known ::= first [apply any_of; first [apply create_no_exec | apply close_con_no_exec | apply ping_no_exec | apply con_cursor_no_exec
  | apply close_cur_no_exec | apply switch_no_exec | apply use_con_no_exec | apply quiet_no_exec; reflexivity]].
Lemma any_execute sql : only any (execute g drv sql).
Proof. unfold execute, second_try, third_try, set_cur. cbv zeta. only_tac. Qed.

Lemma t_execute sql : tri (U 0) (execute g drv sql) (fun _ => U 0) (U 0).
Proof.
  eapply t_agree with (x' :=
    ping_check g drv 4 ;;
    let* c := get_con in
    let* k := get_cur in
    let* r := attempt (if overused g c false then raise (g_failure g) else driver drv (KExec (k_raw k) (k_cur k) sql)) in
    match r with
    | Ret v => use_con ;; ret v
    | Raise error =>
      if negb (g_failures g (x_class error)) then raise error
      else
        let* again := second_try g drv sql in
        match again with
        | Some v => ret v
        | None => third_try g drv sql false error
        end
    end).
  { eapply only_ext, any_execute. }
  { intros s H. unfold execute. cbv zeta. unfold bindM at 1. unfold get_con at 1. rewrite (u_trans 0 s H). reflexivity. }
  eapply t_bind; [apply t_ping; auto|]. intros ?. eapply t_bind; [apply t_get_con|]. intro c.
  eapply t_bind; [apply t_get_cur|]. intro k.
  eapply t_bind with (Q := fun o s => match o with Ret _ => U 1 s | Raise _ => U 0 s end).
  { apply t_attempt with (Q := fun _ => U 1) (X := U 0).
    destruct (overused g c false) eqn:OV; [apply t_raise; intros s [[H _] _]; exact H|].
    unfold overused in OV. rewrite Hm in OV. cbn [Nat.eqb negb andb] in OV. rewrite andb_true_r in OV. apply Nat.leb_gt in OV.
    apply t_driver.
    - intros s v [[A ->] ->] SI. destruct (u_k 0 s A) as [K|K].
      + rewrite K. apply U_served; assumption.
      + specialize (SI (s_log s) _ _ _ _ [] eq_refl K). discriminate SI.
    - intros s e [[A _] _]. apply U_ext; [intro r; apply served_raise|exact A]. }
  intros [v|error].
  - eapply t_bind; [apply t_use_con|]. intros ?. apply t_ret. auto.
  - destruct (negb _); [apply t_raise; auto|]. eapply t_bind; [apply t_second|].
    intros [v|]; [apply t_ret; auto|apply t_third].
Qed.

Lemma t_do_op o : o <> OBegin -> tri (U 0) (do_op g drv o) (fun _ => U 0) (U 0).
Proof.
  intro N. destruct o; cbn [do_op]; [congruence|..|apply t_execute].
  - eapply t_bind; [apply t_finish; reflexivity|]. intros ?. apply t_ret. auto.
  - eapply t_bind; [apply t_finish; reflexivity|]. intros ?. apply t_ret. auto.
  - eapply t_bind; [apply t_cancel|]. intros ?. apply t_ret. auto.
  - eapply t_bind; [apply t_cursor|]. intros ?. apply t_ret. auto.
Qed.
Lemma run_ext l : ~ In OBegin l -> forall s, exists d, s_log (run_ops g drv l s) = s_log s ++ d.
Proof.
  induction l as [|o l IH]; intros N s; cbn [run_ops]; [exists []; rewrite app_nil_r; reflexivity|].
  destruct (t_do_op o) as [E _]; [intros ->; apply N; left; reflexivity|]. destruct (E s) as [d1 D1].
  destruct (IH (fun H => N (or_intror H)) (snd (do_op g drv o s))) as [d2 D2]. exists (d1 ++ d2). rewrite D2, D1, app_assoc. reflexivity.
Qed.
Lemma run_U l : ~ In OBegin l -> forall s, U 0 s -> silent (s_log (run_ops g drv l s)) -> U 0 (run_ops g drv l s).
Proof.
  induction l as [|o l IH]; intros N s H S; cbn [run_ops] in *; [exact H|].
  assert (N' : ~ In OBegin l) by (intro X; apply N; right; exact X).
  apply IH; [exact N'| |exact S]. destruct (t_do_op o) as [_ T]; [intros ->; apply N; left; reflexivity|].
  destruct (run_ext l N' (snd (do_op g drv o s))) as [d D]. rewrite D in S. apply silent_prefix in S.
  specialize (T s H S). destruct (fst (do_op g drv o s)); exact T.
Qed.
End Usage.
