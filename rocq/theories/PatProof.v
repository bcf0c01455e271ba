(** The patterns of elements are read as they are meant. *)
From Coq Require Import String Ascii List Arith NArith Bool Lia.
From Verif Require Import Base EngineModel EngineSqlModel WhiteModel RegexModel RegexProof PatModel PatSpec.
Import ListNotations.

(** ** The same matches *)
Lemma same_refl a : same a a. Proof. intros x. reflexivity. Qed.
Lemma same_sym a b : same a b -> same b a. Proof. intros H x. symmetry. apply H. Qed.
Lemma same_trans a b c : same a b -> same b c -> same a c. Proof. intros H K x. rewrite H. apply K. Qed.
Lemma same_seq a a' b b' : same a a' -> same b b' -> same (Seq a b) (Seq a' b').
Proof. intros H K x. cbn [ends]. rewrite H. apply flat_ext. exact K. Qed.
Lemma same_alt a a' b b' : same a a' -> same b b' -> same (Alt a b) (Alt a' b').
Proof. intros H K x. cbn [ends]. rewrite H, K. reflexivity. Qed.
Lemma same_star a a' : same a a' -> same (Star a) (Star a').
Proof.
  intros H x. rewrite !ends_star. generalize (length (snd x)). intros n. revert x. induction n as [|n IH]; intros x; [reflexivity|].
  cbn [stars]. rewrite H. f_equal. apply flat_ext. intros y. destruct (shorter x y); [apply IH | reflexivity].
Qed.
Lemma seq_eps a : same (Seq a Eps) a.
Proof. intros x. cbn [ends]. induction (ends a x) as [|y l IH]; [reflexivity|]. cbn [flat_map]. rewrite IH. reflexivity. Qed.
Lemma flat_flat {A B C} (f : A -> list B) (g : B -> list C) l : flat_map g (flat_map f l) = flat_map (fun x => flat_map g (f x)) l.
Proof. induction l as [|x l IH]; [reflexivity|]. cbn [flat_map]. rewrite flat_map_app, IH. reflexivity. Qed.
Lemma seq_seq a b c : same (Seq (Seq a b) c) (Seq a (Seq b c)).
Proof. intros x. cbn [ends]. apply flat_flat. Qed.
Lemma eps_seq a : same (Seq Eps a) a.
Proof. intros x. cbn [ends flat_map]. apply app_nil_r. Qed.
Lemma alt_alt a b c : same (Alt (Alt a b) c) (Alt a (Alt b c)).
Proof. intros x. cbn [ends]. symmetry. apply app_assoc. Qed.
Lemma seql_app a b : same (seql (a ++ b)) (Seq (seql a) (seql b)).
Proof.
  induction a as [|r a IH]; cbn [app seql]; [apply same_sym, eps_seq|].
  eapply same_trans; [apply same_seq; [apply same_refl | exact IH]|]. apply same_sym, seq_seq.
Qed.
Lemma altl_app a b : a <> [] -> b <> [] -> same (altl (a ++ b)) (Alt (altl a) (altl b)).
Proof.
  intros Ha Hb. induction a as [|r a IH]; [destruct (Ha eq_refl)|]. destruct a as [|r' a].
  - cbn [app altl]. destruct b; [destruct (Hb eq_refl) | apply same_refl].
  - change (altl ((r :: r' :: a) ++ b)) with (Alt r (altl ((r' :: a) ++ b))). change (altl (r :: r' :: a)) with (Alt r (altl (r' :: a))).
    eapply same_trans; [apply same_alt; [apply same_refl | apply IH; discriminate]|]. apply same_sym, alt_alt.
Qed.
Lemma same_times n a b : same a b -> same (times n a) (times n b).
Proof. intros H. induction n as [|n IH]; [apply same_refl | apply same_seq; assumption]. Qed.
Lemma same_upto n a b : same a b -> same (upto n a) (upto n b).
Proof. intros H. induction n as [|n IH]; [apply same_refl|]. apply same_alt; [apply same_seq; assumption | apply same_refl]. Qed.
Lemma same_repeated n m a b : same a b -> same (repeated n m a) (repeated n m b).
Proof.
  intros H. apply same_seq; [apply same_times; exact H|]. destruct m; [apply same_upto; exact H | apply same_star; exact H].
Qed.
Lemma once a : same (repeated 1 (Some 1) a) a.
Proof. eapply same_trans; [apply seq_eps | apply seq_eps]. Qed.
Lemma word_seql w : same (seql (map is w)) (word w).
Proof.
  induction w as [|c w IH]; [apply same_refl|]. destruct w as [|c' w]; [apply seq_eps|].
  change (word (c :: c' :: w)) with (Seq (is c) (word (c' :: w))). apply same_seq; [apply same_refl | exact IH].
Qed.

(** ** Reading *)
Lemma run_app a b st : signs_run (a ++ b) st = match signs_run a st with Some st => signs_run b st | None => None end.
Proof. revert st. induction a as [|x a IH]; intros st; [reflexivity|]. cbn [app signs_run]. destruct (sign_step x st); [apply IH | reflexivity]. Qed.
(** A pattern that may stand between bars, in a row, before a repetition. *)
Definition barred (t : list sgn) (r : re) : Prop := forall A ok st, exists B cs ok',
  signs_run t ((A, [], ok) :: st) = Some ((A ++ B, cs, ok') :: st) /\ same (altl (B ++ [seql cs])) r.
Definition rowed (t : list sgn) (r : re) : Prop := forall A c ok st, exists cs ok',
  signs_run t ((A, c, ok) :: st) = Some ((A, c ++ cs, ok') :: st) /\ same (seql cs) r.
Definition single (t : list sgn) (r : re) (must : Prop) : Prop := forall A c ok st, exists s ok',
  signs_run t ((A, c, ok) :: st) = Some ((A, c ++ [s], ok') :: st) /\ same s r /\ (must -> ok' = true).
Lemma single_row t r P : single t r P -> rowed t r.
Proof. intros H A c ok st. destruct (H A c ok st) as (s & ok' & R & E & _). exists [s], ok'. split; [exact R|]. eapply same_trans; [apply seq_eps | exact E]. Qed.
Lemma row_bar t r : rowed t r -> barred t r.
Proof. intros H A ok st. destruct (H A [] ok st) as (cs & ok' & R & E). exists [], cs, ok'. rewrite app_nil_r. split; [exact R | exact E]. Qed.
Lemma bar_single t r : barred t r -> single (Open :: t ++ [Close]) r True.
Proof.
  intros H A c ok st. cbn [signs_run sign_step]. rewrite run_app. destruct (H [] false ((A, c, ok) :: st)) as (B & cs & ok' & R & E). rewrite R.
  cbn [signs_run sign_step closed app]. eexists _, true. split; [reflexivity|]. split; [exact E | reflexivity].
Qed.
Definition many (e : el) : bool := match e with ManyE _ _ _ => true | _ => false end.
Definition reads (e : el) : Prop :=
  match fst (regex e) with
  | PStar => single (snd (regex e)) (meaning e) (many e = false)
  | PPlus => rowed (snd (regex e)) (meaning e)
  | PBar => barred (snd (regex e)) (meaning e)
  end.
Lemma reads_bar e : reads e -> barred (snd (regex e)) (meaning e).
Proof. unfold reads. destruct (fst (regex e)); intros H; [exact H | apply row_bar; exact H | apply row_bar, single_row with (1 := H)]. Qed.
Lemma reads_row e : reads e -> rowed (iso (fst (regex e)) (snd (regex e)) PPlus) (meaning e).
Proof.
  intros H. pose proof (reads_bar e H) as Q. unfold reads in H. unfold iso. destruct (fst (regex e)); cbn [level Nat.ltb Nat.leb].
  - apply single_row with True, bar_single. exact Q.
  - exact H.
  - apply single_row with (1 := H).
Qed.
Lemma reads_single e : reads e -> many e = false -> single (iso (fst (regex e)) (snd (regex e)) PStar) (meaning e) True.
Proof.
  intros H M. pose proof (reads_bar e H) as Q. unfold reads in H. unfold iso. destruct (fst (regex e)); cbn [level Nat.ltb Nat.leb].
  - apply bar_single. exact Q.
  - apply bar_single. exact Q.
  - intros A c ok st. destruct (H A c ok st) as (s & ok' & R & E & K). exists s, ok'. auto.
Qed.
Lemma bars_ok l : l <> [] -> Forall (fun q => barred (fst q) (snd q)) l -> barred (bars (map fst l)) (altl (map snd l)).
Proof.
  intros N F. induction F as [|q l Q F IH]; [destruct (N eq_refl)|]. destruct l as [|q' l]; [exact Q|].
  intros A ok st. change (bars (map fst (q :: q' :: l))) with (fst q ++ Bar :: bars (map fst (q' :: l))).
  rewrite run_app. destruct (Q A ok st) as (B & cs & ok' & R & E). rewrite R. cbn [signs_run sign_step].
  destruct (IH ltac:(discriminate) ((A ++ B) ++ [seql cs]) false st) as (B' & cs' & ok2 & R' & E'). rewrite R'.
  exists ((B ++ [seql cs]) ++ B'), cs', ok2. split; [rewrite !app_assoc; reflexivity|]. rewrite <- app_assoc.
  change (altl (map snd (q :: q' :: l))) with (Alt (snd q) (altl (map snd (q' :: l)))).
  eapply same_trans; [apply altl_app; [destruct B; discriminate | destruct B'; discriminate]|]. apply same_alt; assumption.
Qed.
Lemma rows_ok l : Forall (fun q => rowed (fst q) (snd q)) l -> rowed (flat_map fst l) (seql (map snd l)).
Proof.
  intros F. induction F as [|q l Q F IH]; intros A c ok st; cbn [flat_map map seql].
  - exists [], ok. cbn [signs_run]. rewrite app_nil_r. split; [reflexivity | apply same_refl].
  - rewrite run_app. destruct (Q A c ok st) as (cs & ok' & R & E). rewrite R. destruct (IH A (c ++ cs) ok' st) as (cs' & ok2 & R' & E'). rewrite R'.
    exists (cs ++ cs'), ok2. rewrite app_assoc. split; [reflexivity|]. eapply same_trans; [apply seql_app | apply same_seq; assumption].
Qed.
Lemma lit_row w : rowed (map (fun c => Piece (is c)) w) (word w).
Proof.
  intros A c ok st. assert (X : forall w c ok, exists ok', signs_run (map (fun c => Piece (is c)) w) ((A, c, ok) :: st) = Some ((A, c ++ map is w, ok') :: st)).
  { clear. induction w as [|x w IH]; intros c ok; cbn [map signs_run sign_step]; [exists ok; rewrite app_nil_r; reflexivity|].
    destruct (IH (c ++ [is x]) true) as (ok' & ->). exists ok'. rewrite <- app_assoc. reflexivity. }
  destruct (X w c ok) as (ok' & R). exists (map is w), ok'. split; [exact R | apply word_seql].
Qed.
Lemma rep_ok t r n m : single t r True -> match m with Some m => n <= m | None => True end -> single (t ++ suffix n m) (repeated n m r) False.
Proof.
  intros H L A c ok st. rewrite run_app. destruct (H A c ok st) as (s & ok' & R & E & K). rewrite R, (K I). unfold suffix.
  assert (X : exists s0 ok0, signs_run [Rep n m] ((A, c ++ [s], true) :: st) = Some ((A, c ++ [s0], ok0) :: st) /\ same s0 (repeated n m r) /\ (False -> ok0 = true)).
  { cbn [signs_run sign_step]. replace (match m with None => true | Some m0 => n <=? m0 end) with true by (destruct m; [symmetry; apply Nat.leb_le; exact L | reflexivity]).
    rewrite removelast_last, last_last. eexists _, _. split; [reflexivity|]. split; [apply same_repeated; exact E | intros []]. }
  destruct m as [[|[|m]]|]; try exact X. destruct (n =? 1) eqn:Q; [|exact X]. apply Nat.eqb_eq in Q. subst n. cbn [signs_run].
  exists s, true. split; [reflexivity|]. split; [|intros []]. eapply same_trans; [exact E | apply same_sym, once].
Qed.
Lemma single_any t r (P Q : Prop) : (Q -> P) -> single t r P -> single t r Q.
Proof. intros I H A c ok st. destruct (H A c ok st) as (s & ok' & R & E & K). exists s, ok'. auto. Qed.
Lemma piece_row r : rowed [Piece r] r.
Proof. intros A c ok st. exists [r], true. split; [reflexivity | apply seq_eps]. Qed.
Section ElInd.
Variable P : el -> Prop.
Hypothesis HAtom : forall r, P (Atom r).
Hypothesis HLit : forall w, P (Lit w).
Hypothesis HAnd : forall l, Forall P l -> P (AndE l).
Hypothesis HFirst : forall l, Forall P l -> P (FirstE l).
Hypothesis HMany : forall n m e, P e -> P (ManyE n m e).
Hypothesis HSkip : forall i e, P e -> P (SkipE i e).
Hypothesis HPat : forall e, P e -> P (Pat e).
Fixpoint el_all (e : el) : P e :=
  match e with
  | Atom r => HAtom r
  | Lit w => HLit w
  | AndE l => HAnd l ((fix go l : Forall P l := match l with [] => Forall_nil _ | e :: l => Forall_cons e (el_all e) (go l) end) l)
  | FirstE l => HFirst l ((fix go l : Forall P l := match l with [] => Forall_nil _ | e :: l => Forall_cons e (el_all e) (go l) end) l)
  | ManyE n m e => HMany n m e (el_all e)
  | SkipE i e => HSkip i e (el_all e)
  | Pat e => HPat e (el_all e)
  end.
End ElInd.
Lemma fine_all (Q : el -> Prop) l : Forall (fun e => fine e -> Q e) l -> fold_right and True (map fine l) -> Forall Q l.
Proof. intros F. induction F as [|e l H F IH]; cbn; intros K; constructor; [apply H, K | apply IH, K]. Qed.
Lemma iso_bar p t : iso p t PBar = t.
Proof. destruct p; reflexivity. Qed.
Lemma bars_els l : l <> [] -> Forall reads l -> barred (bars (map (fun e => let (p, t) := regex e in iso p t PBar) l)) (altl (map meaning l)).
Proof.
  intros N F. replace (map (fun e => let (p, t) := regex e in iso p t PBar) l) with (map fst (map (fun e => (snd (regex e), meaning e)) l)).
  - replace (map meaning l) with (map snd (map (fun e => (snd (regex e), meaning e)) l)) by (rewrite map_map; reflexivity).
    apply bars_ok; [destruct l; [destruct (N eq_refl) | discriminate]|]. apply Forall_map. eapply Forall_impl; [|exact F]. intros e H. apply reads_bar. exact H.
  - rewrite map_map. apply map_ext. intros e. destruct (regex e) as (p & t). rewrite iso_bar. reflexivity.
Qed.
Lemma reads_ok e : fine e -> reads e.
Proof.
  induction e as [r|w|l F|l F|n m e IH|i e IH|e IH] using el_all; intros H.
  - intros A c ok st. exists r, true. repeat split.
  - apply lit_row.
  - unfold reads. cbn [regex fst snd meaning]. apply (fine_all reads) in F; [|exact H].
    replace (flat_map (fun e => let (p, t) := regex e in iso p t PPlus) l)
      with (flat_map fst (map (fun e => (iso (fst (regex e)) (snd (regex e)) PPlus, meaning e)) l)).
    + replace (map meaning l) with (map snd (map (fun e => (iso (fst (regex e)) (snd (regex e)) PPlus, meaning e)) l)) by (rewrite map_map; reflexivity).
      apply rows_ok. apply Forall_map. eapply Forall_impl; [|exact F]. intros e R. apply reads_row. exact R.
    + clear. induction l as [|e l IH]; [reflexivity|]. cbn [map flat_map fst]. rewrite IH. destruct (regex e); reflexivity.
  - unfold reads. cbn [regex fst snd meaning]. destruct H as (N & H). apply (fine_all reads) in F; [|exact H]. apply bars_els; assumption.
  - destruct H as (H & L & M). specialize (IH H). assert (K : many e = false) by (destruct e; [reflexivity .. | destruct M | reflexivity | reflexivity]).
    pose proof (rep_ok _ _ n m (reads_single e IH K) L) as Q. unfold reads. cbn [regex]. destruct (regex e) as (p & t). cbn [fst snd meaning many] in *.
    eapply single_any; [|exact Q]. discriminate.
  - specialize (IH H). pose proof (reads_row e IH) as Q. unfold reads. cbn [regex]. destruct (regex e) as (p & t). cbn [fst snd meaning] in *. destruct i; cbn [fst snd].
    + eapply single_any; [|apply (bar_single (any_piece :: iso p t PPlus))]; [intros _; exact I|]. apply row_bar.
      intros A c ok st. cbn [signs_run any_piece sign_step]. destruct (Q A (c ++ [Lazy (Cls (fun _ => true))]) true st) as (cs & ok' & R & E).
      exists (Lazy (Cls (fun _ => true)) :: cs), ok'. rewrite R, <- app_assoc. split; [reflexivity|]. cbn [seql]. apply same_seq; [apply same_refl | exact E].
    + intros A c ok st. cbn [signs_run any_piece sign_step closed app]. destruct (Q A (c ++ [altl [seql [Lazy (Cls (fun _ => true))]]]) true st) as (cs & ok' & R & E).
      exists (altl [seql [Lazy (Cls (fun _ => true))]] :: cs), ok'. cbn [altl seql] in *. rewrite R, <- app_assoc. split; [reflexivity|].
      apply same_seq; [apply seq_eps | exact E].
  - specialize (IH H). apply (reads_bar e IH).
Qed.
Lemma barred_compile t r : barred t r -> exists s, compile t = Some s /\ same s r.
Proof.
  intros H. unfold compile. destruct (H [] false []) as (B & cs & ok & R & E). rewrite R. eexists. split; [reflexivity | exact E].
Qed.
Lemma compile_ok e : fine e -> exists s, compile (snd (regex e)) = Some s /\ same s (meaning e).
Proof. intros H. apply barred_compile, reads_bar, reads_ok. exact H. Qed.

(** ** White space *)
Lemma star_row r : rowed [Piece r; Rep 0 None] (Star r).
Proof.
  intros A c ok st. cbn [signs_run sign_step]. rewrite removelast_last, last_last. eexists [_], _. split; [reflexivity|].
  eapply same_trans; [apply seq_eps | apply eps_seq].
Qed.
Lemma row_two a b r s : rowed a r -> rowed b s -> rowed (a ++ b) (Seq r s).
Proof.
  intros H K A c ok st. rewrite run_app. destruct (H A c ok st) as (cs & ok' & R & E). rewrite R. destruct (K A (c ++ cs) ok' st) as (cs' & ok2 & R' & E'). rewrite R'.
  exists (cs ++ cs'), ok2. rewrite app_assoc. split; [reflexivity|]. eapply same_trans; [apply seql_app | apply same_seq; assumption].
Qed.
Lemma white_compile ws l : Forall fine l ->
  exists s, compile (snd (white_regex ws l)) = Some s /\
  same s (let w := Star (Cls (fun c => existsb (N.eqb c) ws)) in match l with [] => w | _ => Seq (Star (Seq w (altl (map meaning l)))) w end).
Proof.
  intros F. apply barred_compile, row_bar. unfold white_regex. set (w := Cls (fun c => existsb (N.eqb c) ws)). destruct l as [|e l]; cbn [snd fst]; [apply star_row|].
  assert (R : Forall reads (e :: l)) by (eapply Forall_impl; [|exact F]; intros a; apply reads_ok).
  set (t := bars _). assert (B : barred t (altl (map meaning (e :: l)))) by (apply bars_els; [discriminate | exact R]).
  replace (Open :: [Piece w; Rep 0 None] ++ Open :: t ++ Close :: Close :: Rep 0 None :: [Piece w; Rep 0 None])
    with (((Open :: ([Piece w; Rep 0 None] ++ (Open :: t ++ [Close])) ++ [Close]) ++ suffix 0 None) ++ [Piece w; Rep 0 None])
    by (cbn [app suffix]; rewrite <- !app_assoc; reflexivity).
  apply row_two; [|apply star_row]. intros A c ok st.
  destruct (single_row _ _ _ (rep_ok _ _ 0 None (bar_single _ _ (row_bar _ _ (row_two _ _ _ _ (star_row w) (single_row _ _ _ (bar_single _ _ B))))) I) A c ok st)
    as (cs & ok' & Q & E). exists cs, ok'. split; [exact Q|]. eapply same_trans; [exact E | apply eps_seq].
Qed.
