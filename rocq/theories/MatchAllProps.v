(** C117: elements in any order are found as often as they may and must be; an element that repeats itself counts once. *)
From Coq Require Import List Arith Bool Lia Permutation.
From Verif Require Import MatchAllModel.
Import ListNotations.

(** An element takes something at a place. *)
Definition takes (e : elem) (p q : nat) : Prop := run e p = Some q /\ q <> p.
(** Elements, by their places in the list, follow one another with white space between them. *)
Inductive chain (es : list elem) (skip : nat -> nat) : nat -> list nat -> nat -> Prop :=
| chain_nil p : chain es skip p [] p
| chain_cons p i e q js r : nth_error es i = Some e -> takes e p q -> chain es skip (skip q) js r -> chain es skip p (i :: js) r.
Definition times (order : list nat) (i : nat) : nat := count_occ Nat.eq_dec order i.

Definition idle (x : item) (p : nat) : Prop := forall q, ~ takes (snd x) p q.
Lemma round_ok todo end_ :
  match round todo end_ with
  | Some (todo', j, loc) => exists a c e b, todo = a ++ (j, c, e) :: b /\ takes e end_ loc /\ todo' = a ++ (if reached (ma e) (S c) then b else (j, S c, e) :: b) /\ Forall (fun x => idle x end_) a
  | None => Forall (fun x => idle x end_) todo
  end.
Proof.
  induction todo as [|[[i c] e] r IH]; cbn [round]; [constructor|].
  assert (N : (forall q, ~ takes e end_ q) -> match match round r end_ with Some (r', j, loc) => Some ((i, c, e) :: r', j, loc) | None => None end with
    | Some (todo', j, loc) => exists a c0 e0 b, (i, c, e) :: r = a ++ (j, c0, e0) :: b /\ takes e0 end_ loc /\ todo' = a ++ (if reached (ma e0) (S c0) then b else (j, S c0, e0) :: b) /\ Forall (fun x => idle x end_) a
    | None => Forall (fun x => idle x end_) ((i, c, e) :: r) end).
  { intros I. destruct (round r end_) as [[[r' j] loc]|].
    - destruct IH as (a & c0 & e0 & b & -> & T & -> & F). exists ((i, c, e) :: a), c0, e0, b. split; [reflexivity|]. split; [exact T|]. split; [reflexivity|]. constructor; [exact I | exact F].
    - constructor; [exact I | exact IH]. }
  cbv zeta. destruct (run e end_) as [loc|] eqn:E; [|apply N; intros q (Q & _); congruence].
  destruct (Nat.eqb_spec loc end_) as [->|D]; [apply N; intros q (Q & Q'); congruence|].
  exists [], c, e, r. split; [reflexivity|]. split; [split; assumption|]. split; [reflexivity | constructor].
Qed.

Definition ids (todo : list item) : list nat := map (fun x : item => fst (fst x)) todo.
Record inv (es : list elem) (todo : list item) (order : list nat) : Prop := {
  inv_nodup : NoDup (ids todo);
  inv_in : forall i c e, In (i, c, e) todo -> nth_error es i = Some e /\ c = times order i /\ reached (ma e) c = false;
  inv_out : forall i e, nth_error es i = Some e -> In i (ids todo) \/ ma e = Some (times order i) }.
Lemma in_ids i c e todo : In (i, c, e) todo -> In i (ids todo).
Proof. intros I. apply in_map_iff. exists (i, c, e). split; [reflexivity | exact I]. Qed.
Lemma ids_in i todo : In i (ids todo) -> exists c e, In (i, c, e) todo.
Proof. intros I. apply in_map_iff in I. destruct I as ([[j c] e] & <- & I). exists c, e. exact I. Qed.
Lemma times_app order j i : times (order ++ [j]) i = times order i + (if Nat.eq_dec j i then 1 else 0).
Proof. unfold times. rewrite count_occ_app. cbn [count_occ]. destruct (Nat.eq_dec j i); reflexivity. Qed.
Lemma inv_step es a j c e b order : inv es (a ++ (j, c, e) :: b) order -> inv es (a ++ (if reached (ma e) (S c) then b else (j, S c, e) :: b)) (order ++ [j]).
Proof.
  intros [N I O]. unfold ids in N. rewrite map_app in N. cbn [map fst] in N. pose proof (NoDup_remove_1 _ _ _ N) as N1. pose proof (NoDup_remove_2 _ _ _ N) as N2.
  destruct (I j c e) as (J & C & R); [apply in_app_iff; right; left; reflexivity|].
  assert (Same : forall i c' e', In (i, c', e') (a ++ b) -> nth_error es i = Some e' /\ c' = times (order ++ [j]) i /\ reached (ma e') c' = false).
  { intros i c' e' X. destruct (I i c' e') as (A & B & D); [apply in_app_iff in X; apply in_app_iff; destruct X; [left; assumption | right; right; assumption]|].
    split; [exact A|]. split; [|exact D]. rewrite times_app. destruct (Nat.eq_dec j i) as [->|]; [|lia]. destruct N2. rewrite <- map_app. exact (in_ids _ _ _ _ X). }
  assert (T : times (order ++ [j]) j = S c) by (rewrite times_app; destruct (Nat.eq_dec j j); [lia | congruence]).
  destruct (reached (ma e) (S c)) eqn:S1; split.
  - unfold ids. rewrite map_app. exact N1.
  - exact Same.
  - intros i e' E. destruct (Nat.eq_dec j i) as [<-|D].
    + right. rewrite T. assert (e' = e) by congruence. subst e'. destruct (ma e) as [m|]; cbn [reached] in *; [|discriminate S1]. apply Nat.leb_le in S1. apply Nat.leb_gt in R. f_equal. lia.
    + rewrite times_app. destruct (Nat.eq_dec j i); [congruence|]. rewrite Nat.add_0_r. destruct (O i e' E) as [X|X]; [|right; exact X]. left. unfold ids in *. rewrite map_app in *. apply in_app_iff in X. apply in_app_iff.
      destruct X as [X|[X|X]]; [left; exact X | cbn in X; congruence | right; exact X].
  - unfold ids. rewrite map_app. exact N.
  - intros i c' e' X. apply in_app_iff in X. destruct X as [X|[X|X]]; [apply Same, in_app_iff; left; exact X | | apply Same, in_app_iff; right; exact X].
    injection X as <- <- <-. split; [exact J|]. split; [symmetry; exact T | exact S1].
  - intros i e' E. rewrite times_app. unfold ids. rewrite map_app. cbn [map fst]. destruct (O i e' E) as [X|X].
    + left. unfold ids in X. rewrite map_app in X. exact X.
    + destruct (Nat.eq_dec j i) as [<-|D]; [left; apply in_app_iff; right; left; reflexivity | right; rewrite Nat.add_0_r; exact X].
Qed.
Lemma items_in es : forall k i c e, In (i, c, e) (items k es) <-> k <= i /\ c = 0 /\ nth_error es (i - k) = Some e.
Proof.
  induction es as [|x es IH]; intros k i c e; cbn [items In].
  - split; [intros [] | intros (_ & _ & E); destruct (i - k); discriminate E].
  - rewrite IH. split.
    + intros [[= <- <- <-]|(A & B & C)]; [rewrite Nat.sub_diag; repeat split; lia|]. split; [lia|]. split; [exact B|]. replace (i - k) with (S (i - S k)) by lia. exact C.
    + intros (A & B & C). destruct (Nat.eq_dec i k) as [->|D]; [left; rewrite Nat.sub_diag in C; injection C as ->; subst c; reflexivity|]. right. split; [lia|]. split; [exact B|]. replace (i - k) with (S (i - S k)) in C by lia. exact C.
Qed.
Lemma items_ids es : forall k, ids (items k es) = seq k (length es).
Proof. unfold ids. induction es as [|e es IH]; intros k; [reflexivity|]. cbn [items map length seq fst]. f_equal. apply IH. Qed.
Lemma inv_start es : (forall e, In e es -> ma e <> Some 0) -> inv es (items 0 es) [].
Proof.
  intros H. split.
  - rewrite items_ids. apply seq_NoDup.
  - intros i c e I. apply items_in in I. destruct I as (_ & -> & E). rewrite Nat.sub_0_r in E. split; [exact E|]. split; [reflexivity|]. specialize (H e (nth_error_In _ _ E)). destruct (ma e) as [[|m]|]; [congruence | reflexivity | reflexivity].
  - intros i e E. left. rewrite items_ids. apply in_seq. assert (nth_error es i <> None) by congruence. apply nth_error_Some in H0. lia.
Qed.
Lemma rounds_ok es skip : forall fuel todo end_ order todo' end' order', inv es todo order -> rounds fuel skip todo end_ order = Some (todo', end', order') ->
  inv es todo' order' /\ Forall (fun x => idle x end') todo' /\ exists more, order' = order ++ more /\ chain es skip end_ more end'.
Proof.
  induction fuel as [|fuel IH]; intros todo end_ order todo' end' order' V E; [discriminate E|]. cbn [rounds] in E. pose proof (round_ok todo end_) as R. destruct (round todo end_) as [[[t j] loc]|].
  - destruct R as (a & c & e & b & -> & T & -> & F). destruct (IH _ _ _ _ _ _ (inv_step _ _ _ _ _ _ _ V) E) as (V' & I & more & -> & C). split; [exact V'|]. split; [exact I|].
    exists (j :: more). rewrite <- app_assoc. split; [reflexivity|]. destruct (inv_in _ _ _ V j c e) as (J & _); [apply in_app_iff; right; left; reflexivity|]. exact (chain_cons es skip end_ j e loc more end' J T C).
  - injection E as <- <- <-. split; [exact V|]. split; [exact R|]. exists []. rewrite app_nil_r. split; [reflexivity | constructor].
Qed.

(** What is found: elements that follow one another, each at least as often as it must and at most as often as it may, and at the end none takes more that still may. *)
Theorem C117_found : forall fuel skip es start order end_, (forall e, In e es -> ma e <> Some 0 /\ forall m, ma e = Some m -> mi e <= m) ->
  match_all fuel skip es start = Order order end_ ->
  chain es skip start order end_ /\
  forall i e, nth_error es i = Some e -> mi e <= times order i /\ (forall m, ma e = Some m -> times order i <= m) /\ (ma e = Some (times order i) \/ forall q, ~ takes e end_ q).
Proof.
  intros fuel skip es start order end_ H E. unfold match_all in E. destruct (rounds fuel skip (items 0 es) start []) as [[[todo x] o]|] eqn:R; [|discriminate E].
  destruct (existsb _ todo) eqn:F in E; [discriminate E|]. destruct (existsb _ (items 0 es)) in E; [discriminate E|]. injection E as -> ->.
  destruct (rounds_ok es skip _ _ _ _ _ _ _ (inv_start es (fun e I => proj1 (H e I))) R) as (V & I & more & -> & C). cbn [app] in *. split; [exact C|].
  intros i e N. destruct (inv_out _ _ _ V i e N) as [J|J].
  - apply ids_in in J. destruct J as (c & e' & J). destruct (inv_in _ _ _ V _ _ _ J) as (A & B & D). assert (e' = e) by congruence. subst e' c. split; [|split].
    + destruct (Nat.ltb (times more i) (mi e)) eqn:L; [|apply Nat.ltb_ge; exact L]. assert (X : existsb (fun x : item => let '(_, c, e) := x in Nat.ltb c (mi e)) todo = true) by (apply existsb_exists; exists (i, times more i, e); split; assumption). congruence.
    + intros m M. rewrite M in D. cbn [reached] in D. apply Nat.leb_gt in D. lia.
    + right. rewrite Forall_forall in I. exact (I _ J).
  - split; [apply (proj2 (H e (nth_error_In _ _ N))); exact J|]. split; [intros m M; assert (m = times more i) by congruence; lia | left; exact J].
Qed.
Print Assumptions C117_found.

(** The second check never fails: what it looks for has been refused by the first. *)
Theorem C117_second_check : forall fuel skip es start, (forall e, In e es -> ma e <> Some 0) -> match_all fuel skip es start <> Missing.
Proof.
  intros fuel skip es start H E. unfold match_all in E. destruct (rounds fuel skip (items 0 es) start []) as [[[todo x] o]|] eqn:R; [|discriminate E].
  destruct (existsb _ todo) eqn:F in E; [discriminate E|]. destruct (existsb _ (items 0 es)) eqn:G in E; [|discriminate E]. clear E.
  destruct (rounds_ok es skip _ _ _ _ _ _ _ (inv_start es H) R) as (V & _ & _). apply existsb_exists in G. destruct G as ([[i c] e] & I & G). apply items_in in I. destruct I as (_ & _ & N). rewrite Nat.sub_0_r in N.
  apply andb_prop in G. destruct G as (G1 & G2). apply Nat.ltb_lt in G2.
  assert (Z : times o i = 0).
  { unfold times. apply count_occ_not_In. intros X. apply negb_true_iff in G1. assert (Y : existsb (Nat.eqb i) o = true) by (apply existsb_exists; exists i; split; [exact X | apply Nat.eqb_refl]). congruence. }
  destruct (inv_out _ _ _ V i e N) as [J|J]; [|rewrite Z in J; exact (H e (nth_error_In _ _ N) J)]. apply ids_in in J. destruct J as (c' & e' & J). destruct (inv_in _ _ _ V _ _ _ J) as (A & B & _). assert (e' = e) by congruence. subst e' c'.
  assert (X : existsb (fun x : item => let '(_, c, e) := x in Nat.ltb c (mi e)) todo = true) by (apply existsb_exists; exists (i, times o i, e); split; [exact J | apply Nat.ltb_lt; lia]). congruence.
Qed.
Print Assumptions C117_second_check.

(** It ends: elements that do not go back or beyond the text, and white space neither, need no more passes than there are characters. *)
Theorem C117_ends : forall skip es start n, (forall e p q, In e es -> run e p = Some q -> p <= q <= n) -> (forall p, p <= n -> p <= skip p <= n) -> (forall e, In e es -> ma e <> Some 0) -> start <= n ->
  match_all (S (n - start)) skip es start <> NoFuel.
Proof.
  intros skip es start n H K M L E. unfold match_all in E.
  assert (G : forall fuel todo end_ order, inv es todo order -> n - end_ < fuel -> end_ <= n -> rounds fuel skip todo end_ order <> None).
  { induction fuel as [|fuel IH]; intros todo end_ order V F B; [lia|]. cbn [rounds]. pose proof (round_ok todo end_) as R. destruct (round todo end_) as [[[t j] loc]|]; [|discriminate].
    destruct R as (a & c & e & b & -> & (T & D) & -> & _). destruct (inv_in _ _ _ V j c e) as (J & _); [apply in_app_iff; right; left; reflexivity|].
    pose proof (H e end_ loc (nth_error_In _ _ J) T). pose proof (K loc). apply IH; [exact (inv_step _ _ _ _ _ _ _ V) | lia | lia]. }
  destruct (rounds (S (n - start)) skip (items 0 es) start []) as [[[todo x] o]|] eqn:R; [|exact (G _ _ _ _ (inv_start es M) (Nat.lt_succ_diag_r _) L R)].
  destruct (existsb _ todo) in E; [discriminate E|]. destruct (existsb _ (items 0 es)) in E; discriminate E.
Qed.
Print Assumptions C117_ends.

Lemma in_times order i : In i order <-> 1 <= times order i.
Proof. unfold times. rewrite (count_occ_In Nat.eq_dec). split; lia. Qed.
Lemma any_rounds es skip : (forall e, In e es -> mi e = 1 /\ ma e = Some 1) ->
  (forall p i j e e' q q', nth_error es i = Some e -> nth_error es j = Some e' -> takes e p q -> takes e' p q' -> i = j) ->
  forall p rest r, chain es skip p rest r -> forall fuel todo before, length rest < fuel -> inv es todo before -> NoDup (before ++ rest) -> (forall i, i < length es -> In i (before ++ rest)) ->
  rounds fuel skip todo p before = Some ([], r, before ++ rest).
Proof.
  intros H X p rest r C. induction C as [p|p i e q js r N T C IH]; intros fuel todo before F V D A; (destruct fuel as [|fuel]; [cbn [length] in F; lia|]); cbn [rounds].
  - rewrite app_nil_r in *. destruct todo as [|[[i c] e] todo]; [reflexivity|]. exfalso. destruct (inv_in _ _ _ V i c e) as (N & -> & R); [left; reflexivity|].
    destruct (H e (nth_error_In _ _ N)) as (_ & M). rewrite M in R. cbn [reached] in R. apply Nat.leb_gt in R. assert (L : i < length es) by (apply nth_error_Some; congruence). apply A, in_times in L. lia.
  - pose proof (round_ok todo p) as R. assert (NI : ~ In i before) by (intros I; apply NoDup_remove_2 in D; apply D, in_app_iff; left; exact I).
    assert (J : exists c e', In (i, c, e') todo).
    { apply ids_in. destruct (inv_out _ _ _ V i e N) as [J|J]; [exact J|]. destruct NI. apply in_times. destruct (H e (nth_error_In _ _ N)) as (_ & M). rewrite M in J. injection J as J. lia. }
    destruct J as (c & e' & J). assert (e' = e) by (destruct (inv_in _ _ _ V _ _ _ J) as (Y & _); congruence). subst e'.
    destruct (round todo p) as [[[t j] loc]|]; [|rewrite Forall_forall in R; destruct (R _ J q T)].
    destruct R as (a & c' & e' & b & -> & T' & -> & _). destruct (inv_in _ _ _ V j c' e') as (N' & _); [apply in_app_iff; right; left; reflexivity|].
    assert (i = j) by exact (X p i j e e' q loc N N' T T'). subst j. assert (e' = e) by congruence. subst e'. assert (loc = q) by (destruct T, T'; congruence). subst loc.
    rewrite (IH fuel _ (before ++ [i])); [rewrite <- app_assoc; reflexivity | cbn [length] in F; lia | exact (inv_step _ _ _ _ _ _ _ V) | rewrite <- app_assoc; exact D | intros k K; rewrite <- app_assoc; exact (A k K)].
Qed.

(** Any order: elements that are needed once, of which no two take something at one place, are found in whatever order the text has them. *)
Theorem C117_any_order : forall skip es start order end_, (forall e, In e es -> mi e = 1 /\ ma e = Some 1) ->
  (forall p i j e e' q q', nth_error es i = Some e -> nth_error es j = Some e' -> takes e p q -> takes e' p q' -> i = j) ->
  Permutation order (seq 0 (length es)) -> chain es skip start order end_ -> forall fuel, length es < fuel -> match_all fuel skip es start = Order order end_.
Proof.
  intros skip es start order end_ H X P C fuel F. pose proof (Permutation_length P) as L. rewrite seq_length in L.
  assert (M : forall e, In e es -> ma e <> Some 0) by (intros e I; destruct (H e I) as (_ & ->); discriminate).
  assert (A : forall i, i < length es -> In i order) by (intros i I; apply (Permutation_in i (Permutation_sym P)), in_seq; lia).
  assert (D : NoDup order) by (apply (Permutation_NoDup (Permutation_sym P)), seq_NoDup).
  unfold match_all. rewrite (any_rounds es skip H X start order end_ C fuel (items 0 es) []); [| lia | exact (inv_start es M) | exact D | exact A]. cbn [app existsb].
  destruct (existsb _ (items 0 es)) eqn:G; [|reflexivity]. exfalso. apply existsb_exists in G. destruct G as ([[i c] e] & I & G). apply items_in in I. destruct I as (_ & _ & N). rewrite Nat.sub_0_r in N.
  apply andb_prop in G. destruct G as (G & _). apply negb_true_iff in G. assert (Y : existsb (Nat.eqb i) order = true) by (apply existsb_exists; exists i; split; [apply A, nth_error_Some; congruence | apply Nat.eqb_refl]). congruence.
Qed.
Print Assumptions C117_any_order.

(** An element that must be repeated takes all its repetitions at once and is counted once: it is refused although it matches. *)
Theorem C117_repeated_refuted : forall e skip start q, 2 <= mi e -> (forall m, ma e = Some m -> mi e <= m) -> takes e start q -> (forall r, ~ takes e (skip q) r) ->
  forall fuel, 2 <= fuel -> match_all fuel skip [e] start = TooFew.
Proof.
  intros e skip start q L M (T & D) Z fuel F. destruct fuel as [|[|fuel]]; [lia | lia|]. unfold match_all. cbn [items rounds round]. rewrite T. destruct (Nat.eqb_spec q start); [congruence|].
  assert (R : reached (ma e) 1 = false) by (destruct (ma e) as [m|]; [cbn [reached]; apply Nat.leb_gt; specialize (M m eq_refl); lia | reflexivity]). rewrite R. cbn [round].
  assert (G : (if Nat.ltb 1 (mi e) || false then TooFew else Order [] 0) = TooFew) by (destruct (Nat.ltb_spec 1 (mi e)); [reflexivity | lia]).
  destruct (run e (skip q)) as [loc|] eqn:E; [destruct (Nat.eqb_spec loc (skip q)); [|destruct (Z loc); split; assumption]|]; cbn [existsb]; (destruct (Nat.ltb 1 (mi e)); [reflexivity | discriminate G]).
Qed.
Print Assumptions C117_repeated_refuted.

(** ** Examples *)
(** Elements that take a number of characters at certain places. *)
Definition at_places (l : list (nat * nat)) (least : nat) (most : option nat) : elem :=
  {| run := fun p => match find (fun x => Nat.eqb (fst x) p) l with Some x => Some (snd x) | None => None end; mi := least; ma := most |}.
Example C117_example :
  let a := at_places [(3, 5)] 1 (Some 1) in let b := at_places [(0, 2)] 1 (Some 1) in let c := at_places [(6, 6)] 0 (Some 1) in let d := at_places [(6, 6)] 1 (Some 1) in
  match_all 9 S [a; b; c] 0 = Order [1; 0] 6 /\ match_all 9 S [a; c] 0 = TooFew /\ match_all 9 S [a; b; d] 0 = TooFew /\ chain [a; b] S 0 [1; 0] 6.
Proof.
  cbv zeta. split; [reflexivity|]. split; [reflexivity|]. split; [reflexivity|]. eapply chain_cons; [reflexivity | split; [reflexivity | discriminate]|]. eapply chain_cons; [reflexivity | split; [reflexivity | discriminate] | apply chain_nil].
Qed.
Example C117_repeated_example : let e := at_places [(0, 3)] 2 None in takes e 0 3 /\ match_all 5 S [e] 0 = TooFew.
Proof. split; [split; [reflexivity | discriminate] | reflexivity]. Qed.
