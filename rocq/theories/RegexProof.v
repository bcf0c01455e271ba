(** Regular expressions: the functions of the models give what going back gives. *)
From Coq Require Import String Ascii List Arith NArith Bool Lia.
From Verif Require Import Base EngineModel EngineSqlModel WhiteModel WhiteSpec WhiteProof RegexModel RegexSpec.
Import ListNotations.

(** The first result of a list of tries. *)
Fixpoint first {A B} (f : A -> option B) (l : list A) : option B :=
  match l with [] => None | x :: l => match f x with Some v => Some v | None => first f l end end.
Lemma first_app {A B} (f : A -> option B) a b : first f (a ++ b) = match first f a with Some v => Some v | None => first f b end.
Proof. induction a as [|x a IH]; [reflexivity|]. cbn. destruct (f x); [reflexivity | exact IH]. Qed.
Lemma first_flat {A B C} (k : B -> option C) (f : A -> list B) l : first k (flat_map f l) = first (fun y => first k (f y)) l.
Proof. induction l as [|x l IH]; [reflexivity|]. cbn. rewrite first_app, IH. reflexivity. Qed.
Lemma first_ext {A B} (f g : A -> option B) l : (forall x, f x = g x) -> first f l = first g l.
Proof. intros H. induction l as [|x l IH]; [reflexivity|]. cbn. rewrite H, IH. reflexivity. Qed.
Lemma first_hd {A B} (f : A -> B) l : first (fun x => Some (f x)) l = option_map f (hd_error l).
Proof. destruct l; reflexivity. Qed.

Lemma first_one {A B} (f : A -> option B) x : first f [x] = f x.
Proof. cbn. destruct (f x); reflexivity. Qed.

Section Tries.
Context {V : Type}.
Implicit Type k : place -> option V.
Definition tries (r : re) k (x : place) : option V := first k (ends r x).
Lemma tries_ext r k k' x : (forall y, k y = k' y) -> tries r k x = tries r k' x.
Proof. apply first_ext. Qed.
Lemma tries_seq a b k x : tries (Seq a b) k x = tries a (tries b k) x.
Proof. unfold tries. cbn [ends]. apply first_flat. Qed.
Lemma tries_alt a b k x : tries (Alt a b) k x = match tries a k x with Some v => Some v | None => tries b k x end.
Proof. unfold tries. cbn [ends]. apply first_app. Qed.
Lemma tries_eps k x : tries Eps k x = k x.
Proof. unfold tries. cbn. destruct (k x); reflexivity. Qed.
Lemma tries_cls p k b l : tries (Cls p) k (b, l) = match l with c :: t => if p c then k (Some c, t) else None | [] => None end.
Proof. unfold tries. cbn. destruct l as [|c t]; [reflexivity|]. destruct (p c); [apply first_one | reflexivity]. Qed.
Lemma tries_opt a k x : tries (opt a) k x = match tries a k x with Some v => Some v | None => k x end.
Proof. unfold opt. rewrite tries_alt, tries_eps. reflexivity. Qed.
Lemma tries_behind p k b l : tries (Behind p) k (b, l) = match b with Some c => if p c then k (b, l) else None | None => None end.
Proof. unfold tries. cbn. destruct b as [c|]; [|reflexivity]. destruct (p c); [apply first_one | reflexivity]. Qed.
Lemma tries_ahead p k b l : tries (Ahead p) k (b, l) = match l with c :: _ => if p c then k (b, l) else None | [] => None end.
Proof. unfold tries. cbn. destruct l as [|c t]; [reflexivity|]. destruct (p c); [apply first_one | reflexivity]. Qed.

Definition shorter (x y : place) : bool := length (snd y) <? length (snd x).
Section Loops.
Variable a : re.
Fixpoint stars (n : nat) (x : place) : list place :=
  match n with O => [x] | S n' => flat_map (fun y => if shorter x y then stars n' y else []) (ends a x) ++ [x] end.
Fixpoint lazies (n : nat) (x : place) : list place :=
  match n with O => [x] | S n' => x :: flat_map (fun y => if shorter x y then lazies n' y else []) (ends a x) end.
Lemma flat_nil {A B} (f : A -> list B) l : (forall y, f y = []) -> flat_map f l = [].
Proof. intros H. induction l as [|y l IH]; [reflexivity|]. cbn. rewrite H, IH. reflexivity. Qed.
Lemma flat_ext {A B} (f g : A -> list B) l : (forall y, f y = g y) -> flat_map f l = flat_map g l.
Proof. intros H. induction l as [|y l IH]; [reflexivity|]. cbn. rewrite H, IH. reflexivity. Qed.
Lemma none_shorter (x y : place) : length (snd x) <= 0 -> shorter x y = false.
Proof. intros H. unfold shorter. apply Nat.ltb_ge. lia. Qed.
Lemma stars_enough n : forall m (x : place), length (snd x) <= n -> length (snd x) <= m -> stars n x = stars m x.
Proof.
  induction n as [|n IH]; intros [|m] x Hn Hm; cbn [stars]; [reflexivity | | |].
  - rewrite flat_nil; [reflexivity|]. intros y. rewrite none_shorter by exact Hn. reflexivity.
  - rewrite flat_nil; [reflexivity|]. intros y. rewrite none_shorter by exact Hm. reflexivity.
  - f_equal. apply flat_ext. intros y. destruct (shorter x y) eqn:E; [|reflexivity]. apply Nat.ltb_lt in E. apply IH; lia.
Qed.
Lemma lazies_enough n : forall m (x : place), length (snd x) <= n -> length (snd x) <= m -> lazies n x = lazies m x.
Proof.
  induction n as [|n IH]; intros [|m] x Hn Hm; cbn [lazies]; [reflexivity | | |].
  - rewrite flat_nil; [reflexivity|]. intros y. rewrite none_shorter by exact Hn. reflexivity.
  - rewrite flat_nil; [reflexivity|]. intros y. rewrite none_shorter by exact Hm. reflexivity.
  - f_equal. apply flat_ext. intros y. destruct (shorter x y) eqn:E; [|reflexivity]. apply Nat.ltb_lt in E. apply IH; lia.
Qed.
End Loops.
Lemma ends_star a (x : place) : ends (Star a) x = stars a (length (snd x)) x.
Proof. reflexivity. Qed.
Lemma ends_lazy a (x : place) : ends (Lazy a) x = lazies a (length (snd x)) x.
Proof. reflexivity. Qed.
Lemma tries_star a k x : tries (Star a) k x =
  match tries a (fun y => if shorter x y then tries (Star a) k y else None) x with Some v => Some v | None => k x end.
Proof.
  unfold tries at 1. rewrite ends_star, (stars_enough a _ (S (length (snd x)))) by lia. cbn [stars]. rewrite first_app, first_flat. cbn [first].
  unfold tries at 1. rewrite (first_ext _ (fun y => if shorter x y then tries (Star a) k y else None)).
  - destruct (first _ (ends a x)); [reflexivity|]. destruct (k x); reflexivity.
  - intros y. destruct (shorter x y) eqn:E; [|reflexivity]. apply Nat.ltb_lt in E. unfold tries. rewrite ends_star.
    rewrite (stars_enough a _ (length (snd y))) by lia. reflexivity.
Qed.
Lemma tries_lazy a k x : tries (Lazy a) k x =
  match k x with Some v => Some v | None => tries a (fun y => if shorter x y then tries (Lazy a) k y else None) x end.
Proof.
  unfold tries at 1. rewrite ends_lazy, (lazies_enough a _ (S (length (snd x)))) by lia. cbn [lazies first]. rewrite first_flat.
  unfold tries at 1. destruct (k x); [reflexivity|]. apply first_ext.
  intros y. destruct (shorter x y) eqn:E; [|reflexivity]. apply Nat.ltb_lt in E. unfold tries. rewrite ends_lazy.
  rewrite (lazies_enough a _ (length (snd y))) by lia. reflexivity.
Qed.
Lemma star_cls p k b l : tries (Star (Cls p)) k (b, l) =
  match match l with c :: t => if p c then tries (Star (Cls p)) k (Some c, t) else None | [] => None end with Some v => Some v | None => k (b, l) end.
Proof.
  rewrite tries_star, tries_cls. destruct l as [|c t]; [reflexivity|]. destruct (p c); [|reflexivity].
  unfold shorter. cbn [snd length]. rewrite (proj2 (Nat.ltb_lt _ _)) by lia. reflexivity.
Qed.
(** A repetition of characters takes them all, when what follows never fails or fails at each of these characters. *)
Lemma star_all p k f : (forall b l, k (b, l) = f l) -> forall l b, (f (skipn (span p l) l) = None -> forall c t, p c = true -> f (c :: t) = None) ->
  tries (Star (Cls p)) k (b, l) = f (skipn (span p l) l).
Proof.
  intros K. induction l as [|c l IH]; intros b H; rewrite star_cls, K; [reflexivity|]. cbn [span] in *. destruct (p c) eqn:P; [|reflexivity].
  cbn [skipn] in *. rewrite IH by exact H. destruct (f (skipn (span p l) l)) as [v|] eqn:E; [reflexivity|]. apply H; [reflexivity | exact P].
Qed.
Lemma plus_all p k f : (forall b l, k (b, l) = f l) -> forall l b, (f (skipn (span p l) l) = None -> forall c t, p c = true -> f (c :: t) = None) ->
  tries (plus (Cls p)) k (b, l) = if span p l =? 0 then None else f (skipn (span p l) l).
Proof.
  intros K l b H. unfold plus. rewrite tries_seq, tries_cls. destruct l as [|c l]; [reflexivity|]. cbn [span] in *. destruct (p c); [|reflexivity].
  cbn [skipn Nat.eqb] in *. apply star_all; assumption.
Qed.
End Tries.
Lemma match_tries r b l : re_match r (b, l) = tries r (fun y => Some (length l - length (snd y))) (b, l).
Proof. unfold re_match, tries. rewrite first_hd. reflexivity. Qed.
Lemma len_skip {A} n (l : list A) : n <= length l -> length l - length (skipn n l) = n.
Proof. intros H. rewrite skipn_length. lia. Qed.
Lemma span_le p l : span p l <= length l.
Proof. induction l as [|c l IH]; [reflexivity|]. cbn. destruct (p c); lia. Qed.

(** ** Numbers *)
Section Numbers.
Context {V : Type}.
Variable f : pystr -> V.
Lemma sign_tries s (k : place -> option V) b l : tries (opt (one_of s)) k (b, l) =
  match match sign (u s) l with 1 => k (hd_error l, skipn 1 l) | _ => None end with Some v => Some v | None => k (b, l) end.
Proof. rewrite tries_opt. unfold one_of, sign. rewrite tries_cls. destruct l as [|c t]; [reflexivity|]. destruct (existsb (N.eqb c) (u s)); reflexivity. Qed.
Definition signs_ok (s : string) : bool := forallb (fun c => negb (digit c)) (u s).
Lemma sign_digit s l : signs_ok s = true -> sign (u s) l = 1 -> span digit l = 0.
Proof.
  unfold signs_ok, sign. intros H S. destruct l as [|c l]; [discriminate|]. destruct (existsb (N.eqb c) (u s)) eqn:E; [|discriminate].
  apply existsb_exists in E. destruct E as (c' & I & E). apply N.eqb_eq in E. subst c'. rewrite forallb_forall in H. specialize (H c I). cbn.
  destruct (digit c); [discriminate | reflexivity].
Qed.
Lemma sign_cases s l : sign (u s) l = 0 \/ sign (u s) l = 1.
Proof. unfold sign. destruct l as [|c l]; [auto|]. destruct (existsb _ _); auto. Qed.
(** Digits with a sign, before something that never fails. *)
Lemma signed_tries s (k : place -> option V) g b l : signs_ok s = true -> (forall b l, k (b, l) = Some (g l)) ->
  tries (Seq (opt (one_of s)) (plus d)) k (b, l) =
  let n := sign (u s) l in let m := span digit (skipn n l) in if m =? 0 then None else Some (g (skipn m (skipn n l))).
Proof.
  intros Sg K. rewrite tries_seq, sign_tries.
  assert (P : forall b l, tries (plus d) k (b, l) = if span digit l =? 0 then None else Some (g (skipn (span digit l) l))).
  { intros b' l'. apply (plus_all digit k (fun l => Some (g l)) K). discriminate. }
  cbv zeta. destruct (sign_cases s l) as [E|E]; rewrite E.
  - apply P.
  - rewrite !P. rewrite (sign_digit s l Sg E). cbn [Nat.eqb]. destruct (span digit (skipn 1 l) =? 0); reflexivity.
Qed.
Lemma exponent_tries s (k : place -> option V) b l : signs_ok s = true -> (forall b l, k (b, l) = Some (f l)) ->
  tries (opt (Seq (one_of "eE") (Seq (opt (one_of s)) (plus d)))) k (b, l) = Some (f (skipn (exponent (u s) l) l)).
Proof.
  intros Sg K. rewrite tries_opt, tries_seq. unfold one_of at 1. rewrite tries_cls, K. unfold exponent. destruct l as [|c t]; [reflexivity|].
  destruct (existsb (N.eqb c) (u "eE")); [|reflexivity]. rewrite (signed_tries s k f _ _ Sg K). cbv zeta.
  destruct (span digit (skipn (sign (u s) t) t) =? 0); [reflexivity|]. cbn [skipn]. rewrite skipn_skipn'. reflexivity.
Qed.
End Numbers.
Lemma sign_le s l : sign s l <= length l.
Proof. unfold sign. destruct l as [|c l]; [lia|]. destruct (existsb _ _); cbn; lia. Qed.
Lemma exponent_le s l : exponent s l <= length l.
Proof.
  unfold exponent. destruct l as [|c l]; [cbn; lia|]. destruct (existsb _ _); [|cbn; lia]. cbv zeta. destruct (_ =? 0); [cbn; lia|].
  pose proof (sign_le s l). pose proof (span_le digit (skipn (sign s l) l)). rewrite skipn_length in *. cbn [length]. lia.
Qed.
Lemma int_ok b l : re_match int_re (b, l) = m_int l.
Proof.
  rewrite match_tries. unfold int_re. set (k := fun y : place => Some (length l - length (snd y))).
  set (g := fun t : pystr => length l - length (skipn (exponent (u "+") t) t)).
  assert (E : tries (Seq (opt (one_of "+-")) (Seq (plus d) (opt (Seq (one_of "eE") (Seq (opt (one_of "+")) (plus d)))))) k (b, l) =
              tries (Seq (opt (one_of "+-")) (plus d)) (tries (opt (Seq (one_of "eE") (Seq (opt (one_of "+")) (plus d)))) k) (b, l)).
  { rewrite !tries_seq. apply tries_ext. intros y. apply tries_seq. }
  rewrite E. rewrite (signed_tries "+-" _ g b l eq_refl).
  - unfold m_int. cbv zeta. set (n := sign (u "+-") l). set (m := span digit (skipn n l)). destruct (m =? 0); [reflexivity|].
    f_equal. unfold g. rewrite !skipn_skipn', <- ?Nat.add_assoc. apply len_skip.
    pose proof (sign_le (u "+-") l). pose proof (span_le digit (skipn n l)). pose proof (exponent_le (u "+") (skipn (n + m) l)). rewrite skipn_length in *.
    fold n in H. fold m in H0. rewrite <- ?Nat.add_assoc in *. lia.
  - intros b' l'. apply (exponent_tries (fun t => length l - length t) "+" k b' l' eq_refl). reflexivity.
Qed.

Lemma seq_assoc {V} a b c (k : place -> option V) x : tries (Seq a (Seq b c)) k x = tries (Seq (Seq a b) c) k x.
Proof. rewrite !tries_seq. apply tries_ext. intros y. apply tries_seq. Qed.
(** \d+\.\d*|\.\d+ before something that never fails. *)
Lemma mantissa_tries {V} (k : place -> option V) g b l : (forall b l, k (b, l) = Some (g l)) ->
  tries (Alt (Seq (plus d) (Seq (one_of ".") (Star d))) (Seq (one_of ".") (plus d))) k (b, l) =
  let n := span digit l in
  match skipn n l with
  | 46%N :: r => let m := span digit r in if (n =? 0) && (m =? 0) then None else Some (g (skipn m r))
  | _ => None
  end.
Proof.
  intros K. cbv zeta. rewrite tries_alt, (tries_seq (plus d)), (tries_seq (one_of ".") (plus d)).
  set (h := fun t : pystr => match t with c :: r => if existsb (N.eqb c) (u ".") then Some (g (skipn (span digit r) r)) else None | [] => None end).
  assert (D : forall b l, tries (Seq (one_of ".") (Star d)) k (b, l) = h l).
  { intros b' l'. rewrite tries_seq. unfold one_of. rewrite tries_cls. unfold h. destruct l' as [|c t]; [reflexivity|]. destruct (existsb (N.eqb c) (u ".")); [|reflexivity].
    apply (star_all digit k (fun l => Some (g l)) K). discriminate. }
  assert (H : forall c t, digit c = true -> h (c :: t) = None).
  { intros c t Hc. unfold h. destruct (existsb (N.eqb c) (u ".")) eqn:E; [|reflexivity]. exfalso. cbn in E. rewrite orb_false_r in E. apply N.eqb_eq in E. subst c. discriminate. }
  rewrite (plus_all digit _ h D l b (fun _ => H) : tries (plus d) (tries (Seq (one_of ".") (Star d)) k) (b, l) = _).
  assert (P : tries (one_of ".") (tries (plus d) k) (b, l) =
              match l with c :: r => if existsb (N.eqb c) (u ".") then (if span digit r =? 0 then None else Some (g (skipn (span digit r) r))) else None | [] => None end).
  { unfold one_of. rewrite tries_cls. destruct l as [|c t]; [reflexivity|]. destruct (existsb (N.eqb c) (u ".")); [|reflexivity].
    apply (plus_all digit k (fun l => Some (g l)) K). discriminate. }
  rewrite P. clear P.
  assert (Q : forall (A : Type) (c : N) (x y : A), match c with 46%N => x | _ => y end = if existsb (N.eqb c) (u ".") then x else y).
  { intros A c x y. destruct (existsb (N.eqb c) (u ".")) eqn:E; cbn in E; rewrite orb_false_r in E; [apply N.eqb_eq in E; subst c; reflexivity|].
    apply N.eqb_neq in E. destruct c as [|c]; [reflexivity|]. repeat (destruct c as [c|c|]; try reflexivity). exfalso. apply E. reflexivity. }
  destruct (span digit l) as [|n] eqn:Sp.
  - cbn [Nat.eqb skipn andb]. destruct l as [|c r]; [reflexivity|]. rewrite (Q _ c). reflexivity.
  - cbn [Nat.eqb andb]. unfold h. destruct (skipn (S n) l) as [|c r] eqn:E.
    + destruct l as [|c r]; [reflexivity|]. destruct (existsb (N.eqb c) (u ".")) eqn:X; [|reflexivity]. exfalso. cbn in X. rewrite orb_false_r in X. apply N.eqb_eq in X. subst c. discriminate.
    + rewrite (Q _ c). destruct (existsb (N.eqb c) (u ".")); [reflexivity|]. destruct l as [|c' r']; [reflexivity|].
      destruct (existsb (N.eqb c') (u ".")) eqn:X; [|reflexivity]. exfalso. cbn in X. rewrite orb_false_r in X. apply N.eqb_eq in X. subst c'. discriminate.
Qed.
Lemma real_ok b l : re_match real_re (b, l) = m_real l.
Proof.
  rewrite match_tries. unfold real_re. set (k := fun y : place => Some (length l - length (snd y))). rewrite tries_seq, sign_tries.
  set (g := fun t : pystr => length l - length (skipn (exponent (u "+-") t) t)).
  set (M := fun t : pystr => let n := span digit t in
    match skipn n t with 46%N :: r => let m := span digit r in if (n =? 0) && (m =? 0) then None else Some (g (skipn m r)) | _ => None end).
  assert (A : forall b l, tries (Seq (Alt (Seq (plus d) (Seq (one_of ".") (Star d))) (Seq (one_of ".") (plus d)))
                                     (opt (Seq (one_of "eE") (Seq (opt (one_of "+-")) (plus d))))) k (b, l) = M l).
  { intros b' l'. rewrite tries_seq. apply mantissa_tries. intros b2 l2.
    apply (exponent_tries (fun t => length l - length t) "+-" k b2 l2 eq_refl). reflexivity. }
  rewrite !A. unfold m_real. cbv zeta. set (n := sign (u "+-") l).
  assert (R : match n with 1 => M (skipn 1 l) | _ => None end = (if n =? 1 then M (skipn n l) else None)) by (destruct n as [|[|n']]; reflexivity).
  rewrite R. assert (Z : n = 1 -> M l = None).
  { intros E. unfold M. cbv zeta. rewrite (sign_digit "+-" l eq_refl E). cbn [skipn]. unfold n, sign in E. destruct l as [|c t]; [discriminate|].
    destruct (existsb (N.eqb c) (u "+-")) eqn:X; [|discriminate]. cbn in X. rewrite orb_false_r in X. apply orb_true_iff in X. destruct X as [X|X]; apply N.eqb_eq in X; subst c; reflexivity. }
  assert (W : (match (if n =? 1 then M (skipn n l) else None) with Some v => Some v | None => M l end) = M (skipn n l)).
  { destruct (sign_cases "+-" l) as [E|E]; fold n in E; rewrite E; cbn [Nat.eqb skipn]; [reflexivity|]. rewrite (Z E). destruct (M _); reflexivity. }
  rewrite W. unfold M. cbv zeta. set (m := span digit (skipn n l)). rewrite skipn_skipn'. destruct (skipn (n + m) l) as [|c r] eqn:E; [reflexivity|].
  assert (Lr : length l = n + m + S (length r)).
  { pose proof (skipn_length (n + m) l) as X. rewrite E in X. cbn in X. lia. }
  destruct c as [|c]; [reflexivity|]. repeat (destruct c as [c|c|]; try reflexivity).
  destruct ((m =? 0) && (span digit r =? 0)); [reflexivity|]. f_equal. unfold g. rewrite skipn_skipn', skipn_length.
  pose proof (span_le digit r). pose proof (exponent_le (u "+-") (skipn (span digit r) r)). rewrite skipn_length in *. lia.
Qed.
Lemma hex_ok b l : re_match hex_re (b, l) = m_hex l.
Proof.
  rewrite match_tries. unfold hex_re. set (k := fun y : place => Some (length l - length (snd y))). set (p := fun c : N => _). unfold m_hex. fold p.
  rewrite tries_seq. unfold is at 1. rewrite tries_cls. destruct l as [|c l]; [reflexivity|].
  destruct (N.eqb_spec 48 c) as [<-|E].
  2:{ destruct c as [|c]; [reflexivity|]. repeat (destruct c as [c|c|]; try reflexivity). congruence. }
  rewrite tries_seq. unfold is. rewrite tries_cls. destruct l as [|c l]; [reflexivity|]. destruct (N.eqb_spec 120 c) as [<-|E].
  2:{ destruct c as [|c]; [reflexivity|]. repeat (destruct c as [c|c|]; try reflexivity). congruence. }
  rewrite (plus_all p k (fun t => Some (S (S (length l)) - length t)) (fun b l => eq_refl) l _ ltac:(discriminate)). cbv zeta.
  destruct (span p l =? 0); [reflexivity|]. f_equal. rewrite skipn_length. pose proof (span_le p l). lia.
Qed.

(** ** Strings and names *)
Lemma closing_ok {V} q (k : place -> option V) f : (forall b l, k (b, l) = Some (f l)) -> forall n l b, length l <= n ->
  tries (Star (Alt (Seq (is q) (is q)) (Cls (fun c => negb (N.eqb c q))))) (tries (is q) k) (b, l) =
  match closing q l with Some m => Some (f (skipn m l)) | None => None end.
Proof.
  intros K. induction n as [|n IH]; intros l b L; rewrite tries_star, tries_alt, tries_seq; unfold is; rewrite !tries_cls.
  - destruct l; [reflexivity | cbn in L; lia].
  - destruct l as [|c l]; [reflexivity|]. cbn [closing]. rewrite (N.eqb_sym q c). cbn [length] in L. destruct (N.eqb c q) eqn:E; cbn [negb].
    + rewrite tries_cls. destruct l as [|e l]; [rewrite K; reflexivity|]. rewrite (N.eqb_sym q e). destruct (N.eqb e q); [|rewrite K; reflexivity].
      unfold shorter. cbn [snd length] in *. rewrite (proj2 (Nat.ltb_lt _ _)) by lia. fold (is q). rewrite IH by lia. destruct (closing q l); [reflexivity | rewrite K; reflexivity].
    + unfold shorter. cbn [snd length]. rewrite (proj2 (Nat.ltb_lt _ _)) by lia. fold (is q). rewrite IH by lia. destruct (closing q l); reflexivity.
Qed.
Lemma closing_le q n : forall l m, length l <= n -> closing q l = Some m -> m <= length l.
Proof.
  induction n as [|n IH]; intros [|c l] m L; cbn [closing]; try discriminate; [cbn in L; lia|]. cbn [length] in *.
  destruct (N.eqb c q).
  - destruct l as [|e l]; [intros H; injection H as <-; cbn; lia|]. cbn [length] in *. destruct (N.eqb e q); [|intros H; injection H as <-; lia].
    destruct (closing q l) as [x|] eqn:E; intros H; injection H as <-; [|lia]. apply IH in E; lia.
  - destruct (closing q l) as [x|] eqn:E; intros H; [|discriminate]. injection H as <-. apply IH in E; lia.
Qed.
Lemma quoted_ok o q b l : re_match (quoted_re o q) (b, l) = m_quoted o q l.
Proof.
  rewrite match_tries. unfold quoted_re. set (k := fun y : place => Some (length l - length (snd y))). rewrite tries_seq. unfold is at 1. rewrite tries_cls.
  unfold m_quoted. destruct l as [|c l]; [reflexivity|]. rewrite (N.eqb_sym o c). destruct (N.eqb c o); [|reflexivity].
  rewrite tries_seq, (closing_ok q k (fun t => S (length l) - length t) (fun b l => eq_refl) (length l) l _ (le_n _)).
  destruct (closing q l) as [m|] eqn:E; [|reflexivity]. f_equal. pose proof (closing_le q (length l) l m (le_n _) E). rewrite skipn_length. lia.
Qed.
Lemma rest_ok {V} (k : place -> option V) f : (forall b l, k (b, l) = Some (f l)) -> forall l b,
  tries (Star (Alt (Seq (Behind joint) (Seq (is 45) (Ahead joint))) (Cls ident_char))) k (Some b, l) = Some (f (skipn (ident_rest b l) l)).
Proof.
  intros K. induction l as [|c l IH]; intros b; rewrite tries_star, tries_alt, !tries_seq, tries_behind, tries_cls, K.
  - rewrite tries_seq. unfold is. rewrite tries_cls. destruct (joint b); reflexivity.
  - rewrite tries_seq. unfold is. rewrite tries_cls. rewrite tries_ahead. cbn [ident_rest]. unfold shorter. cbn [snd length].
    cbv beta iota. cbn [snd length]. rewrite ?(proj2 (Nat.ltb_lt (length l) (S (length l)))) by lia. rewrite (N.eqb_sym 45 c). specialize (IH c). unfold is in IH.
    repeat match goal with |- context [tries (Star ?r) k ?x] => replace (tries (Star r) k x) with (Some (f (skipn (ident_rest c l) l))) by (symmetry; exact IH) end.
    destruct (ident_char c) eqn:I; cbn [orb].
    + destruct (joint b); [|reflexivity]. destruct (N.eqb c 45); [|reflexivity]. destruct l as [|e l]; [reflexivity|]. destruct (joint e); reflexivity.
    + destruct (joint b), (N.eqb c 45); cbn [andb]; try reflexivity. destruct l as [|e l]; [reflexivity|]. destruct (joint e); reflexivity.
Qed.
Lemma rest_le : forall l b, ident_rest b l <= length l.
Proof. induction l as [|c l IH]; intros b; [reflexivity|]. cbn. destruct (_ || _); [|lia]. specialize (IH c). lia. Qed.
Lemma ident_ok b l : re_match ident_re (b, l) = m_ident l.
Proof.
  rewrite match_tries. unfold ident_re. set (k := fun y : place => Some (length l - length (snd y))). rewrite tries_seq, tries_cls. unfold m_ident.
  destruct l as [|c l]; [reflexivity|]. destruct (first_char c); [|reflexivity].
  rewrite (rest_ok k (fun t => S (length l) - length t) (fun b l => eq_refl)). f_equal. pose proof (rest_le l c). rewrite skipn_length. lia.
Qed.

(** ** White space *)
Lemma match_rest r b l : re_match r (b, l) = option_map (fun t => length l - length t) (tries r (fun y => Some (snd y)) (b, l)).
Proof. unfold re_match, tries. rewrite first_hd. destruct (hd_error (ends r (b, l))); reflexivity. Qed.
Lemma star_upto {V} p (k : place -> option V) f : forall l b, (forall b t, length t <= length l -> k (b, t) = f t) ->
  (f (skipn (span p l) l) = None -> forall c t, length t < length l -> p c = true -> f (c :: t) = None) ->
  tries (Star (Cls p)) k (b, l) = f (skipn (span p l) l).
Proof.
  induction l as [|c l IH]; intros b K H; rewrite star_cls, K by lia; [reflexivity|]. cbn [span] in *. destruct (p c) eqn:P; [|reflexivity].
  cbn [skipn length] in *. rewrite IH.
  - destruct (f (skipn (span p l) l)) as [v|] eqn:E; [reflexivity|]. apply H; [reflexivity | lia | exact P].
  - intros b' t L. apply K. lia.
  - intros E c' t L. apply H; [exact E | lia].
Qed.
Lemma word_tries {V} p (k : place -> option V) f : forall l b, (forall b t, length t + length p <= length l -> k (b, t) = f t) ->
  tries (word p) k (b, l) = if startswith l p then f (skipn (length p) l) else None.
Proof.
  induction p as [|c p IH]; intros l b K.
  - cbn [word]. rewrite tries_eps, K by (cbn; lia). destruct l; reflexivity.
  - assert (E : tries (word (c :: p)) k (b, l) = match l with e :: t => if N.eqb c e then tries (word p) k (Some e, t) else None | [] => None end).
    { cbn [word]. destruct p as [|c' p].
      - unfold is. rewrite tries_cls. destruct l as [|e t]; [reflexivity|]. destruct (N.eqb c e); [|reflexivity]. cbn [word]. rewrite tries_eps. reflexivity.
      - rewrite tries_seq. unfold is at 1. rewrite tries_cls. reflexivity. }
    rewrite E. destruct l as [|e t]; [reflexivity|]. cbn [startswith length skipn]. destruct (N.eqb c e); [|reflexivity]. cbn [andb]. apply IH.
    intros b' t' L. apply K. cbn [length]. lia.
Qed.
Lemma lazy_tries {V} q (k : place -> option V) h : forall l b, (forall b t, length t <= length l -> k (b, t) = Some (h t)) ->
  tries (Lazy (Cls (fun _ => true))) (tries (word q) k) (b, l) =
  match until q l with Some n => Some (h (skipn (n + length q) l)) | None => None end.
Proof.
  induction l as [|c l IH]; intros b K; rewrite tries_lazy, (word_tries q k (fun t => Some (h t))), tries_cls by (intros b' t L; apply K; lia); cbn [until].
  - destruct (startswith [] q); reflexivity.
  - destruct (startswith (c :: l) q); [reflexivity|]. unfold shorter. cbn [snd length]. rewrite (proj2 (Nat.ltb_lt _ _)) by lia. rewrite IH.
    + destruct (until q l); reflexivity.
    + intros b' t L. apply K. cbn [length]. lia.
Qed.
Lemma ignored_tries {V} g (k : place -> option V) h l b : opening g <> [] -> (forall b t, length t < length l -> k (b, t) = Some (h t)) ->
  tries (ignored_re g) k (b, l) = match match_one g l with Some n => Some (h (skipn n l)) | None => None end.
Proof.
  intros O K. destruct g as [p|p q]; cbn [ignored_re match_one opening] in *; rewrite tries_seq;
    assert (Lp : 0 < length p) by (destruct p; [congruence | cbn; lia]).
  - rewrite (word_tries p _ (fun t => Some (h (skipn (span (fun c => negb (N.eqb c 10)) t) t)))).
    + destruct (startswith l p); [|reflexivity]. rewrite skipn_skipn'. reflexivity.
    + intros b' t L. apply (star_upto _ k (fun t => Some (h t))); [|discriminate]. intros b2 t2 L2. apply K. lia.
  - rewrite (word_tries p _ (fun t => match until q t with Some n => Some (h (skipn (n + length q) t)) | None => None end)).
    + destruct (startswith l p); [|reflexivity]. destruct (until q (skipn (length p) l)); [|reflexivity]. cbn [option_map]. rewrite skipn_skipn'. reflexivity.
    + intros b' t L. rewrite tries_seq. apply lazy_tries. intros b2 t2 L2. apply K. lia.
Qed.
Lemma any_tries {V} gs (k : place -> option V) h l b : (forall g, In g gs -> opening g <> []) -> (forall b t, length t < length l -> k (b, t) = Some (h t)) ->
  tries (any_re gs) k (b, l) = match match_any gs l with Some n => Some (h (skipn n l)) | None => None end.
Proof.
  intros O K. induction gs as [|g gs IH].
  - cbn [any_re match_any]. rewrite tries_cls. destruct l; reflexivity.
  - assert (E : tries (any_re (g :: gs)) k (b, l) = match tries (ignored_re g) k (b, l) with Some v => Some v | None => tries (any_re gs) k (b, l) end).
    { cbn [any_re]. destruct gs as [|g' gs].
      - cbn [any_re]. rewrite tries_cls. destruct (tries (ignored_re g) k (b, l)); [reflexivity|]. destruct l; reflexivity.
      - apply tries_alt. }
    rewrite E, (ignored_tries g k h l b (O g (or_introl eq_refl)) K), IH by (intros g' H; apply O; right; exact H).
    cbn [match_any]. destruct (match_one g l); reflexivity.
Qed.
Section WhiteRe.
Variable ws : pystr.
Variable gs : list ignored.
Hypothesis start : forall g, In g gs -> exists c p, opening g = c :: p /\ ~ In c ws.
Let wh (c : N) : bool := existsb (N.eqb c) ws.
Lemma no_white_comment c t : wh c = true -> match_any gs (c :: t) = None.
Proof.
  intros W. apply match_none. intros C. assert (I : In c ws).
  { unfold wh in W. apply existsb_exists in W. destruct W as (c' & I & E). apply N.eqb_eq in E. subst c'. exact I. }
  destruct C as [(p & t' & H & E)|(p & q & x & t' & H & E)]; destruct (start _ H) as (c0 & p0 & S & N); cbn in S; subst p; injection E as -> _; exact (N I).
Qed.
Lemma match_pos l n : match_any gs l = Some n -> 0 < n /\ n <= length l.
Proof.
  intros M. destruct (match_some gs l n M) as (g & I & O). destruct (start g I) as (c & p0 & S & _). destruct g as [p|p q]; cbn in S, O; subst p.
  - destruct (startswith l (c :: p0)) eqn:X; [|discriminate]. apply starts_with in X. destruct X as (t & ->).
    cbn [app length skipn] in O. rewrite skipn_app_len in O. injection O as <-. pose proof (span_le (fun c => negb (N.eqb c 10)) t).
    cbn [app length]. rewrite app_length. lia.
  - destruct (startswith l (c :: p0)) eqn:X; [|discriminate]. apply starts_with in X. destruct X as (t & ->).
    cbn [app length skipn] in O. rewrite skipn_app_len in O. destruct (until q t) as [m|] eqn:U; [|discriminate]. injection O as <-.
    apply until_some in U. destruct U as (x & y & -> & -> & _). cbn [app length]. rewrite !app_length. lia.
Qed.
Lemma white_tries n : forall l b, length l < n ->
  tries (Star (Seq (Star (Cls wh)) (any_re gs))) (tries (Star (Cls wh)) (fun y => Some (snd y))) (b, l) = Some (skipn (match_white ws gs n l) l).
Proof.
  induction n as [|n IH]; intros l b L; [lia|]. rewrite tries_star, tries_seq. cbn [match_white]. fold wh. cbv zeta.
  set (h := fun t => skipn (match_white ws gs n t) t).
  rewrite (star_upto wh _ (fun t => match match_any gs t with Some m => Some (h (skipn m t)) | None => None end)).
  - set (r := skipn (span wh l) l). destruct (match_any gs r) as [m|].
    + f_equal. unfold h, r. rewrite !skipn_skipn'. reflexivity.
    + rewrite (star_all wh (fun y => Some (snd y)) (fun t => Some t) (fun b l => eq_refl)) by discriminate. reflexivity.
  - intros b' t Lt. apply any_tries.
    + intros g H. destruct (start g H) as (c & p & E & _). rewrite E. discriminate.
    + intros b2 t2 L2. unfold shorter. cbn [snd]. rewrite (proj2 (Nat.ltb_lt _ _)) by lia. apply IH. lia.
  - intros _ c t _ W. rewrite no_white_comment by exact W. reflexivity.
Qed.
Lemma white_le l : regex_match ws gs l <= length l.
Proof.
  assert (O : forall g, In g gs -> opening g <> []) by (intros g H; destruct (start g H) as (c & p & E & _); rewrite E; discriminate).
  unfold regex_match. destruct (match_gap ws gs O (S (length l)) l (Nat.lt_succ_diag_r _)) as (g & r & E & M & _).
  rewrite M. apply (f_equal (@length N)) in E. rewrite app_length in E. lia.
Qed.
Lemma white_ok b l : re_match (white_re ws gs) (b, l) = Some (regex_match ws gs l).
Proof.
  rewrite match_rest.
  assert (D : gs = [] \/ white_re ws gs = Seq (Star (Seq (Star (Cls wh)) (any_re gs))) (Star (Cls wh))) by (clear start; destruct gs; [left | right]; reflexivity).
  destruct D as [D|D].
  - rewrite D. change (white_re ws []) with (Star (Cls wh)).
    rewrite (star_all wh (fun y => Some (snd y)) (fun t => Some t) (fun b l => eq_refl)) by discriminate. cbn [option_map].
    unfold regex_match. cbn [match_white match_any]. f_equal. apply len_skip, span_le.
  - rewrite D, tries_seq, (white_tries (S (length l))) by lia. cbn [option_map]. f_equal. apply len_skip. apply white_le.
Qed.
End WhiteRe.

(** ** What may match *)
Lemma matches_len r x y : matches r x y -> length (snd y) < length (snd x) \/ y = x.
Proof.
  intros M. induction M; try (right; reflexivity); try (left; cbn; lia); try assumption.
  - destruct IHM1 as [H|H], IHM2 as [K|K]; try subst y; try subst z; [left; lia | left; lia | left; lia | right; reflexivity].
  - destruct IHM1 as [H|H], IHM2 as [K|K]; try subst y; try subst z; [left; lia | left; lia | left; lia | right; reflexivity].
Qed.
Lemma stars_in a x y : In y (ends (Star a) x) <-> x = y \/ exists z, In z (ends a x) /\ shorter x z = true /\ In y (ends (Star a) z).
Proof.
  rewrite ends_star, (stars_enough a _ (S (length (snd x)))) by lia. cbn [stars]. rewrite in_app_iff, in_flat_map. split.
  - intros [(z & I & J)|[E|[]]]; [|left; exact E]. right. exists z. destruct (shorter x z) eqn:E; [|destruct J]. repeat split; [exact I|].
    apply Nat.ltb_lt in E. rewrite ends_star, (stars_enough a _ (length (snd x))) by lia. exact J.
  - intros [E|(z & I & E & J)]; [right; left; exact E|]. left. exists z. split; [exact I|]. rewrite E. apply Nat.ltb_lt in E.
    rewrite ends_star, (stars_enough a _ (length (snd x))) in J by lia. exact J.
Qed.
Lemma lazies_in a n : forall x y, In y (lazies a n x) <-> In y (stars a n x).
Proof.
  induction n as [|n IH]; intros x y; [reflexivity|]. cbn [lazies stars]. rewrite in_app_iff. cbn [In]. rewrite !in_flat_map. split.
  - intros [E|(z & I & J)]; [right; left; exact E|]. left. exists z. split; [exact I|]. destruct (shorter x z); [apply IH; exact J | destruct J].
  - intros [(z & I & J)|[E|[]]]; [|left; exact E]. right. exists z. split; [exact I|]. destruct (shorter x z); [apply IH; exact J | destruct J].
Qed.
Lemma star_matches a : (forall x y, In y (ends a x) <-> matches a x y) -> forall x y, In y (ends (Star a) x) <-> matches (Star a) x y.
Proof.
  intros A x y. split.
  - assert (L : exists n, length (snd x) < n) by (exists (S (length (snd x))); lia). destruct L as (n & L). revert x L.
    induction n as [|n IH]; intros x L H; [lia|]. apply stars_in in H. destruct H as [->|(z & I & E & J)]; [constructor|].
    apply Nat.ltb_lt in E. apply m_more with z; [apply A; exact I | apply IH; [lia | exact J]].
  - intros M. remember (Star a) as r eqn:R. induction M; try discriminate R.
    + injection R as ->. apply stars_in. left. reflexivity.
    + injection R as ->. specialize (IHM2 eq_refl). destruct (matches_len _ _ _ M1) as [L|L]; [|subst y; exact IHM2].
      apply stars_in. right. exists y. repeat split; [apply A; exact M1 | apply Nat.ltb_lt; exact L | exact IHM2].
Qed.
Lemma ends_matches r : forall x y, In y (ends r x) <-> matches r x y.
Proof.
  induction r as [|p|a IHa b IHb|a IHa b IHb|a IHa|a IHa|p|p]; intros x y.
  - cbn. split; [intros [<-|[]]; constructor | intros M; inversion M; left; reflexivity].
  - destruct x as (o & [|c t]); cbn; [split; [intros [] | intros M; inversion M]|]. destruct (p c) eqn:P; cbn; split.
    + intros [<-|[]]. constructor. exact P.
    + intros M. inversion M. left. reflexivity.
    + intros [].
    + intros M. inversion M. congruence.
  - cbn [ends]. rewrite in_flat_map. split.
    + intros (z & I & J). apply m_seq with z; [apply IHa; exact I | apply IHb; exact J].
    + intros M. inversion M as [| |a' b' x' z y' Ma Mb| | | | | | |]; subst. exists z. split; [apply IHa; exact Ma | apply IHb; exact Mb].
  - cbn [ends]. rewrite in_app_iff. split.
    + intros [I|I]; [apply m_left, IHa | apply m_right, IHb]; exact I.
    + intros M. inversion M; subst; [left; apply IHa | right; apply IHb]; assumption.
  - apply star_matches. exact IHa.
  - rewrite ends_lazy, lazies_in, <- ends_star, (star_matches a IHa). split; [apply m_lazy | intros M; inversion M; assumption].
  - destruct x as ([c|] & t); cbn; [|split; [intros [] | intros M; inversion M]]. destruct (p c) eqn:P; cbn; split.
    + intros [<-|[]]. constructor. exact P.
    + intros M. inversion M. left. reflexivity.
    + intros [].
    + intros M. inversion M. congruence.
  - destruct x as (o & [|c t]); cbn; [split; [intros [] | intros M; inversion M]|]. destruct (p c) eqn:P; cbn; split.
    + intros [<-|[]]. constructor. exact P.
    + intros M. inversion M. left. reflexivity.
    + intros [].
    + intros M. inversion M. congruence.
Qed.

(** ** Literals *)
Lemma closing_double q : forall w rest, hd_error rest <> Some q -> closing q (double q w ++ q :: rest) = Some (S (length (double q w))).
Proof.
  induction w as [|c w IH]; intros rest H.
  - cbn [double app closing length]. rewrite N.eqb_refl. destruct rest as [|e r]; [reflexivity|].
    destruct (N.eqb_spec e q) as [->|]; [destruct (H eq_refl) | reflexivity].
  - cbn [double]. destruct (N.eqb_spec c q) as [->|Hc]; cbn [app closing length].
    + rewrite N.eqb_refl, (IH rest H). reflexivity.
    + apply N.eqb_neq in Hc. rewrite Hc, (IH rest H). reflexivity.
Qed.
Lemma closing_some q n : forall l m, length l <= n -> closing q l = Some m ->
  exists w rest, l = double q w ++ q :: rest /\ m = S (length (double q w)).
Proof.
  induction n as [|n IH]; intros [|c l] m L H; cbn [length] in L; try lia; try discriminate. cbn [closing] in H.
  destruct (N.eqb_spec c q) as [->|Hc].
  - assert (K : Some 1 = Some m -> exists w rest, q :: l = double q w ++ q :: rest /\ m = S (length (double q w))).
    { intros E. injection E as <-. exists [], l. split; reflexivity. }
    destruct l as [|e l]; [exact (K H)|]. destruct (N.eqb_spec e q) as [->|He]; [|exact (K H)].
    destruct (closing q l) as [m'|] eqn:C; [|exact (K H)]. injection H as <-.
    destruct (IH l m') as (w & rest & -> & ->); [cbn [length] in L; lia | exact C|]. exists (q :: w), rest. cbn [double]. rewrite N.eqb_refl. split; reflexivity.
  - destruct (closing q l) as [m'|] eqn:C; [|discriminate]. injection H as <-.
    destruct (IH l m') as (w & rest & -> & ->); [lia | exact C|]. exists (c :: w), rest. cbn [double]. apply N.eqb_neq in Hc. rewrite Hc. split; reflexivity.
Qed.
Lemma closing_none q : forall l, closing q l = None <-> ~ In q l.
Proof.
  intros l. assert (X : forall n l, length l <= n -> closing q l = None <-> ~ In q l).
  { clear l. induction n as [|n IH]; intros [|c l] L; cbn [length] in L; try lia; try (split; [intros _ [] | reflexivity]). cbn [closing].
    destruct (N.eqb_spec c q) as [->|Hc].
    - split; [|intros H; destruct H; left; reflexivity]. destruct l as [|e l]; [discriminate|]. destruct (N.eqb e q); [|discriminate].
      destruct (closing q l); discriminate.
    - split.
      + intros H. destruct (closing q l) eqn:C; [discriminate|]. intros [E|I]; [exact (Hc E)|]. apply (IH l) in C; [exact (C I) | lia].
      + intros H. assert (C : closing q l = None) by (apply IH; [lia | intros I; apply H; right; exact I]). rewrite C. reflexivity. }
  exact (X _ l (le_n _)).
Qed.
Lemma span_digits ds c t : Forall (fun x => digit x = true) ds -> digit c = false -> span digit (ds ++ c :: t) = length ds.
Proof. intros F H. induction F as [|x ds X F IH]; cbn [app span length]; [rewrite H; reflexivity | rewrite X, IH; reflexivity]. Qed.
Lemma sign_none c t : digit c = true -> sign (u "+-") (c :: t) = 0.
Proof.
  intros D. unfold sign. destruct (existsb (N.eqb c) (u "+-")) eqn:E; [|reflexivity]. apply existsb_exists in E. destruct E as (x & I & E).
  apply N.eqb_eq in E. subst x. destruct I as [<-|[<-|[]]]; discriminate D.
Qed.
Lemma exponent_minus ds e t : Forall (fun x => digit x = true) ds -> ds <> [] -> In e (u "eE") ->
  m_real (ds ++ e :: 45%N :: t) = None /\ m_int (ds ++ e :: 45%N :: t) = Some (length ds).
Proof.
  intros F N E. assert (S : sign (u "+-") (ds ++ e :: 45%N :: t) = 0) by (destruct F as [|x ds X F]; [destruct (N eq_refl) | apply sign_none; exact X]).
  assert (D : digit e = false) by (destruct E as [<-|[<-|[]]]; reflexivity).
  unfold m_real, m_int. rewrite S. cbv zeta. cbn [Nat.add skipn]. rewrite (span_digits ds e _ F D), skipn_app_len. split.
  - destruct E as [<-|[<-|[]]]; reflexivity.
  - destruct (length ds =? 0) eqn:Z; [apply Nat.eqb_eq, length_zero_iff_nil in Z; contradiction|]. f_equal.
    destruct E as [<-|[<-|[]]]; cbn; lia.
Qed.
