From Coq Require Import String Ascii List Arith NArith Bool Lia.
From Verif Require Import Base ErrPosModel ErrPosSpec.
Import ListNotations.

(** ** Lines *)
Lemma join_cons (x y : pystr) l : join [10%N] (x :: y :: l) = x ++ 10%N :: join [10%N] (y :: l).
Proof. reflexivity. Qed.
Lemma join_head c x l : join [10%N] ((c :: x) :: l) = c :: join [10%N] (x :: l).
Proof. destruct l; reflexivity. Qed.
Lemma one_cons c x : c <> 10%N -> one_line x -> one_line (c :: x).
Proof. intros H O [E|I]; [exact (H E) | exact (O I)]. Qed.
Lemma rfind_bound s i : rfind_nl s = Some i -> i < length s.
Proof.
  revert i. induction s as [|c s IH]; intros i; cbn [rfind_nl length]; [discriminate|].
  destruct (rfind_nl s) as [j|]; [intros [= <-]; specialize (IH j eq_refl); lia|]. destruct (N.eqb c 10); [intros [= <-]; lia | discriminate].
Qed.
Lemma before_lines a : exists pre x, a = join [10%N] (pre ++ [x]) /\ Forall one_line pre /\ one_line x /\ count_nl a = length pre /\ length x <= length a /\
  rfind_nl a = match pre with [] => None | _ => Some (length a - length x - 1) end /\ (pre = [] -> a = x) /\ (pre <> [] -> length x < length a).
Proof.
  induction a as [|c a (pre & x & E & F & O & C & L & R & Z & Z')].
  - exists [], []. repeat split; try constructor; try lia. intros []. intros H. destruct (H eq_refl).
  - destruct (N.eqb_spec c 10) as [->|Hc].
    + exists ([] :: pre), x. cbn [app length]. split; [|split; [constructor; [intros [] | exact F]|]].
      * destruct pre as [|p pre]; cbn [app] in *; rewrite join_cons; cbn [app]; rewrite <- E; reflexivity.
      * split; [exact O|]. split; [unfold count_nl in *; cbn [filter]; change (10 =? 10)%N with true; cbn [length]; lia|]. split; [lia|]. split; [|split; [discriminate | lia]].
        cbn [rfind_nl]. rewrite R. destruct pre as [|p pre].
        -- change (10 =? 10)%N with true. cbv iota. rewrite (Z eq_refl). f_equal. lia.
        -- specialize (Z' ltac:(discriminate)). f_equal. lia.
    + assert (Cn : count_nl (c :: a) = count_nl a) by (unfold count_nl; cbn [filter]; rewrite (proj2 (N.eqb_neq 10 c)) by congruence; reflexivity).
      destruct pre as [|p pre].
      * exists [], (c :: x). cbn [app length] in *. specialize (Z eq_refl). subst a.
        split; [reflexivity|]. split; [constructor|]. split; [apply one_cons; assumption|]. split; [rewrite Cn; exact C|]. split; [lia|].
        split; [cbn [rfind_nl]; rewrite R, (proj2 (N.eqb_neq c 10) Hc); reflexivity|]. split; [reflexivity | intros H; destruct (H eq_refl)].
      * exists ((c :: p) :: pre), x. inversion F as [|? ? Fp Fr]; subst. specialize (Z' ltac:(discriminate)). cbn [app length] in *.
        split; [rewrite join_head; reflexivity|]. split; [constructor; [apply one_cons; assumption | exact Fr]|].
        split; [exact O|]. split; [rewrite Cn; exact C|]. split; [lia|]. split; [|split; [discriminate | lia]].
        cbn [rfind_nl]. rewrite R. f_equal. lia.
Qed.
Lemma after_lines b : exists y post, b = join [10%N] (y :: post) /\ one_line y /\ Forall one_line post /\ length y <= length b /\
  find_nl b = match post with [] => None | _ => Some (length y) end /\ (post = [] -> b = y) /\ firstn (length y) b = y.
Proof.
  induction b as [|c b (y & post & E & O & F & L & R & Z & T)].
  - exists [], []. repeat split; try constructor; try lia. intros [].
  - destruct (N.eqb_spec c 10) as [->|Hc].
    + exists [], (y :: post). split; [rewrite join_cons; cbn [app]; f_equal; exact E|]. split; [intros []|]. split; [constructor; assumption|]. cbn [length]. split; [lia|].
      split; [reflexivity|]. split; [discriminate | reflexivity].
    + exists (c :: y), post. split; [rewrite join_head; f_equal; exact E|]. split; [apply one_cons; assumption|]. split; [exact F|]. cbn [length]. split; [lia|].
      split; [cbn [find_nl]; rewrite (proj2 (N.eqb_neq c 10) Hc), R; destruct post; reflexivity|]. split; [intros H; rewrite (Z H); reflexivity|].
      cbn [firstn]. rewrite T. reflexivity.
Qed.
Lemma join_meet pre x y post : join [10%N] (pre ++ [x]) ++ join [10%N] (y :: post) = join [10%N] (pre ++ (x ++ y) :: post).
Proof.
  induction pre as [|p pre IH].
  - cbn [app]. destruct post as [|q post]; [reflexivity|]. rewrite !join_cons, <- app_assoc. reflexivity.
  - cbn [app]. destruct pre as [|q pre]; cbn [app] in *; rewrite !join_cons, <- app_assoc; cbn [app]; rewrite IH; reflexivity.
Qed.
Lemma join_last pre x : exists h, join [10%N] (pre ++ [x]) = h ++ x.
Proof.
  induction pre as [|p pre (h & E)]; [exists []; reflexivity|]. cbn [app]. exists (p ++ 10%N :: h).
  destruct pre as [|q pre]; cbn [app] in *; rewrite join_cons, E, <- app_assoc; reflexivity.
Qed.
Lemma position_ok s at_ : at_ <= length s -> position s at_ (lineno at_ s) (col at_ s) (line at_ s).
Proof.
  intros Le. pose proof (firstn_skipn at_ s) as Sp. pose proof (firstn_length_le s Le) as La.
  unfold lineno, line. cbv zeta. assert (Cl : col at_ s = match rfind_nl (firstn at_ s) with Some i => at_ - i | None => at_ + 1 end).
  { unfold col. destruct (Nat.ltb 0 at_ && Nat.ltb at_ (length s) && N.eqb (nth (at_ - 1) s 0%N) 10) eqn:E; [|reflexivity].
    apply andb_true_iff in E as (E & Nl). apply andb_true_iff in E as (E & _). apply Nat.ltb_lt in E. apply N.eqb_eq in Nl.
    assert (Q : firstn at_ s = firstn (at_ - 1) s ++ [10%N]).
    { rewrite <- Nl. clear - E Le. revert s Le. destruct at_ as [|n]; [lia|]. replace (S n - 1) with n by lia. clear E. induction n as [|n IH]; intros [|c s] L; cbn [length] in L; try lia.
      - reflexivity.
      - change (firstn (S (S n)) (c :: s)) with (c :: firstn (S n) s). rewrite (IH s) by lia. reflexivity. }
    rewrite Q. assert (R : forall t, rfind_nl (t ++ [10%N]) = Some (length t)) by (induction t as [|d t IH]; [reflexivity | cbn [app rfind_nl length]; rewrite IH; reflexivity]).
    rewrite R, firstn_length. lia. }
  rewrite Cl. clear Cl. set (a := firstn at_ s) in *. set (b := skipn at_ s) in *.
  destruct (before_lines a) as (pre & x & Ea & Fp & Ox & C & Lx & R & Z & Z'). destruct (after_lines b) as (y & post & Eb & Oy & Fq & Ly & Rb & Zb & T).
  assert (Oxy : one_line (x ++ y)) by (intros I; apply in_app_iff in I as [I|I]; [exact (Ox I) | exact (Oy I)]).
  destruct (join_last pre x) as (h & Eh). rewrite <- Ea in Eh. assert (Lh : length h = at_ - length x) by (rewrite <- La, Eh, app_length; lia).
  assert (From : match rfind_nl a with Some i => i + 1 | None => 0 end = at_ - length x).
  { rewrite R. destruct pre as [|p pre]; [specialize (Z eq_refl); rewrite <- La, Z; lia | specialize (Z' ltac:(discriminate)); lia]. }
  assert (Col : match rfind_nl a with Some i => at_ - i | None => at_ + 1 end = length x + 1).
  { rewrite R. destruct pre as [|p pre]; [specialize (Z eq_refl); rewrite <- La, Z; lia | specialize (Z' ltac:(discriminate)); lia]. }
  rewrite From, Col. rewrite <- Sp.
  assert (Sk : skipn (at_ - length x) (a ++ b) = x ++ b).
  { rewrite Eh, <- app_assoc, <- Lh, skipn_app, skipn_all, Nat.sub_diag. reflexivity. }
  assert (Li : match find_nl b with Some j => firstn (at_ + j - (at_ - length x)) (skipn (at_ - length x) (a ++ b)) | None => skipn (at_ - length x) (a ++ b) end = x ++ y).
  { rewrite Sk, Rb. destruct post as [|q post]; [rewrite (Zb eq_refl); reflexivity|].
    replace (at_ + length y - (at_ - length x)) with (length x + length y) by lia. rewrite firstn_app_2, T. reflexivity. }
  match goal with |- position _ _ _ _ ?k => replace k with (x ++ y) by (symmetry; exact Li) end. exists pre, post. split; [exact Fp|]. split; [exact Oxy|]. split; [exact Fq|].
  split; [rewrite Ea, Eb at 1; apply join_meet|]. split; [rewrite C; reflexivity|]. split; [rewrite app_length; lia|].
  replace (length x + 1 - 1) with (length x) by lia.
  assert (Fx : firstn (length x) (x ++ y) = x) by (rewrite firstn_app, firstn_all, Nat.sub_diag; apply app_nil_r). rewrite Fx.
  rewrite Sp. fold a. exact Ea.
Qed.

(** ** Causes *)
Lemma place_in {A} (x : rank * A) l y : In y (place x l) <-> y = x \/ In y l.
Proof.
  induction l as [|z l IH]; cbn [place]; [cbn [In]; intuition congruence|]. destruct (before _ _); cbn [In]; [rewrite IH|]; intuition congruence.
Qed.
Lemma sort_in {A} (l : list (rank * A)) y : In y (sort_causes l) <-> In y l.
Proof. induction l as [|x l IH]; [reflexivity|]. cbn [sort_causes fold_right]. rewrite place_in. fold (sort_causes l). rewrite IH. cbn [In]. intuition congruence. Qed.
Definition far (r : rank) : nat := match r with Some (l, _) => l | None => 0 end.
Definition solid {A} (l : list (rank * A)) : Prop := forall x, In x l -> fst x <> None.
(** The first has the greatest place. *)
Definition led {A} (l : list (rank * A)) : Prop := match l with [] => True | x :: _ => forall y, In y l -> far (fst y) <= far (fst x) end.
Lemma before_far a b : a <> None -> b <> None -> (before a b = true -> far b <= far a) /\ (before a b = false -> far a <= far b).
Proof.
  destruct a as [[l m]|], b as [[l' m']|]; intros Ha Hb; try congruence. cbn [before far].
  destruct (Nat.ltb_spec l l'), (Nat.ltb_spec l' l); split; intros; try discriminate; lia.
Qed.
Lemma place_led {A} (x : rank * A) l : fst x <> None -> solid l -> led l -> led (place x l).
Proof.
  intros Hx So Le. destruct l as [|z l]; [intros y [<-|[]]; lia|]. cbn [place].
  destruct (before_far (fst z) (fst x) (So z (or_introl eq_refl)) Hx) as (B1 & B2).
  destruct (before (fst z) (fst x)).
  - cbn [led]. intros y [<-|I]; [lia|]. apply place_in in I as [->|I]; [exact (B1 eq_refl) | apply Le; right; exact I].
  - cbn [led]. intros y [<-|I]; [lia|]. specialize (Le y I). specialize (B2 eq_refl). lia.
Qed.
Lemma sort_led {A} (l : list (rank * A)) : solid l -> led (sort_causes l).
Proof.
  induction l as [|x l IH]; intros So; [exact I|]. cbn [sort_causes fold_right]. fold (sort_causes l).
  apply place_led; [apply So; left; reflexivity | intros y Iy; apply So; right; apply sort_in; exact Iy | apply IH; intros y Iy; apply So; right; exact Iy].
Qed.
(** The place of a failure with causes: the greatest of theirs. *)
Lemma pure_rank e : pure e -> rank_of e <> None.
Proof. intros P. destruct P. discriminate. Qed.
Lemma far_rank e : pure e -> far (rank_of e) = loc e.
Proof. intros P. destruct P. reflexivity. Qed.
Lemma loc_eq w n s m cs : loc (Failed w n s m cs) = match sort_causes (map (fun c => (rank_of c, tt)) cs) with (Some (l, _), _) :: _ => l | _ => s end.
Proof. reflexivity. Qed.
Lemma loc_causes w n s m cs : Forall pure cs -> cs <> [] ->
  (exists c, In c cs /\ loc (Failed w n s m cs) = loc c) /\ forall c, In c cs -> loc c <= loc (Failed w n s m cs).
Proof.
  intros P Ne. rewrite loc_eq. rewrite Forall_forall in P.
  assert (So : solid (map (fun c => (rank_of c, tt)) cs)) by (intros x I; apply in_map_iff in I as (c & <- & I); cbn [fst]; apply pure_rank, P, I).
  pose proof (sort_led _ So) as Le. destruct (sort_causes (map (fun c => (rank_of c, tt)) cs)) as [|x r] eqn:E.
  - exfalso. destruct cs as [|c cs]; [exact (Ne eq_refl)|].
    assert (I : In (rank_of c, tt) (sort_causes (map (fun c => (rank_of c, tt)) (c :: cs)))) by (apply sort_in; left; reflexivity). rewrite E in I. destruct I.
  - assert (I : In x (map (fun c => (rank_of c, tt)) cs)) by (apply sort_in; rewrite E; left; reflexivity).
    apply in_map_iff in I as (c & <- & I). pose proof (pure_rank c (P c I)) as Nn. pose proof (far_rank c (P c I)) as Fr.
    cbn [led fst] in Le. destruct (rank_of c) as [[l m']|] eqn:Rc; [|destruct (Nn eq_refl)]. cbn [far] in Fr, Le. split.
    + exists c. split; [exact I | exact Fr].
    + intros d J. rewrite <- (far_rank d (P d J)). apply (Le (rank_of d, tt)). rewrite <- E. apply sort_in. apply in_map_iff. exists d. split; [reflexivity | exact J].
Qed.

Definition exc_induction (P : exc -> Prop) (step : forall w n s m cs, Forall P cs -> P (Failed w n s m cs)) (base : P Foreign) : forall e, P e :=
  fix all (e : exc) : P e :=
    match e with
    | Foreign => base
    | Failed w n s m cs => step w n s m cs ((fix go (l : list exc) : Forall P l := match l with [] => Forall_nil P | c :: l => Forall_cons c (all c) (go l) end) cs)
    end.

Lemma loc_furthest e : pure e -> reached e (loc e) /\ forall l, reached e l -> l <= loc e.
Proof.
  induction e as [w n s m cs IH|] using exc_induction; intros Pe; [|inversion Pe]. inversion Pe as [? ? ? ? ? Pc]; subst.
  rewrite Forall_forall in IH. destruct cs as [|c0 cs].
  - split; [constructor|]. intros l R. inversion R as [|? ? ? ? ? c ? I]; subst; [cbn; lia | destruct I].
  - destruct (loc_causes w n s m (c0 :: cs) Pc ltac:(discriminate)) as ((c & I & E) & M). rewrite Forall_forall in Pc. split.
    + rewrite E. apply reached_cause with c; [exact I | exact (proj1 (IH c I (Pc c I)))].
    + intros l R. inversion R as [|? ? ? ? ? d ? J Rd]; subst. pose proof (proj2 (IH d J (Pc d J)) l Rd). specialize (M d J). lia.
Qed.

Definition good (e b : exc) : Prop := pure b /\ loc b = loc e /\ forall x, In x (what_of b) -> exists e', within e' e /\ In x (what_of e') /\ reached e' (loc e).
Lemma good_self e : pure e -> good e e.
Proof.
  intros P. split; [exact P|]. split; [reflexivity|]. intros x I. exists e. split; [constructor|]. split; [exact I | exact (proj1 (loc_furthest e P))].
Qed.
Lemma best_good e : pure e -> good e (best_cause e).
Proof.
  induction e as [w n s m cs IH|] using exc_induction; intros Pe; [|inversion Pe]. pose proof Pe as Pe0. inversion Pe as [? ? ? ? ? Pc]; subst.
  rewrite Forall_forall in IH. cbn [best_cause].
  set (bs := filter is_failed (map snd (sort_causes (map (fun c => (rank_of c, best_cause c)) cs)))).
  pose proof (proj1 (Forall_forall _ _) Pc) as Pc'.
  assert (Ib : forall b, In b bs -> exists c, In c cs /\ b = best_cause c).
  { intros b I. apply filter_In in I as (I & _). apply in_map_iff in I as (x & <- & I). apply (proj1 (sort_in _ _)) in I. apply in_map_iff in I as (c & <- & I). exists c. split; [exact I | reflexivity]. }
  assert (Bi : forall c, In c cs -> In (best_cause c) bs).
  { intros c I. destruct (IH c I (Pc' c I)) as (Pb & _). apply filter_In. split; [|destruct Pb; reflexivity].
    apply in_map_iff. exists (rank_of c, best_cause c). split; [reflexivity|]. apply sort_in. apply in_map_iff. exists c. split; [reflexivity | exact I]. }
  assert (Pb : forall b, In b bs -> pure b) by (intros b I; destruct (Ib b I) as (c & J & ->); exact (proj1 (IH c J (Pc' c J)))).
  unfold sorted_by_rank. set (ranked := sort_causes (map (fun c => (rank_of c, c)) bs)).
  assert (So : solid (map (fun c => (rank_of c, c)) bs)) by (intros x I; apply in_map_iff in I as (c & <- & I); cbn [fst]; apply pure_rank, Pb, I).
  pose proof (sort_led _ So) as Le. fold ranked in Le.
  assert (Ir : forall x, In x ranked -> In (snd x) bs /\ fst x = rank_of (snd x)).
  { intros x I. apply (proj1 (sort_in _ _)) in I. apply in_map_iff in I as (b & <- & I). split; [exact I | reflexivity]. }
  assert (Ri : forall b, In b bs -> In (rank_of b, b) ranked) by (intros b I; apply sort_in, in_map_iff; exists b; split; [reflexivity | exact I]).
  destruct ranked as [|x r] eqn:Er; cbn [map]; [apply good_self; exact Pe0|].
  destruct (Ir x (or_introl eq_refl)) as (I0 & F0). destruct (Ib (snd x) I0) as (c0 & J0 & E0).
  destruct (n && Nat.leb (start_of (snd x)) s); [apply good_self; exact Pe0|].
  assert (Ne : cs <> []) by (intros ->; destruct J0).
  destruct (loc_causes w n s m cs Pc Ne) as ((c1 & J1 & E1) & Mx).
  assert (L0 : loc (snd x) = loc (Failed w n s m cs)).
  { pose proof (proj1 (proj2 (IH c0 J0 (Pc' c0 J0)))) as Q0. rewrite <- E0 in Q0. specialize (Mx c0 J0).
    pose proof (proj1 (proj2 (IH c1 J1 (Pc' c1 J1)))) as Q1. specialize (Ri (best_cause c1) (Bi c1 J1)).
    cbn [led] in Le. specialize (Le _ Ri). cbn [fst] in Le. rewrite F0, !far_rank in Le by (apply Pb; [exact I0] || apply Pb, Bi, J1). lia. }
  assert (Gb : forall b, In b bs -> loc b = loc (Failed w n s m cs) -> forall y, In y (what_of b) -> exists e', within e' (Failed w n s m cs) /\ In y (what_of e') /\ reached e' (loc (Failed w n s m cs))).
  { intros b I L y Iy. destruct (Ib b I) as (c & J & ->). destruct (IH c J (Pc' c J)) as (_ & Lc & Wc). destruct (Wc y Iy) as (e' & A & B & C).
    exists e'. split; [apply within_cause with c; assumption|]. split; [exact B|]. rewrite <- L, Lc. exact C. }
  destruct r as [|x1 r]; cbn [map].
  - split; [apply Pb; exact I0|]. split; [exact L0 | exact (Gb _ I0 L0)].
  - assert (Ps : Forall pure (snd x :: snd x1 :: map snd r)).
    { change (Forall pure (map snd (x :: x1 :: r))). apply Forall_forall. intros b I. apply in_map_iff in I as (z & <- & I). apply Pb. exact (proj1 (Ir z I)). }
    split; [constructor; exact Ps|]. split.
    + match goal with |- loc (Failed ?w' ?n' ?s' ?m' ?l) = _ => destruct (loc_causes w' n' s' m' l Ps ltac:(discriminate)) as ((d & Jd & Ed) & Md) end.
      rewrite Ed. specialize (Md (snd x) (or_introl eq_refl)). rewrite Ed in Md. change (In d (map snd (x :: x1 :: r))) in Jd. apply in_map_iff in Jd as (z & <- & Iz).
      destruct (Ir z Iz) as (Ibz & Fz). cbn [led] in Le. specialize (Le z Iz). rewrite Fz, F0, !far_rank in Le by (apply Pb; assumption). lia.
    + cbn [what_of]. intros y Iy. apply in_flat_map in Iy as (b & I & Iy). apply filter_In in I as (I & Q). apply Nat.eqb_eq in Q.
      change (In b (map snd (x :: x1 :: r))) in I. apply in_map_iff in I as (z & <- & Iz). apply (Gb (snd z)); [exact (proj1 (Ir z Iz)) | rewrite Q; exact L0 | exact Iy].
Qed.

(** An exception of another class comes first. *)
Lemma foreign_first {A} (l : list (rank * A)) : (exists x, In x l /\ fst x = None) -> exists y r, sort_causes l = y :: r /\ fst y = None.
Proof.
  induction l as [|x l IH]; intros (z & I & Z); [destruct I|]. cbn [sort_causes fold_right]. fold (sort_causes l).
  destruct (fst x) as [[p q]|] eqn:Fx.
  - destruct I as [<-|I]; [congruence|]. destruct IH as (y & r & E & Fy); [exists z; split; assumption|]. rewrite E. cbn [place]. rewrite Fx, Fy. cbn [before]. exists y. eexists. split; [reflexivity | exact Fy].
  - destruct (sort_causes l) as [|y r]; cbn [place]; [exists x, []; split; [reflexivity | exact Fx]|].
    rewrite Fx. destruct (fst y) as [[p q]|]; cbn [before]; exists x; eexists; (split; [reflexivity | exact Fx]).
Qed.
Lemma foreign_start w n s m cs : In Foreign cs -> loc (Failed w n s m cs) = s.
Proof.
  intros I. rewrite loc_eq. destruct (foreign_first (map (fun c => (rank_of c, tt)) cs)) as ((k & a) & r & E & F).
  - exists (None, tt). split; [|reflexivity]. apply in_map_iff. exists Foreign. split; [reflexivity | exact I].
  - rewrite E. cbn [fst] in F. subst k. reflexivity.
Qed.
