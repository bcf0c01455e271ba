(** * Lemmas about dotted names *)
From Coq Require Import List NArith ZArith Bool Lia.
From Coq Require Import ZifyBool ZifyNat ZifyN.
From Verif Require Import Base BaseProof JsonModel DotsModel DotsSpec.
Import ListNotations.

Lemma free_cons : forall c x s, free c (x :: s) <-> x <> c /\ free c s.
Proof. intros. unfold free. cbn. intuition. Qed.
Lemma free_app : forall c s t, free c (s ++ t) <-> free c s /\ free c t.
Proof. intros. unfold free. rewrite in_app_iff. tauto. Qed.
Lemma has_char_free : forall c s, has_char c s = false <-> free c s.
Proof.
  intros c s. unfold has_char, free. rewrite <- not_true_iff_false, existsb_exists. split.
  - intros H I. apply H. exists c. split; [exact I | apply N.eqb_refl].
  - intros H (x & I & E). apply N.eqb_eq in E as <-. exact (H I).
Qed.
Lemma has_char_In : forall c s, has_char c s = true <-> In c s.
Proof.
  intros c s. unfold has_char. rewrite existsb_exists. split.
  - intros (x & I & E). apply N.eqb_eq in E as <-. exact I.
  - intros I. exists c. split; [exact I | apply N.eqb_refl].
Qed.

(** No dot after a backslash. *)
Fixpoint nopair (s : pystr) : Prop :=
  match s with
  | [] => True
  | c :: r => (c = BSL -> match r with d :: _ => d <> DOT | [] => True end) /\ nopair r
  end.

Lemma pystr_two_ind (P : pystr -> Prop) : P [] -> (forall c, P [c]) ->
  (forall c d r, P r -> P (d :: r) -> P (c :: d :: r)) -> forall s, P s.
Proof.
  intros H0 H1 H2 s. assert (A : P s /\ forall c, P (c :: s)); [| apply A].
  induction s as [| d r (IH1 & IH2)]; [auto |]. split; [apply IH2 |]. intros c. apply H2; auto.
Qed.

Lemma esc_cons : forall out c r, (c = BSL -> match r with d :: _ => d <> DOT | [] => True end) ->
  replace_escdot out (c :: r) = c :: replace_escdot out r.
Proof.
  intros out c [| d r] H; [reflexivity |]. cbn [replace_escdot].
  destruct (N.eqb_spec c BSL) as [E | _]; [| reflexivity]. destruct (N.eqb_spec d DOT) as [E' | _]; [| reflexivity].
  exfalso. apply (H E E').
Qed.
Lemma esc_pair : forall out r, replace_escdot out (BSL :: DOT :: r) = out :: replace_escdot out r.
Proof. reflexivity. Qed.
Lemma esc_hd_dot : forall out s, out <> DOT -> (hd 0%N (replace_escdot out s) = DOT <-> hd 0%N s = DOT).
Proof.
  intros out [| c [| d r]] H; [reflexivity | reflexivity |]. cbn [replace_escdot].
  destruct (N.eqb_spec c BSL) as [-> | N]; [| reflexivity]. destruct (N.eqb_spec d DOT) as [-> | N']; [| reflexivity].
  cbn. split; [intros; congruence | discriminate].
Qed.
Lemma dot_nz : DOT <> 0%N. Proof. discriminate. Qed.
Lemma nopair_cons : forall c r, nopair (c :: r) <-> (c = BSL -> hd 0%N r <> DOT) /\ nopair r.
Proof.
  intros c r. cbn [nopair]. destruct r as [| d r]; cbn [hd]; [| reflexivity].
  split; intros (_ & H); (split; [| exact H]); [intros _ ; discriminate | auto].
Qed.
Lemma esc_nopair : forall out s, out <> DOT -> out <> BSL -> nopair (replace_escdot out s).
Proof.
  intros out s D B. induction s as [| c | c d r IH1 IH2] using pystr_two_ind; [exact I | cbn; auto |].
  cbn [replace_escdot] in *. destruct (N.eqb_spec c BSL) as [-> | N]; cbn [andb].
  - destruct (N.eqb_spec d DOT) as [-> | N'].
    + apply nopair_cons. split; [intros; congruence | exact IH1].
    + apply nopair_cons. split; [| exact IH2]. intros _. change (hd 0%N (replace_escdot out (d :: r)) <> DOT).
      rewrite esc_hd_dot by exact D. exact N'.
  - apply nopair_cons. split; [intros; congruence | exact IH2].
Qed.

Lemma rep1_cons : forall c t x s, replace1 c t (x :: s) = (if N.eqb x c then t else [x]) ++ replace1 c t s.
Proof. reflexivity. Qed.
Lemma rep1_free : forall c t s, free c s -> replace1 c t s = s.
Proof.
  induction s as [| x s IH]; intros F; [reflexivity |]. apply free_cons in F as (N & F). rewrite rep1_cons.
  destruct (N.eqb_spec x c); [easy |]. cbn. rewrite IH by exact F. reflexivity.
Qed.
Lemma rep1_hd : forall c s, c <> DOT -> hd 0%N (replace1 c [BSL; DOT] s) = DOT <-> hd 0%N s = DOT.
Proof.
  intros c [| x s] N; [reflexivity |]. rewrite rep1_cons. destruct (N.eqb_spec x c) as [-> | Nx]; cbn; [| reflexivity].
  split; [discriminate | intros; congruence].
Qed.

(** Undoing one escape with the other, [c] the mark. *)
Lemma esc_rep : forall c y, c <> BSL -> c <> DOT -> nopair y -> replace_escdot c (replace1 c [BSL; DOT] y) = y.
Proof.
  intros c y B D. induction y as [| x y IH]; intros H; [reflexivity |]. apply nopair_cons in H as (H & Hy).
  rewrite rep1_cons. destruct (N.eqb_spec x c) as [-> | N]; cbn [app].
  - rewrite esc_pair, IH by exact Hy. reflexivity.
  - rewrite esc_cons; [rewrite IH by exact Hy; reflexivity |]. intros E. specialize (H E).
    rewrite <- (rep1_hd c y D) in H. destruct (replace1 c [BSL; DOT] y); [exact I | exact H].
Qed.
Lemma rep_esc : forall c s, free c s -> replace1 c [BSL; DOT] (replace_escdot c s) = s.
Proof.
  intros c s. induction s as [| x | x d r IH1 IH2] using pystr_two_ind; intros F; [reflexivity | |].
  - apply free_cons in F as (N & _). cbn [replace_escdot]. rewrite rep1_cons. destruct (N.eqb_spec x c); [easy | reflexivity].
  - pose proof F as F0. apply free_cons in F as (N & F). pose proof F as F1. apply free_cons in F as (N' & F).
    destruct (N.eq_dec x BSL) as [-> | B]; [destruct (N.eq_dec d DOT) as [-> | D] |].
    + rewrite esc_pair, rep1_cons, N.eqb_refl, IH1 by exact F. reflexivity.
    + rewrite esc_cons by (intros _; exact D). rewrite rep1_cons, IH2 by exact F1. destruct (N.eqb_spec BSL c); [easy | reflexivity].
    + rewrite esc_cons by (intros; easy). rewrite rep1_cons, IH2 by exact F1. destruct (N.eqb_spec x c); [easy | reflexivity].
Qed.

Lemma rep1_back : forall a b s, free b s -> replace1 b [a] (replace1 a [b] s) = s.
Proof.
  intros a b. induction s as [| x s IH]; intros F; [reflexivity |]. apply free_cons in F as (N & F). rewrite rep1_cons.
  destruct (N.eqb_spec x a) as [-> | Na]; cbn [app]; rewrite rep1_cons, IH by exact F.
  - rewrite N.eqb_refl. reflexivity.
  - destruct (N.eqb_spec x b); [easy | reflexivity].
Qed.
Lemma rep1_gone : forall a t s, free a t -> free a (replace1 a t s).
Proof.
  intros a t s F. induction s as [| x s IH]; [intros [] |]. rewrite rep1_cons. apply free_app. split; [| exact IH].
  destruct (N.eqb_spec x a); [exact F | apply free_cons; split; [exact n | intros []]].
Qed.
Lemma rep1_other : forall a t c s, free c t -> free c s -> free c (replace1 a t s).
Proof.
  intros a t c s Ft. induction s as [| x s IH]; intros F; [intros [] |]. apply free_cons in F as (N & F). rewrite rep1_cons. apply free_app.
  split; [| apply IH, F]. destruct (N.eqb x a); [exact Ft | apply free_cons; split; [exact N | intros []]].
Qed.
Lemma esc_other : forall out c s, c <> out -> free c s -> free c (replace_escdot out s).
Proof.
  intros out c s N. induction s as [| x | x d r IH1 IH2] using pystr_two_ind; intros F; [exact F | exact F |].
  pose proof F as F0. apply free_cons in F as (Nx & F). cbn [replace_escdot]. destruct (N.eqb x BSL && N.eqb d DOT).
  - apply free_cons. split; [congruence | apply IH1]. apply free_cons in F. apply F.
  - apply free_cons. split; [exact Nx | apply IH2, F].
Qed.

Lemma split_join : forall l, l <> [] -> Forall (free DOT) l -> split DOT (join [DOT] l) = l.
Proof.
  induction l as [| x l IH]; intros N F; [easy |]. inversion F; subst. destruct l as [| y l].
  - cbn [join]. apply split_nochar. apply has_char_free. assumption.
  - change (join [DOT] (x :: y :: l)) with (x ++ DOT :: join [DOT] (y :: l)).
    rewrite split_app by (apply has_char_free; assumption). rewrite IH; [reflexivity | discriminate | assumption].
Qed.
Lemma split_free : forall s, Forall (free DOT) (split DOT s).
Proof.
  induction s as [| x s IH]; cbn [split]; [constructor; [intros [] | constructor] |].
  destruct (N.eqb_spec x DOT) as [-> | N]; [constructor; [intros [] | exact IH] |].
  destruct (split DOT s) as [| p ps]; [constructor; [intros [-> | []]; easy | constructor] |].
  inversion IH; subst. constructor; [apply free_cons; auto | assumption].
Qed.
Lemma split_other : forall c d s, free c s -> Forall (free c) (split d s).
Proof.
  induction s as [| x s IH]; intros F; cbn [split]; [constructor; [intros [] | constructor] |]. apply free_cons in F as (N & F). specialize (IH F).
  destruct (N.eqb x d); [constructor; [intros [] | exact IH] |].
  destruct (split d s) as [| p ps]; [constructor; [intros [-> | []]; easy | constructor] |].
  inversion IH; subst. constructor; [apply free_cons; auto | assumption].
Qed.
Lemma join_free : forall c l, c <> DOT -> Forall (free c) l -> free c (join [DOT] l).
Proof.
  induction l as [| x l IH]; intros N F; [intros [] |]. inversion F; subst. destruct l as [| y l]; [assumption |].
  change (join [DOT] (x :: y :: l)) with (x ++ DOT :: join [DOT] (y :: l)). apply free_app. split; [assumption |].
  apply free_cons. split; [congruence | apply IH; assumption].
Qed.

Lemma split_join_names : forall l, l <> [] -> Forall plain l -> split_names (join_names l) = l.
Proof.
  intros l N F. unfold split_names, join_names.
  rewrite esc_rep by (try discriminate; apply esc_nopair; discriminate).
  rewrite rep_esc.
  2:{ apply join_free; [discriminate |]. apply Forall_map. eapply Forall_impl; [| exact F]. intros s (_ & B). cbn beta. apply rep1_other; [| exact B].
      intros [H | []]. discriminate. }
  rewrite split_join.
  2:{ destruct l; easy. }
  2:{ apply Forall_map. apply Forall_forall. intros s _. apply rep1_gone. intros [H | []]. discriminate. }
  rewrite map_map. clear N. induction F as [| s l (B & _) F IH]; [reflexivity |]. cbn [map]. rewrite rep1_back by exact B. rewrite IH. reflexivity.
Qed.
Lemma split_names_plain : forall f, Forall plain (split_names f).
Proof.
  intros f. unfold split_names. apply Forall_map. eapply Forall_impl; [| apply (split_other BS)].
  - intros s B. split; [apply rep1_gone; intros [H | []]; discriminate | apply rep1_other; [intros [H | []]; discriminate | exact B]].
  - apply rep1_gone. intros [H | [H | []]]; discriminate.
Qed.
Lemma join_split_names : forall f, free BEL f -> join_names (split_names f) = f.
Proof.
  intros f F. unfold join_names, split_names. rewrite map_map.
  rewrite map_ext_in with (g := fun s => s).
  2:{ intros s I. apply rep1_back. apply (proj1 (Forall_forall _ _) (split_free _) s I). }
  rewrite map_id, join_split. rewrite esc_rep by (try discriminate; apply esc_nopair; discriminate). apply rep_esc, F.
Qed.
Lemma join_names_no_bel : forall l, free BEL (join_names l).
Proof. intros l. unfold join_names. apply rep1_gone. intros [H | [H | []]]; discriminate. Qed.
Lemma split_names_nonempty : forall f, split_names f <> [].
Proof. intros f. unfold split_names. pose proof (split_not_nil DOT (replace1 BS [BSL; DOT] (replace_escdot BEL f))). destruct (split _ _); easy. Qed.

(** ** First characters of a joined name *)
Lemma join_names_nil : forall l, l <> [] -> (join_names l = [] <-> l = [[]]).
Proof.
  intros l N. split; [| intros ->; reflexivity]. intros E. unfold join_names in E.
  assert (A : forall s, replace1 BEL [BSL; DOT] s = [] -> s = []).
  { intros [| x s]; [reflexivity |]. rewrite rep1_cons. destruct (N.eqb x BEL); discriminate. }
  apply A in E. assert (B : forall s, replace_escdot BS s = [] -> s = []).
  { intros [| x [| d s]]; cbn; [reflexivity | discriminate |]. destruct (_ && _); discriminate. }
  apply B in E. destruct l as [| x [| y l]]; [easy | | ].
  - cbn in E. destruct x as [| c x]; [reflexivity |]. exfalso. cbn in E. destruct (N.eqb c DOT); discriminate.
  - exfalso. cbn in E. apply app_eq_nil in E as (_ & E). discriminate.
Qed.
(** The text starts with a dot exactly when the first name is empty and another follows. *)
Lemma join_names_hd : forall x l, hd 0%N (join_names (x :: l)) = DOT <-> x = [] /\ l <> [].
Proof.
  intros x l. unfold join_names. rewrite rep1_hd by discriminate. rewrite esc_hd_dot by discriminate.
  destruct l as [| y l].
  - cbn [map join]. split; [| intros (_ & H); easy]. intros H. exfalso.
    assert (F : free DOT (replace1 DOT [BEL] x)) by (apply rep1_gone; intros [H' | []]; discriminate).
    destruct (replace1 DOT [BEL] x) as [| c r]; [discriminate |]. cbn in H. subst. apply F. left. reflexivity.
  - cbn [map join]. split.
    + intros H. split; [| discriminate]. destruct x as [| c x]; [reflexivity |]. exfalso.
      assert (F : free DOT (replace1 DOT [BEL] (c :: x))) by (apply rep1_gone; intros [H' | []]; discriminate).
      rewrite rep1_cons in *. destruct (N.eqb c DOT); cbn in H, F; [discriminate |]; subst; apply F; left; reflexivity.
    + intros (-> & _). reflexivity.
Qed.
Lemma join_names_empty_first : forall (y : pystr) (l : list pystr),
  join_names (@cons pystr [] (@cons pystr y l)) = DOT :: join_names (@cons pystr y l).
Proof.
  intros y l. unfold join_names.
  change (join [DOT] (map (replace1 DOT [BEL]) ([] :: y :: l))) with (DOT :: join [DOT] (map (replace1 DOT [BEL]) (y :: l))).
  rewrite esc_cons by discriminate. rewrite rep1_cons. reflexivity.
Qed.

Lemma lstrip_repeat : forall n s, hd 0%N s <> DOT -> lstrip_dots (repeat DOT n ++ s) = s.
Proof.
  induction n as [| n IH]; intros s H; [| apply IH, H]. cbn. destruct s as [| c s]; [reflexivity |]. cbn in *.
  destruct (N.eqb_spec c DOT); [easy | reflexivity].
Qed.
Lemma lstrip_decomp : forall s, exists n, s = repeat DOT n ++ lstrip_dots s /\ hd 0%N (lstrip_dots s) <> DOT.
Proof.
  induction s as [| c s (n & E & H)]; [exists 0; split; [reflexivity | discriminate] |]. cbn [lstrip_dots].
  destruct (N.eqb_spec c DOT) as [-> | N]; [| exists 0; split; [reflexivity | exact N]].
  exists (S n). split; [cbn; rewrite <- E; reflexivity | exact H].
Qed.

(** ** Splitting, by cases *)
Lemma split_field_up : forall n rem, hd 0%N rem <> DOT ->
  split_field (DOT :: DOT :: repeat DOT n ++ rem) = repeat Up (S n) ++ map Name (split_names rem).
Proof.
  intros n rem H. unfold split_field.
  assert (E : seqb (DOT :: DOT :: repeat DOT n ++ rem) [DOT] = false) by reflexivity. rewrite E.
  change (has_char DOT (DOT :: DOT :: repeat DOT n ++ rem)) with true. cbn [orb]. rewrite N.eqb_refl. cbn [andb].
  change (DOT :: DOT :: repeat DOT n ++ rem) with (repeat DOT (S (S n)) ++ rem). rewrite lstrip_repeat by exact H.
  rewrite app_length, repeat_length. replace (S (S n) + length rem - length rem - 1) with (S n) by lia. reflexivity.
Qed.
Lemma split_names_single : forall f, free DOT f -> free BS f -> free BEL f -> split_names f = [f].
Proof.
  intros f D B L. unfold split_names.
  assert (E : replace_escdot BEL f = f).
  { clear B L. induction f as [| c f IH]; [reflexivity |]. apply free_cons in D as (N & D). rewrite esc_cons; [rewrite IH by exact D; reflexivity |].
    intros _. destruct f as [| d f]; [exact I |]. apply free_cons in D. apply D. }
  rewrite E, rep1_free by exact B. rewrite split_nochar by (apply has_char_free; exact D). cbn. rewrite rep1_free by exact L. reflexivity.
Qed.
Lemma split_field_names : forall f, free BEL f -> f <> [DOT] -> ~ (exists r, f = DOT :: DOT :: r) -> split_field f = map Name (split_names f).
Proof.
  intros f L N1 N2. unfold split_field. destruct (seqb f [DOT]) eqn:E; [apply seqb_eq in E; easy |].
  destruct (has_char DOT f || has_char BS f) eqn:H.
  - destruct f as [| c [| d r]]; [reflexivity | reflexivity |]. destruct (N.eqb_spec c DOT) as [-> | Nc]; cbn [andb]; [| reflexivity].
    destruct (N.eqb_spec d DOT) as [-> | Nd]; [| reflexivity]. exfalso. apply N2. eauto.
  - apply orb_false_iff in H as (H1 & H2). rewrite split_names_single; [reflexivity | | | exact L]; apply has_char_free; assumption.
Qed.

Lemma mapM_names : forall l, mapM step_name (map Name l) = Ok l.
Proof. induction l as [| x l IH]; [reflexivity |]. cbn. rewrite IH. reflexivity. Qed.
Lemma mapM_names_inv : forall p l, mapM step_name p = Ok l -> p = map Name l.
Proof.
  induction p as [| [| x] p IH]; intros l H; [injection H as <-; reflexivity | discriminate |]. cbn in H.
  destruct (mapM step_name p); [| discriminate]. injection H as <-. cbn. rewrite <- (IH a eq_refl). reflexivity.
Qed.
Lemma span_up_app : forall n l, span_up (repeat Up n ++ map Name l) = (n, map Name l).
Proof. induction n as [| n IH]; intros l; [destruct l; reflexivity |]. cbn. rewrite IH. reflexivity. Qed.
Lemma span_up_decomp : forall p, let (n, q) := span_up p in p = repeat Up n ++ q /\ match q with Up :: _ => False | _ => True end.
Proof.
  induction p as [| [| x] p IH]; [split; [reflexivity | exact I] | | split; [reflexivity | exact I]].
  cbn [span_up]. destruct (span_up p) as [n q]. destruct IH as (-> & H). split; [reflexivity | exact H].
Qed.

Lemma join_field_form : forall n names, join_field (repeat Up n ++ map Name names) =
  Ok (match n with
      | O => match names with [] => [DOT] | _ => match join_names names with [] => [DOT] | out => out end end
      | S _ => DOT :: repeat DOT n ++ match names with [] => [] | _ => join_names names end
      end).
Proof.
  intros [| n] names.
  - cbn [repeat app]. destruct names as [| x names]; [reflexivity |]. unfold join_field. cbn [map].
    change (Name x :: map Name names) with (map Name (x :: names)). rewrite mapM_names. cbn [bind]. destruct (join_names (x :: names)); reflexivity.
  - unfold join_field. change (repeat Up (S n) ++ map Name names) with (Up :: repeat Up n ++ map Name names).
    cbn match. rewrite (span_up_app (S n) names : span_up (Up :: repeat Up n ++ map Name names) = _).
    destruct names as [| x names]; cbn [map].
    + rewrite app_nil_r. reflexivity.
    + change (Name x :: map Name names) with (map Name (x :: names)). rewrite mapM_names. reflexivity.
Qed.

Lemma split_join_good : forall p, good_path p -> exists f, join_field p = Ok f /\ split_field f = p.
Proof.
  intros p (n & names & -> & F & H). rewrite join_field_form. eexists. split; [reflexivity |]. destruct n as [| n].
  - destruct names as [| x names]; [reflexivity |]. cbn [repeat app].
    assert (NE : join_names (x :: names) <> []).
    { rewrite join_names_nil by discriminate. intros [= -> ->]. exact (H eq_refl). }
    destruct (join_names (x :: names)) as [| c out] eqn:E; [easy |]. rewrite <- E.
    rewrite split_field_names; [rewrite split_join_names; [reflexivity | discriminate | exact F] | apply join_names_no_bel | |].
    + intros E'. assert (Hd : hd 0%N (join_names (x :: names)) = DOT) by (rewrite E'; reflexivity).
      apply join_names_hd in Hd as (-> & Nn). destruct names as [| y names]; [easy |].
      rewrite join_names_empty_first in E'. apply (f_equal (@tl N)) in E'. cbn [tl] in E'. apply join_names_nil in E'; [| discriminate]. injection E' as -> ->.
      destruct H as [H | H]; exact (H eq_refl).
    + intros (r & E'). assert (Hd : hd 0%N (join_names (x :: names)) = DOT) by (rewrite E'; reflexivity).
      apply join_names_hd in Hd as (-> & Nn). destruct names as [| y names]; [easy |].
      rewrite join_names_empty_first in E'. apply (f_equal (@tl N)) in E'. cbn [tl] in E'.
      assert (Hd : hd 0%N (join_names (y :: names)) = DOT) by exact (f_equal (hd 0%N) E'). apply join_names_hd in Hd as (-> & _).
      destruct H as [H | H]; exact (H eq_refl).
  - destruct names as [| x names]; [destruct H |].
    change (DOT :: repeat DOT (S n) ++ join_names (x :: names)) with (DOT :: DOT :: repeat DOT n ++ join_names (x :: names)).
    rewrite split_field_up; [rewrite split_join_names; [reflexivity | discriminate | exact F] |].
    rewrite join_names_hd. intros (-> & N). destruct names; [easy | exact (H eq_refl)].
Qed.

Lemma map_Name_app : forall n names m names', repeat Up n ++ map Name names = repeat Up m ++ map Name names' -> n = m /\ names = names'.
Proof.
  induction n as [| n IH]; intros names [| m] names' H.
  - split; [reflexivity |]. cbn in H. revert names' H. induction names as [| x l IHl]; intros [| y l'] H; try discriminate; [reflexivity |].
    cbn in H. injection H as -> H. f_equal. apply IHl, H.
  - destruct names; discriminate.
  - destruct names'; discriminate.
  - cbn in H. injection H as H. apply IH in H as (-> & ->). auto.
Qed.
Lemma split_field_form : forall f, exists n names, split_field f = repeat Up n ++ map Name names.
Proof.
  intros f. unfold split_field. destruct (seqb f [DOT]); [exists 0, []; reflexivity |].
  destruct (has_char DOT f || has_char BS f); [| exists 0, [f]; reflexivity].
  destruct f as [| c [| d r]]; [exists 0; eexists; cbn [repeat app]; reflexivity | exists 0; eexists; cbn [repeat app]; reflexivity |].
  destruct (N.eqb c DOT && N.eqb d DOT); [eexists; eexists; reflexivity | exists 0; eexists; cbn [repeat app]; reflexivity].
Qed.
Lemma split_field_plain : forall f n names, free BEL f -> split_field f = repeat Up n ++ map Name names -> Forall plain names.
Proof.
  intros f n names L H. unfold split_field in H.
  destruct (seqb f [DOT]).
  { change [] with (repeat Up 0 ++ map Name []) in H. apply map_Name_app in H as (_ & <-). constructor. }
  destruct (has_char DOT f || has_char BS f) eqn:E.
  - destruct f as [| c [| d r]].
    + discriminate E.
    + match type of H with map Name ?l = _ => change (repeat Up 0 ++ map Name l = repeat Up n ++ map Name names) in H end.
      apply map_Name_app in H as (_ & <-). apply split_names_plain.
    + destruct (N.eqb c DOT && N.eqb d DOT).
      * apply map_Name_app in H as (_ & <-). apply split_names_plain.
      * match type of H with map Name ?l = _ => change (repeat Up 0 ++ map Name l = repeat Up n ++ map Name names) in H end.
        apply map_Name_app in H as (_ & <-). apply split_names_plain.
  - change [Name f] with (repeat Up 0 ++ map Name [f]) in H. apply map_Name_app in H as (_ & <-). constructor; [| constructor].
    apply orb_false_iff in E as (_ & E). split; [exact L | apply has_char_free, E].
Qed.

Lemma free_repeat_dot : forall n s, free BEL s -> free BEL (repeat DOT n ++ s).
Proof. induction n as [| n IH]; intros s H; [exact H |]. cbn. apply free_cons. split; [discriminate | apply IH, H]. Qed.
Lemma join_field_no_bel : forall p f, join_field p = Ok f -> free BEL f.
Proof.
  intros p f H. assert (A : exists n names, p = repeat Up n ++ map Name names).
  { unfold join_field in H. destruct p as [| [| x] p]; [exists 0, []; reflexivity | |].
    - pose proof (span_up_decomp (Up :: p)) as D. destruct (span_up (Up :: p)) as [n q]. destruct D as (-> & _).
      destruct q as [| s q]; [exists n, []; reflexivity |]. destruct (mapM step_name (s :: q)) as [l |] eqn:E; [| discriminate].
      apply mapM_names_inv in E. exists n, l. rewrite E. reflexivity.
    - destruct (mapM step_name (Name x :: p)) as [l |] eqn:E; [| discriminate]. apply mapM_names_inv in E. exists 0, l. rewrite E. reflexivity. }
  destruct A as (n & names & ->). rewrite join_field_form in H. injection H as <-. destruct n as [| n].
  - destruct names as [| x names]; [apply free_cons; split; [discriminate | intros []] |].
    pose proof (join_names_no_bel (x :: names)). destruct (join_names (x :: names)); [apply free_cons; split; [discriminate | intros []] | assumption].
  - apply free_cons. split; [discriminate |]. apply (free_repeat_dot (S n)). destruct names; [intros [] | apply join_names_no_bel].
Qed.

Lemma split_join_iff : forall p, (exists f, join_field p = Ok f /\ split_field f = p) <-> good_path p.
Proof.
  intros p. split; [| apply split_join_good]. intros (f & J & S0).
  destruct (split_field_form f) as (n & names & E). rewrite S0 in E. exists n, names. split; [exact E |].
  pose proof (join_field_no_bel _ _ J) as L. rewrite E in S0. pose proof (split_field_plain f n names L S0) as F. split; [exact F |].
  rewrite E, join_field_form in J. injection J as J. destruct n as [| n].
  - destruct names as [| x [| y names]]; [exact I | |].
    + intros ->. cbn in J. subst f. discriminate S0.
    + destruct x as [| c x]; [| left; discriminate]. right. intros ->. rewrite join_names_empty_first in J. subst f.
      destruct names as [| z names]; [discriminate S0 |]. rewrite join_names_empty_first in S0.
      destruct (lstrip_decomp (join_names (z :: names))) as (k & Ek & Hk). rewrite Ek in S0. rewrite split_field_up in S0 by exact Hk.
      apply map_Name_app in S0 as (S0 & _). discriminate.
  - subst f. destruct names as [| x [| y names]]; [| exact I |].
    + change (split_field (DOT :: DOT :: repeat DOT n ++ []) = repeat Up (S n) ++ map Name []) in S0.
      rewrite split_field_up in S0 by discriminate. apply map_Name_app in S0 as (_ & S0). discriminate S0.
    + intros ->. rewrite join_names_empty_first in S0.
      destruct (lstrip_decomp (join_names (y :: names))) as (k & Ek & Hk).
      assert (X : DOT :: repeat DOT (S n) ++ DOT :: join_names (y :: names) = DOT :: DOT :: repeat DOT (n + S k) ++ lstrip_dots (join_names (y :: names))).
      { rewrite repeat_app, <- app_assoc. cbn [repeat app]. do 3 f_equal. exact (f_equal (cons DOT) Ek). }
      rewrite X in S0. rewrite split_field_up in S0 by exact Hk. apply map_Name_app in S0 as (S0 & _). lia.
Qed.

Lemma join_split_iff : forall f, join_field (split_field f) = Ok f <-> f <> [] /\ free BEL f.
Proof.
  intros f. split.
  - intros H. split; [| eapply join_field_no_bel; exact H]. intros ->. discriminate.
  - intros (N & L). destruct (seqb f [DOT]) eqn:E1; [apply seqb_eq in E1; subst; reflexivity |].
    assert (N1 : f <> [DOT]) by (intros ->; rewrite seqb_refl in E1; discriminate).
    destruct f as [| c f]; [easy |].
    destruct (N.eq_dec c DOT) as [-> | Nc]; [destruct f as [| d f]; [easy |]; destruct (N.eq_dec d DOT) as [-> | Nd] |].
    + destruct (lstrip_decomp f) as (k & Ek & Hk). rewrite Ek. rewrite split_field_up by exact Hk. rewrite join_field_form.
      pose proof (split_names_nonempty (lstrip_dots f)) as Ns. destruct (split_names (lstrip_dots f)) as [| x l] eqn:Es; [easy |]. rewrite <- Es.
      rewrite join_split_names; [reflexivity |]. rewrite Ek in L. apply free_cons in L as (_ & L). apply free_cons in L as (_ & L). apply free_app in L. apply L.
    + rewrite split_field_names; [| exact L | exact N1 | intros (r & [=]); easy].
      pose proof (split_names_nonempty (DOT :: d :: f)) as Ns. change (map Name ?l) with (repeat Up 0 ++ map Name l). rewrite join_field_form.
      destruct (split_names (DOT :: d :: f)) as [| x l] eqn:Es; [easy |]. rewrite <- Es. rewrite join_split_names by exact L. reflexivity.
    + rewrite split_field_names; [| exact L | exact N1 | intros (r & [=]); easy].
      pose proof (split_names_nonempty (c :: f)) as Ns. change (map Name ?l) with (repeat Up 0 ++ map Name l). rewrite join_field_form.
      destruct (split_names (c :: f)) as [| x l] eqn:Es; [easy |]. rewrite <- Es. rewrite join_split_names by exact L. reflexivity.
Qed.
