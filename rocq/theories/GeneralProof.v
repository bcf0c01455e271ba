From Coq Require Import String Ascii List Arith NArith Bool Lia.
From Verif Require Import Base GeneralModel.
Import ListNotations.

(** ** What is left *)
Definition count (c : N) (s : pystr) : nat := length (filter (N.eqb c) s).
Lemma count_app c a b : count c (a ++ b) = count c a + count c b.
Proof. unfold count. rewrite filter_app, app_length. reflexivity. Qed.
Lemma count_cons c d s : count c (d :: s) = (if N.eqb c d then 1 else 0) + count c s.
Proof. unfold count. cbn [filter]. destruct (N.eqb c d); reflexivity. Qed.
Lemma count_rev c s : count c (rev s) = count c s.
Proof. induction s as [|d s IH]; [reflexivity|]. cbn [rev]. rewrite count_app, count_cons, IH. change (count c [d]) with (count c [d]). rewrite count_cons. cbn. lia. Qed.
Lemma count_in c s : count c s = 0 <-> ~ In c s.
Proof.
  induction s as [|d s IH]; [split; [intros _ [] | reflexivity]|]. rewrite count_cons. destruct (N.eqb_spec c d) as [->|H]; cbn [In].
  - split; [discriminate | intros X; destruct X; left; reflexivity].
  - rewrite Nat.add_0_l, IH. split; [intros X [Y|Y]; [congruence | exact (X Y)] | intros X Y; apply X; right; exact Y].
Qed.
Lemma quoted_one q s : forall open, (match open with Some acc => count q acc = 0 | None => True end) -> q <> 88%N -> count q (quoted q open s) <= 1.
Proof.
  induction s as [|c s IH]; intros open H Q; cbn [quoted].
  - destruct open as [acc|]; [rewrite count_cons, N.eqb_refl; lia | unfold count; cbn; lia].
  - destruct open as [acc|].
    + destruct (N.eqb_spec c q) as [->|Hc].
      * rewrite count_app. change (u "X") with [88%N]. rewrite count_cons, (proj2 (N.eqb_neq q 88) Q). exact (IH None I Q).
      * apply IH; [|exact Q]. rewrite count_app, H, count_cons, (proj2 (N.eqb_neq q c)) by congruence. reflexivity.
    + destruct (N.eqb_spec c q) as [->|Hc]; [apply IH; [reflexivity | exact Q]|].
      rewrite count_cons, (proj2 (N.eqb_neq q c)) by congruence. exact (IH None I Q).
Qed.
Lemma quoted_less x q s : x <> q -> x <> 88%N -> forall open, count x (quoted q open s) <= count x (match open with Some acc => acc | None => [] end) + count x s.
Proof.
  intros Hq Hx. induction s as [|c s IH]; intros open; cbn [quoted].
  - destruct open as [acc|]; [rewrite count_cons, (proj2 (N.eqb_neq x q) Hq); lia | lia].
  - rewrite count_cons. destruct open as [acc|].
    + destruct (N.eqb c q).
      * rewrite count_app. change (u "X") with [88%N]. rewrite count_cons, (proj2 (N.eqb_neq x 88) Hx). specialize (IH None). cbn beta iota in IH. change (count x []) with 0 in *. lia.
      * specialize (IH (Some (acc ++ [c]))). cbn beta iota in IH. rewrite count_app, count_cons in IH. change (count x []) with 0 in IH. lia.
    + destruct (N.eqb_spec c q) as [->|Hc].
      * specialize (IH (Some [])). cbn beta iota in IH. lia.
      * rewrite count_cons. specialize (IH None). cbn beta iota in IH. lia.
Qed.
Lemma spaces_less x s : x <> 32%N -> forall prev, count x (spaces prev s) <= count x s.
Proof.
  intros H. induction s as [|c s IH]; intros prev; cbn [spaces]; [lia|]. rewrite count_cons. destruct (space c).
  - rewrite count_app. specialize (IH true). destruct prev; [change (count x []) with 0; lia|]. rewrite count_cons, (proj2 (N.eqb_neq x 32) H). change (count x []) with 0. lia.
  - rewrite count_cons. specialize (IH false). lia.
Qed.
Lemma numbers_less x s : x <> 45%N -> x <> 78%N -> forall st, count x (numbers st s) <= count x s.
Proof.
  intros H H'. assert (M : count x (u "-") = 0) by (change (u "-") with [45%N]; rewrite count_cons, (proj2 (N.eqb_neq x 45) H); reflexivity).
  assert (M' : count x (u "N") = 0) by (change (u "N") with [78%N]; rewrite count_cons, (proj2 (N.eqb_neq x 78) H'); reflexivity).
  assert (Z : count x [] = 0) by reflexivity.
  induction s as [|c s IH]; intros st; cbn [numbers]; [destruct st; lia|]. rewrite count_cons. destruct (digit c).
  - destruct st; rewrite ?count_app, ?M'; specialize (IH NNumber); lia.
  - rewrite count_app. match goal with |- context[count x ?k + _] => replace (count x k) with 0 by (destruct st; symmetry; assumption) end. rewrite Nat.add_0_l.
    destruct (N.eqb c 45); [specialize (IH NMinus) | rewrite count_cons; specialize (IH NText)]; lia.
Qed.
Lemma numbers_none x s : digit x = true -> forall st, count x (numbers st s) = 0.
Proof.
  intros D. assert (H : x <> 45%N) by (intros ->; discriminate D). assert (H' : x <> 78%N) by (intros ->; discriminate D).
  assert (M : count x (u "-") = 0) by (change (u "-") with [45%N]; rewrite count_cons, (proj2 (N.eqb_neq x 45) H); reflexivity).
  assert (M' : count x (u "N") = 0) by (change (u "N") with [78%N]; rewrite count_cons, (proj2 (N.eqb_neq x 78) H'); reflexivity).
  assert (Z : count x [] = 0) by reflexivity.
  induction s as [|c s IH]; intros st; cbn [numbers]; [destruct st; assumption|]. destruct (digit c) eqn:E.
  - destruct st; rewrite ?count_app, ?M', IH; reflexivity.
  - rewrite count_app. match goal with |- context[count x ?k + _] => replace (count x k) with 0 by (destruct st; symmetry; assumption) end. rewrite Nat.add_0_l.
    destruct (N.eqb c 45); [apply IH|]. rewrite count_cons, IH. destruct (N.eqb_spec x c); [subst; congruence | reflexivity].
Qed.
Lemma drop_suffix s : exists k, s = k ++ drop_spaces s.
Proof. induction s as [|c s (k & E)]; [exists []; reflexivity|]. cbn [drop_spaces]. destruct (space c); [exists (c :: k); cbn [app]; f_equal; exact E | exists []; reflexivity]. Qed.
Lemma past_suffix x s : forall some r, past x some s = Some r -> exists k, s = k ++ r.
Proof.
  induction s as [|c s IH]; intros some r; cbn [past]; [discriminate|]. destruct (N.eqb c x).
  - destruct some; [intros [= <-]; exists [c]; reflexivity | discriminate].
  - intros E. destruct (IH true r E) as (k & ->). exists (c :: k). reflexivity.
Qed.
Lemma word_split w : forall s m r, word w s = Some (m, r) -> s = m ++ r.
Proof.
  induction w as [|a w IH]; intros s m r; cbn [word]; [intros [= <- <-]; reflexivity|]. destruct s as [|c s]; [discriminate|].
  destruct (N.eqb (up c) a); [|discriminate]. destruct (word w s) as [[m' r']|] eqn:E; [|discriminate]. cbn [option_map fst snd]. intros [= <- <-]. cbn [app]. f_equal. exact (IH s m' r' E).
Qed.
Lemma list_end_suffix s r : list_end s = Some r -> exists k, s = k ++ r.
Proof.
  unfold list_end. destruct (drop_suffix s) as (k & E). destruct (drop_spaces s) as [|c t]; [discriminate|]. destruct (N.eqb c 40); [|discriminate].
  destruct (past 44 false t) as [t'|] eqn:P; [|discriminate]. intros Q. apply past_suffix in P as (k1 & ->), Q as (k2 & ->). subst s.
  exists (k ++ (c :: k1) ++ k2). rewrite <- !app_assoc. reflexivity.
Qed.
Lemma listed_split w s m r : listed w s = Some (m, r) -> exists k, s = m ++ k ++ r.
Proof.
  unfold listed. destruct (word w s) as [[m' r']|] eqn:E; [|discriminate]. apply word_split in E. destruct (list_end r') as [t|] eqn:L; [|discriminate].
  cbn [option_map]. intros [= <- <-]. apply list_end_suffix in L as (k & ->). exists k. exact E.
Qed.
Lemma lists_less x fuel : count x (u " (XYZ)") = 0 -> forall s, count x (lists fuel s) <= count x s.
Proof.
  intros Z. assert (Zs : count x (u " ") = 0).
  { apply count_in. apply count_in in Z. intros H. apply Z. destruct H as [<-|[]]. left. reflexivity. }
  induction fuel as [|fuel IH]; intros s; cbn [lists]; [lia|]. destruct s as [|c s]; [lia|]. destruct (N.eqb c 32).
  - destruct (match listed (u "IN") s with Some p => Some p | None => listed (u "VALUES") s end) as [[m r]|] eqn:E.
    + assert (K : exists k, s = m ++ k ++ r) by (destruct (listed (u "IN") s) as [p|] eqn:E1; [injection E as ->; exact (listed_split _ _ _ _ E1) | exact (listed_split _ _ _ _ E)]).
      destruct K as (k & ->). rewrite count_cons, !count_app, Z, Zs. specialize (IH r). lia.
    + rewrite !count_cons. specialize (IH s). lia.
  - rewrite !count_cons. specialize (IH s). lia.
Qed.
Lemma drop_less x s : count x (drop_spaces s) <= count x s.
Proof. destruct (drop_suffix s) as (k & E). rewrite E at 2. rewrite count_app. lia. Qed.
Lemma strip_less x s : count x (strip s) <= count x s.
Proof.
  unfold strip. rewrite count_rev. pose proof (drop_less x (rev (drop_spaces s))) as A. rewrite count_rev in A. pose proof (drop_less x s). lia.
Qed.
Lemma tail_less x s : count x (u " (XYZ)") = 0 -> count x (strip (lists (length s) s)) <= count x s.
Proof. intros Z. pose proof (strip_less x (lists (length s) s)). pose proof (lists_less x (length s) Z s). lia. Qed.
Lemma hide_left s : (forall c, In c (hide s) -> digit c = false) /\ count 39 (hide s) <= 1 /\ count 34 (hide s) <= 1.
Proof.
  unfold hide. cbv zeta. set (a := remove2 92 34 (remove2 92 39 (remove2 92 92 s))). set (b := numbers NText (spaces false (quoted 34 None (quoted 39 None a)))). split; [|split].
  - intros c I. destruct (digit c) eqn:D; [|reflexivity]. exfalso.
    assert (Z : count c (u " (XYZ)") = 0).
    { apply count_in. intros H. vm_compute in H. repeat destruct H as [<-|H]; try discriminate D. destruct H. }
    pose proof (tail_less c b Z) as L. pose proof (numbers_none c (spaces false (quoted 34 None (quoted 39 None a))) D NText) as E. fold b in E.
    assert (C : count c (strip (lists (length b) b)) = 0) by lia. apply count_in in C. exact (C I).
  - pose proof (tail_less 39 b eq_refl). pose proof (numbers_less 39 (spaces false (quoted 34 None (quoted 39 None a))) ltac:(discriminate) ltac:(discriminate) NText) as L. fold b in L.
    pose proof (spaces_less 39 (quoted 34 None (quoted 39 None a)) ltac:(discriminate) false). pose proof (quoted_less 39 34 (quoted 39 None a) ltac:(discriminate) ltac:(discriminate) None) as K.
    pose proof (quoted_one 39 a None I ltac:(discriminate)). cbn beta iota in K. change (count 39 []) with 0 in K. lia.
  - pose proof (tail_less 34 b eq_refl). pose proof (numbers_less 34 (spaces false (quoted 34 None (quoted 39 None a))) ltac:(discriminate) ltac:(discriminate) NText) as L. fold b in L.
    pose proof (spaces_less 34 (quoted 34 None (quoted 39 None a)) ltac:(discriminate) false). pose proof (quoted_one 34 (quoted 39 None a) None I ltac:(discriminate)). lia.
Qed.

(** ** What does not matter *)
Lemma remove2_cons x y c t : c <> x -> remove2 x y (c :: t) = c :: remove2 x y t.
Proof. intros H. destruct t as [|d t]; [reflexivity|]. cbn [remove2]. rewrite (proj2 (N.eqb_neq c x) H). reflexivity. Qed.
Lemma remove2_plain x y a t : ~ In x a -> remove2 x y (a ++ t) = a ++ remove2 x y t.
Proof.
  induction a as [|c a IH]; intros H; [reflexivity|]. cbn [app]. rewrite remove2_cons by (intros ->; apply H; left; reflexivity). f_equal. apply IH. intros I. apply H. right. exact I.
Qed.
Definition number (n : pystr) : Prop := n <> [] /\ forall c, In c n -> digit c = true.
Lemma number_not x n : digit x = false -> number n -> ~ In x n.
Proof. intros H (_ & D) I. rewrite (D x I) in H. discriminate H. Qed.
Lemma remove2_number x y : digit x = false -> digit y = false -> forall k a, length a <= k -> exists p, forall n b, number n -> remove2 x y (a ++ n ++ b) = p ++ n ++ remove2 x y b.
Proof.
  intros Hx Hy. induction k as [|k IH]; intros a L.
  - destruct a; [|cbn in L; lia]. exists []. intros n b D. cbn [app]. apply remove2_plain. exact (number_not x n Hx D).
  - destruct a as [|c [|d a]].
    + exists []. intros n b D. cbn [app]. apply remove2_plain. exact (number_not x n Hx D).
    + exists [c]. intros n b D. rewrite <- (remove2_plain x y n b (number_not x n Hx D)). destruct n as [|e n]; [destruct (proj1 D eq_refl)|]. cbn [app remove2].
      assert (Q : N.eqb e y = false) by (apply N.eqb_neq; intros ->; rewrite (proj2 D y (or_introl eq_refl)) in Hy; discriminate Hy).
      rewrite Q, andb_false_r. reflexivity.
    + cbn [length] in L. destruct (N.eqb c x && N.eqb d y) eqn:E.
      * destruct (IH a ltac:(lia)) as (p & P). exists p. intros n b D. cbn [app remove2]. rewrite E. exact (P n b D).
      * destruct (IH (d :: a) ltac:(cbn [length]; lia)) as (p & P). exists (c :: p). intros n b D. rewrite <- app_comm_cons. cbn [app remove2]. rewrite E. cbn [app]. f_equal. exact (P n b D).
Qed.
Lemma quoted_app q a : forall o, exists p o', forall s, quoted q o (a ++ s) = p ++ quoted q o' s.
Proof.
  induction a as [|c a IH]; intros o; [exists [], o; reflexivity|]. cbn [app quoted]. destruct o as [acc|].
  - destruct (N.eqb c q).
    + destruct (IH None) as (p & o' & H). exists (u "X" ++ p), o'. intros s. rewrite H, app_assoc. reflexivity.
    + exact (IH (Some (acc ++ [c]))).
  - destruct (N.eqb c q); [exact (IH (Some []))|]. destruct (IH None) as (p & o' & H). exists (c :: p), o'. intros s. rewrite H. reflexivity.
Qed.
Lemma quoted_out q n b : ~ In q n -> quoted q None (n ++ b) = n ++ quoted q None b.
Proof.
  induction n as [|c n IH]; intros H; [reflexivity|]. cbn [app quoted]. rewrite (proj2 (N.eqb_neq c q)) by (intros ->; apply H; left; reflexivity).
  f_equal. apply IH. intros I. apply H. right. exact I.
Qed.
Lemma quoted_in q n : ~ In q n -> forall acc b, quoted q (Some acc) (n ++ b) = quoted q (Some (acc ++ n)) b.
Proof.
  induction n as [|c n IH]; intros H acc b; [rewrite app_nil_r; reflexivity|]. cbn [app quoted]. rewrite (proj2 (N.eqb_neq c q)) by (intros ->; apply H; left; reflexivity).
  rewrite IH by (intros I; apply H; right; exact I). rewrite <- app_assoc. reflexivity.
Qed.
Lemma quoted_end q b : (exists r, forall acc, quoted q (Some acc) b = r) \/ (forall acc, quoted q (Some acc) b = q :: acc ++ b).
Proof.
  induction b as [|c b IH]; [right; intros acc; cbn [quoted]; rewrite app_nil_r; reflexivity|]. cbn [quoted]. destruct (N.eqb c q); [left; eexists; reflexivity|].
  destruct IH as [(r & R)|R]; [left; exists r; intros acc; apply R | right; intros acc; rewrite R, <- app_assoc; reflexivity].
Qed.
(** The texts are equal, or differ in one number. *)
Definition differ (n m x y : pystr) : Prop := x = y \/ exists p r, x = p ++ n ++ r /\ y = p ++ m ++ r.
Lemma quoted_differ q n m x y : digit q = false -> number n -> number m -> differ n m x y -> differ n m (quoted q None x) (quoted q None y).
Proof.
  intros Hq Hn Hm [->|(a & b & -> & ->)]; [left; reflexivity|]. destruct (quoted_app q a None) as (p & o & P). rewrite !P.
  pose proof (number_not q n Hq Hn) as Nn. pose proof (number_not q m Hq Hm) as Nm. destruct o as [acc|].
  - rewrite !quoted_in by assumption. destruct (quoted_end q b) as [(r & R)|R]; rewrite !R; [left; reflexivity|]. right. exists (p ++ q :: acc), b. rewrite <- !app_assoc. split; reflexivity.
  - rewrite !quoted_out by assumption. right. exists p, (quoted q None b). split; reflexivity.
Qed.
Lemma digit_space c : digit c = true -> space c = false.
Proof.
  intros D. unfold digit in D. apply andb_true_iff in D as (A & B). apply N.leb_le in A, B. unfold space.
  destruct (N.leb_spec c 13), (N.leb_spec c 32), (N.leb_spec 8192 c); try lia. cbn [existsb andb orb]. rewrite !andb_false_r.
  repeat match goal with |- context[N.eqb c ?k] => rewrite (proj2 (N.eqb_neq c k)) by lia end. reflexivity.
Qed.
Lemma spaces_in n b : (forall c, In c n -> digit c = true) -> spaces false (n ++ b) = n ++ spaces false b.
Proof.
  induction n as [|c n IH]; intros D; [reflexivity|]. cbn [app spaces]. rewrite (digit_space c (D c (or_introl eq_refl))). f_equal. apply IH. intros d I. apply D. right. exact I.
Qed.
Lemma spaces_number a : forall prev, exists p, forall n b, number n -> spaces prev (a ++ n ++ b) = p ++ n ++ spaces false b.
Proof.
  induction a as [|c a IH]; intros prev.
  - exists []. intros n b (Ne & D). destruct n as [|e n]; [destruct (Ne eq_refl)|]. cbn [app spaces]. rewrite (digit_space e (D e (or_introl eq_refl))). f_equal. apply spaces_in. intros d I. apply D. right. exact I.
  - cbn [app spaces]. destruct (space c).
    + destruct (IH true) as (p & P). exists ((if prev then [] else [32%N]) ++ p). intros n b D. rewrite (P n b D), <- app_assoc. reflexivity.
    + destruct (IH false) as (p & P). exists (c :: p). intros n b D. rewrite (P n b D). reflexivity.
Qed.
Lemma numbers_in n b : (forall c, In c n -> digit c = true) -> numbers NNumber (n ++ b) = numbers NNumber b.
Proof. induction n as [|c n IH]; intros D; [reflexivity|]. cbn [app numbers]. rewrite (D c (or_introl eq_refl)). apply IH. intros d I. apply D. right. exact I. Qed.
Lemma numbers_number a : forall st n m b, number n -> number m -> numbers st (a ++ n ++ b) = numbers st (a ++ m ++ b).
Proof.
  induction a as [|c a IH]; intros st n m b Hn Hm.
  - assert (H : forall k, number k -> numbers st (k ++ b) = (match st with NNumber => [] | _ => u "N" end) ++ numbers NNumber b).
    { intros k (Ne & D). destruct k as [|e k]; [destruct (Ne eq_refl)|]. cbn [app numbers]. rewrite (D e (or_introl eq_refl)).
      rewrite !(numbers_in k b) by (intros d I; apply D; right; exact I). destruct st; reflexivity. }
    cbn [app]. rewrite (H n Hn), (H m Hm). reflexivity.
  - cbn [app numbers]. rewrite !(IH _ n m b Hn Hm). reflexivity.
Qed.
Lemma hide_number a n m b : number n -> number m -> hide (a ++ n ++ b) = hide (a ++ m ++ b).
Proof.
  intros Hn Hm. unfold hide. cbv zeta.
  assert (R : forall y x1 x2, digit y = false -> (exists p r, x1 = p ++ n ++ r /\ x2 = p ++ m ++ r) -> exists p r, remove2 92 y x1 = p ++ n ++ r /\ remove2 92 y x2 = p ++ m ++ r).
  { intros y x1 x2 Hy (p & r & -> & ->). destruct (remove2_number 92 y eq_refl Hy (length p) p ltac:(lia)) as (p' & P). exists p', (remove2 92 y r). split; apply P; assumption. }
  assert (D : differ n m (remove2 92 34 (remove2 92 39 (remove2 92 92 (a ++ n ++ b)))) (remove2 92 34 (remove2 92 39 (remove2 92 92 (a ++ m ++ b))))).
  { right. apply R; [reflexivity|]. apply R; [reflexivity|]. apply R; [reflexivity|]. exists a, b. split; reflexivity. }
  apply (quoted_differ 39) in D; [|reflexivity | assumption | assumption]. apply (quoted_differ 34) in D; [|reflexivity | assumption | assumption].
  destruct D as [->|(p & r & -> & ->)]; [reflexivity|]. destruct (spaces_number p false) as (p' & P). rewrite (P n r Hn), (P m r Hm), (numbers_number p' NText n m _ Hn Hm). reflexivity.
Qed.
Definition is_open (o : option pystr) : bool := match o with Some _ => true | None => false end.
Lemma quoted_state q a : forall o, exists p o', (forall s, quoted q o (a ++ s) = p ++ quoted q o' s) /\ is_open o' = xorb (is_open o) (Nat.odd (count q a)).
Proof.
  induction a as [|c a IH]; intros o.
  - exists [], o. split; [reflexivity|]. destruct o; reflexivity.
  - rewrite count_cons. cbn [app quoted]. destruct (N.eqb_spec c q) as [->|Hc].
    + rewrite N.eqb_refl, Nat.add_1_l, Nat.odd_succ, <- Nat.negb_odd. destruct o as [acc|].
      * destruct (IH None) as (p & o' & H & E). exists (u "X" ++ p), o'. split; [intros s; rewrite H, app_assoc; reflexivity | rewrite E; cbn [is_open]; destruct (Nat.odd _); reflexivity].
      * destruct (IH (Some [])) as (p & o' & H & E). exists p, o'. split; [exact H | rewrite E; cbn [is_open]; destruct (Nat.odd _); reflexivity].
    + rewrite (proj2 (N.eqb_neq q c)) by congruence. rewrite Nat.add_0_l. destruct o as [acc|].
      * destruct (IH (Some (acc ++ [c]))) as (p & o' & H & E). exists p, o'. split; [exact H | exact E].
      * destruct (IH None) as (p & o' & H & E). exists (c :: p), o'. split; [intros s; rewrite H; reflexivity | exact E].
Qed.
Lemma hide_text a t t' b : ~ In 92%N a -> Nat.even (count 39 a) = true -> ~ In 92%N t -> ~ In 39%N t -> ~ In 92%N t' -> ~ In 39%N t' ->
  hide (a ++ [39%N] ++ t ++ [39%N] ++ b) = hide (a ++ [39%N] ++ t' ++ [39%N] ++ b).
Proof.
  intros Ha He H1 H2 H3 H4. unfold hide. cbv zeta.
  assert (K : forall k, ~ In 92%N k -> ~ In 39%N k -> exists p c, quoted 39 None (remove2 92 34 (remove2 92 39 (remove2 92 92 (a ++ [39%N] ++ k ++ [39%N] ++ b)))) = p ++ u "X" ++ c /\
    (forall s, quoted 39 None (a ++ s) = p ++ quoted 39 None s) /\ c = quoted 39 None (remove2 92 34 (remove2 92 39 (remove2 92 92 b)))).
  { intros k K1 K2. assert (R : forall y z, remove2 92 y (a ++ [39%N] ++ k ++ [39%N] ++ z) = a ++ [39%N] ++ k ++ [39%N] ++ remove2 92 y z).
    { intros y z. rewrite remove2_plain by exact Ha. f_equal. cbn [app]. rewrite remove2_cons by discriminate. f_equal. rewrite remove2_plain by exact K1. f_equal. apply remove2_cons. discriminate. }
    rewrite !R. destruct (quoted_state 39 a None) as (p & o & P & O). rewrite <- Nat.negb_even, He in O. destruct o; [discriminate O|]. clear O.
    exists p. eexists. split; [|split; [exact P | reflexivity]]. rewrite P. f_equal. cbn [app quoted]. rewrite N.eqb_refl, quoted_in by exact K2. cbn [quoted]. rewrite N.eqb_refl. reflexivity. }
  destruct (K t H1 H2) as (p & c & E & P & C). destruct (K t' H3 H4) as (p' & c' & E' & P' & C').
  assert (Q : p = p').
  { specialize (P []). specialize (P' []). rewrite P in P'. cbn [quoted] in P'. rewrite !app_nil_r in P'. exact P'. }
  rewrite E, E', Q, C, C'. reflexivity.
Qed.

(** ** The steps before *)
Lemma spaces2_cut c y : space c = false -> forall x run, spaces2 run (x ++ c :: y) = spaces2 run x ++ c :: spaces2 [] y.
Proof.
  intros H. induction x as [|d x IH]; intros run; cbn [app spaces2]; [rewrite H; reflexivity|].
  destruct (space d); [apply IH|]. rewrite IH, <- app_assoc. reflexivity.
Qed.
Lemma spaces2_number n b : (forall c, In c n -> digit c = true) -> spaces2 [] (n ++ b) = n ++ spaces2 [] b.
Proof.
  induction n as [|c n IH]; intros D; [reflexivity|]. cbn [app spaces2]. rewrite (digit_space c (D c (or_introl eq_refl))). cbn [flush app]. f_equal. apply IH. intros d I. apply D. right. exact I.
Qed.
Lemma flush_count c run : space c = false -> (forall x, In x run -> space x = true) -> count c (flush run) = 0.
Proof.
  intros H R. apply count_in. intros I. assert (S : space c = true); [|congruence]. destruct run as [|x [|y run]]; cbn [flush] in I; [destruct I | exact (R c I) | destruct I as [<-|[]]; reflexivity].
Qed.
Lemma spaces2_count c s : space c = false -> forall run, (forall x, In x run -> space x = true) -> count c (spaces2 run s) = count c s.
Proof.
  intros H. induction s as [|d s IH]; intros run R; cbn [spaces2]; [exact (flush_count c run H R)|]. rewrite count_cons. destruct (space d) eqn:E.
  - rewrite IH; [destruct (N.eqb_spec c d); [subst; congruence | reflexivity]|]. intros x I. apply in_app_iff in I as [I|[<-|[]]]; [exact (R x I) | exact E].
  - rewrite count_app, (flush_count c run H R), count_cons, IH by (intros x []). reflexivity.
Qed.
Definition unquoted (s : pystr) : pystr := filter (fun c => negb (N.eqb c 34)) s.
Lemma unquoted_app a b : unquoted (a ++ b) = unquoted a ++ unquoted b.
Proof. apply filter_app. Qed.
Lemma unquoted_same n : ~ In 34%N n -> unquoted n = n.
Proof.
  induction n as [|c n IH]; intros H; [reflexivity|]. unfold unquoted in *. cbn [filter]. rewrite (proj2 (N.eqb_neq c 34)) by (intros ->; apply H; left; reflexivity).
  cbn [negb]. f_equal. apply IH. intros I. apply H. right. exact I.
Qed.
Lemma unquoted_count c s : c <> 34%N -> count c (unquoted s) = count c s.
Proof.
  intros H. induction s as [|d s IH]; [reflexivity|]. unfold unquoted in *. cbn [filter]. rewrite count_cons. destruct (N.eqb_spec d 34) as [->|Hd]; cbn [negb].
  - rewrite (proj2 (N.eqb_neq c 34) H), IH. reflexivity.
  - rewrite count_cons, IH. reflexivity.
Qed.
Lemma all_number a n m b : number n -> number m -> generalize (fun s => s) (a ++ n ++ b) = generalize (fun s => s) (a ++ m ++ b).
Proof.
  intros Hn Hm. unfold generalize. fold unquoted.
  change (hide (spaces2 [] (unquoted (a ++ n ++ b))) = hide (spaces2 [] (unquoted (a ++ m ++ b)))).
  rewrite !unquoted_app, (unquoted_same n (number_not 34 n eq_refl Hn)), (unquoted_same m (number_not 34 m eq_refl Hm)).
  assert (S : forall k, number k -> spaces2 [] (unquoted a ++ k ++ unquoted b) = spaces2 [] (unquoted a) ++ k ++ spaces2 [] (unquoted b)).
  { intros k (Ne & D). destruct k as [|e k]; [destruct (Ne eq_refl)|]. cbn [app]. rewrite spaces2_cut by (apply digit_space, D; left; reflexivity).
    rewrite spaces2_number by (intros c I; apply D; right; exact I). reflexivity. }
  rewrite (S n Hn), (S m Hm). apply hide_number; assumption.
Qed.
Lemma all_text a t t' b : ~ In 92%N a -> Nat.even (count 39 a) = true -> ~ In 92%N t -> ~ In 39%N t -> ~ In 92%N t' -> ~ In 39%N t' ->
  generalize (fun s => s) (a ++ [39%N] ++ t ++ [39%N] ++ b) = generalize (fun s => s) (a ++ [39%N] ++ t' ++ [39%N] ++ b).
Proof.
  intros Ha He H1 H2 H3 H4.
  assert (Kn : forall c s, c <> 34%N -> space c = false -> count c (spaces2 [] (unquoted s)) = count c s).
  { intros c s X Y. rewrite spaces2_count by (try exact Y; intros x []). exact (unquoted_count c s X). }
  assert (S : forall k, spaces2 [] (unquoted (a ++ [39%N] ++ k ++ [39%N] ++ b)) = spaces2 [] (unquoted a) ++ [39%N] ++ spaces2 [] (unquoted k) ++ [39%N] ++ spaces2 [] (unquoted b)).
  { intros k. rewrite !unquoted_app. change (unquoted [39%N]) with [39%N]. cbn [app]. rewrite !spaces2_cut by reflexivity. reflexivity. }
  assert (Ni : forall c s, c <> 34%N -> space c = false -> ~ In c s -> ~ In c (spaces2 [] (unquoted s))).
  { intros c s X Y Z. apply count_in. rewrite Kn by assumption. apply count_in. exact Z. }
  change (hide (spaces2 [] (unquoted (a ++ [39%N] ++ t ++ [39%N] ++ b))) = hide (spaces2 [] (unquoted (a ++ [39%N] ++ t' ++ [39%N] ++ b)))). rewrite !S.
  apply hide_text; try (apply Ni; [discriminate | reflexivity | assumption]). rewrite Kn by (discriminate || reflexivity). exact He.
Qed.
