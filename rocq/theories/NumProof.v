(** Whole numbers in statements. *)
From Coq Require Import String Ascii List Arith NArith ZArith Bool Lia.
From Verif Require Import Base BaseProof OpeModel OpeProof EngineSqlModel NumModel NumSpec.
From Verif Require FmtReadProof DirectLexProof GramModel.
Import ListNotations.
Local Open Scope Z_scope.

(** ** The nearest double *)
Section Near.
Variable n : Z.
Hypothesis big : 2 ^ 53 <= n.
Let e := Z.log2 n - 52.
Lemma e_pos : 1 <= e.
Proof. unfold e. assert (53 <= Z.log2 n) by (apply Z.log2_le_pow2; lia). lia. Qed.
Lemma half_power : 2 ^ e = 2 * 2 ^ (e - 1).
Proof. pose proof e_pos. replace e with (Z.succ (e - 1)) at 1 by lia. apply Z.pow_succ_r. lia. Qed.
Lemma n_range : 2 ^ 52 * 2 ^ e <= n < 2 ^ 53 * 2 ^ e.
Proof.
  pose proof e_pos. rewrite <- !Z.pow_add_r by lia. replace (52 + e) with (Z.log2 n) by (unfold e; lia). replace (53 + e) with (Z.succ (Z.log2 n)) by (unfold e; lia).
  apply Z.log2_spec. lia.
Qed.
Definition near_q : Z := let q := n / 2 ^ e in let r := n mod 2 ^ e in let h := 2 ^ (e - 1) in
  if r <? h then q else if h <? r then q + 1 else if Z.even q then q else q + 1.
Lemma f64_big : f64_int n = near_q * 2 ^ e.
Proof. unfold f64_int. rewrite (proj2 (Z.ltb_ge _ _)) by exact big. reflexivity. Qed.
Lemma near_cases : near_q = n / 2 ^ e /\ n mod 2 ^ e <= 2 ^ (e - 1) \/ near_q = n / 2 ^ e + 1 /\ 2 ^ (e - 1) <= n mod 2 ^ e.
Proof.
  unfold near_q. cbv zeta. destruct (Z.ltb_spec (n mod 2 ^ e) (2 ^ (e - 1))); [left; split; [reflexivity | lia]|].
  destruct (Z.ltb_spec (2 ^ (e - 1)) (n mod 2 ^ e)); [right; split; [reflexivity | lia]|].
  destruct (Z.even (n / 2 ^ e)); [left | right]; split; (reflexivity || lia).
Qed.
Lemma q_range : 2 ^ 52 <= n / 2 ^ e < 2 ^ 53.
Proof.
  pose proof n_range. pose proof e_pos. assert (0 < 2 ^ e) by (apply Z.pow_pos_nonneg; lia). split.
  - apply Z.div_le_lower_bound; lia.
  - apply Z.div_lt_upper_bound; lia.
Qed.
Lemma big_error : Z.abs (f64_int n - n) * 2 ^ 53 <= n.
Proof.
  pose proof n_range. pose proof e_pos. assert (P : 0 < 2 ^ e) by (apply Z.pow_pos_nonneg; lia). rewrite f64_big.
  pose proof (Z.div_mod n (2 ^ e) ltac:(lia)) as D. pose proof (Z.mod_pos_bound n (2 ^ e) P) as M. pose proof half_power as HP.
  assert (A : Z.abs (near_q * 2 ^ e - n) <= 2 ^ (e - 1)).
  { destruct near_cases as [(-> & R)|(-> & R)]; [|rewrite Z.mul_add_distr_r]; lia. }
  assert (C : 2 ^ (e - 1) * 2 ^ 53 = 2 ^ 52 * 2 ^ e) by (rewrite HP; ring). nia.
Qed.
Lemma near_range : 2 ^ (Z.log2 n) <= f64_int n <= 2 ^ (Z.succ (Z.log2 n)).
Proof.
  pose proof q_range. pose proof e_pos. assert (P : 0 < 2 ^ e) by (apply Z.pow_pos_nonneg; lia). rewrite f64_big.
  replace (Z.log2 n) with (52 + e) by (unfold e; lia). replace (Z.succ (52 + e)) with (53 + e) by lia. rewrite !Z.pow_add_r by lia.
  destruct near_cases as [(-> & _)|(-> & _)]; nia.
Qed.
End Near.
Lemma near_le n m : 2 ^ 53 <= n -> n <= m -> f64_int n <= f64_int m.
Proof.
  intros B L. assert (B' : 2 ^ 53 <= m) by lia. pose proof (Z.log2_le_mono n m L) as G. destruct (Z.eq_dec (Z.log2 n) (Z.log2 m)) as [E|E].
  - rewrite (f64_big n B), (f64_big m B'). unfold near_q. rewrite <- E. set (e := Z.log2 n - 52).
    pose proof (e_pos n B) as Pe. assert (P : 0 < 2 ^ e) by (apply Z.pow_pos_nonneg; lia).
    apply Z.mul_le_mono_nonneg_r; [lia|]. cbv zeta. pose proof (Z.div_le_mono n m (2 ^ e) P L) as D.
    pose proof (Z.div_mod n (2 ^ e) ltac:(lia)) as Dn. pose proof (Z.div_mod m (2 ^ e) ltac:(lia)) as Dm.
    destruct (Z.eq_dec (n / 2 ^ e) (m / 2 ^ e)) as [Q|Q].
    + rewrite <- Q in *. assert (R : n mod 2 ^ e <= m mod 2 ^ e) by lia. set (h := 2 ^ (e - 1)).
      destruct (Z.ltb_spec (n mod 2 ^ e) h), (Z.ltb_spec (m mod 2 ^ e) h), (Z.ltb_spec h (n mod 2 ^ e)), (Z.ltb_spec h (m mod 2 ^ e)), (Z.even (n / 2 ^ e)); lia.
    + set (h := 2 ^ (e - 1)). destruct (n mod 2 ^ e <? h), (m mod 2 ^ e <? h), (h <? n mod 2 ^ e), (h <? m mod 2 ^ e), (Z.even (n / 2 ^ e)), (Z.even (m / 2 ^ e)); lia.
  - pose proof (near_range n B) as Rn. pose proof (near_range m B') as Rm. assert (2 ^ Z.succ (Z.log2 n) <= 2 ^ Z.log2 m) by (apply Z.pow_le_mono_r; lia). lia.
Qed.
Lemma f64_mono n m : n <= m -> f64_int n <= f64_int m.
Proof.
  intros L. destruct (Z_lt_le_dec n (2 ^ 53)) as [S|B]; [|apply near_le; assumption]. rewrite (f64_small n S).
  destruct (Z_lt_le_dec m (2 ^ 53)) as [S'|B']; [rewrite (f64_small m S'); exact L|].
  pose proof (near_le (2 ^ 53) m ltac:(lia) B') as K. replace (f64_int (2 ^ 53)) with (2 ^ 53) in K by (vm_compute; reflexivity). lia.
Qed.
Lemma f64_error n : 0 <= n -> Z.abs (f64_int n - n) * 2 ^ 53 <= n.
Proof. intros H. destruct (Z_lt_le_dec n (2 ^ 53)) as [S|B]; [rewrite (f64_small n S); lia | apply big_error; exact B]. Qed.
Lemma f64_infinite n : 2 ^ 1024 <= f64_int n <-> 2 ^ 1024 - 2 ^ 970 <= n.
Proof.
  split; intros H.
  - destruct (Z_lt_le_dec n (2 ^ 1024 - 2 ^ 970)) as [L|L]; [|exact L]. exfalso.
    assert (K : f64_int n <= f64_int (2 ^ 1024 - 2 ^ 970 - 1)) by (apply f64_mono; lia).
    assert (X : f64_int (2 ^ 1024 - 2 ^ 970 - 1) < 2 ^ 1024) by (vm_compute; reflexivity). lia.
  - assert (K : f64_int (2 ^ 1024 - 2 ^ 970) <= f64_int n) by (apply f64_mono; exact H).
    replace (f64_int (2 ^ 1024 - 2 ^ 970)) with (2 ^ 1024) in K by (vm_compute; reflexivity). exact K.
Qed.

(** ** Texts *)
Lemma horner_from l : forall a, fold_left (fun a c => 10 * a + Z.of_N (c - 48)) l a = a * 10 ^ Z.of_nat (length l) + value l.
Proof.
  induction l as [|c l IH]; intros a; cbn [fold_left value length]; [cbn; lia|]. rewrite IH, Nat2Z.inj_succ, Z.pow_succ_r by lia. ring.
Qed.
Lemma horner_value l : horner l = value l.
Proof. unfold horner. rewrite horner_from. lia. Qed.
Lemma value_pos l : 0 <= value l.
Proof. induction l as [|c l IH]; cbn [value]; [lia|]. assert (0 <= 10 ^ Z.of_nat (length l)) by (apply Z.pow_nonneg; lia). nia. Qed.
Lemma digits_ok l : numeral l -> digits l = Ok (value l).
Proof.
  intros (N & F). unfold digits. destruct l as [|c l]; [destruct (N eq_refl)|].
  rewrite (proj2 (forallb_forall _ _)) by (apply Forall_forall; exact F). rewrite horner_value. reflexivity.
Qed.
Lemma digit_is c : digit c = true -> (48 <= c <= 57)%N.
Proof. unfold digit. rewrite andb_true_iff, !N.leb_le. auto. Qed.
Lemma signed_ok (F : pystr -> res Z) g f l v : sign_of g f -> (exists c r, l = c :: r /\ digit c = true) -> F l = Ok v -> signed F (g ++ l) = Ok (f v).
Proof.
  intros G (c & r & -> & D) E. apply digit_is in D. destruct G; cbn [app signed].
  - rewrite (proj2 (N.eqb_neq c 45)), (proj2 (N.eqb_neq c 43)) by lia. exact E.
  - cbn. exact E.
  - cbn. unfold bind. rewrite E. reflexivity.
Qed.
Lemma signed_err (F : pystr -> res Z) g f l x : sign_of g f -> (exists c r, l = c :: r /\ digit c = true) -> F l = Err x -> signed F (g ++ l) = Err x.
Proof.
  intros G (c & r & -> & D) E. apply digit_is in D. destruct G; cbn [app signed].
  - rewrite (proj2 (N.eqb_neq c 45)), (proj2 (N.eqb_neq c 43)) by lia. exact E.
  - cbn. exact E.
  - cbn. unfold bind. rewrite E. reflexivity.
Qed.
Lemma numeral_head l t : numeral l -> exists c r, l ++ t = c :: r /\ digit c = true.
Proof. intros (N & F). destruct F as [|c l D F]; [destruct (N eq_refl)|]. exists c, (l ++ t). split; [reflexivity | exact D]. Qed.
Lemma no_e l : Forall (fun c => digit c = true) l -> existsb (fun c => existsb (N.eqb c) (u "eE")) l = false.
Proof.
  intros F. induction F as [|c l D F IH]; [reflexivity|]. cbn [existsb]. rewrite IH, orb_false_r. apply digit_is in D. cbn.
  rewrite (proj2 (N.eqb_neq c 101)), (proj2 (N.eqb_neq c 69)) by lia. reflexivity.
Qed.
Lemma sign_e g f l : sign_of g f -> existsb (fun c => existsb (N.eqb c) (u "eE")) (g ++ l) = existsb (fun c => existsb (N.eqb c) (u "eE")) l.
Proof. intros G. destruct G; reflexivity. Qed.
Lemma plain_ok t v : plain t v -> parse_int t = Ok v.
Proof.
  intros [g f ds G D]. unfold parse_int. rewrite (sign_e g f ds G), no_e by apply D. apply signed_ok; [exact G | | apply digits_ok; exact D].
  destruct (numeral_head ds [] D) as (c & r & E & Dc). rewrite app_nil_r in E. eauto.
Qed.
Lemma span_numeral ds c t : Forall (fun x => digit x = true) ds -> digit c = false -> span digit (ds ++ c :: t) = length ds.
Proof. intros F H. induction F as [|x ds X F IH]; cbn [app span length]; [rewrite H; reflexivity | rewrite X, IH; reflexivity]. Qed.
Lemma scaled_eq ds e p ks : numeral ds -> e = 101%N \/ e = 69%N -> p = [] \/ p = [43%N] -> numeral ks ->
  scaled (ds ++ e :: p ++ ks) = if 2 ^ 1024 <=? f64_int (value ds * 10 ^ value ks) then Err Generic else Ok (f64_int (value ds * 10 ^ value ks)).
Proof.
  intros D E P K. assert (De : digit e = false) by (destruct E; subst e; reflexivity).
  assert (S : span digit (ds ++ e :: p ++ ks) = length ds) by (apply span_numeral; [apply D | exact De]).
  unfold scaled. rewrite S. rewrite firstn_app, Nat.sub_diag, firstn_all, skipn_app, Nat.sub_diag, skipn_all. cbn [firstn skipn app].
  rewrite app_nil_r, (digits_ok ds D). unfold bind at 1.
  assert (Q : match p ++ ks with c :: r' => if N.eqb c 43 then r' else p ++ ks | [] => p ++ ks end = ks).
  { destruct P as [->| ->]; cbn [app]; [|reflexivity]. destruct K as (N & F). destruct F as [|c l Dc F]; [reflexivity|]. apply digit_is in Dc.
    rewrite (proj2 (N.eqb_neq c 43)) by lia. reflexivity. }
  match goal with |- context [digits ?x] => replace x with ks by (symmetry; exact Q) end. rewrite (digits_ok ks K). reflexivity.
Qed.
Lemma powered_ok t f v : powered t f v -> parse_int t = if 2 ^ 1024 - 2 ^ 970 <=? v then Err Generic else Ok (f (f64_int v)).
Proof.
  intros [g f' ds e p ks G D E P K]. unfold parse_int. rewrite (sign_e g f' _ G).
  assert (X : existsb (fun c => existsb (N.eqb c) (u "eE")) (ds ++ e :: p ++ ks) = true).
  { rewrite existsb_app. cbn [existsb]. destruct E as [->| ->]; cbn [u]; rewrite orb_true_iff; right; reflexivity. }
  rewrite X. pose proof (scaled_eq ds e p ks D E P K) as S. pose proof (numeral_head ds (e :: p ++ ks) D) as Hd.
  destruct (Z.leb_spec (2 ^ 1024 - 2 ^ 970) (value ds * 10 ^ value ks)) as [L|L].
  - rewrite (proj2 (Z.leb_le _ _)) in S by (apply f64_infinite; exact L). exact (signed_err scaled g f' _ _ G Hd S).
  - rewrite (proj2 (Z.leb_gt _ _)) in S by (apply Z.nle_gt; intros H; apply f64_infinite in H; lia). exact (signed_ok scaled g f' _ _ G Hd S).
Qed.

(** ** What int_num takes *)
Lemma span_all p l : Forall (fun c => p c = true) (firstn (span p l) l).
Proof. induction l as [|c l IH]; cbn [span]; [constructor|]. destruct (p c) eqn:P; cbn [firstn]; constructor; assumption. Qed.
Lemma span_numeral_at l n : span digit l = n -> (n =? 0)%nat = false -> numeral (firstn n l).
Proof.
  intros <- Z. split; [|apply span_all]. destruct l as [|c l]; [discriminate Z|]. cbn [span] in *. destruct (digit c); [discriminate | discriminate Z].
Qed.
Lemma firstn_plus {A} n m (l : list A) : firstn (n + m) l = firstn n l ++ firstn m (skipn n l).
Proof. revert l. induction n as [|n IH]; intros [|x l]; cbn; try (rewrite firstn_nil); try reflexivity. rewrite IH. reflexivity. Qed.
Lemma skipn_plus {A} n m (l : list A) : skipn (n + m) l = skipn m (skipn n l).
Proof. revert l. induction n as [|n IH]; intros [|x l]; cbn; try (rewrite skipn_nil); try reflexivity. apply IH. Qed.
Lemma sign_taken l : exists f, sign_of (firstn (sign (u "+-") l) l) f.
Proof.
  destruct l as [|c l]; cbn [sign]; [eexists; constructor|]. destruct (existsb (N.eqb c) (u "+-")) eqn:E; [|eexists; constructor].
  cbn [firstn]. cbn in E. destruct (N.eqb_spec c 43) as [->|]; [eexists; constructor|]. destruct (N.eqb_spec c 45) as [->|]; [eexists; constructor | discriminate].
Qed.
Lemma taken l n : m_int l = Some n -> (exists v, plain (firstn n l) v) \/ exists f v, powered (firstn n l) f v.
Proof.
  unfold m_int. cbv zeta. set (g := sign (u "+-") l). set (d := span digit (skipn g l)). destruct (d =? 0)%nat eqn:Z; [discriminate|]. intros H.
  assert (n = (g + d + exponent (u "+") (skipn (g + d) l))%nat) as -> by congruence. clear H.
  pose proof (span_numeral_at (skipn g l) d eq_refl Z) as D. destruct (sign_taken l) as (f & G). fold g in G. rewrite !firstn_plus, skipn_plus.
  set (r := skipn d (skipn g l)). assert (P : exponent (u "+") r = 0%nat -> (exists v, plain ((firstn g l ++ firstn d (skipn g l)) ++ firstn (exponent (u "+") r) r) v)).
  { intros ->. cbn [firstn]. rewrite app_nil_r. eexists. constructor; [exact G | exact D]. }
  assert (X43 : forall x, existsb (N.eqb x) (u "+") = true -> x = 43%N).
  { intros x X. cbn in X. destruct (N.eqb_spec x 43); [assumption | discriminate]. }
  generalize dependent (u "+"). intros pl P X43. destruct r as [|c r]; [left; apply P; reflexivity|]. cbn [exponent] in *. destruct (existsb (N.eqb c) (u "eE")) eqn:E; [|left; apply P; reflexivity].
  destruct (span digit (skipn (sign pl r) r) =? 0)%nat eqn:Z'; [left; apply P; reflexivity|]. right.
  pose proof (span_numeral_at (skipn (sign pl r) r) _ eq_refl Z') as K. cbn [firstn]. rewrite firstn_plus, <- app_assoc. eexists _, _. constructor; [exact G | exact D | | | exact K].
  - cbn in E. destruct (N.eqb_spec c 101); [left; assumption|]. destruct (N.eqb_spec c 69); [right; assumption | discriminate].
  - destruct r as [|x r]; [left; reflexivity|]. cbn [sign]. destruct (existsb (N.eqb x) pl) eqn:X; [right | left; reflexivity].
    rewrite (X43 x X). reflexivity.
Qed.

(** ** What is written *)
Lemma uint_plain d : d <> Decimal.Nil -> numeral (uint_chars d) /\ value (uint_chars d) = Z.of_uint d.
Proof.
  intros N. assert (F : forallb digit (uint_chars d) = true) by (apply FmtReadProof.uint_digits). split.
  - split; [intros E; apply uint_chars_nil in E; contradiction | apply Forall_forall, forallb_forall; exact F].
  - destruct (DirectLexProof.uint_value (uint_chars d) F) as (d' & P & Q). rewrite parse_uint_chars in P. injection P as <-. rewrite Q, <- horner_value. reflexivity.
Qed.
Lemma str_plain z : plain (str_int z) z.
Proof.
  unfold str_int. pose proof (to_int_not_nil z) as H. pose proof (DecimalZ.of_to z) as E. destruct (Z.to_int z) as [d|d]; destruct (uint_plain d H) as (A & B).
  - cbn [Z.of_int] in E. rewrite <- E, <- B. exact (a_plain [] (fun v => v) _ no_sign A).
  - cbn [Z.of_int] in E. rewrite <- E, <- B. exact (a_plain [45%N] Z.opp _ minus_sign A).
Qed.

(** ** By computation *)
Lemma numeral_by l : negb (length l =? 0)%nat && forallb digit l = true -> numeral l.
Proof. intros H. apply andb_true_iff in H. destruct H as (A & B). split; [intros ->; discriminate | apply Forall_forall, forallb_forall; exact B]. Qed.
Lemma plain_by g f ds t v : sign_of g f -> negb (length ds =? 0)%nat && forallb digit ds = true -> t = g ++ ds -> v = f (value ds) -> plain t v.
Proof. intros G D -> ->. constructor; [exact G | apply numeral_by; exact D]. Qed.
Lemma powered_by g f ds e p ks t v : sign_of g f -> negb (length ds =? 0)%nat && forallb digit ds = true -> e = 101%N \/ e = 69%N -> p = [] \/ p = [43%N] ->
  negb (length ks =? 0)%nat && forallb digit ks = true -> t = g ++ ds ++ e :: p ++ ks -> v = value ds * 10 ^ value ks -> powered t f v.
Proof. intros G D E P K -> ->. constructor; try assumption; apply numeral_by; assumption. Qed.
