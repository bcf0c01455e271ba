(** C113: white space that counts is taken as far as the bounds let it; most of the spaces of its table cannot be named. *)
From Coq Require Import String Ascii List Arith NArith Bool Lia.
From Verif Require Import Base BaseProof RangeModel RangeProof WhiteTokenModel.
Import ListNotations.

(** What the bounds mean: exact goes before the others, and 0 is no maximum. *)
Inductive bounds : nat -> nat -> nat -> nat -> option nat -> Prop :=
| bounds_exact min max n : 0 < n -> bounds min max n n (Some n)
| bounds_max min n : 0 < n -> bounds min n 0 min (Some n)
| bounds_none min : bounds min 0 0 min None.
(** w, before post, is the longest text of characters of ws that the bounds allow. *)
Definition longest (ws : pystr) (lo : nat) (hi : option nat) (w post : pystr) : Prop :=
  w <> [] /\ (forall c, In c w -> In c ws) /\ lo <= length w /\ (forall m, hi = Some m -> length w <= m) /\
  (post = [] \/ (exists c r, post = c :: r /\ ~ In c ws) \/ hi = Some (length w)).

Lemma init_ok ws min max exact cfg lo hi : white_init ws min max exact = Some cfg -> bounds min max exact lo hi -> min_len cfg = lo /\ max_len cfg = hi /\ forall c, white cfg c = true <-> In c ws.
Proof.
  unfold white_init. cbv zeta. destruct (forallb named (sorted_set ws)); [|discriminate]. intros E B.
  assert (W : forall c, existsb (N.eqb c) (sorted_set ws) = true <-> In c ws).
  { intros c. rewrite existsb_exists. split; [intros (x & I & J); apply N.eqb_eq in J; subst x; apply set_in; exact I | intros I; exists c; split; [apply set_in; exact I | apply N.eqb_refl]]. }
  destruct B as [m x n L|m n L|m].
  - destruct (Nat.ltb_spec 0 n); [|lia]. injection E as <-. split; [reflexivity|]. split; [reflexivity | exact W].
  - destruct (Nat.ltb_spec 0 n); [|lia]. injection E as <-. split; [reflexivity|]. split; [reflexivity | exact W].
  - injection E as <-. split; [reflexivity|]. split; [reflexivity | exact W].
Qed.
Lemma bounds_pos min max exact lo hi m : bounds min max exact lo hi -> hi = Some m -> 0 < m.
Proof. intros B E. destruct B; inversion E; subst; assumption. Qed.
Lemma loop_run cfg maxloc w : forall e post, (forall c, In c w -> white cfg c = true) -> e + length w <= maxloc ->
  (post = [] \/ (exists c r, post = c :: r /\ white cfg c = false) \/ e + length w = maxloc) -> white_loop cfg maxloc e (w ++ post) = e + length w.
Proof.
  induction w as [|c w IH]; intros e post F L S; cbn [length app] in *.
  - rewrite Nat.add_0_r in *. destruct post as [|c r]; [reflexivity|]. cbn [white_loop]. destruct S as [S|[(d & q & [= <- <-] & S)|S]]; [discriminate S | rewrite S, andb_false_r; reflexivity | subst; rewrite Nat.ltb_irrefl; reflexivity].
  - cbn [white_loop]. rewrite (F c (or_introl eq_refl)). destruct (Nat.ltb_spec e maxloc); [|lia]. cbn [andb]. rewrite IH; [lia | intros x I; apply F; right; exact I | lia |].
    destruct S as [S|[S|S]]; [left; exact S | right; left; exact S | right; right; lia].
Qed.
Lemma split_run (f : N -> bool) t : forall k : option nat, exists w post, t = w ++ post /\ (forall c, In c w -> f c = true) /\ (forall m, k = Some m -> length w <= m) /\
  (post = [] \/ (exists c r, post = c :: r /\ f c = false) \/ k = Some (length w)).
Proof.
  induction t as [|c t IH]; intros k.
  - exists [], []. split; [reflexivity|]. split; [intros c []|]. split; [intros; apply Nat.le_0_l | left; reflexivity].
  - assert (Z : k = Some 0 \/ k <> Some 0) by (destruct k as [[|k]|]; [left; reflexivity | right; discriminate | right; discriminate]). destruct Z as [->|Z].
    + exists [], (c :: t). split; [reflexivity|]. split; [intros x []|]. split; [intros; apply Nat.le_0_l | right; right; reflexivity].
    + destruct (f c) eqn:E.
      * destruct (IH (option_map pred k)) as (w & post & -> & F & L & S). exists (c :: w), post. split; [reflexivity|]. split; [intros x [<-|I]; [exact E | exact (F x I)]|]. split.
        -- intros m ->. specialize (L (pred m) eq_refl). cbn [length]. destruct m; [congruence|]. cbn [pred] in L. lia.
        -- destruct S as [S|[S|S]]; [left; exact S | right; left; exact S |]. right; right. destruct k as [[|k]|]; [congruence | | discriminate S]. injection S as ->. reflexivity.
      * exists [], (c :: t). split; [reflexivity|]. split; [intros x []|]. split; [intros; apply Nat.le_0_l | right; left; exists c, t; split; [reflexivity | exact E]].
Qed.
Lemma parse_run cfg pre c w post : white cfg c = true -> (forall x, In x w -> white cfg x = true) -> (forall m, max_len cfg = Some m -> S (length w) <= m) ->
  (post = [] \/ (exists c r, post = c :: r /\ white cfg c = false) \/ max_len cfg = Some (S (length w))) ->
  white_parse cfg (pre ++ (c :: w) ++ post) (length pre) = if Nat.ltb (S (length w)) (min_len cfg) then Fails (length pre + S (length w)) else Taken (length pre + S (length w)) (c :: w).
Proof.
  intros C F L S. unfold white_parse. rewrite nth_error_app2, Nat.sub_diag by lia. cbn [app nth_error]. rewrite C. cbv zeta.
  assert (K : skipn (length pre + 1) (pre ++ c :: w ++ post) = w ++ post).
  { rewrite skipn_app, skipn_all2 by lia. replace (length pre + 1 - length pre) with 1 by lia. reflexivity. }
  set (maxloc := match max_len cfg with Some m => _ | None => _ end).
  assert (R : white_loop cfg maxloc (length pre + 1) (skipn (length pre + 1) (pre ++ c :: w ++ post)) = length pre + Datatypes.S (length w)).
  { rewrite K, loop_run; [lia | exact F | |]; unfold maxloc.
    - destruct (max_len cfg) as [m|] eqn:M; rewrite app_length; cbn [length]; rewrite app_length; [specialize (L m eq_refl)|]; lia.
    - destruct S as [S|[S|S]]; [left; exact S | right; left; exact S |]. right; right. rewrite S, app_length. cbn [length]. rewrite app_length. lia. }
  rewrite R. replace (length pre + Datatypes.S (length w) - length pre) with (Datatypes.S (length w)) by lia.
  rewrite skipn_app, skipn_all, Nat.sub_diag. cbn [app skipn firstn]. rewrite firstn_app, firstn_all, Nat.sub_diag. cbn [firstn]. rewrite app_nil_r. reflexivity.
Qed.

(** Before the end of the text: taken is the longest text that the bounds allow, and there is a parse error exactly if there is none. *)
Theorem C113_longest : forall ws min max exact cfg lo hi pre rest, white_init ws min max exact = Some cfg -> bounds min max exact lo hi -> rest <> [] ->
  (forall e w, white_parse cfg (pre ++ rest) (length pre) = Taken e w <-> exists post, rest = w ++ post /\ e = length pre + length w /\ longest ws lo hi w post) /\
  ((exists loc, white_parse cfg (pre ++ rest) (length pre) = Fails loc) <-> ~ exists w post, rest = w ++ post /\ longest ws lo hi w post).
Proof.
  intros ws min max exact cfg lo hi pre rest E B Ne. destruct (init_ok _ _ _ _ _ _ _ E B) as (Lo & Hi & W).
  assert (NW : forall c, white cfg c = false <-> ~ In c ws) by (intros c; rewrite <- W; destruct (white cfg c); intuition congruence).
  assert (A : forall w post, longest ws lo hi w post -> white_parse cfg (pre ++ w ++ post) (length pre) = Taken (length pre + length w) w).
  { intros w post (N1 & F & L & H & S). destruct w as [|c w]; [destruct (N1 eq_refl)|]. rewrite parse_run.
    - rewrite Lo. cbn [length] in *. destruct (Nat.ltb_spec (Datatypes.S (length w)) lo); [lia | reflexivity].
    - apply W, F. left. reflexivity.
    - intros x I. apply W, F. right. exact I.
    - intros m M. rewrite Hi in M. exact (H m M).
    - rewrite Hi. destruct S as [S|[(d & r & S & T)|S]]; [left; exact S | right; left; exists d, r; split; [exact S | apply NW; exact T] | right; right; exact S]. }
  assert (D : (exists loc, white_parse cfg (pre ++ rest) (length pre) = Fails loc) \/ exists w post, rest = w ++ post /\ longest ws lo hi w post).
  { destruct rest as [|c t]; [destruct (Ne eq_refl)|]. destruct (white cfg c) eqn:C.
    - destruct (split_run (white cfg) t (option_map pred hi)) as (w & post & -> & F & L & S).
      assert (L' : forall m, hi = Some m -> Datatypes.S (length w) <= m) by (intros m M; pose proof (bounds_pos _ _ _ _ _ _ B M); rewrite M in L; specialize (L (pred m) eq_refl); lia).
      assert (S' : post = [] \/ (exists c r, post = c :: r /\ white cfg c = false) \/ hi = Some (Datatypes.S (length w))).
      { destruct S as [S|[S|S]]; [left; exact S | right; left; exact S |]. right; right. destruct hi as [m|]; [|discriminate S]. pose proof (bounds_pos _ _ _ _ _ _ B eq_refl). injection S as S. f_equal. lia. }
      destruct (Nat.ltb (Datatypes.S (length w)) lo) eqn:T.
      + left. exists (length pre + Datatypes.S (length w)). change (c :: w ++ post) with ((c :: w) ++ post). rewrite parse_run; [rewrite Lo, T; reflexivity | exact C | exact F | rewrite Hi; exact L' | rewrite Hi; exact S'].
      + right. exists (c :: w), post. split; [reflexivity|]. apply Nat.ltb_ge in T. split; [discriminate|]. split; [intros x [<-|I]; apply W; [exact C | exact (F x I)]|]. split; [exact T|]. split; [exact L'|].
        destruct S' as [S'|[(d & r & S' & X)|S']]; [left; exact S' | right; left; exists d, r; split; [exact S' | apply NW; exact X] | right; right; exact S'].
    - left. exists (length pre). unfold white_parse. rewrite nth_error_app2, Nat.sub_diag by lia. cbn [nth_error]. rewrite C. reflexivity. }
  split; [intros e w; split|split].
  - intros T. destruct D as [(loc & D)|(w' & post & -> & G)]; [rewrite D in T; discriminate T|]. rewrite (A w' post G) in T. injection T as <- <-. exists post. split; [reflexivity|]. split; [reflexivity | exact G].
  - intros (post & -> & -> & G). exact (A w post G).
  - intros (loc & T) (w & post & -> & G). rewrite (A w post G) in T. discriminate T.
  - intros G. destruct D as [D|D]; [exact D | destruct (G D)].
Qed.
Print Assumptions C113_longest.

(** A token can be built exactly from the five characters whose names are of one character in the table. *)
Theorem C113_named : forall ws min max exact, (exists cfg, white_init ws min max exact = Some cfg) <-> forall c, In c ws -> In c (9 :: 10 :: 12 :: 13 :: 32 :: nil)%N.
Proof.
  intros ws min max exact.
  assert (K : forall c, named c = true <-> In c (9 :: 10 :: 12 :: 13 :: 32 :: nil)%N).
  { intros c. unfold named, smem. rewrite existsb_exists. split.
    - intros (k & I & J). destruct k as [|x [|y k]]; cbn [seqb] in J; try (rewrite ?andb_false_r in J; discriminate J). rewrite andb_true_r in J. apply N.eqb_eq in J. subst x.
      unfold white_keys in I. cbn [In] in I. repeat (destruct I as [I|I]; [first [discriminate I | injection I as <-; cbn [In]; tauto]|]). destruct I.
    - intros I. exists [c]. split; [|cbn [seqb]; rewrite N.eqb_refl; reflexivity]. unfold white_keys. cbn [In] in I |- *. destruct I as [<-|[<-|[<-|[<-|[<-|[]]]]]]; tauto. }
  assert (G : forallb named (sorted_set ws) = true <-> forall c, In c ws -> In c (9 :: 10 :: 12 :: 13 :: 32 :: nil)%N).
  { rewrite forallb_forall. split; intros H c I; apply K, H, set_in, I. }
  rewrite <- G. unfold white_init. cbv zeta. destruct (forallb named (sorted_set ws)).
  - split; [reflexivity|]. intros _. destruct (Nat.ltb 0 exact); eexists; reflexivity.
  - split; [intros (cfg & X); discriminate X | discriminate].
Qed.
Print Assumptions C113_named.

(** The spaces beyond ASCII that the table means to name cannot be used. *)
Theorem C113_unicode_refuted : forall ws min max exact c, In c (160 :: 5760 :: 6158 :: 8192 :: 8201 :: 8203 :: 8239 :: 8287 :: 12288 :: nil)%N -> In c ws -> white_init ws min max exact = None.
Proof.
  intros ws min max exact c I J. destruct (white_init ws min max exact) as [cfg|] eqn:E; [|reflexivity].
  assert (X := proj1 (C113_named ws min max exact) (ex_intro _ cfg E) c J). cbn [In] in I, X. lia.
Qed.
Print Assumptions C113_unicode_refuted.

(** At the end of the text there is no parse error but an IndexError, whatever the token: an alternative that begins with it is not tried further. *)
Theorem C113_end_refuted : forall ws min max exact cfg s start, white_init ws min max exact = Some cfg -> (white_parse cfg s start = IndexErr <-> length s <= start).
Proof.
  intros ws min max exact cfg s start _. rewrite <- nth_error_None. unfold white_parse. destruct (nth_error s start) as [c|]; [|split; reflexivity].
  split; [|discriminate]. destruct (white cfg c); [|discriminate]. cbv zeta. destruct (Nat.ltb _ _); discriminate.
Qed.
Print Assumptions C113_end_refuted.

(** ** Examples *)
Example C113_example : exists cfg, white_init [32; 9; 32]%N 2 3 0 = Some cfg /\ white_parse cfg (u "a    b") 1 = Taken 4 (u "   ") /\ white_parse cfg (u "a b") 1 = Fails 2 /\ white_parse cfg (u "a") 1 = IndexErr.
Proof. eexists. split; [reflexivity|]. vm_compute. repeat split. Qed.
Example C113_longest_example : bounds 2 3 0 2 (Some 3) /\ longest [32; 9]%N 2 (Some 3) (u "   ") (u " b").
Proof.
  split; [constructor; lia|]. split; [discriminate|]. split; [intros c I; vm_compute in I; vm_compute; tauto|]. split; [vm_compute; lia|]. split; [intros m [= <-]; vm_compute; lia|].
  right; right; reflexivity.
Qed.
Example C113_unicode_example : white_init [32; 160]%N 1 0 0 = None.
Proof. reflexivity. Qed.
