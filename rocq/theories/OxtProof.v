(** * Proofs about the encrypted keyword search *)
From Coq Require Import String Ascii List NArith ZArith Bool Lia Znumtheory.
From Coq Require Import ZifyBool ZifyNat ZifyN.
From Coq Require Import Init.Byte.
From Verif Require Import Base BaseProof CryptoModel CryptoSpec CryptoProof PaillierModel NumTheory OxtModel OxtSpec.
Import ListNotations.
Open Scope Z_scope.

(** ** Words of a text *)

Lemma is_sep_spec : forall c, is_sep c = true <-> separator c.
Proof. intros c. unfold is_sep, separator. rewrite !orb_true_iff, !N.eqb_eq. tauto. Qed.
Lemma is_sep_false : forall c, is_sep c = false <-> ~ separator c.
Proof. intros c. rewrite <- is_sep_spec. destruct (is_sep c); intuition congruence. Qed.

Lemma last_app_cons : forall (A : Type) (a : list A) c l d, last (a ++ c :: l) d = last (c :: l) d.
Proof.
  induction a as [| x a IH]; intros c l d; [reflexivity |]. change ((x :: a) ++ c :: l) with (x :: (a ++ c :: l)).
  rewrite <- (IH c l d). destruct (a ++ c :: l) eqn:E; [destruct a; discriminate | reflexivity].
Qed.
Lemma last_sep_nil : forall a, Forall (fun c => ~ separator c) a -> (a = [] \/ separator (last a 0%N)) -> a = [].
Proof.
  intros a F [-> | S]; [reflexivity |]. destruct a as [| x a] using rev_ind; [reflexivity |]. exfalso.
  rewrite last_last in S. apply Forall_app in F as [_ F]. inversion F; subst. easy.
Qed.

Lemma word_in_sep : forall x a c r, Forall (fun c => ~ separator c) a -> separator c ->
  (word_in x (a ++ c :: r) <-> (x = a /\ x <> []) \/ word_in x r).
Proof.
  intros x a c r Fa Sc. split.
  - intros (Nx & Fx & pre & post & E & Hp & Hq). apply app_eq_app in E as (l & [(E1 & E2) | (E1 & E2)]).
    + (* a = pre ++ l *)
      subst a. apply Forall_app in Fa as [Fp Fl]. pose proof (last_sep_nil pre Fp Hp). subst pre. cbn [app].
      left. apply app_eq_app in E2 as (l2 & [(E3 & E4) | (E3 & E4)]).
      * destruct l2 as [| y l2].
        -- rewrite app_nil_r in E3. auto.
        -- injection E4 as <- _. subst x. apply Forall_app in Fx as [_ F2]. inversion F2; subst. easy.
      * destruct l2 as [| y l2].
        -- rewrite app_nil_r in E3. auto.
        -- subst post. destruct Hq as [Hq | Hq]; [discriminate |]. cbn in Hq. subst l.
           apply Forall_app in Fl as [_ F2]. inversion F2; subst. easy.
    + (* pre = a ++ l *)
      destruct l as [| y l].
      * cbn in E2. destruct x as [| y x]; [easy |]. injection E2 as <- _. inversion Fx; subst. easy.
      * cbn in E2. injection E2 as <- ->. right. split; [exact Nx |]. split; [exact Fx |]. exists l, post.
        split; [reflexivity |]. split; [| exact Hq]. destruct l as [| z l]; [left; reflexivity | right].
        subst pre. destruct Hp as [Hp | Hp]; [destruct a; discriminate |]. rewrite last_app_cons in Hp. exact Hp.
  - intros [(-> & Nx) | (Nx & Fx & pre & post & -> & Hp & Hq)].
    + split; [exact Nx |]. split; [exact Fa |]. exists [], (c :: r). auto.
    + split; [exact Nx |]. split; [exact Fx |]. exists (a ++ c :: pre), post.
      split; [rewrite <- app_assoc; reflexivity |]. split; [| exact Hq]. right. rewrite last_app_cons.
      destruct pre as [| y pre]; [exact Sc |]. destruct Hp as [Hp | Hp]; [discriminate | exact Hp].
Qed.
Lemma word_in_whole : forall x a, Forall (fun c => ~ separator c) a -> (word_in x a <-> x = a /\ x <> []).
Proof.
  intros x a Fa. split.
  - intros (Nx & Fx & pre & post & E & Hp & Hq). subst a. apply Forall_app in Fa as [Fp Fa]. apply Forall_app in Fa as [_ Fq].
    rewrite (last_sep_nil pre Fp Hp). destruct post as [| y post].
    + cbn. rewrite app_nil_r. auto.
    + destruct Hq as [Hq | Hq]; [discriminate |]. inversion Fq; subst. easy.
  - intros (-> & Nx). split; [exact Nx |]. split; [exact Fa |]. exists [], []. rewrite app_nil_r. auto.
Qed.

Lemma split_seps_nonempty : forall s run cur, split_seps run cur s <> [].
Proof.
  induction s as [| c r IH]; intros run cur; cbn; [discriminate |]. destruct (is_sep c); [destruct run; [apply IH | discriminate] | apply IH].
Qed.
Lemma removelast_cons : forall (A : Type) (x : A) l, l <> [] -> removelast (x :: l) = x :: removelast l.
Proof. intros A x [| y l] H; [easy | reflexivity]. Qed.

Lemma words_split : forall x, x <> [] -> forall s run cur, Forall (fun c => ~ separator c) cur -> (run = true -> cur = []) ->
  (In x (removelast (split_seps run cur (s ++ [32%N]))) <-> word_in x (rev cur ++ s)).
Proof.
  intros x Nx. induction s as [| c r IH]; intros run cur Fc Rc.
  - rewrite app_nil_r. rewrite word_in_whole by (apply Forall_rev, Fc). destruct run.
    + rewrite (Rc eq_refl). cbn. split; [easy |]. intros (-> & _). easy.
    + cbn. split; [intros [<- | []]; auto | intros (-> & _); auto].
  - cbn [app split_seps]. destruct (is_sep c) eqn:S.
    + apply is_sep_spec in S. rewrite word_in_sep by (auto using Forall_rev). destruct run.
      * rewrite IH by auto. rewrite (Rc eq_refl). cbn [rev app]. intuition congruence.
      * rewrite removelast_cons by apply split_seps_nonempty. cbn [In]. rewrite IH by auto. cbn [rev app].
        intuition congruence.
    + rewrite IH by (try constructor; try apply is_sep_false; easy). cbn [rev]. rewrite <- app_assoc. reflexivity.
Qed.
Lemma text_words_spec : forall x t, x <> [] -> (In x (text_words t) <-> word_in x t).
Proof. intros x t Nx. apply (words_split x Nx t false []); [constructor | discriminate]. Qed.

(** The empty word occurs exactly in a text that is empty or starts with a separator. *)
Lemma words_true : forall s, ~ In [] (removelast (split_seps true [] (s ++ [32%N]))) /\
  forall cur, cur <> [] -> ~ In [] (removelast (split_seps false cur (s ++ [32%N]))).
Proof.
  induction s as [| c r [IH1 IH2]]; (split; [| intros cur Nc]).
  - cbn. easy.
  - cbn. intros [H | []]. apply Nc. destruct cur; [reflexivity |]. cbn in H. apply app_eq_nil in H as [_ H]. discriminate.
  - cbn [app split_seps]. destruct (is_sep c); [apply IH1 | apply IH2; discriminate].
  - cbn [app split_seps]. destruct (is_sep c); [| apply IH2; discriminate].
    rewrite removelast_cons by apply split_seps_nonempty. intros [H | H]; [| exact (IH1 H)].
    apply Nc. destruct cur; [reflexivity |]. cbn in H. apply app_eq_nil in H as [_ H]. discriminate.
Qed.
Lemma text_words_empty : forall t, In [] (text_words t) <-> (t = [] \/ separator (hd 0%N t)).
Proof.
  intros [| c r]; unfold text_words; [cbn; intuition |]. cbn [app split_seps hd]. destruct (is_sep c) eqn:S.
  - rewrite removelast_cons by apply split_seps_nonempty. apply is_sep_spec in S. cbn. intuition.
  - apply is_sep_false in S. split; [intros H; exfalso; eapply (proj2 (words_true r)); [| exact H]; discriminate | intros [H | H]; easy].
Qed.

(** ** Keyword numbers *)

Definition num (b : list byte) : Z := fold_left (fun a x => a * 256 + Z.of_N (bN x)) b 0.
Lemma bN_bound : forall b, (bN b < 256)%N.
Proof. intros b. unfold bN. destruct b; reflexivity. Qed.
Lemma fold_num : forall b a, fold_left (fun a x => a * 256 + Z.of_N (bN x)) b a = a * 256 ^ Z.of_nat (length b) + num b.
Proof.
  unfold num. induction b as [| x b IH]; intros a; [cbn; lia |]. cbn [fold_left length].
  rewrite IH, (IH (0 * 256 + _)). rewrite Nat2Z.inj_succ, Z.pow_succ_r by lia. ring.
Qed.
Lemma num_snoc : forall b x, num (b ++ [x]) = num b * 256 + Z.of_N (bN x).
Proof. intros b x. unfold num. rewrite fold_left_app. reflexivity. Qed.
Lemma num_nonneg : forall b, 0 <= num b.
Proof. induction b as [| x b IH] using rev_ind; [cbn; lia |]. rewrite num_snoc. lia. Qed.

Fixpoint drop_zeros (b : list byte) : list byte := match b with x00 :: r => drop_zeros r | _ => b end.
Lemma drop_zeros_snoc : forall b x, drop_zeros (b ++ [x]) = match drop_zeros b with [] => drop_zeros [x] | l => l ++ [x] end.
Proof.
  induction b as [| y b IH]; intros x; [reflexivity |]. cbn [app drop_zeros].
  destruct y; try reflexivity. apply IH.
Qed.
Lemma bN_inj : forall a b, bN a = bN b -> a = b.
Proof. intros a b H. unfold bN in H. pose proof (Byte.of_to_N a) as A. pose proof (Byte.of_to_N b) as B. congruence. Qed.
Lemma num_zero : forall b, num b = 0 -> drop_zeros b = [].
Proof.
  induction b as [| x b IH] using rev_ind; intros H; [reflexivity |]. rewrite num_snoc in H.
  pose proof (num_nonneg b). assert (num b = 0) by lia. assert (bN x = bN x00) by (cbn; lia). apply bN_inj in H2. subst x.
  rewrite drop_zeros_snoc, IH by easy. reflexivity.
Qed.
Lemma num_inj : forall b c, num b = num c -> drop_zeros b = drop_zeros c.
Proof.
  induction b as [| x b IH] using rev_ind; intros c H.
  - cbn in H. rewrite (num_zero c); [reflexivity | easy].
  - destruct c as [| y c] using rev_ind; [rewrite (num_zero _ H); reflexivity |]. clear IHc.
    rewrite !num_snoc in H. pose proof (bN_bound x). pose proof (bN_bound y).
    assert (num b = num c) by lia. assert (bN x = bN y) by lia. apply bN_inj in H3. subst y.
    rewrite !drop_zeros_snoc, (IH c H2). reflexivity.
Qed.
Lemma num_drop : forall b, num (drop_zeros b) = num b.
Proof.
  induction b as [| x b IH]; [reflexivity |]. cbn [drop_zeros]. destruct x; try reflexivity.
  rewrite IH. reflexivity.
Qed.

Lemma drop_nuls_utf8 : forall s b, utf8_encode s = Ok b -> utf8_encode (drop_nuls s) = Ok (drop_zeros b).
Proof.
  induction s as [| c s IH]; intros b H; cbn in H; [injection H as <-; reflexivity |].
  destruct (utf8_enc1 c) as [b1 |] eqn:E1; [| discriminate]. cbn in H.
  destruct (utf8_encode s) as [b2 |] eqn:E2; [| discriminate]. injection H as <-.
  destruct (N.eq_dec c 0) as [-> | N0].
  - cbn in E1. injection E1 as <-. cbn. apply IH. reflexivity.
  - assert (D : drop_nuls (c :: s) = c :: s) by (destruct c; [easy | reflexivity]). rewrite D. cbn. rewrite E1, E2. cbn.
    f_equal. destruct b1 as [| y b1].
    + exfalso. pose proof (utf8_enc1_size _ _ E1) as Z. cbn in Z. unfold utf8_size in Z. 
      repeat match goal with H : context [if ?x then _ else _] |- _ => destruct x end; discriminate.
    + cbn. destruct y; try reflexivity. exfalso.
      pose proof (utf8_decode_enc1 c (x00 :: b1) [] E1) as D2. rewrite app_nil_r in D2. cbn in D2.
      change (0 <? 128)%N with true in D2. cbv iota in D2. destruct (utf8_decode b1) as [t |]; cbn in D2; congruence.
Qed.
Lemma encode_word_inj : forall x y v, encode_word x = Ok v -> encode_word y = Ok v -> drop_nuls x = drop_nuls y.
Proof.
  intros x y v Hx Hy. unfold encode_word in Hx, Hy.
  destruct (utf8_encode x) as [bx |] eqn:Ex; [| discriminate]. destruct (utf8_encode y) as [by_ |] eqn:Ey; [| discriminate].
  cbn in Hx, Hy. assert (N : num bx = num by_).
  { destruct bx, by_; try discriminate. unfold num. congruence. }
  apply num_inj in N. apply drop_nuls_utf8 in Ex. apply drop_nuls_utf8 in Ey. rewrite N in Ex.
  eapply utf8_encode_inj; eauto.
Qed.
Lemma encode_word_same : forall x y, x <> [] -> y <> [] -> forallb scalar x = true -> forallb scalar y = true ->
  drop_nuls x = drop_nuls y -> encode_word x = encode_word y.
Proof.
  intros x y Nx Ny Sx Sy D. apply utf8_encode_ok in Sx as (bx & Ex). apply utf8_encode_ok in Sy as (b & Ey).
  pose proof (drop_nuls_utf8 _ _ Ex) as Dx. pose proof (drop_nuls_utf8 _ _ Ey) as Dy. rewrite D, Dy in Dx. injection Dx as Dx.
  assert (N : num bx = num b) by (rewrite <- (num_drop bx), <- (num_drop b); congruence).
  unfold encode_word. rewrite Ex, Ey. cbn.
  assert (bx <> []) by (intros ->; apply Nx; eapply utf8_encode_inj; [exact Ex | reflexivity]).
  assert (b <> []) by (intros ->; apply Ny; eapply utf8_encode_inj; [exact Ey | reflexivity]).
  destruct bx, b; try easy. f_equal. exact N.
Qed.
Lemma encode_word_ok : forall x, (exists v, encode_word x = Ok v) <-> (x <> [] /\ forallb scalar x = true).
Proof.
  intros x. rewrite <- utf8_encode_ok. unfold encode_word. split.
  - intros (v & H). destruct (utf8_encode x) as [b |] eqn:E; [| discriminate]. cbn in H. split; [| eauto].
    intros ->. cbn in E. injection E as <-. discriminate.
  - intros (Nx & b & E). rewrite E. cbn. destruct b; [| eauto]. exfalso. apply Nx. eapply utf8_encode_inj; [exact E | reflexivity].
Qed.

(** ** Dictionaries and sets *)

Lemma zmem_In : forall x l, zmem x l = true <-> In x l.
Proof.
  intros x l. unfold zmem. rewrite existsb_exists. split.
  - intros (y & I & E). apply Z.eqb_eq in E. subst y. exact I.
  - intros I. exists x. split; [exact I | apply Z.eqb_refl].
Qed.
Lemma zadd_In : forall x y l, In x (zadd y l) <-> x = y \/ In x l.
Proof.
  intros x y l. unfold zadd. destruct (zmem y l) eqn:E.
  - apply zmem_In in E. intuition congruence.
  - rewrite in_app_iff. cbn. intuition.
Qed.
Lemma zget_zset_same : forall V (d : zdict V) k v, zget (zset d k v) k = Some v.
Proof.
  induction d as [| [x w] d IH]; intros k v; cbn; [rewrite Z.eqb_refl; reflexivity |].
  destruct (Z.eqb_spec x k); cbn; [subst; rewrite Z.eqb_refl; reflexivity |].
  destruct (Z.eqb_spec x k); [easy | apply IH].
Qed.
Lemma zget_zset_other : forall V (d : zdict V) k k' v, k <> k' -> zget (zset d k v) k' = zget d k'.
Proof.
  induction d as [| [x w] d IH]; intros k k' v N; cbn.
  - destruct (Z.eqb_spec k k'); easy.
  - destruct (Z.eqb_spec x k); cbn.
    + subst x. destruct (Z.eqb_spec k k'); easy.
    + destruct (Z.eqb_spec x k'); [reflexivity | apply IH, N].
Qed.
Lemma zset_keys : forall V (d : zdict V) k v x, In x (map fst (zset d k v)) <-> x = k \/ In x (map fst d).
Proof.
  induction d as [| [y w] d IH]; intros k v x; cbn; [intuition |].
  destruct (Z.eqb_spec y k); cbn; [subst; intuition |]. rewrite IH. intuition.
Qed.
Lemma zset_NoDup : forall V (d : zdict V) k v, NoDup (map fst d) -> NoDup (map fst (zset d k v)).
Proof.
  induction d as [| [y w] d IH]; intros k v H; cbn; [repeat constructor; easy |]. inversion H; subst.
  destruct (Z.eqb_spec y k); cbn; [constructor; easy |]. constructor; [| apply IH; easy].
  rewrite zset_keys. intros [E | I]; easy.
Qed.
Lemma zget_In : forall V (d : zdict V) k v, NoDup (map fst d) -> (zget d k = Some v <-> In (k, v) d).
Proof.
  induction d as [| [y w] d IH]; intros k v H; cbn; [easy |]. inversion H; subst. destruct (Z.eqb_spec y k) as [-> | N].
  - split; [intros [= ->]; auto |]. intros [E | I]; [congruence |]. exfalso. apply H2. apply in_map_iff. exists (k, v). auto.
  - rewrite IH by easy. split; [auto | intros [E | I]; [congruence | exact I]].
Qed.
Lemma zget_None : forall V (d : zdict V) k, zget d k = None <-> ~ In k (map fst d).
Proof.
  induction d as [| [y w] d IH]; intros k; cbn; [easy |]. destruct (Z.eqb_spec y k) as [-> | N].
  - split; [discriminate | intros H; exfalso; auto].
  - rewrite IH. intuition.
Qed.
Lemma zset_new : forall V (d : zdict V) k v, ~ In k (map fst d) -> zset d k v = d ++ [(k, v)].
Proof.
  induction d as [| [y w] d IH]; intros k v H; cbn in *; [reflexivity |]. destruct (Z.eqb_spec y k); [exfalso; auto |].
  rewrite IH; auto.
Qed.

(** ** The plaintext index *)

Definition get (d : zdict (list Z)) (k : Z) : list Z := match zget d k with Some l => l | None => [] end.

Lemma text_keywords_spec : forall t ks, text_keywords t = Ok ks ->
  forall w, In w ks <-> exists x, word_in x t /\ encode_word x = Ok w.
Proof.
  intros t ks H w. unfold text_keywords in H. destruct (mapM encode_word (text_words t)) as [ws |] eqn:E; [| discriminate].
  cbn in H. injection H as <-.
  assert (F : forall l s, In w (fold_left (fun s w => zadd w s) l s) <-> In w s \/ In w l).
  { induction l as [| y l IH]; intros s; cbn; [intuition |]. rewrite IH, zadd_In. intuition. }
  rewrite F. cbn. assert (G : forall l vs, mapM encode_word l = Ok vs -> (In w vs <-> exists x, In x l /\ encode_word x = Ok w)).
  { clear. induction l as [| x l IH]; intros vs H; cbn in H.
    - injection H as <-. split; [easy | intros (x & [] & _)].
    - destruct (encode_word x) as [v |] eqn:Ex; [| discriminate]. cbn in H. destruct (mapM encode_word l) as [vs' |]; [| discriminate].
      injection H as <-. specialize (IH _ eq_refl). cbn. rewrite IH. split.
      + intros [<- | (y & I & Ey)]; eauto.
      + intros (y & [<- | I] & Ey); [left; congruence | right; eauto]. }
  rewrite (G _ _ E). split.
  - intros [[] | (x & I & Ex)]. exists x. split; [| exact Ex]. apply text_words_spec; [| exact I].
    destruct (proj1 (encode_word_ok x) (ex_intro _ w Ex)). easy.
  - intros (x & Wx & Ex). right. exists x. split; [| exact Ex]. apply text_words_spec; [| exact Wx]. apply Wx.
Qed.

Lemma combine_NoDup : forall (A B : Type) (l : list A) (m : list B), NoDup l -> NoDup (map fst (combine l m)).
Proof.
  intros A B l m N. revert m. induction l as [| i l IH]; intros m; [constructor |]. inversion N; subst.
  destruct m; [constructor |]. cbn. constructor; [| apply IH; easy]. intros I.
  apply in_map_iff in I as ([a b'] & E & I). cbn in E. subst a. apply in_combine_l in I. easy.
Qed.
Lemma forward_loop_spec : forall docs fwd0 fwd, forward_loop docs fwd0 = Ok fwd ->
  NoDup (map fst fwd0 ++ map fst docs) ->
  NoDup (map fst fwd) /\
  (forall ind t, In (ind, t) docs -> exists ks, text_keywords t = Ok ks) /\
  forall ind ks, In (ind, ks) fwd <-> In (ind, ks) fwd0 \/ exists t, In (ind, t) docs /\ text_keywords t = Ok ks.
Proof.
  induction docs as [| [i t] docs IH]; intros fwd0 fwd H N; cbn in H.
  - injection H as <-. cbn in N. rewrite app_nil_r in N. split; [exact N |]. split; [easy |].
    intros ind ks. split; [auto |]. intros [I | (t & [] & _)]; exact I.
  - destruct (text_keywords t) as [k |] eqn:E; [| discriminate]. cbn in H.
    cbn in N. assert (Ni : ~ In i (map fst fwd0)).
    { apply NoDup_remove_2 in N. intros I. apply N. apply in_app_iff. auto. }
    rewrite zset_new in H by exact Ni. apply IH in H.
    + destruct H as (A & T & B). split; [exact A |]. split; [intros ind t' [[= <- <-] | I]; eauto |].
      intros ind ks. rewrite B, in_app_iff. cbn. split.
      * intros [[I | [[= <- <-] | []]] | (t' & I & E')]; eauto.
      * intros [I | (t' & [[= <- <-] | I] & E')]; eauto. left. right. left. congruence.
    + rewrite map_app. cbn. rewrite <- app_assoc. exact N.
Qed.
Lemma forward_spec : forall texts inds fwd, build_forward_index texts inds = Ok fwd -> NoDup inds ->
  NoDup (map fst fwd) /\ forall ind w, In w (get fwd ind) <-> has_word (combine inds texts) ind w.
Proof.
  intros texts inds fwd H N. apply (combine_NoDup _ _ _ texts) in N. apply forward_loop_spec in H; [| exact N].
  destruct H as (A & T & B). split; [exact A |]. intros ind w. unfold get, has_word. destruct (zget fwd ind) as [ks |] eqn:E.
  - apply zget_In in E; [| exact A]. apply B in E as [[] | (t & I & E)].
    rewrite (text_keywords_spec _ _ E). split.
    + intros (x & W & Ex). exists t, x. auto.
    + intros (t' & x & I' & W & Ex). assert (t' = t); [| subst; eauto].
      apply (proj2 (zget_In _ _ _ _ N)) in I. apply (proj2 (zget_In _ _ _ _ N)) in I'. congruence.
  - split; [easy |]. intros (t & x & I & W & Ex). apply zget_None in E. exfalso. apply E.
    destruct (T _ _ I) as (ks & K). apply in_map_iff. exists (ind, ks). split; [reflexivity |]. apply B. right. eauto.
Qed.

Lemma add_posting_spec : forall inv w ind w' i,
  In i (get (add_posting inv w ind) w') <-> In i (get inv w') \/ (w' = w /\ i = ind).
Proof.
  intros inv w ind w' i. unfold add_posting, get at 1. destruct (Z.eq_dec w w') as [<- | N].
  - rewrite zget_zset_same, zadd_In. unfold get. intuition.
  - rewrite zget_zset_other by exact N. fold (get inv w'). intuition congruence.
Qed.
Lemma add_posting_NoDup : forall inv w ind, NoDup (map fst inv) -> NoDup (map fst (add_posting inv w ind)).
Proof. intros. apply zset_NoDup, H. Qed.
Lemma add_posting_full : forall inv w ind, (forall x l, zget inv x = Some l -> l <> []) ->
  forall x l, zget (add_posting inv w ind) x = Some l -> l <> [].
Proof.
  intros inv w ind H x l E. unfold add_posting in E. destruct (Z.eq_dec w x) as [<- | N].
  - rewrite zget_zset_same in E. injection E as <-. intros X.
    assert (I : In ind (zadd ind (get inv w))) by (apply zadd_In; auto). unfold get in I. rewrite X in I. easy.
  - rewrite zget_zset_other in E by exact N. eapply H; eauto.
Qed.
Lemma inverted_spec : forall fwd, NoDup (map fst fwd) -> let inv := build_inverted_index fwd in
  NoDup (map fst inv) /\ (forall x l, zget inv x = Some l -> l <> []) /\
  forall w ind, In ind (get inv w) <-> In w (get fwd ind).
Proof.
  intros fwd Nf inv.
  assert (G1 : forall ind l inv0, NoDup (map fst inv0) -> (forall x l, zget inv0 x = Some l -> l <> []) ->
    let inv1 := fold_left (fun inv w => add_posting inv w ind) l inv0 in
    NoDup (map fst inv1) /\ (forall x l, zget inv1 x = Some l -> l <> []) /\
    forall w i, In i (get inv1 w) <-> In i (get inv0 w) \/ (In w l /\ i = ind)).
  { intros ind. induction l as [| x l IH]; intros inv0 A B; cbn.
    - split; [exact A |]. split; [exact B |]. intuition.
    - destruct (IH (add_posting inv0 x ind) (add_posting_NoDup _ _ _ A) (add_posting_full _ _ _ B)) as (C & D & E).
      split; [exact C |]. split; [exact D |]. intros w i. rewrite E, add_posting_spec. intuition. }
  assert (G2 : forall d inv0, NoDup (map fst inv0) -> (forall x l, zget inv0 x = Some l -> l <> []) ->
    let inv1 := fold_left (fun inv e => fold_left (fun inv w => add_posting inv w (fst e)) (snd e) inv) d inv0 in
    NoDup (map fst inv1) /\ (forall x l, zget inv1 x = Some l -> l <> []) /\
    forall w i, In i (get inv1 w) <-> In i (get inv0 w) \/ exists ks, In (i, ks) d /\ In w ks).
  { induction d as [| [i0 ks0] d IH]; intros inv0 A B; cbn.
    - split; [exact A |]. split; [exact B |]. intros w i. split; [auto | intros [H | (ks & [] & _)]; exact H].
    - destruct (G1 i0 ks0 inv0 A B) as (C & D & E). destruct (IH _ C D) as (C' & D' & E').
      split; [exact C' |]. split; [exact D' |]. intros w i. rewrite E', E. cbn. split.
      + intros [[H | (H & ->)] | (ks & H & K)]; eauto.
      + intros [H | (ks & [[= <- <-] | H] & K)]; eauto. }
  destruct (G2 fwd []) as (A & B & C); [constructor | easy |]. split; [exact A |]. split; [exact B |].
  intros w ind. unfold inv, build_inverted_index. rewrite C. cbn. unfold get. destruct (zget fwd ind) as [ks |] eqn:E.
  - split; [intros [[] | (ks' & I & W)] | intros W; right; exists ks; split; [apply zget_In; auto | exact W]].
    apply (proj2 (zget_In _ _ _ _ Nf)) in I. congruence.
  - split; [| easy]. intros [[] | (ks' & I & W)]. apply (proj2 (zget_In _ _ _ _ Nf)) in I. congruence.
Qed.

Lemma search_keyword_spec : forall texts inds fwd first rest, build_forward_index texts inds = Ok fwd -> NoDup inds ->
  forall ind, In ind (search_keyword first rest fwd (build_inverted_index fwd)) <->
    (forall w, In w (first :: rest) -> has_word (combine inds texts) ind w).
Proof.
  intros texts inds fwd first rest H N ind. destruct (forward_spec _ _ _ H N) as (Nf & F).
  destruct (inverted_spec fwd Nf) as (_ & _ & I). unfold search_keyword. rewrite filter_In, forallb_forall.
  fold (get (build_inverted_index fwd) first). rewrite I, F. split.
  - intros (A & B) w [<- | Iw]; [exact A |]. specialize (B w Iw). apply zmem_In in B. apply F. exact B.
  - intros A. split; [apply A; left; reflexivity |]. intros w Iw. apply zmem_In. apply F. apply A. right. exact Iw.
Qed.

(** ** The encrypted index *)

Lemma invert_sound : forall a m x, 1 < m -> invert a m = Ok x -> (a * x) mod m = 1.
Proof.
  intros a m x M H. unfold invert in H. destruct (egcd _ m (a mod m)) as [[g x1] y] eqn:E.
  destruct (Z.eqb_spec g 1) as [-> |]; [| discriminate]. injection H as <-. apply egcd_bezout in E.
  rewrite Z.mul_mod_idemp_r by lia. rewrite <- Z.mul_mod_idemp_l by lia.
  replace (a mod m * y) with (1 + (- x1) * m) by lia. rewrite Z.mod_add by lia. apply Z.mod_1_l, M.
Qed.
Lemma mod_p_pos : 1 < mod_p.
Proof. reflexivity. Qed.
Lemma cancel : forall z iz xw x, inverse z = Ok iz ->
  (z * xw mod mod_p) * (x * iz mod mod_p) mod mod_p = xw * x mod mod_p.
Proof.
  intros z iz xw x H. apply invert_sound in H; [| exact mod_p_pos]. pose proof mod_p_pos as M.
  generalize dependent mod_p. intros m H M.
  rewrite <- Z.mul_mod by lia. replace (z * xw * (x * iz)) with (z * iz * (xw * x)) by ring.
  rewrite <- Z.mul_mod_idemp_l by lia. rewrite H. f_equal. ring.
Qed.

Section Enc.
Variable md5 : list byte -> N.
Variable P : prim.
Variable K : keys.

Definition entry (ke : pystr) (word ind : Z) (ey : pystr * Z) : Prop :=
  exists xi zi iz xw, prf md5 (k_i K) (str_int ind) = Ok xi /\ prf md5 (k_z K) (str_int word) = Ok zi /\
    prf md5 (k_x K) (str_int word) = Ok xw /\
    inverse (zi mod mod_p) = Ok iz /\ snd ey = (xi mod mod_p) * iz mod mod_p /\
    aes_encrypt P ke (str_int ind) = Ok (fst ey).

Lemma setup_word_spec : forall ke word inds X t X', setup_word md5 P K ke word inds X = Ok (t, X') ->
  Forall2 (entry ke word) inds t /\
  forall v, In v X' <-> In v X \/ exists ind, In ind inds /\ tag md5 K word ind v.
Proof.
  induction inds as [| ind inds IH]; intros X t X' H.
  - cbn in H. injection H as <- <-. split; [constructor |]. intros v. split; [auto | intros [I | (i & [] & _)]; exact I].
  - cbn [setup_word] in H.
    destruct (prf md5 (k_i K) (str_int ind)) as [xi |] eqn:E1; [| discriminate]. cbn [bind] in H.
    destruct (prf md5 (k_z K) (str_int word)) as [zi |] eqn:E2; [| discriminate]. cbn [bind] in H.
    destruct (inverse (zi mod mod_p)) as [iz |] eqn:E3; [| discriminate]. cbn [bind] in H.
    destruct (prf md5 (k_x K) (str_int word)) as [xw |] eqn:E4; [| discriminate]. cbn [bind] in H.
    destruct (aes_encrypt P ke (str_int ind)) as [e |] eqn:E5; [| discriminate]. cbn [bind] in H.
    match type of H with context [setup_word md5 P K ke word inds ?Y] => destruct (setup_word md5 P K ke word inds Y) as [[t0 X0] |] eqn:E6; [| discriminate] end.
    cbn [bind] in H. injection H as <- <-. apply IH in E6 as (F & B). split.
    + constructor; [| exact F]. exists xi, zi, iz, xw. auto 10.
    + intros v. rewrite B, zadd_In. split.
      * intros [[-> | I] | (i & I & T)]; [right; exists ind; split; [left; reflexivity | exists xw, xi; auto] | auto | right; exists i; split; [right|]; assumption].
      * intros [I | (i & [<- | I] & (a & b & A1 & A2 & ->))]; [auto | left; left; congruence | right; exists i; split; [exact I | exists a, b; auto]].
Qed.

Lemma setup_loop_spec : forall inv T X T' X', setup_loop md5 P K inv T X = Ok (T', X') ->
  (forall v, In v X' <-> In v X \/ exists w inds ind, In (w, inds) inv /\ In ind inds /\ tag md5 K w ind v) /\
  (forall s, (forall w, In w (map fst inv) -> prf md5 (k_t K) (str_int w) <> Ok s) -> zget T' s = zget T s) /\
  (forall w, In w (map fst inv) -> exists s, prf md5 (k_t K) (str_int w) = Ok s) /\
  (NoDup (map fst inv) -> forall w inds s, In (w, inds) inv -> prf md5 (k_t K) (str_int w) = Ok s ->
     (forall w', In w' (map fst inv) -> prf md5 (k_t K) (str_int w') = Ok s -> w' = w) ->
     exists ks t, prf md5 (k_s K) (str_int w) = Ok ks /\ zget T' s = Some t /\ Forall2 (entry (str_int ks) w) inds t).
Proof.
  induction inv as [| [w0 inds0] inv IH]; intros T X T' X' H.
  - cbn in H. injection H as <- <-. split; [| split; [| split]].
    + intros v. split; [auto | intros [I | (w & i & j & [] & _)]; exact I].
    + auto.
    + intros w [].
    + intros _ w inds s [].
  - cbn [setup_loop] in H.
    destruct (prf md5 (k_s K) (str_int w0)) as [ks |] eqn:E1; [| discriminate]. cbn [bind] in H.
    destruct (setup_word md5 P K (str_int ks) w0 inds0 X) as [[t0 X0] |] eqn:E2; [| discriminate]. cbn [bind] in H.
    destruct (prf md5 (k_t K) (str_int w0)) as [s0 |] eqn:E3; [| discriminate]. cbn [bind] in H.
    apply setup_word_spec in E2 as (F & B). apply IH in H as (C & D & Kt & G). split; [| split; [| split]].
    + intros v. rewrite C, B. split.
      * intros [[I | (i & I & T1)] | (w & l & i & I & J & T1)]; [auto | right; exists w0, inds0, i; cbn; auto | right; exists w, l, i; cbn; auto].
      * intros [I | (w & l & i & [[= <- <-] | I] & J & T1)]; eauto 10.
    + intros s Ns. rewrite D.
      * apply zget_zset_other. intros ->. eapply Ns; [left; reflexivity | exact E3].
      * intros w I. apply Ns. right. exact I.
    + intros w [<- | I]; [cbn; eauto | apply Kt, I].
    + intros Nd w inds s [[= <- <-] | I] Es U.
      * rewrite E3 in Es. injection Es as ->. exists ks, t0. split; [exact E1 |]. split; [| exact F].
        rewrite D; [apply zget_zset_same |]. intros w I Ew. inversion Nd; subst. apply H1.
        rewrite <- (U w); [exact I | right; exact I | exact Ew].
      * inversion Nd; subst. apply (G H2 w inds s I Es). intros w' I'. apply U. right. exact I'.
Qed.

Lemma prf_ok : forall k z v, prf md5 k (str_int z) = Ok v -> forall z', exists v', prf md5 k (str_int z') = Ok v'.
Proof.
  intros k z v H z'. unfold prf in *. destruct (utf8_encode k) as [b |]; [| discriminate]. cbn [bind].
  assert (S : forallb scalar (str_int z') = true).
  { apply forallb_forall. intros c I. apply str_int_char in I. unfold scalar. lia. }
  apply utf8_encode_ok in S as (b' & ->). cbn. eauto.
Qed.

Lemma mapM_total : forall A B (f : A -> res B) l, (forall x, In x l -> exists y, f x = Ok y) ->
  exists ys, mapM f l = Ok ys.
Proof.
  induction l as [| x l IH]; intros H; cbn; [eauto |]. destruct (H x (or_introl eq_refl)) as (y & ->). cbn.
  destruct IH as (ys & ->); [| cbn; eauto]. intros z I. apply H. right. exact I.
Qed.

Lemma tag_fun : forall w ind v v', tag md5 K w ind v -> tag md5 K w ind v' -> v = v'.
Proof. intros w ind v v' (a & b & A & B & ->) (a' & b' & A' & B' & ->). congruence. Qed.

Lemma str_int_last : forall z, last (str_int z) 0%N <> 0%N.
Proof.
  intros z H. pose proof (str_int_nonempty z) as N. pose proof (app_removelast_last 0%N N) as E.
  assert (I : In 0%N (str_int z)) by (rewrite E, H; apply in_app_iff; right; left; reflexivity).
  apply str_int_char in I. lia.
Qed.
Lemma dec_entry : prim_ok P -> forall ke word ind ey, entry ke word ind ey ->
  (do s <- aes_decrypt P ke (fst ey); parse_int s) = Ok ind.
Proof.
  intros PO ke word ind ey (xi & zi & iz & xw & _ & _ & _ & _ & _ & E). rewrite (aes_roundtrip P PO _ _ _ E). cbn [bind].
  rewrite rstrip_fix by (right; apply str_int_last). apply parse_str_int.
Qed.

Lemma filter_entries : prim_ok P -> forall ke word f (C : Z -> Prop) inds t, Forall2 (entry ke word) inds t ->
  (forall ind ey, entry ke word ind ey -> (f ey = true <-> C ind)) ->
  exists ids, mapM (fun e => do s <- aes_decrypt P ke e; parse_int s) (map fst (filter f t)) = Ok ids /\ incl ids inds /\
    forall ind, In ind inds -> (In ind ids <-> C ind).
Proof.
  intros PO ke word f C inds t F S. induction F as [| i ey inds t E F IH].
  - exists []. split; [reflexivity |]. split; easy.
  - destruct IH as (ids & M & In1 & B). cbn [filter]. pose proof (S i ey E) as Si. destruct (f ey).
    + exists (i :: ids). split; [cbn; rewrite (dec_entry PO _ _ _ _ E); cbn [bind]; rewrite M; reflexivity |].
      split; [intros x [-> | I]; [left; reflexivity | right; apply In1, I] |].
      intros ind Iind. destruct (Z.eq_dec ind i) as [-> | N].
      * split; [intros _; apply Si; reflexivity | intros _; left; reflexivity].
      * destruct Iind as [-> | I]; [easy |]. rewrite <- (B ind I). cbn. intuition congruence.
    + exists ids. split; [exact M |]. split; [intros x I; right; apply In1, I |].
      intros ind Iind. destruct (in_dec Z.eq_dec ind inds) as [I | NI]; [apply B, I |].
      destruct Iind as [-> | I]; [| easy]. split; [intros I; exfalso; apply NI, In1, I |]. intros Ci. apply Si in Ci. discriminate.
Qed.

(** The exact result of the encrypted search. *)
Lemma search_exact : prim_ok P -> forall inv edb, setup_edb md5 P inv K = Ok edb -> NoDup (map fst inv) ->
  forall first rest inds, In (first, inds) inv -> inds <> [] ->
  (forall w', In w' (map fst inv) -> prf md5 (k_t K) (str_int w') = prf md5 (k_t K) (str_int first) -> w' = first) ->
  exists ids, search_encrypted md5 P K first rest edb = Ok ids /\
    incl ids inds /\
    forall ind, In ind inds ->
      (In ind ids <-> forall w, In w rest -> exists v w' ind', tag md5 K w ind v /\ In ind' (get inv w') /\ tag md5 K w' ind' v).
Proof.
  intros PO inv [T X] H Nd first rest inds I Ne U. apply setup_loop_spec in H as (C & _ & Kt & G).
  destruct (Kt first) as (s & Es); [apply in_map_iff; exists (first, inds); auto |].
  destruct (G Nd first inds s I Es) as (ks & t & Ek & Et & F); [intros w' I' E; apply U; congruence |].
  destruct inds as [| i0 inds]; [easy |]. inversion F as [| ? ey ? t0 E0 F0]; subst.
  destruct E0 as (xi0 & zi & iz & xw0 & Exi & Ez & Exw & Eiz & _).
  unfold search_encrypted, build_index. cbn [fst snd]. rewrite Es, Ez. cbn [bind].
  assert (TK : exists toks, mapM (fun w => do xw <- prf md5 (k_x K) (str_int w); Ok (zi mod mod_p * xw mod mod_p)) rest = Ok toks /\
    Forall2 (fun w j => exists xw, prf md5 (k_x K) (str_int w) = Ok xw /\ j = zi mod mod_p * xw mod mod_p) rest toks).
  { clear - Exw. induction rest as [| w rest IH]; cbn [mapM]; [exists []; split; [reflexivity | constructor] |].
    destruct (prf_ok _ _ _ Exw w) as (xw & E). rewrite E. cbn [bind]. destruct IH as (toks & -> & F).
    cbn [bind]. eexists. split; [reflexivity |]. constructor; eauto. }
  destruct TK as (toks & -> & TF). cbn [bind]. unfold search_encryption. rewrite Et. cbn [bind]. unfold decrypt_inds. rewrite Ek. cbn [bind].
  apply (filter_entries PO (str_int ks) first) with (C := fun ind => forall w, In w rest -> exists v w' ind', tag md5 K w ind v /\ In ind' (get inv w') /\ tag md5 K w' ind' v); [exact F |].
  intros ind ey0 (xi & zi' & iz' & xw1 & Exi' & Ez' & _ & Eiz' & Ey & _). rewrite Ez in Ez'. injection Ez' as <-.
  rewrite Eiz in Eiz'. injection Eiz' as <-.
  assert (Mem : forall v, zmem v X = true <-> exists w' ind', In ind' (get inv w') /\ tag md5 K w' ind' v).
  { intros v. rewrite zmem_In, C. split.
    - intros [[] | (w & l & ind' & Iw & Il & Tg)]. exists w, ind'. split; [| exact Tg]. unfold get.
      rewrite (proj2 (zget_In _ _ _ _ Nd) Iw). exact Il.
    - intros (w' & ind' & Ig & Tg). right. unfold get in Ig. destruct (zget inv w') as [l |] eqn:El; [| easy].
      exists w', l, ind'. split; [apply zget_In; auto | auto]. }
  clear - TF Exi' Eiz Ey Mem.
  induction TF as [| w j rest toks (xw & Exw & ->) TF IH]; cbn [forallb].
  - split; [intros _ w [] | reflexivity].
  - rewrite andb_true_iff, IH, Ey, (cancel _ _ _ _ Eiz), Mem. split.
    + intros ((w' & ind' & Ig & Tg) & A) w0 [<- | I0]; [| apply A, I0].
      exists (xw * (xi mod mod_p) mod mod_p), w', ind'. split; [exists xw, xi; auto | auto].
    + intros A. split; [| intros w0 I0; apply A; right; exact I0].
      destruct (A w (or_introl eq_refl)) as (v & w' & ind' & Tv & Ig & Tg). exists w', ind'. split; [exact Ig |].
      replace (xw * (xi mod mod_p) mod mod_p) with v; [exact Tg |]. eapply tag_fun; [exact Tv |]. exists xw, xi; auto.
Qed.

(** ** At the level of documents *)

Lemma search_docs : prim_ok P -> forall texts inds fwd edb first rest, NoDup inds ->
  build_forward_index texts inds = Ok fwd -> setup_edb md5 P (build_inverted_index fwd) K = Ok edb ->
  let docs := combine inds texts in
  (exists ind, has_word docs ind first) -> no_stag_collision md5 K docs first ->
  exists ids, search_encrypted md5 P K first rest edb = Ok ids /\
    forall ind, In ind ids <-> has_word docs ind first /\
      forall w, In w rest -> exists v w' ind', tag md5 K w ind v /\ has_word docs ind' w' /\ tag md5 K w' ind' v.
Proof.
  intros PO texts inds fwd edb first rest N Hf Hs docs (i0 & H0) U.
  destruct (forward_spec _ _ _ Hf N) as (Nf & F). destruct (inverted_spec fwd Nf) as (Ni & Full & I). fold docs in F.
  set (inv := build_inverted_index fwd) in *.
  assert (G : forall w ind, In ind (get inv w) <-> has_word docs ind w) by (intros; rewrite I; apply F).
  pose proof H0 as G0. apply G in G0. unfold get in G0. destruct (zget inv first) as [l |] eqn:El; [| easy].
  destruct (search_exact PO inv edb Hs Ni first rest l) as (ids & S & A & B).
  - apply zget_In; auto.
  - eapply Full; eauto.
  - intros w' I' E. destruct (zget inv w') as [l' |] eqn:E'; [| apply zget_None in E'; easy].
    pose proof (Full _ _ E') as Nl. destruct l' as [| j l']; [easy |]. apply (U j w'); [| exact E]. apply G. unfold get. rewrite E'. left. reflexivity.
  - exists ids. split; [exact S |]. intros ind.
    assert (L : In ind l <-> has_word docs ind first) by (rewrite <- G; unfold get; rewrite El; reflexivity). split.
    + intros Ii. pose proof (A _ Ii) as Il. split; [apply L, Il |]. intros w Iw. pose proof (proj1 (B ind Il) Ii) as Ij.
      destruct (Ij w Iw) as (v & w' & ind' & T1 & Ig & T2). exists v, w', ind'. rewrite <- G. auto.
    + intros (Hw & Hr). apply L in Hw. apply (B ind Hw). intros w Iw. destruct (Hr w Iw) as (v & w' & ind' & T1 & Ig & T2).
      exists v, w', ind'. rewrite G. auto.
Qed.
End Enc.

Lemma prf_total : forall md5 k z, forallb scalar k = true -> exists v, prf md5 k (str_int z) = Ok v.
Proof.
  intros md5 k z H. unfold prf. apply utf8_encode_ok in H as (b & ->). cbn [bind].
  assert (S : forallb scalar (str_int z) = true).
  { apply forallb_forall. intros c I. apply str_int_char in I. unfold scalar. lia. }
  apply utf8_encode_ok in S as (b' & ->). cbn. eauto.
Qed.

Section Ok.
Variable md5 : list byte -> N.
Variable P : prim.
Variable K : keys.
Hypothesis PO : prim_ok P.
Hypothesis KE : keys_encodable K.

Lemma invertible_ok : forall w z, prf md5 (k_z K) (str_int w) = Ok z ->
  ((exists i, inverse (z mod mod_p) = Ok i) <-> invertible md5 K w).
Proof.
  intros w z E. pose proof mod_p_pos as M. split.
  - intros (i & H). exists z. split; [exact E |]. apply invert_sound in H; [| exact M]. clear E. generalize dependent mod_p. intros m M H.
    apply Zgcd_1_rel_prime. apply bezout_rel_prime. rewrite Z.mul_mod_idemp_l in H by lia.
    apply (Bezout_intro z m 1 i (- (z * i / m))). pose proof (Z.div_mod (z * i) m ltac:(lia)). lia.
  - intros (z' & E' & G). rewrite E in E'. injection E' as <-.
    destruct (invert_ok (z mod mod_p) mod_p M) as (x & H & _); [| exists x; exact H].
    apply Zgcd_1_rel_prime. rewrite Z.gcd_mod by lia. rewrite Z.gcd_comm. exact G.
Qed.

Lemma setup_word_ok : forall ke word inds X, invertible md5 K word \/ inds = [] ->
  exists r, setup_word md5 P K ke word inds X = Ok r.
Proof.
  induction inds as [| i inds IH]; intros X H; cbn [setup_word]; [eauto |].
  unfold keys_encodable in KE. rewrite !Forall_cons_iff in KE. destruct KE as (_ & Hx & Hi & Hz & _).
  destruct H as [H | H]; [| discriminate].
  destruct (prf_total md5 _ i Hi) as (xi & ->). destruct (prf_total md5 _ word Hz) as (zi & Ez). rewrite Ez. cbn [bind].
  destruct (proj2 (invertible_ok word zi Ez) H) as (iz & ->). cbn [bind].
  destruct (prf_total md5 _ word Hx) as (xw & ->). cbn [bind].
  assert (S : forallb scalar (str_int i) = true) by (apply forallb_forall; intros c I; apply str_int_char in I; unfold scalar; lia).
  destruct (aes_encrypt_ok P PO ke _ S) as (e & ->). cbn [bind].
  destruct (IH (zadd (xw * (xi mod mod_p) mod mod_p) X) (or_introl H)) as ([t xs] & ->). cbn. eauto.
Qed.
Lemma setup_loop_ok : forall inv T X, (forall w l, In (w, l) inv -> invertible md5 K w \/ l = []) ->
  exists r, setup_loop md5 P K inv T X = Ok r.
Proof.
  pose proof KE as KE'. unfold keys_encodable in KE'. rewrite !Forall_cons_iff in KE'. destruct KE' as (Hs & _ & _ & _ & Ht & _).
  induction inv as [| [w l] inv IH]; intros T X H; cbn [setup_loop]; [eauto |].
  destruct (prf_total md5 _ w Hs) as (ks & ->). cbn [bind].
  destruct (setup_word_ok (str_int ks) w l X) as ([t xs] & ->); [apply H; left; reflexivity |]. cbn [bind].
  destruct (prf_total md5 _ w Ht) as (s & ->). cbn [bind]. apply IH. intros w' l' I. apply H. right. exact I.
Qed.
Lemma setup_docs_ok : forall texts inds fwd, NoDup inds -> build_forward_index texts inds = Ok fwd ->
  (forall ind w, has_word (combine inds texts) ind w -> invertible md5 K w) ->
  exists edb, setup_edb md5 P (build_inverted_index fwd) K = Ok edb.
Proof.
  intros texts inds fwd N Hf H. destruct (forward_spec _ _ _ Hf N) as (Nf & F). destruct (inverted_spec fwd Nf) as (Ni & Full & I).
  apply setup_loop_ok. intros w l Iw. destruct l as [| i l]; [right; reflexivity |]. left. apply (H i w). apply F, I.
  unfold get. rewrite (proj2 (zget_In _ _ _ _ Ni) Iw). left. reflexivity.
Qed.
End Ok.

(** Searching a keyword that no document has. *)
Lemma search_absent : forall md5 P K texts inds fwd edb first rest, NoDup inds ->
  keys_encodable K -> build_forward_index texts inds = Ok fwd -> setup_edb md5 P (build_inverted_index fwd) K = Ok edb ->
  (forall ind, ~ has_word (combine inds texts) ind first) -> no_stag_collision md5 K (combine inds texts) first ->
  search_encrypted md5 P K first rest edb = Err KeyError.
Proof.
  intros md5 P K texts inds fwd [T X] first rest N KE Hf Hs A U.
  unfold keys_encodable in KE. rewrite !Forall_cons_iff in KE. destruct KE as (_ & Hx & _ & Hz & Ht & _).
  destruct (forward_spec _ _ _ Hf N) as (Nf & F). destruct (inverted_spec fwd Nf) as (Ni & Full & I).
  apply setup_loop_spec in Hs as (_ & D & _).
  destruct (prf_total md5 _ first Ht) as (s & Es). destruct (prf_total md5 _ first Hz) as (z & Ez).
  unfold search_encrypted, build_index. rewrite Es, Ez. cbn [bind].
  destruct (mapM_total _ _ (fun w => do xw <- prf md5 (k_x K) (str_int w); Ok (z mod mod_p * xw mod mod_p)) rest) as (toks & ->).
  { intros w _. destruct (prf_total md5 _ w Hx) as (xw & ->). cbn. eauto. }
  cbn [bind fst snd]. unfold search_encryption. rewrite D; [reflexivity |]. intros w Iw Ew.
  destruct (zget (build_inverted_index fwd) w) as [l |] eqn:El; [| apply zget_None in El; easy].
  pose proof (Full _ _ El) as Nl. destruct l as [| i l]; [easy |].
  assert (Hw : has_word (combine inds texts) i w) by (apply F, I; unfold get; rewrite El; left; reflexivity).
  assert (w = first) by (apply (U i w Hw); congruence). subst. exact (A i Hw).
Qed.

(** ** False hits *)

Lemma dup_split : forall l : list Z, NoDup l \/ exists a l1 l2 l3, l = l1 ++ a :: l2 ++ a :: l3.
Proof.
  induction l as [| x l IH]; [left; constructor |]. destruct (in_dec Z.eq_dec x l) as [I | NI].
  - right. apply in_split in I as (l2 & l3 & ->). exists x, [], l2, l3. reflexivity.
  - destruct IH as [N | (a & l1 & l2 & l3 & ->)]; [left; constructor; assumption |]. right. exists a, (x :: l1), l2, l3. reflexivity.
Qed.
Lemma pigeon : forall (f : Z -> Z) m, 0 < m -> (forall i, 0 <= f i < m) -> exists i j, 0 < i < j /\ f i = f j.
Proof.
  intros f m M B. pose (ids := map (fun n => Z.of_nat n + 1) (seq 0 (S (Z.to_nat m)))).
  destruct (dup_split (map f ids)) as [N | (a & l1 & l2 & l3 & E)].
  - exfalso. assert (I : incl (map f ids) (map Z.of_nat (seq 0 (Z.to_nat m)))).
    { intros v Iv. apply in_map_iff in Iv as (i & <- & _). apply in_map_iff. exists (Z.to_nat (f i)). specialize (B i). split; [lia |].
      apply in_seq. lia. }
    pose proof (NoDup_incl_length N I) as L. unfold ids in L. rewrite !map_length, !seq_length in L. lia.
  - apply map_eq_app in E as (i1 & r1 & E1 & _ & E). apply map_eq_cons in E as (i & r2 & -> & Ea & E).
    apply map_eq_app in E as (i2 & r3 & -> & _ & E). apply map_eq_cons in E as (j & r4 & -> & Eb & _).
    exists i, j. split; [| congruence]. clear - E1. unfold ids in E1. clear ids.
    apply map_eq_app in E1 as (s1 & s2 & S & _ & E). apply map_eq_cons in E as (n & s3 & -> & Hi & E).
    apply map_eq_app in E as (s4 & s5 & -> & _ & E). apply map_eq_cons in E as (k & s6 & -> & Hj & _).
    assert (Nn : (n < k)%nat).
    { assert (Pos : forall l1 a l2 b l3 s c, seq s c = l1 ++ a :: l2 ++ b :: l3 -> (a < b)%nat).
      { clear. induction l1 as [| x l1 IH]; intros a l2 b l3 s c H.
        - destruct c as [| c]; [discriminate |]. cbn in H. injection H as <- H.
          assert (I : In b (seq (S s) c)) by (rewrite H; apply in_app_iff; right; left; reflexivity). apply in_seq in I. lia.
        - destruct c as [| c]; [discriminate |]. cbn in H. injection H as _ H. eapply IH. exact H. }
      eapply Pos. exact S. }
    lia.
Qed.

Lemma false_hits : forall md5 P K a b, prim_ok P -> keys_encodable K ->
  encode_word (u "a") = Ok a -> encode_word (u "b") = Ok b ->
  invertible md5 K a -> invertible md5 K b -> prf md5 (k_t K) (str_int a) <> prf md5 (k_t K) (str_int b) ->
  exists i j fwd edb ids, 0 < i < j /\
    build_forward_index [u "a b"; u "a"] [i; j] = Ok fwd /\
    setup_edb md5 P (build_inverted_index fwd) K = Ok edb /\
    search_encrypted md5 P K a [b] edb = Ok ids /\ In j ids /\
    ~ has_word (combine [i; j] [u "a b"; u "a"]) j b.
Proof.
  intros md5 P K a b PO KE Ea Eb Va Vb Ns.
  assert (Hi : forallb scalar (k_i K) = true).
  { unfold keys_encodable in KE. rewrite !Forall_cons_iff in KE. tauto. }
  destruct (pigeon (fun i => match prf md5 (k_i K) (str_int i) with Ok v => v mod mod_p | Err _ => 0 end) mod_p) as (i & j & L & F).
  { reflexivity. }
  { intros i. destruct (prf md5 (k_i K) (str_int i)); [apply Z.mod_pos_bound; reflexivity | split; [lia | reflexivity]]. }
  destruct (prf_total md5 _ i Hi) as (vi & Ei). destruct (prf_total md5 _ j Hi) as (vj & Ej). rewrite Ei, Ej in F.
  assert (N : NoDup [i; j]) by (repeat constructor; cbn; intros H; intuition lia).
  destruct (build_forward_index [u "a b"; u "a"] [i; j]) as [fwd |] eqn:Hf; [| discriminate].
  assert (Wd : forall x t, In t [u "a b"; u "a"] -> word_in x t -> x = u "a" \/ x = u "b" /\ t = u "a b").
  { intros x t It Hx. pose proof Hx as (Nx & _). apply text_words_spec in Hx; [| exact Nx].
    destruct It as [<- | [<- | []]]; vm_compute in Hx; repeat (destruct Hx as [<- | Hx]; [cbn; auto |]); destruct Hx. }
  assert (Hw : forall ind w, has_word (combine [i; j] [u "a b"; u "a"]) ind w -> w = a \/ w = b).
  { intros ind w (t & x & It & Hx & E). apply Wd in Hx as [-> | (-> & _)]; [left; congruence | right; congruence |].
    destruct It as [[= _ <-] | [[= _ <-] | []]]; cbn; auto. }
  assert (Nab : a <> b) by (clear - Ea Eb; vm_compute in Ea, Eb; congruence).
  assert (Hib : has_word (combine [i; j] [u "a b"; u "a"]) i b).
  { exists (u "a b"), (u "b"). split; [left; reflexivity |]. split; [| exact Eb]. apply text_words_spec; [discriminate |]. vm_compute. auto. }
  assert (Hja : has_word (combine [i; j] [u "a b"; u "a"]) j a).
  { exists (u "a"), (u "a"). split; [right; left; reflexivity |]. split; [| exact Ea]. apply text_words_spec; [discriminate |]. vm_compute. auto. }
  destruct (setup_docs_ok md5 P K PO KE _ _ fwd N Hf) as (edb & Hs).
  { intros ind w H. apply Hw in H as [-> | ->]; assumption. }
  destruct (search_docs md5 P K PO _ _ fwd edb a [b] N Hf Hs) as (ids & S & B).
  { exists j. exact Hja. }
  { intros ind w H E. apply Hw in H as [-> | ->]; [reflexivity | congruence]. }
  exists i, j, fwd, edb, ids. split; [exact L |]. split; [exact Hf |]. split; [exact Hs |]. split; [exact S |]. split.
  - apply B. split; [exact Hja |]. intros w [<- | []].
    assert (Hx : forallb scalar (k_x K) = true).
    { unfold keys_encodable in KE. rewrite !Forall_cons_iff in KE. tauto. }
    destruct (prf_total md5 _ b Hx) as (xb & Exb). exists (xb * (vj mod mod_p) mod mod_p), b, i.
    split; [exists xb, vj; auto |]. split; [exact Hib |]. exists xb, vi. rewrite F. auto.
  - intros (t & x & It & Hx & E). destruct It as [It | [It | []]]; pose proof (f_equal fst It) as I1; apply (f_equal snd) in It; cbn [fst snd] in I1, It; [lia |]. subst t.
    apply Wd in Hx as [-> | (-> & Et)]; [congruence | discriminate | right; left; reflexivity].
Qed.

(** ** When the index can be built *)

Lemma word_of_char : forall t c, In c t -> ~ separator c -> exists x, word_in x t /\ In c x.
Proof.
  intros t c I N. apply in_split in I as (p & q & ->).
  assert (Suf : forall q, exists x y, q = x ++ y /\ Forall (fun c => ~ separator c) x /\ (y = [] \/ separator (hd 0%N y))).
  { clear. induction q as [| d q (x & y & -> & Fx & Hy)]; [exists [], []; auto |].
    destruct (is_sep d) eqn:Sd.
    - exists [], (d :: x ++ y). split; [reflexivity |]. split; [constructor |]. right. apply is_sep_spec, Sd.
    - exists (d :: x), y. split; [reflexivity |]. split; [| exact Hy]. constructor; [apply is_sep_false, Sd | exact Fx]. }
  assert (Pre : forall p, exists x y, p = y ++ x /\ Forall (fun c => ~ separator c) x /\ (y = [] \/ separator (last y 0%N))).
  { clear. intros p. induction p as [| d p (x & y & -> & Fx & Hy)] using rev_ind; [exists [], []; auto |].
    destruct (is_sep d) eqn:Sd.
    - exists [], ((y ++ x) ++ [d]). split; [rewrite app_nil_r; reflexivity |]. split; [constructor |]. right. rewrite last_last. apply is_sep_spec, Sd.
    - exists (x ++ [d]), y. split; [rewrite app_assoc; reflexivity |]. split; [| exact Hy]. apply Forall_app. split; [exact Fx |].
      constructor; [apply is_sep_false, Sd | constructor]. }
  destruct (Suf q) as (x2 & y2 & -> & F2 & H2). destruct (Pre p) as (x1 & y1 & -> & F1 & H1).
  exists (x1 ++ c :: x2). split; [| apply in_app_iff; right; left; reflexivity].
  split; [destruct x1; discriminate |]. split; [apply Forall_app; auto |].
  exists y1, y2. split; [rewrite <- !app_assoc; reflexivity | auto].
Qed.

Lemma mapM_defined : forall A B (f : A -> res B) l ys, mapM f l = Ok ys -> forall x, In x l -> exists y, f x = Ok y.
Proof.
  induction l as [| a l IH]; intros ys H x I; [destruct I |]. cbn in H. destruct (f a) as [y |] eqn:E; [| discriminate].
  cbn in H. destruct (mapM f l) as [r |]; [| discriminate]. destruct I as [<- | I]; [eauto | eapply IH; [reflexivity | exact I]].
Qed.
Lemma text_keywords_ok : forall t, (exists ks, text_keywords t = Ok ks) <->
  (t <> [] /\ ~ separator (hd 0%N t) /\ forallb scalar t = true).
Proof.
  intros t. unfold text_keywords. split.
  - intros (ks & H). destruct (mapM encode_word (text_words t)) as [ws |] eqn:E; [| discriminate].
    assert (A : forall x, In x (text_words t) -> x <> [] /\ forallb scalar x = true).
    { intros x I. apply encode_word_ok. eapply mapM_defined; eassumption. }
    assert (Ne : ~ In [] (text_words t)) by (intros I; destruct (A _ I) as (N & _); easy).
    rewrite text_words_empty in Ne. split; [tauto |]. split; [tauto |].
    apply forallb_forall. intros c I. destruct (is_sep c) eqn:Sc.
    + apply is_sep_spec in Sc. unfold separator in Sc. unfold scalar. lia.
    + apply is_sep_false in Sc. destruct (word_of_char t c I Sc) as (x & Wx & Ix). pose proof Wx as (Nx & _).
      apply (text_words_spec x t Nx) in Wx. destruct (A x Wx) as (_ & Sx). rewrite forallb_forall in Sx. apply Sx, Ix.
  - intros (N & Hd & S). destruct (mapM_total _ _ encode_word (text_words t)) as (ws & ->); [| cbn; eauto].
    intros x I. apply encode_word_ok. destruct x as [| c x].
    + exfalso. apply text_words_empty in I. tauto.
    + split; [discriminate |]. apply text_words_spec in I; [| discriminate]. destruct I as (_ & _ & pre & post & -> & _).
      rewrite !forallb_app in S. rewrite !andb_true_iff in S. tauto.
Qed.
Lemma text_keywords_err : forall t e, forallb scalar t = true -> text_keywords t = Err e -> e = ValueError.
Proof.
  intros t e S H. unfold text_keywords in H. destruct (mapM encode_word (text_words t)) as [ws | e'] eqn:E; [discriminate |].
  injection H as <-. assert (A : forall l, incl l (text_words t) -> mapM encode_word l = Err e' -> e' = ValueError); [| eapply A; [apply incl_refl | exact E]].
  clear E. induction l as [| x l IH]; [discriminate |]. intros I E. cbn in E.
  destruct (encode_word x) as [v | e1] eqn:Ex; cbn in E.
  - destruct (mapM encode_word l); [discriminate |]. apply IH; [intros y Iy; apply I; right; exact Iy | exact E].
  - injection E as <-. destruct x as [| c x]; [cbn in Ex; congruence |].
    exfalso. assert (O : exists v, encode_word (c :: x) = Ok v).
    { apply encode_word_ok. split; [discriminate |]. specialize (I _ (or_introl eq_refl)). apply text_words_spec in I; [| discriminate].
      destruct I as (_ & _ & pre & post & -> & _). rewrite !forallb_app in S. rewrite !andb_true_iff in S. tauto. }
    destruct O as (v & Hv). congruence.
Qed.
Lemma forward_loop_ok : forall docs fwd, (exists r, forward_loop docs fwd = Ok r) <->
  Forall (fun d => snd d <> [] /\ ~ separator (hd 0%N (snd d)) /\ forallb scalar (snd d) = true) docs.
Proof.
  induction docs as [| [i t] docs IH]; intros fwd; cbn [forward_loop]; [split; [constructor | eauto] |].
  rewrite Forall_cons_iff, <- text_keywords_ok. cbn [snd]. split.
  - intros (r & H). destruct (text_keywords t) as [ks |]; [| discriminate]. split; [eauto |]. eapply IH. exists r. exact H.
  - intros ((ks & ->) & H). cbn [bind]. apply IH, H.
Qed.
Lemma forward_loop_err : forall docs fwd e, Forall (fun d => forallb scalar (snd d) = true) docs ->
  forward_loop docs fwd = Err e -> e = ValueError.
Proof.
  induction docs as [| [i t] docs IH]; intros fwd e F H; [discriminate |]. inversion F; subst. cbn in H.
  destruct (text_keywords t) as [ks | e'] eqn:E; cbn in H; [eapply IH; eassumption |].
  injection H as <-. eapply text_keywords_err; eassumption.
Qed.
Lemma default_inds_NoDup : forall texts, NoDup (default_inds texts).
Proof.
  intros texts. unfold default_inds. apply FinFun.Injective_map_NoDup; [intros a b; lia | apply seq_NoDup].
Qed.
