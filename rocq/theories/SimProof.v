(** Simulation of a plaintext database by the proxy and the encrypted database. *)
From Coq Require Import String Ascii List NArith ZArith QArith Bool Lia ZifyBool ZifyNat ZifyN.
From Verif Require Import Base BaseProof CryptoModel CryptoSpec CryptoProof CryptoProps FuzzyModel LikeSpec
  FuzzyProof OpeModel OpeProps PaillierModel JsonModel JsonProof RewriteModel SqlSpec EncSpec WhereProof StmtSpec.
Import ListNotations.
Open Scope Z_scope.

(** ** Related outcomes *)
Definition res_rel {A B} (R : A -> B -> Prop) (x : res A) (y : res B) : Prop :=
  match x, y with
  | Ok a, Ok b => R a b
  | Err e, Err e' => e = e'
  | _, _ => False
  end.

Lemma res_rel_bind {A B C D} (R : A -> B -> Prop) (S : C -> D -> Prop) x y f g :
  res_rel R x y -> (forall a b, R a b -> res_rel S (f a) (g b)) -> res_rel S (bind x f) (bind y g).
Proof. destruct x, y; cbn; intros H K; try contradiction; [apply K, H | exact H]. Qed.

Lemma res_rel_eq {A} (x y : res A) : res_rel eq x y <-> x = y.
Proof.
  destruct x, y; cbn; split; intros H; try contradiction; try congruence.
Qed.

Lemma filterM_rel {A B} (R : A -> B -> Prop) f g l l' :
  Forall2 R l l' -> (forall a b, R a b -> f a = g b) ->
  res_rel (Forall2 R) (filterM f l) (filterM g l').
Proof.
  intros F K. induction F as [|a b l l' H F IH]; [constructor|]. cbn [filterM].
  rewrite (K a b H). destruct (g b) as [v|e]; cbn [bind]; [|reflexivity].
  apply (res_rel_bind (Forall2 R) (Forall2 R)); [exact IH|]. intros x y Hxy. cbn [res_rel].
  destruct v; [constructor; assumption | assumption].
Qed.

Lemma mapM_rel {A B C D} (R : A -> B -> Prop) (S : C -> D -> Prop) f g l l' :
  Forall2 R l l' -> (forall a b, R a b -> res_rel S (f a) (g b)) ->
  res_rel (Forall2 S) (mapM f l) (mapM g l').
Proof.
  intros F K. induction F as [|a b l l' H F IH]; [constructor|]. cbn [mapM].
  apply (res_rel_bind S); [apply K, H|]. intros x y Hxy.
  apply (res_rel_bind (Forall2 S)); [exact IH|]. intros xs ys Hs. constructor; assumption.
Qed.

Lemma insert_by_rel {A B} (R : A -> B -> Prop) le le' x x' l l' :
  (forall a a' b b', R a a' -> R b b' -> le a b = le' a' b') ->
  R x x' -> Forall2 R l l' -> Forall2 R (insert_by le x l) (insert_by le' x' l').
Proof.
  intros K Hx F. induction F as [|a b l l' H F IH]; cbn [insert_by]; [repeat constructor; assumption|].
  rewrite (K x x' a b Hx H). destruct (le' x' b); repeat (constructor; try assumption).
Qed.

Lemma sort_by_rel {A B} (R : A -> B -> Prop) le le' l l' :
  (forall a a' b b', R a a' -> R b b' -> le a b = le' a' b') ->
  Forall2 R l l' -> Forall2 R (sort_by le l) (sort_by le' l').
Proof.
  intros K F. induction F as [|a b l l' H F IH]; cbn [sort_by]; [constructor|].
  apply insert_by_rel; assumption.
Qed.

Lemma Forall2_skipn {A B} (R : A -> B -> Prop) n l l' : Forall2 R l l' -> Forall2 R (skipn n l) (skipn n l').
Proof.
  revert l l'; induction n as [|n IH]; intros l l' F; [exact F|].
  destruct F; cbn [skipn]; [constructor | apply IH, F].
Qed.
Lemma Forall2_firstn {A B} (R : A -> B -> Prop) n l l' : Forall2 R l l' -> Forall2 R (firstn n l) (firstn n l').
Proof.
  revert l l'; induction n as [|n IH]; intros l l' F; [constructor|].
  destruct F; cbn [firstn]; constructor; [assumption | apply IH; assumption].
Qed.

Lemma limit_rel {A B} (R : A -> B -> Prop) o l xs ys :
  Forall2 R xs ys -> res_rel (Forall2 R) (limit_rows o l xs) (limit_rows o l ys).
Proof.
  intros F. unfold limit_rows.
  destruct (match o with None => Ok 0%nat | Some j => count_of j end) as [k|e]; [|reflexivity].
  cbn [bind]. destruct l as [j|]; [|apply Forall2_skipn, F].
  destruct (count_of j) as [n|e]; [|reflexivity]. cbn [bind res_rel].
  apply Forall2_firstn, Forall2_skipn, F.
Qed.

Lemma Forall2_len {A B} (R : A -> B -> Prop) l l' : Forall2 R l l' -> length l = length l'.
Proof. induction 1; cbn [length]; congruence. Qed.

Lemma Forall2_app_one {A B} (R : A -> B -> Prop) l l' x y :
  Forall2 R l l' -> R x y -> Forall2 R (l ++ [x]) (l' ++ [y]).
Proof. intros F H. apply Forall2_app; [exact F | constructor; [exact H | constructor]]. Qed.

(** ** Dictionaries *)
Lemma dset_fresh {V} (d : dict V) k v : ~ In k (dkeys d) -> dset d k v = d ++ [(k, v)].
Proof.
  induction d as [|[k' v'] d IH]; intros H; [reflexivity|]. cbn [dset].
  destruct (seqb k k') eqn:E.
  - apply seqb_eq in E. subst k'. exfalso. apply H. left. reflexivity.
  - rewrite IH; [reflexivity|]. intros X. apply H. right. exact X.
Qed.

Lemma dkeys_app {V} (a b : dict V) : dkeys (a ++ b) = dkeys a ++ dkeys b.
Proof. apply map_app. Qed.

Lemma dget_map_self {V} (f : pystr -> V) l k :
  dget (map (fun c => (c, f c)) l) k = if smem k l then Some (f k) else None.
Proof.
  induction l as [|x l IH]; [reflexivity|]. cbn [map dget smem existsb].
  destruct (seqb k x) eqn:E; [apply seqb_eq in E; subst; reflexivity | exact IH].
Qed.

Lemma cell_given (d : dict sqlv) k v : dget d k = Some v -> cell d k = v.
Proof. unfold cell. intros ->. reflexivity. Qed.
Lemma cell_absent (d : dict sqlv) k : ~ In k (dkeys d) -> cell d k = VNull.
Proof.
  unfold cell. destruct (dget d k) eqn:E; [|reflexivity]. intros H. exfalso. apply H.
  apply dget_Some_key with s, E.
Qed.

(** ** Physical names are disjoint *)
Lemma NoDup_app_inv {A} (a b : list A) : NoDup (a ++ b) ->
  NoDup a /\ NoDup b /\ forall x, In x a -> ~ In x b.
Proof.
  induction a as [|x a IH]; cbn [app]; intros H.
  - split; [constructor|]. split; [exact H|]. intros x [].
  - inversion H as [|? ? H1 H2]; subst. destruct (IH H2) as (Ha & Hb & Hd). split.
    + constructor; [|exact Ha]. intros X. apply H1, in_or_app. left. exact X.
    + split; [exact Hb|]. intros y [->|Hy]; [|apply Hd, Hy].
      intros X. apply H1, in_or_app. right. exact X.
Qed.
Lemma NoDup_app_intro {A} (a b : list A) :
  NoDup a -> NoDup b -> (forall x, In x a -> ~ In x b) -> NoDup (a ++ b).
Proof.
  intros Ha Hb Hd. induction Ha as [|x a H1 H2 IH]; [exact Hb|]. cbn [app]. constructor.
  - intros X. apply in_app_or in X as [X|X]; [exact (H1 X)|]. apply (Hd x); [left; reflexivity | exact X].
  - apply IH. intros y Hy. apply Hd. right. exact Hy.
Qed.

Section Concat.
  Context {A B : Type} (f : A -> list B).
  Lemma concat_map_NoDup_each l x : NoDup (concat (map f l)) -> In x l -> NoDup (f x).
  Proof.
    induction l as [|y l IH]; cbn [map concat]; intros H Hx; [destruct Hx|].
    apply NoDup_app_inv in H as (H1 & H2 & _). destruct Hx as [->|Hx]; auto.
  Qed.
  Lemma concat_map_disjoint l x y n : NoDup l -> NoDup (concat (map f l)) ->
    In x l -> In y l -> In n (f x) -> In n (f y) -> x = y.
  Proof.
    induction l as [|z l IH]; cbn [map concat]; intros Hl H Hx Hy Nx Ny; [destruct Hx|].
    apply NoDup_app_inv in H as (H1 & H2 & H3). inversion Hl as [|? ? L1 L2]; subst.
    destruct Hx as [->|Hx], Hy as [->|Hy]; [reflexivity| | |apply IH; assumption].
    - exfalso. apply (H3 n Nx). apply in_concat. exists (f y). split; [apply in_map, Hy | exact Ny].
    - exfalso. apply (H3 n Ny). apply in_concat. exists (f x). split; [apply in_map, Hx | exact Nx].
  Qed.
  Lemma concat_map_sub l l' : NoDup l -> NoDup (concat (map f l)) -> NoDup l' -> incl l' l ->
    NoDup (concat (map f l')).
  Proof.
    intros Hl H Hl' I. induction Hl' as [|x l' H1 H2 IH]; cbn [map concat]; [constructor|].
    apply NoDup_app_intro.
    - apply (concat_map_NoDup_each l); [exact H | apply I; left; reflexivity].
    - apply IH. intros y Hy. apply I. right. exact Hy.
    - intros n Nx Nc. apply in_concat in Nc as (z & Hz & Nz). apply in_map_iff in Hz as (y & <- & Hy).
      assert (x = y) as ->; [|contradiction].
      apply (concat_map_disjoint l x y n); try assumption; apply I; [left; reflexivity | right; exact Hy].
  Qed.
End Concat.

Lemma NoDup_map_inv' {A B} (f : A -> B) l : NoDup (map f l) -> NoDup l.
Proof.
  induction l as [|x l IH]; cbn [map]; intros H; [constructor|]. inversion H as [|? ? H1 H2]; subst.
  constructor; [|apply IH, H2]. intros X. apply H1, in_map, X.
Qed.

Definition phys_kc (kc : pystr * colmeta) : list pystr := phys_of (fst kc) (snd kc).

Lemma phys_disjoint kw m k c k' c' n : wf_table kw m ->
  dget (t_cols m) k = Some c -> dget (t_cols m) k' = Some c' ->
  In n (phys_of k c) -> In n (phys_of k' c') -> k = k' /\ c = c'.
Proof.
  intros W H H' N N'.
  assert ((k, c) = (k', c')) as E; [|injection E; auto].
  apply (concat_map_disjoint phys_kc (t_cols m) (k, c) (k', c') n).
  - apply NoDup_map_inv' with (f := fst). apply (wf_log kw m W).
  - apply (wf_phys kw m W).
  - apply dget_In, H.
  - apply dget_In, H'.
  - exact N.
  - exact N'.
Qed.

(** ** Constants *)
Lemma insert_const_val kw v : constant v -> insert_const kw (val v) = Ok (const_sql v).
Proof. intros [[z ->]|[[q ->]|[s ->]]]; reflexivity. Qed.
Lemma operand_const kw r v : constant v -> operand kw r v = Ok (const_sql v).
Proof. intros [[z ->]|[[q ->]|[s ->]]]; reflexivity. Qed.
Lemma const_ok_constant E k c v : const_ok E k c v -> constant v.
Proof.
  unfold const_ok. destruct (c_plain c); [auto|]. intros [(_ & z & -> & _)|(_ & s & -> & _)].
  - left. eauto.
  - right. right. eauto.
Qed.
Lemma const_ok_typed E k c v : c_plain c = false -> const_ok E k c v -> typed c (const_sql v).
Proof.
  unfold const_ok. intros ->. intros [(T & z & -> & H & _)|(T & s & -> & H)]; split; assumption.
Qed.

Lemma fuzzy_encrypt_ok al P (HP : prim_ok P) key s :
  forallb scalar s = true -> exists t, fuzzy_encrypt al P key s = Ok t.
Proof.
  intros H.
  assert (W : forall k, exists l, mapM (aes_encrypt P key) (windows k s) = Ok l).
  { intros k. assert (forall w, In w (windows k s) -> forallb scalar w = true) as Hw.
    { revert H. clear. induction s as [|x s IH]; intros H w Hw; [destruct Hw|].
      cbn [windows] in Hw. destruct (Nat.leb k (length (x :: s))); [|destruct Hw].
      destruct Hw as [<-|Hw].
      - apply forallb_forall. intros c Hc. rewrite forallb_forall in H. apply H.
        rewrite <- (firstn_skipn k (x :: s)). apply in_or_app. left. exact Hc.
      - apply IH; [|exact Hw]. cbn [forallb] in H. apply andb_true_iff in H. tauto. }
    induction (windows k s) as [|w l IH]; [exists []; reflexivity|].
    destruct (aes_encrypt_ok P HP key w (Hw w (or_introl eq_refl))) as [c Hc].
    destruct IH as [l' Hl']; [intros w' Hw'; apply Hw; right; exact Hw'|].
    exists (c :: l'). cbn [mapM]. rewrite Hc, Hl'. reflexivity. }
  unfold fuzzy_encrypt. destruct (isalnum al s).
  - destruct (Nat.ltb (length s) 3); [apply aes_encrypt_ok; assumption|].
    destruct (W 3%nat) as [l ->]. eexists; reflexivity.
  - destruct (Nat.ltb (length s) 2); [apply aes_encrypt_ok; assumption|].
    destruct (W 2%nat) as [l ->]. eexists; reflexivity.
Qed.

(** ** INSERT *)
Lemma encode_other v ty : seqb ty (u "float") = false -> seqb ty (u "double") = false -> encode v ty = Ok v.
Proof. unfold encode. intros -> ->. reflexivity. Qed.

Lemma text_type_not ty : is_text_type ty -> seqb ty (u "float") = false /\ seqb ty (u "double") = false.
Proof.
  unfold is_text_type, smem. cbn [existsb]. rewrite !orb_false_iff. tauto.
Qed.

Lemma encrypt_value_ok kw E k c v ci :
  prim_ok (e_P E) -> supported c -> c_plain c = false -> const_ok E k c v -> In ci (dkeys (c_enc c)) ->
  exists j w, encrypt_value E c k v ci = Ok j /\ insert_const kw j = Ok w /\ enc_cell E c ci (const_sql v) w.
Proof.
  intros HP S Hp Hc Hi. unfold const_ok in Hc. rewrite Hp in Hc.
  destruct S as [S|[S _]]; [congruence|].
  destruct Hc as [(T & z & -> & Hz & Har)|(T & s & -> & Hs)].
  - assert (Hk : In ci [SYM; OPEC; FUZ; ARI]).
    { destruct S as [[_ S]|[T' _]]; [apply S, Hi|].
      unfold is_text_type in T'. rewrite T in T'. discriminate T'. }
    unfold encrypt_value. rewrite T. cbn [bind].
    change (encode (JInt z) (u "int")) with (Ok (JInt z)). cbn [bind py_str py_int const_sql].
    destruct Hk as [<-|[<-|[<-|[<-|[]]]]].
    + destruct (aes_encrypt_ok (e_P E) HP (c_key c) (str_int z) (proj1 (str_int_text_ok z))) as [t Ht].
      change (seqb SYM OPEC) with false. change (seqb SYM SYM) with true. cbv iota. rewrite Ht. cbn [bind].
      eexists _, (VStr t). split; [reflexivity|]. split; [reflexivity|]. left. eauto.
    + destruct (env_ope_total E (c_key c) z Hz) as [e He].
      change (seqb OPEC OPEC) with true. cbv iota. rewrite He. cbn [bind].
      eexists _, (VInt e). split; [reflexivity|]. split; [reflexivity|]. right. left. eauto.
    + destruct (fuzzy_encrypt_ok (e_alnum E) (e_P E) HP (c_key c) (str_int z) (proj1 (str_int_text_ok z))) as [t Ht].
      change (seqb FUZ OPEC) with false. change (seqb FUZ SYM) with false. change (seqb FUZ FUZ) with true.
      cbv iota. rewrite Ht. cbn [bind].
      eexists _, (VStr t). split; [reflexivity|]. split; [reflexivity|]. right. right. left. eauto.
    + destruct (Har Hi) as (p & q & t & Hh & Ht). rewrite Hh.
      change (seqb ARI OPEC) with false. change (seqb ARI SYM) with false. change (seqb ARI FUZ) with false.
      change (seqb ARI ARI) with true. cbv iota. rewrite Ht. cbn [bind].
      eexists _, (VStr t). split; [reflexivity|]. split; [reflexivity|]. right. right. right.
      split; [reflexivity|]. exists p, q, (e_rnd E k), t. auto.
  - assert (Hk : In ci [SYM; FUZ]).
    { destruct S as [[T' _]|[_ S]]; [|apply S, Hi].
      unfold is_text_type in T. rewrite T' in T. discriminate T. }
    unfold encrypt_value. cbn [bind lit].
    change (dgetE [(u "literal", JStr s)] (u "literal")) with (Ok (JStr s)). cbn [bind].
    rewrite encode_other by apply (text_type_not _ T). cbn [bind py_str const_sql lit].
    destruct Hk as [<-|[<-|[]]].
    + destruct (aes_encrypt_ok (e_P E) HP (c_key c) s (proj1 Hs)) as [t Ht].
      change (seqb SYM OPEC) with false. change (seqb SYM SYM) with true. cbv iota. rewrite Ht. cbn [bind].
      eexists _, (VStr t). split; [reflexivity|]. split; [reflexivity|]. left. eauto.
    + destruct (fuzzy_encrypt_ok (e_alnum E) (e_P E) HP (c_key c) s (proj1 Hs)) as [t Ht].
      change (seqb FUZ OPEC) with false. change (seqb FUZ SYM) with false. change (seqb FUZ FUZ) with true.
      cbv iota. rewrite Ht. cbn [bind].
      eexists _, (VStr t). split; [reflexivity|]. split; [reflexivity|]. right. eauto.
Qed.

Lemma values_col_ok kw E m k c v :
  prim_ok (e_P E) -> supported c -> dget (t_cols m) k = Some c -> const_ok E k c v ->
  exists js ws ch, values_col E m (JStr k) (val v) = Ok js /\ mapM (insert_const kw) js = Ok ws /\
    ch = combine (phys_of k c) ws /\ length ws = length (phys_of k c) /\ chunk_ok E k c (const_sql v) ch.
Proof.
  intros HP S Hk Hc. unfold values_col. cbn [lookup]. unfold dgetE at 1. rewrite Hk. cbn [bind].
  unfold phys_of, chunk_ok, phys_of. destruct (c_plain c) eqn:Hp.
  - exists [val v], [const_sql v], [(k, const_sql v)]. split; [reflexivity|].
    cbn [mapM]. rewrite insert_const_val by (apply const_ok_constant with E k c, Hc). cbn [bind].
    split; [reflexivity|]. split; [reflexivity|]. split; [reflexivity|].
    split; [reflexivity|]. split; [reflexivity|discriminate].
  - assert (L : forall d : dict pystr, (forall ci, In ci (dkeys d) -> In ci (dkeys (c_enc c))) ->
      exists js ws, mapM (fun enc => do v0 <- getitem (val v) (u "value"); encrypt_value E c k v0 enc) (dkeys d) = Ok js /\
        mapM (insert_const kw) js = Ok ws /\ length ws = length (dvals d) /\
        forall ci n, In (ci, n) d -> exists w, In (n, w) (combine (dvals d) ws) /\ enc_cell E c ci (const_sql v) w).
    { induction d as [|[ci n] d IH]; intros Hd.
      - exists [], []. split; [reflexivity|]. split; [reflexivity|]. split; [reflexivity|]. intros ci n [].
      - destruct IH as (js & ws & H1 & H2 & H3 & H4); [intros x Hx; apply Hd; right; exact Hx|].
        destruct (encrypt_value_ok kw E k c v ci HP S Hp Hc) as (j & w & J1 & J2 & J3).
        { apply Hd. left. reflexivity. }
        exists (j :: js), (w :: ws). cbn [dkeys map fst mapM dvals snd combine length].
        change (map fst d) with (dkeys d). change (map snd d) with (dvals d).
        rewrite H1. change (getitem (val v) (u "value")) with (Ok v). cbn [bind]. rewrite J1, J2, H2. cbn [bind].
        split; [reflexivity|]. split; [reflexivity|]. split; [congruence|].
        intros ci' n' [[= <- <-]|X].
        + exists w. split; [left; reflexivity | exact J3].
        + destruct (H4 _ _ X) as (w' & W1 & W2). exists w'. split; [right; exact W1 | exact W2]. }
    destruct (L (c_enc c)) as (js & ws & H1 & H2 & H3 & H4); [auto|].
    exists js, ws, (combine (dvals (c_enc c)) ws). split; [exact H1|]. split; [exact H2|].
    split; [reflexivity|]. split; [exact H3|]. split; [|split; [discriminate|intros _; exact H4]].
    unfold dkeys. revert H3. clear. generalize (dvals (c_enc c)). intros l. revert ws.
    induction l as [|x l IH]; intros [|w ws] H; try discriminate; [reflexivity|].
    cbn [combine map fst]. f_equal. apply IH. cbn [length] in H. congruence.
Qed.

Lemma combine_keys {A B} (l : list A) (l' : list B) : length l = length l' -> map fst (combine l l') = l.
Proof.
  revert l'; induction l as [|x l IH]; intros [|y l'] H; try discriminate; [reflexivity|].
  cbn [combine map fst]. f_equal. apply IH. cbn [length] in H. congruence.
Qed.

Lemma combine_app {A B} (a b : list A) (a' b' : list B) :
  length a = length a' -> combine (a ++ b) (a' ++ b') = combine a a' ++ combine b b'.
Proof.
  revert a'; induction a as [|x a IH]; intros [|y a'] H; try discriminate; [reflexivity|].
  cbn [app combine]. f_equal. apply IH. cbn [length] in H. congruence.
Qed.

Lemma mapM_app {A B} (f : A -> res B) a b :
  mapM f (a ++ b) = do x <- mapM f a; do y <- mapM f b; Ok (x ++ y).
Proof.
  induction a as [|x a IH]; cbn [app mapM bind].
  - destruct (mapM f b); reflexivity.
  - destruct (f x); [|reflexivity]. cbn [bind]. rewrite IH. destruct (mapM f a); [|reflexivity].
    cbn [bind]. destruct (mapM f b); reflexivity.
Qed.

(** All columns of the INSERT. *)
Lemma values_loop_ok kw E m cs vs :
  prim_ok (e_P E) -> (forall k c, dget (t_cols m) k = Some c -> supported c) ->
  length cs = length vs ->
  (forall k v, In (k, v) (combine cs vs) -> exists c, dget (t_cols m) k = Some c /\ const_ok E k c v) ->
  exists js ws pcs chs,
    values_loop E m (map JStr cs) (map val vs) = Ok js /\ mapM (insert_const kw) js = Ok ws /\
    mapM (columns_col m) (map JStr cs) = Ok pcs /\
    concat pcs = map JStr (concat (map dkeys chs)) /\
    concat chs = combine (concat (map dkeys chs)) ws /\ length ws = length (concat (map dkeys chs)) /\
    Forall2 (fun kv ch => exists c, dget (t_cols m) (fst kv) = Some c /\ const_ok E (fst kv) c (snd kv) /\
                                    chunk_ok E (fst kv) c (const_sql (snd kv)) ch) (combine cs vs) chs.
Proof.
  intros HP S. revert vs. induction cs as [|k cs IH]; intros [|v vs] L H; try discriminate.
  - exists [], [], [], []. repeat (split; [reflexivity|]). constructor.
  - destruct (IH vs) as (js & ws & pcs & chs & H1 & H2 & H3 & H4 & H5 & H6 & H7).
    { cbn [length] in L. congruence. }
    { intros k' v' X. apply H. right. exact X. }
    destruct (H k v (or_introl eq_refl)) as (c & Hc & Hv).
    destruct (values_col_ok kw E m k c v HP (S _ _ Hc) Hc Hv) as (j & w & ch & J1 & J2 & J3 & J4 & J5).
    pose proof J5 as (K1 & _).
    exists (j ++ js), (w ++ ws), (map JStr (phys_of k c) :: pcs), (ch :: chs).
    cbn [map values_loop mapM concat combine]. rewrite J1, H1. cbn [bind].
    split; [reflexivity|]. rewrite mapM_app, J2, H2. cbn [bind]. split; [reflexivity|].
    split.
    { unfold columns_col at 1. cbn [lookup]. unfold dgetE. rewrite Hc. cbn [bind].
      unfold phys_of. destruct (c_plain c); cbn [map bind]; rewrite H3; reflexivity. }
    rewrite K1, map_app, H4. split; [reflexivity|].
    split; [rewrite combine_app by congruence; rewrite H5, J3; reflexivity|].
    split; [rewrite !app_length; congruence|].
    constructor; [|exact H7]. exists c. cbn [fst snd]. split; [|split]; assumption.
Qed.

Lemma assoc_row_ok ns ws : length ns = length ws -> assoc_row (map JStr ns) ws = Ok (combine ns ws).
Proof.
  revert ws; induction ns as [|n ns IH]; intros [|w ws] H; try discriminate; [reflexivity|].
  cbn [map assoc_row]. rewrite IH by (cbn [length] in H; congruence). reflexivity.
Qed.

Lemma In_combine_fst {A B} (l : list A) (l' : list B) x : length l = length l' -> In x l ->
  exists y, In (x, y) (combine l l').
Proof.
  revert l'; induction l as [|a l IH]; intros [|b l'] L H; try discriminate; [destruct H|].
  destruct H as [->|H]; [exists b; left; reflexivity|].
  destruct (IH l') as [y Hy]; [cbn [length] in L; congruence | exact H|]. exists y. right. exact Hy.
Qed.

Lemma Forall2_In_l {A B} (R : A -> B -> Prop) l l' x : Forall2 R l l' -> In x l -> exists y, In y l' /\ R x y.
Proof.
  induction 1 as [|a b l l' H F IH]; intros X; [destruct X|]. destruct X as [->|X].
  - exists b. split; [left; reflexivity | exact H].
  - destruct (IH X) as (y & Hy & Ry). exists y. split; [right; exact Hy | exact Ry].
Qed.
Lemma Forall2_In_r {A B} (R : A -> B -> Prop) l l' y : Forall2 R l l' -> In y l' -> exists x, In x l /\ R x y.
Proof.
  induction 1 as [|a b l l' H F IH]; intros X; [destruct X|]. destruct X as [->|X].
  - exists a. split; [left; reflexivity | exact H].
  - destruct (IH X) as (x & Hx & Rx). exists x. split; [right; exact Hx | exact Rx].
Qed.

Lemma dkeys_concat {V} (l : list (dict V)) : dkeys (concat l) = concat (map dkeys l).
Proof. unfold dkeys. apply (concat_map fst). Qed.

(** The chunks of distinct columns have distinct names. *)
Lemma chunks_NoDup kw E m kvs chs : wf_table kw m -> NoDup (map fst kvs) ->
  Forall2 (fun kv ch => exists c, dget (t_cols m) (fst kv) = Some c /\ const_ok E (fst kv) c (snd kv) /\
                                  chunk_ok E (fst kv) c (const_sql (snd kv)) ch) kvs chs ->
  NoDup (dkeys (concat chs)).
Proof.
  intros W ND F. rewrite dkeys_concat.
  assert (exists l, map dkeys chs = map phys_kc l /\ map fst l = map fst kvs /\ incl l (t_cols m)) as (l & E1 & E2 & E3).
  { clear ND. induction F as [|kv ch kvs chs H F IH]; [exists []; repeat split; intros x []|].
    destruct IH as (l & E1 & E2 & E3). destruct H as (c & Hc & _ & (K1 & _)).
    exists ((fst kv, c) :: l). cbn [map fst]. rewrite E1, E2, K1. split; [reflexivity|]. split; [reflexivity|].
    intros x [<-|Hx]; [apply dget_In, Hc | apply E3, Hx]. }
  rewrite E1. apply (concat_map_sub phys_kc (t_cols m)).
  - apply NoDup_map_inv' with (f := fst), (wf_log kw m W).
  - apply (wf_phys kw m W).
  - apply NoDup_map_inv' with (f := fst). rewrite E2. exact ND.
  - exact E3.
Qed.

Lemma insert_row kw E m kvs chs : wf_table kw m -> NoDup (map fst kvs) ->
  Forall2 (fun kv ch => exists c, dget (t_cols m) (fst kv) = Some c /\ const_ok E (fst kv) c (snd kv) /\
                                  chunk_ok E (fst kv) c (const_sql (snd kv)) ch) kvs chs ->
  enc_row E m
    (map (fun c => (c, cell (map (fun kv => (fst kv, const_sql (snd kv))) kvs) c)) (dkeys (t_cols m)))
    (map (fun c => (c, cell (concat chs) c)) (phys m)).
Proof.
  intros W ND F k c Hc.
  set (pg := map (fun kv => (fst kv, const_sql (snd kv))) kvs).
  assert (Kpg : dkeys pg = map fst kvs).
  { unfold pg, dkeys. rewrite map_map. reflexivity. }
  exists (cell pg k). split.
  { rewrite dget_map_self.
    assert (smem k (dkeys (t_cols m)) = true) as -> by (apply smem_In, dget_Some_key with c, Hc). reflexivity. }
  pose proof (chunks_NoDup kw E m kvs chs W ND F) as NDc.
  destruct (in_dec pystr_eq_dec k (map fst kvs)) as [I|I].
  - (* mentioned *)
    apply in_map_iff in I as ((k0 & v) & E0 & I). cbn [fst] in E0. subst k0.
    assert (Hpg : cell pg k = const_sql v).
    { apply cell_given, dget_NoDup; [rewrite Kpg; exact ND|].
      unfold pg. apply in_map_iff. exists (k, v). auto. }
    rewrite Hpg.
    destruct (Forall2_In_l _ _ _ _ F I) as (ch & Hch & c0 & Hc0 & Cok & K1 & K2 & K3).
    cbn [fst snd] in *. rewrite Hc in Hc0. injection Hc0 as <-.
    destruct (c_plain c) eqn:Hp.
    + rewrite dget_map_self.
      assert (smem k (phys m) = true) as ->.
      { apply smem_In, (phys_In m k c k Hc). left. auto. }
      f_equal. apply cell_given, dget_NoDup; [exact NDc|].
      apply in_concat. exists ch. split; [exact Hch|]. rewrite (K2 eq_refl). left. reflexivity.
    + split; [apply const_ok_typed with E k; assumption|]. intros ci n Hn.
      destruct (K3 eq_refl ci n (dget_In _ _ _ Hn)) as (w & Hw & Ew).
      exists w. split; [|exact Ew]. rewrite dget_map_self.
      assert (smem n (phys m) = true) as ->.
      { apply smem_In, (phys_In m k c n Hc). right. split; [exact Hp | apply dget_dvals with ci, Hn]. }
      f_equal. apply cell_given, dget_NoDup; [exact NDc|].
      apply in_concat. exists ch. auto.
  - (* not mentioned *)
    assert (cell pg k = VNull) as -> by (apply cell_absent; rewrite Kpg; exact I).
    assert (A : forall n, In n (phys_of k c) -> cell (concat chs) n = VNull).
    { intros n Hn. apply cell_absent. rewrite dkeys_concat. intros X.
      apply in_concat in X as (l & Hl & Xn). apply in_map_iff in Hl as (ch & <- & Hch).
      destruct (Forall2_In_r _ _ _ _ F Hch) as (kv & Hkv & c' & Hc' & _ & K1 & _).
      rewrite K1 in Xn. destruct (phys_disjoint kw m k c (fst kv) c' n W Hc Hc' Hn Xn) as [-> _].
      apply I, in_map, Hkv. }
    destruct (c_plain c) eqn:Hp.
    + rewrite dget_map_self.
      assert (smem k (phys m) = true) as ->.
      { apply smem_In, (phys_In m k c k Hc). left. auto. }
      f_equal. apply A. unfold phys_of. rewrite Hp. left. reflexivity.
    + split; [exact Logic.I|]. intros ci n Hn. exists VNull. split; [|reflexivity].
      rewrite dget_map_self.
      assert (smem n (phys m) = true) as ->.
      { apply smem_In, (phys_In m k c n Hc). right. split; [exact Hp | apply dget_dvals with ci, Hn]. }
      f_equal. apply A. unfold phys_of. rewrite Hp. apply dget_dvals with ci, Hn.
Qed.
