(** Proofs about queries through the proxy. *)
From Coq Require Import String Ascii List NArith ZArith QArith Bool Lia ZifyBool ZifyNat ZifyN Sorted Permutation.
From Verif Require Import Base BaseProof CryptoModel CryptoSpec CryptoProof CryptoProps FuzzyModel
  OpeModel OpeProps PaillierModel JsonModel RewriteModel SqlSpec EncSpec JsonProof WhereProof
  StmtSpec RewriteSpec SimProof StmtProof UpdateProof SelectProof HistoryProof RewriteProof.
Import ListNotations.
Open Scope Z_scope.

(** ** Histories *)
Lemma run_app step D h1 h2 : run step D (h1 ++ h2) = run step D h1 ++ run step (after step D h1) h2.
Proof.
  revert D. induction h1 as [|[r j] h1 IH]; intros D; [reflexivity|]. cbn [app run after].
  destruct (step r D j) as [[D' rs]|e]; cbn [app]; f_equal; apply IH.
Qed.

Lemma after_sim kw E M h pdb edb : prim_ok (e_P E) -> wf_meta kw M ->
  Forall (fun rj => frag_stmt kw (with_rnd E (fst rj)) M (snd rj)) h -> db_rel E M pdb edb ->
  db_rel E M (after (fun _ D j => exec kw D j) pdb h) (after (fun r D j => proxy kw (with_rnd E r) M D j) edb h).
Proof.
  intros HP HM F. revert pdb edb. induction F as [|[r j] h Hj F IH]; intros pdb edb D; [exact D|].
  cbn [after]. pose proof (step_sim kw (with_rnd E r) M pdb edb j HP HM Hj (proj1 (db_rel_rnd E M r pdb edb) D)) as X.
  unfold same_step in X.
  destruct (exec kw pdb j) as [[pdb' rs]|e], (proxy kw (with_rnd E r) M edb j) as [[edb' rs']|e'];
    cbn [res_rel fst snd] in X; try contradiction.
  - destruct X as [_ D']. apply IH, (proj2 (db_rel_rnd E M r pdb' edb')), D'.
  - apply IH, D.
Qed.

(** The answers agree in related databases. *)
Lemma answer_sim kw E M pdb edb j : prim_ok (e_P E) -> wf_meta kw M -> frag_stmt kw E M j -> db_rel E M pdb edb ->
  answer (proxy kw E M edb j) = answer (exec kw pdb j).
Proof.
  intros HP HM F D. pose proof (step_sim kw E M pdb edb j HP HM F D) as X. unfold same_step, answer in *.
  destruct (exec kw pdb j) as [[pdb' rs]|e], (proxy kw E M edb j) as [[edb' rs']|e'];
    cbn [res_rel fst snd bind] in *; try contradiction; [f_equal; symmetry; apply X | congruence].
Qed.

(** ** C23 *)
Definition full_row (m : tmeta) (r : row) : Prop := forall k, In k (dkeys (t_cols m)) -> exists v, dget r k = Some v.

Lemma select_all kw m t : wf_table kw m -> tb_cols t = dkeys (t_cols m) ->
  (forall r, In r (tb_rows t) -> full_row m r) ->
  exec_select kw t (JStr (u "*")) None None None None =
  Ok (map (fun r => map (cell r) (dkeys (t_cols m))) (tb_rows t)).
Proof.
  intros W Hc Hf. unfold exec_select.
  assert (filterM (selected kw None) (tb_rows t) = Ok (tb_rows t)) as ->.
  { clear. induction (tb_rows t) as [|r l IH]; [reflexivity|]. cbn [filterM selected bind]. rewrite IH. reflexivity. }
  cbn [bind aggregate order_rows limit_rows]. rewrite skipn_O. cbn [bind].
  change (seqb (u "*") (u "*")) with true. cbv iota. rewrite Hc.
  induction (tb_rows t) as [|r l IH]; [reflexivity|]. cbn [mapM map].
  assert (mapM (project kw r) (map JStr (dkeys (t_cols m))) = Ok (map (cell r) (dkeys (t_cols m)))) as ->.
  { pose proof (Hf r (or_introl eq_refl)) as Hr. unfold full_row in Hr. pose proof (wf_names kw m W) as Hn.
    clear -Hr Hn. induction (dkeys (t_cols m)) as [|k ks IHk]; [reflexivity|]. cbn [map mapM project].
    rewrite (colname_column kw k (Hn k (or_introl eq_refl))). unfold cell at 1.
    destruct (Hr k (or_introl eq_refl)) as [v Hv]. rewrite Hv. cbn [bind].
    rewrite IHk; [reflexivity| |]; intros x Hx; [apply Hr | apply Hn]; right; exact Hx. }
  cbn [bind]. rewrite IH; [reflexivity|]. intros x Hx. apply Hf. right. exact Hx.
Qed.

Lemma plain_full E m pt et : tab_rel E m pt et -> forall r, In r (tb_rows pt) -> full_row m r.
Proof.
  intros [_ _ F] r Hr k Hk. destruct (Forall2_In_l _ _ _ _ F Hr) as (er & _ & HR).
  destruct (dget_in_keys (t_cols m) k Hk) as [c Hc]. destruct (HR k c Hc) as (v & Hv & _). eauto.
Qed.

Lemma insert_exec kw E M t m cs vs pt et : prim_ok (e_P E) -> wf_meta kw M -> dget M t = Some m ->
  NoDup cs -> length cs = length vs ->
  (forall k v, In (k, v) (combine cs vs) -> exists c, dget (t_cols m) k = Some c /\ const_ok E k c v) ->
  tab_rel E m pt et ->
  exec_insert kw pt (map JStr cs) (map val vs) =
  Ok {| tb_cols := tb_cols pt; tb_rows := tb_rows pt ++
        [map (fun k => (k, match dget (combine cs vs) k with Some v => const_sql v | None => VNull end)) (tb_cols pt)] |}.
Proof.
  intros HP HM Hm ND L H T.
  destruct (insert_sim kw E M t m cs vs pt et HP HM Hm ND L H T) as (cols' & vals' & pt' & et' & _ & X & _ & _).
  rewrite X. revert X. unfold exec_insert.
  destruct (mapM (insert_const kw) (map val vs)) as [ws|] eqn:Hw; [|discriminate]. cbn [bind].
  assert (ws = map const_sql vs) as ->.
  { assert (G : forall v, In v vs -> constant v).
    { intros v Hv. apply In_nth_error in Hv as [i Hi].
      assert (exists k, nth_error cs i = Some k) as [k Hk].
      { destruct (nth_error cs i) eqn:X; [eauto|]. apply nth_error_None in X.
        assert (nth_error vs i <> None) by congruence. apply nth_error_Some in H0. lia. }
      destruct (H k v) as (c & _ & Hc).
      - clear -Hi Hk. revert cs vs Hi Hk. induction i as [|i IH]; intros [|a cs] [|b vs] Hi Hk; try discriminate.
        + injection Hi as ->. injection Hk as ->. left. reflexivity.
        + right. apply IH; assumption.
      - apply const_ok_constant with E k c, Hc. }
    clear -G Hw. revert ws Hw. induction vs as [|v vs IH]; intros ws Hw; [injection Hw as <-; reflexivity|].
    cbn [map mapM] in Hw. rewrite insert_const_val in Hw by (apply G; left; reflexivity). cbn [bind] in Hw.
    destruct (mapM (insert_const kw) (map val vs)) as [ws'|]; [|discriminate]. injection Hw as <-. cbn [map]. f_equal.
    apply IH; [intros x Hx; apply G; right; exact Hx | reflexivity]. }
  rewrite assoc_row_ok by (rewrite map_length; exact L). cbn [bind].
  match goal with |- (if ?b then _ else _) = _ -> _ => destruct b; [|discriminate] end.
  intros [= <-]. f_equal. f_equal. f_equal. f_equal. apply map_ext. intros k. f_equal.
  unfold cell. rewrite combine_map_r. clear. induction (combine cs vs) as [|[a v] l IH]; [reflexivity|].
  cbn [map fst snd dget]. destruct (seqb k a); [reflexivity | exact IH].
Qed.

Lemma last_snoc {A} (l : list A) x d : last (l ++ [x]) d = x.
Proof. apply last_last. Qed.

Lemma insert_select kw E M h t m cs vs r r' :
  prim_ok (e_P E) -> wf_meta kw M ->
  Forall (fun rj => frag_stmt kw (with_rnd E (fst rj)) M (snd rj)) h ->
  dget M t = Some m -> substrb (u "value") t = false -> NoDup cs -> length cs = length vs ->
  (forall k v, In (k, v) (combine cs vs) -> exists c, dget (t_cols m) k = Some c /\ const_ok (with_rnd E r) k c v) ->
  let all := select_stmt t (JStr (u "*")) None None None None in
  let ask h := last (run (fun r D j => proxy kw (with_rnd E r) M D j) (empty_enc M) (h ++ [(r', all)])) (Err Generic) in
  exists rows, ask h = Ok rows /\
  ask (h ++ [(r, insert_stmt t cs vs)]) =
  Ok (rows ++ [map (fun k => match dget (combine cs vs) k with Some v => const_sql v | None => VNull end)
                   (dkeys (t_cols m))]).
Proof.
  intros HP HM F Hm Hv ND L H all ask. unfold ask. clear ask.
  pose proof (wm_table kw M HM t m Hm) as W.
  assert (Fs : forall r0, frag_stmt kw (with_rnd E r0) M all).
  { intros r0. apply frag_select with m; [exact Hm|exact Hv|left; reflexivity|exact I|exact I]. }
  assert (Fi : frag_stmt kw (with_rnd E r) M (insert_stmt t cs vs)) by (apply frag_insert with m; assumption).
  pose proof (empty_rel kw E M HM) as D0.
  rewrite <- !(run_sim kw E M _ (empty_plain M) (empty_enc M)); [|assumption|assumption| |exact D0|assumption|assumption| |exact D0].
  2:{ apply Forall_app. split; [apply Forall_app; split; [exact F|]|]; (constructor; [|constructor]); [exact Fi | apply Fs]. }
  2:{ apply Forall_app. split; [exact F|]. constructor; [apply Fs|constructor]. }
  pose proof (after_sim kw E M h _ _ HP HM F D0) as D.
  rewrite !run_app. set (pdb := after (fun _ D j => exec kw D j) (empty_plain M) h) in *.
  destruct (D t m Hm) as (pt & et & D1 & D2 & D3).
  assert (A : forall pdb pt, dget pdb t = Some pt -> tb_cols pt = dkeys (t_cols m) ->
     (forall r, In r (tb_rows pt) -> full_row m r) ->
     run (fun _ D j => exec kw D j) pdb [(r', all)] = [Ok (map (fun r => map (cell r) (dkeys (t_cols m))) (tb_rows pt))]).
  { intros pdb0 pt0 X1 X2 X3. cbn [run]. unfold all. rewrite (exec_sel kw pdb0 t pt0 X1), (select_all kw m pt0 W X2 X3).
    reflexivity. }
  exists (map (fun r => map (cell r) (dkeys (t_cols m))) (tb_rows pt)).
  rewrite (A pdb pt D1 (tr_p _ _ _ _ D3) (plain_full _ _ _ _ D3)). rewrite last_snoc. split; [reflexivity|].
  assert (Af : forall h1 h2 D, after (fun _ D j => exec kw D j) D (h1 ++ h2) =
            after (fun _ D j => exec kw D j) (after (fun _ D j => exec kw D j) D h1) h2).
  { clear. induction h1 as [|[r j] h1 IH]; intros h2 D; [reflexivity|]. cbn [app after]. apply IH. }
  rewrite Af. fold pdb. cbn [after]. unfold insert_stmt.
  rewrite (exec_ins kw pdb t pt D1).
  assert (D3' : tab_rel (with_rnd E r) m pt et) by (destruct D3; constructor; assumption).
  rewrite (insert_exec kw (with_rnd E r) M t m cs vs pt et) by assumption. cbn [bind].
  set (nr := map _ (tb_cols pt)).
  assert (Hnr : full_row m nr).
  { intros k Hk. unfold nr. rewrite (tr_p _ _ _ _ D3). clear -Hk.
    induction (dkeys (t_cols m)) as [|x l IH]; [destruct Hk|]. cbn [map dget].
    destruct (seqb_spec k x) as [->|N0]; [eauto|]. apply IH. destruct Hk; [congruence|assumption]. }
  erewrite A; [|apply dget_dset_same|cbn [tb_cols]; apply (tr_p _ _ _ _ D3)|].
  2:{ cbn [tb_rows]. intros x Hx. apply in_app_or in Hx as [Hx|[<-|[]]]; [apply (plain_full _ _ _ _ D3), Hx | exact Hnr]. }
  rewrite last_snoc. cbn [tb_rows]. rewrite map_app. do 2 f_equal. cbn [map]. f_equal.
  unfold nr. rewrite (tr_p _ _ _ _ D3). apply map_ext_in. intros k Hk. unfold cell at 1.
  clear -Hk. induction (dkeys (t_cols m)) as [|x l IH]; [destruct Hk|]. cbn [map dget].
  destruct (seqb_spec k x) as [->|N0]; [reflexivity|]. apply IH. destruct Hk; [congruence|assumption].
Qed.

(** ** C25 *)
Lemma star_rewrite kw E (M : dbmeta) t m w w' o o' l off : wf_meta kw M -> dget M t = Some m ->
  substrb (u "value") t = false ->
  optM (where_rw E M (JStr t) SYM []) w = Ok w' -> optM (orderby_rw M (JStr t)) o = Ok o' ->
  rewrite_query E M (select_stmt t (JStr (u "*")) w o l off) =
  Ok (select_stmt (t_anon m) (JList (map (fun kc => JStr (phys_name SYM (fst kc) (snd kc))) (t_cols m))) w' o' l off, JStr t,
      {| s_cols := dkeys (t_cols m); s_types := map (fun kc => c_type (snd kc)) (t_cols m);
         s_state := map (fun kc => col_state SYM (snd kc)) (t_cols m) |}).
Proof.
  intros HM Hm Hv Hw Ho.
  rewrite (rewrite_select E M t m _ _ _ w w' o o' l off Hm Hv (select_star_ok kw M t m HM Hm) Hw Ho).
  do 2 f_equal.
  - do 3 f_equal. rewrite map_map. reflexivity.
  - unfold push_all, s_empty. cbn [s_cols s_types s_state app]. rewrite !map_map. reflexivity.
Qed.

Lemma star_nosym E (M : dbmeta) t m k c w o l off : dget M t = Some m -> In (k, c) (t_cols m) ->
  c_plain c = false -> dget (c_enc c) SYM = None ->
  rewrite_query E M (select_stmt t (JStr (u "*")) w o l off) = Err KeyError.
Proof.
  intros Hm Hk Hp Hn.
  assert (Sc : forall cols st, In (k, c) cols -> star_cols M SYM false t m (JStr t) cols st = Err KeyError).
  { clear Hk. induction cols as [|[k' c'] cols IH]; intros st I0; [destruct I0|].
    cbn [star_cols star_prefix bind]. unfold star_col. destruct I0 as [[= -> ->]|I0].
    - rewrite Hp. unfold dgetE. rewrite Hn. reflexivity.
    - destruct (c_plain c').
      + cbn [bind]. rewrite IH by exact I0. reflexivity.
      + unfold dgetE. destruct (dget (c_enc c') SYM); [|reflexivity]. cbn [bind]. rewrite IH by exact I0. reflexivity. }
  assert (H1 : select_rw M (JStr t) SYM (JStr (u "*")) s_empty = Err KeyError).
  { cbn [select_rw]. unfold select_str. change (seqb (u "*") (u "*")) with true. cbv iota.
    unfold select_star. cbn [star_tables length Nat.ltb Nat.leb]. rewrite (lookup_table _ _ _ Hm). cbn [bind].
    rewrite Sc by exact Hk. reflexivity. }
  set (sel := JStr (u "*")) in *.
  assert (F : rewrite_query E M (select_stmt t sel w o l off) =
    do '(j', st) <- clauses_rw E M (JStr t) (select_stmt t sel w o l off)
        (fun x st => match x with
                     | JList l' => do '(l', st') <- nested_list E M (JStr t) (rewrite_clause (S (jdepth (select_stmt t sel w o l off))) E M) 0 l' st;
                                  Ok (Some (JList l', st'))
                     | _ => nested_value (rewrite_clause (S (jdepth (select_stmt t sel w o l off))) E M) x st
                     end) clause_keys (select_stmt t sel w o l off) s_empty; Ok (j', JStr t, st)).
  { destruct w, o, l, off; reflexivity. }
  rewrite F. clear F.
  match goal with |- context [clauses_rw _ _ _ _ ?n _ _ _] => generalize n as nested end. intros nested.
  generalize (select_stmt t sel w o l off) at 1 as source. intros source.
  unfold clause_keys, select_stmt, opt. destruct w, o, l, off; cbn [app]; do 3 skip;
  (erewrite clause_err; [reflexivity|reflexivity|reflexivity|]; rewrite cl_select, H1; reflexivity).
Qed.

(** ** C26 *)
Lemma shows_dec E (M : dbmeta) t m name state v w : prim_ok (e_P E) -> dget M t = Some m ->
  shows E m name state v w -> dec E M (JStr t) name state w = Ok v.
Proof.
  intros HP Hm [[-> ->]|(Hs & Hd & c & Hc & Ty & He)]; [reflexivity|].
  destruct Hs as [<-|[<-|[]]].
  - apply (dec_sym E M t m name c v w); assumption.
  - destruct v as [|z|q|s].
    + cbn [enc_cell] in He. subst w. reflexivity.
    + apply (dec_ope E M t m name c); try assumption. apply Ty.
    + destruct Ty.
    + cbn [enc_cell] in He. destruct He as [(X & _)|(X & _)]; discriminate X.
Qed.

Lemma decrypt_shown E (M : dbmeta) t m st vss wss : prim_ok (e_P E) -> dget M t = Some m ->
  Forall2 (shows_row E m (s_cols st) (s_state st)) vss wss ->
  decrypt_result E M (JStr t) st wss = Ok vss.
Proof.
  intros HP Hm F. apply decrypt_rows. induction F as [|vs ws vss wss H F IH]; constructor; [|exact IH].
  clear -H HP Hm. induction H as [|n ns s ss v vs w ws H F IH]; [reflexivity|].
  rewrite decrypt_row_cons, (shows_dec E M t m n s v w HP Hm H). cbn [bind]. rewrite IH. reflexivity.
Qed.

Lemma decrypt_shape E M T st rows out : decrypt_result E M T st rows = Ok out ->
  length (s_cols st) = length (s_state st) ->
  Forall (fun r => length r = length (s_cols st)) rows ->
  length out = length rows /\ Forall (fun r => length r = length (s_cols st)) out /\
  forall i j r o v, nth_error rows i = Some r -> nth_error out i = Some o -> nth_error r j = Some v ->
    (v = VNull \/ nth_error (s_state st) j = Some PLAIN) -> nth_error o j = Some v.
Proof.
  intros H L F. unfold decrypt_result in H. revert out H.
  assert (R : forall ns ss r o, length ns = length ss -> length r = length ns -> decrypt_row E M T ns ss r = Ok o ->
    length o = length ns /\ forall j v, nth_error r j = Some v -> (v = VNull \/ nth_error ss j = Some PLAIN) -> nth_error o j = Some v).
  { induction ns as [|n ns IH]; intros [|s ss] [|v r] o L1 L2 H; try discriminate.
    - injection H as <-. split; [reflexivity|]. intros [|j] v X; discriminate X.
    - rewrite decrypt_row_cons in H. destruct (dec E M T n s v) as [x|] eqn:Dx; [|discriminate]. cbn [bind] in H.
      destruct (decrypt_row E M T ns ss r) as [xs|] eqn:Dr; [|discriminate]. injection H as <-.
      destruct (IH ss r xs) as [I1 I2]; [cbn [length] in *; congruence..|exact Dr|].
      split; [cbn [length]; congruence|]. intros [|j] v0 X Y; cbn [nth_error] in *; [|apply I2; assumption].
      injection X as ->. f_equal. unfold dec in Dx. destruct Y as [->|[= ->]].
      + destruct (seqb s PLAIN); [congruence|]. cbn [decrypt_cell] in Dx. congruence.
      + rewrite seqb_refl in Dx. congruence. }
  induction F as [|r rows Hr F IH]; intros out H.
  - injection H as <-. split; [reflexivity|]. split; [constructor|]. intros [|i] j r o v X; discriminate X.
  - cbn [mapM] in H. destruct (decrypt_row E M T (s_cols st) (s_state st) r) as [o|] eqn:Do; [|discriminate].
    cbn [bind] in H. destruct (mapM _ rows) as [os|] eqn:Ds; [|discriminate]. injection H as <-.
    destruct (IH os eq_refl) as (I1 & I2 & I3). destruct (R _ _ _ _ L Hr Do) as [R1 R2].
    split; [cbn [length]; congruence|]. split; [constructor; assumption|].
    intros [|i] j r0 o0 v X Y; cbn [nth_error] in *; [|apply (I3 i); assumption].
    injection X as <-. injection Y as <-. apply R2.
Qed.

(** ** C27 *)
Lemma sort_lost E (M : dbmeta) t m k c s sel sel' st w w' l off : dget M t = Some m ->
  substrb (u "value") t = false -> dget (t_cols m) k = Some c -> c_plain c = false ->
  select_rw M (JStr t) SYM sel s_empty = Ok (sel', st) -> optM (where_rw E M (JStr t) SYM []) w = Ok w' ->
  In OPEC (dkeys (c_enc c)) ->
  rewrite_query E M (select_stmt t sel w (Some (JDict [(u "value", JStr k); (u "sort", JStr s)])) l off) =
  rewrite_query E M (select_stmt t sel w (Some (JDict [(u "value", JStr k)])) l off).
Proof.
  intros Hm Hv Hc Hp Hs Hw Ho. destruct (dget_in_keys _ _ Ho) as [n Hn].
  assert (G : forall d, dget d (u "value") = Some (JStr k) ->
    optM (orderby_rw M (JStr t)) (Some (JDict d)) = Ok (Some (JDict [(u "value", JStr n)]))).
  { intros d Hd. cbn [optM]. unfold orderby_rw. rewrite (lookup_table _ _ _ Hm). cbn [bind getitem].
    unfold dgetE at 1. rewrite Hd. cbn [bind lookup]. unfold dgetE. rewrite Hc. cbn [bind]. rewrite Hp, Hn. reflexivity. }
  rewrite !(rewrite_select E M t m sel sel' st w w' _ (Some (JDict [(u "value", JStr n)])) l off Hm Hv Hs Hw);
    [reflexivity| |]; apply G; reflexivity.
Qed.

(** Values of an encrypted integer column are integers or NULL. *)
Definition int_or_null (v : sqlv) : Prop := match v with VNull | VInt _ => True | _ => False end.

Lemma ope_values E m k c pr er : enc_row E m pr er -> dget (t_cols m) k = Some c -> c_plain c = false ->
  c_type c = u "int" -> exists v, dget pr k = Some v /\ int_or_null v.
Proof.
  intros HR Hc Hp Ty. destruct (HR k c Hc) as (v & Hv & R). rewrite Hp in R. destruct R as [T _].
  exists v. split; [exact Hv|]. destruct v as [| | |s]; cbn [typed int_or_null] in *; auto.
  destruct T as [T _]. rewrite Ty in T. discriminate T.
Qed.

Lemma filterM_incl {A} (f : A -> res bool) l l' : filterM f l = Ok l' -> incl l' l.
Proof.
  revert l'. induction l as [|x l IH]; intros l' H; cbn [filterM] in H; [injection H as <-; intros y []|].
  destruct (f x) as [b|]; [|discriminate]. cbn [bind] in H. destruct (filterM f l) as [r|]; [|discriminate].
  injection H as <-. intros y Hy. destruct b; [destruct Hy as [->|Hy]; [left; reflexivity|]|]; right; apply (IH r eq_refl), Hy.
Qed.

Lemma vle_int a b : int_or_null a -> int_or_null b -> vle a b = true <-> ascending a b.
Proof.
  destruct a, b; cbn [int_or_null vle ascending num]; intros Ha Hb; try contradiction; try (split; intros; auto; discriminate).
  rewrite Qle_bool_iff. unfold Qle, inject_Z. cbn [Qnum Qden]. lia.
Qed.

Section Sort.
  Context {A} (le : A -> A -> bool) (P : A -> Prop)
    (total : forall a b, P a -> P b -> le a b = true \/ le b a = true)
    (trans : forall a b c, P a -> P b -> P c -> le a b = true -> le b c = true -> le a c = true).
  Lemma insert_perm x l : Permutation (insert_by le x l) (x :: l).
  Proof.
    induction l as [|y l IH]; [reflexivity|]. cbn [insert_by]. destruct (le x y); [reflexivity|].
    rewrite IH. apply perm_swap.
  Qed.
  Lemma sort_perm l : Permutation (sort_by le l) l.
  Proof. induction l as [|x l IH]; [reflexivity|]. cbn [sort_by]. rewrite insert_perm, IH. reflexivity. Qed.
  Lemma insert_sorted x l : P x -> Forall P l -> StronglySorted (fun a b => le a b = true) l ->
    StronglySorted (fun a b => le a b = true) (insert_by le x l).
  Proof.
    intros Px. induction l as [|y l IH]; intros F S; cbn [insert_by]; [repeat constructor|].
    inversion F as [|? ? Py Fl]; subst. inversion S as [|? ? S1 S2]; subst. destruct (le x y) eqn:L.
    - constructor; [exact S|]. constructor; [exact L|]. rewrite Forall_forall in *. intros z Hz.
      apply trans with y; auto.
    - constructor; [apply IH; assumption|]. assert (Lyx : le y x = true) by (destruct (total x y Px Py); congruence).
      rewrite Forall_forall in *. intros z Hz. apply (Permutation_in _ (insert_perm x l)) in Hz as [<-|Hz]; auto.
  Qed.
  Lemma sort_sorted l : Forall P l -> StronglySorted (fun a b => le a b = true) (sort_by le l).
  Proof.
    induction l as [|x l IH]; intros F; [constructor|]. inversion F as [|? ? Px Fl]; subst. cbn [sort_by].
    apply insert_sorted; [exact Px| |apply IH, Fl]. rewrite Forall_forall in *. intros z Hz. apply Fl.
    apply (Permutation_in _ (sort_perm l)), Hz.
  Qed.
End Sort.

Lemma ascending_total a b : int_or_null a -> int_or_null b -> vle a b = true \/ vle b a = true.
Proof.
  intros Ha Hb. rewrite !vle_int by assumption. destruct a, b; cbn [int_or_null ascending] in *; try contradiction; auto. lia.
Qed.
Lemma ascending_trans a b c : int_or_null a -> int_or_null b -> int_or_null c -> vle a b = true -> vle b c = true -> vle a c = true.
Proof.
  intros Ha Hb Hc. rewrite !vle_int by assumption. destruct a, b, c; cbn [int_or_null ascending] in *; try contradiction; auto. lia.
Qed.

Lemma StronglySorted_map {A B} (R : A -> A -> Prop) (S : B -> B -> Prop) (f : A -> B) (P : A -> Prop) l :
  (forall a b, P a -> P b -> R a b -> S (f a) (f b)) -> Forall P l -> StronglySorted R l -> StronglySorted S (map f l).
Proof.
  intros H F X. induction X as [|a l X IH G]; cbn [map]; [constructor|]. inversion F as [|? ? Pa Fl]; subst.
  constructor; [apply IH, Fl|]. rewrite Forall_forall in *. intros y Hy. apply in_map_iff in Hy as (x & <- & Hx). auto.
Qed.

Lemma mapM_all {A B} (f : A -> res B) g l : (forall x, In x l -> f x = Ok (g x)) -> mapM f l = Ok (map g l).
Proof.
  induction l as [|x l IH]; intros H; [reflexivity|]. cbn [mapM map]. rewrite (H x (or_introl eq_refl)). cbn [bind].
  rewrite IH by (intros y Y; apply H; right; exact Y). reflexivity.
Qed.

Lemma order_values kw E M pdb edb t m k c w pt rows :
  prim_ok (e_P E) -> wf_meta kw M -> db_rel E M pdb edb -> dget M t = Some m -> substrb (u "value") t = false ->
  enc_col m k c OPEC -> c_type c = u "int" -> where_ok kw (e_alnum E) m w ->
  dget pdb t = Some pt -> filterM (selected kw w) (tb_rows pt) = Ok rows ->
  exists vs,
    answer (proxy kw E M edb (select_stmt t (val (JStr k)) w (Some (JDict [(u "value", JStr k)])) None None)) =
      Ok (map (fun v => [v]) vs) /\
    Permutation vs (map (fun r => cell r k) rows) /\ StronglySorted ascending vs.
Proof.
  intros HP HM D Hm Hv Hk Ty Hw Hpt Hr. pose proof (wm_table kw M HM t m Hm) as W.
  pose proof Hk as (Hc & Hp & n & Hn).
  assert (Hkey : In k (dkeys (t_cols m))) by (apply dget_Some_key with c, Hc).
  rewrite (answer_sim kw E M pdb edb); [|exact HP|exact HM| |exact D].
  2:{ apply frag_select with m; [exact Hm|exact Hv| |exact Hw|].
      - right. left. eauto.
      - right. exists k, c. auto. }
  destruct (D t m Hm) as (pt' & et & D1 & D2 & D3). rewrite Hpt in D1. injection D1 as <-.
  rewrite (exec_sel kw pdb t pt Hpt). unfold exec_select. rewrite Hr. cbn [bind].
  assert (Hf : forall r, In r rows -> exists v, dget r k = Some v /\ int_or_null v).
  { intros r X. apply (filterM_incl _ _ _ Hr) in X.
    destruct (Forall2_In_l _ _ _ _ (tr_rows _ _ _ _ D3) X) as (er & _ & HR).
    apply (ope_values E m k c r er HR Hc Hp Ty). }
  rewrite aggregate_val. cbn [order_rows]. change (seqb (u "value") (u "value")) with true.
  rewrite (colname_column kw k (wf_names kw m W k Hkey)). cbn [andb].
  assert (forallb (fun r => dmem r k) rows = true) as ->.
  { apply forallb_forall. intros r X. destruct (Hf r X) as (v & Hv0 & _). unfold dmem. rewrite Hv0. reflexivity. }
  cbn [bind limit_rows]. rewrite skipn_O. cbn [bind].
  set (srt := sort_by (fun a b => vle (cell a k) (cell b k)) rows).
  assert (Pp : Permutation srt rows) by apply sort_perm.
  assert (Hs : forall r, In r srt -> exists v, dget r k = Some v /\ int_or_null v).
  { intros r X. apply Hf. apply (Permutation_in _ Pp), X. }
  exists (map (fun r => cell r k) srt). split; [|split].
  - unfold val. unfold answer.
    assert (mapM (fun r => mapM (project kw r) [JDict [(u "value", JStr k)]]) srt = Ok (map (fun v => [v]) (map (fun r => cell r k) srt))) as ->;
      [|reflexivity].
    rewrite map_map. apply mapM_all. intros r X. destruct (Hs r X) as (v & Hv0 & _). cbn [mapM].
    change (project kw r (JDict [(u "value", JStr k)])) with (operand kw r (JStr k)).
    rewrite (operand_col kw r k v (colname_column kw k (wf_names kw m W k Hkey)) Hv0). unfold cell. rewrite Hv0. reflexivity.
  - apply Permutation_map, Pp.
  - apply (StronglySorted_map (fun a b => vle (cell a k) (cell b k) = true) ascending (fun r => cell r k) (fun r => int_or_null (cell r k))).
    + intros a b Ha Hb. apply vle_int; assumption.
    + apply Forall_forall. intros r X. destruct (Hs r X) as (v & V1 & V2). unfold cell. rewrite V1. exact V2.
    + apply (sort_sorted _ (fun r => int_or_null (cell r k))).
      * intros a b. apply ascending_total.
      * intros a b d. apply ascending_trans.
      * apply Forall_forall. intros r X. destruct (Hf r X) as (v & V1 & V2). unfold cell. rewrite V1. exact V2.
Qed.

(** ** C28 *)
Lemma extreme_spec better l : (forall a b, int_or_null a -> int_or_null b -> better a b = true \/ better b a = true) ->
  (forall a b c, int_or_null a -> int_or_null b -> int_or_null c -> better a b = true -> better b c = true -> better a c = true) ->
  Forall int_or_null l ->
  int_or_null (extreme better l) /\
  (extreme better l = VNull -> forall v, In v l -> v = VNull) /\
  (forall z, extreme better l = VInt z -> In (VInt z) l /\ forall z', In (VInt z') l -> better (VInt z) (VInt z') = true).
Proof.
  intros T Tr F. induction F as [|v l Hv F (I1 & I2 & I3)].
  - split; [exact I|]. split; [intros _ v []|]. intros z X. discriminate X.
  - destruct v as [|z| |]; try contradiction.
    + cbn [extreme]. split; [exact I1|]. split.
      * intros X v [<-|Y]; [reflexivity | apply I2; assumption].
      * intros z X. destruct (I3 z X) as [Y1 Y2]. split; [right; exact Y1|]. intros z' [Z|Z]; [discriminate Z | apply Y2, Z].
    + cbn [extreme]. destruct (extreme better l) as [|z0| |] eqn:X; try contradiction.
      * split; [exact I|]. split; [discriminate|]. intros z' [= <-]. split; [left; reflexivity|].
        intros z' [[= <-]|Y]; [destruct (T (VInt z) (VInt z) I I); assumption|]. specialize (I2 eq_refl _ Y). discriminate I2.
      * destruct (I3 z0 eq_refl) as [Y1 Y2]. destruct (better (VInt z) (VInt z0)) eqn:B.
        -- split; [exact I|]. split; [discriminate|]. intros z' [= <-]. split; [left; reflexivity|].
           intros z' [[= <-]|Y]; [destruct (T (VInt z) (VInt z) I I); assumption|]. apply Tr with (VInt z0); try exact I; auto.
        -- split; [exact I|]. split; [discriminate|]. intros z' [= <-]. split; [right; exact Y1|].
           intros z' [[= <-]|Y]; [destruct (T (VInt z) (VInt z0) I I); congruence | apply Y2, Y].
Qed.

Lemma minmax_values kw E M pdb edb t m k c w pt rows f :
  prim_ok (e_P E) -> wf_meta kw M -> db_rel E M pdb edb -> dget M t = Some m -> substrb (u "value") t = false ->
  enc_col m k c OPEC -> c_type c = u "int" -> where_ok kw (e_alnum E) m w ->
  dget pdb t = Some pt -> filterM (selected kw w) (tb_rows pt) = Ok rows -> In f [u "max"; u "min"] ->
  exists x,
    answer (proxy kw E M edb (select_stmt t (val (JDict [(f, JStr k)])) w None None None)) = Ok [[x]] /\
    ((x = VNull /\ forall r, In r rows -> cell r k = VNull) \/
     exists z, x = VInt z /\ In (VInt z) (map (fun r => cell r k) rows) /\
       forall z', In (VInt z') (map (fun r => cell r k) rows) -> if seqb f (u "max") then z' <= z else z <= z').
Proof.
  intros HP HM D Hm Hv Hk Ty Hw Hpt Hr Hf0. pose proof (wm_table kw M HM t m Hm) as W.
  pose proof Hk as (Hc & Hp & n & Hn).
  assert (Hkey : In k (dkeys (t_cols m))) by (apply dget_Some_key with c, Hc).
  rewrite (answer_sim kw E M pdb edb); [|exact HP|exact HM| |exact D].
  2:{ apply frag_select with m; [exact Hm|exact Hv| |exact Hw|exact I].
      do 4 right. exists f, k. split; [exact Hf0|]. split; [reflexivity|]. right. eauto. }
  destruct (D t m Hm) as (pt' & et & D1 & D2 & D3). rewrite Hpt in D1. injection D1 as <-.
  rewrite (exec_sel kw pdb t pt Hpt). unfold exec_select. rewrite Hr. cbn [bind].
  rewrite aggregate_minmax by exact Hf0.
  assert (Hf : forall r, In r rows -> exists v, dget r k = Some v /\ int_or_null v).
  { intros r X. apply (filterM_incl _ _ _ Hr) in X.
    destruct (Forall2_In_l _ _ _ _ (tr_rows _ _ _ _ D3) X) as (er & _ & HR).
    apply (ope_values E m k c r er HR Hc Hp Ty). }
  assert (mapM (fun r => operand kw r (JStr k)) rows = Ok (map (fun r => cell r k) rows)) as ->.
  { clear -Hf W Hkey. induction rows as [|r l IH]; [reflexivity|]. cbn [mapM map].
    destruct (Hf r (or_introl eq_refl)) as (v & Hv & _).
    rewrite (operand_col kw r k v (colname_column kw k (wf_names kw m W k Hkey)) Hv). cbn [bind].
    rewrite IH by (intros x X; apply Hf; right; exact X). unfold cell. rewrite Hv. reflexivity. }
  cbn [bind limit_rows]. rewrite skipn_O. cbn [bind answer snd].
  eexists; split; [reflexivity|].
  assert (FF : Forall int_or_null (map (fun r => cell r k) rows)).
  { apply Forall_forall. intros v X. apply in_map_iff in X as (r & <- & X). destruct (Hf r X) as (v & V1 & V2).
    unfold cell. rewrite V1. exact V2. }
  destruct (extreme_spec (max_better f) (map (fun r => cell r k) rows)) as (X1 & X2 & X3); [| |exact FF|].
  { intros a b Ha Hb. unfold max_better. destruct (seqb f (u "max")); destruct (ascending_total a b Ha Hb); auto. }
  { intros a b d Ha Hb Hd. unfold max_better. destruct (seqb f (u "max")); intros Y1 Y2.
    - apply ascending_trans with b; assumption.
    - apply ascending_trans with b; assumption. }
  destruct (extreme (max_better f) (map (fun r => cell r k) rows)) as [|z| |]; try contradiction.
  - left. split; [reflexivity|]. intros r X. apply X2; [reflexivity|]. apply in_map_iff. eauto.
  - right. exists z. split; [reflexivity|]. destruct (X3 z eq_refl) as [Y1 Y2]. split; [exact Y1|].
    intros z' Z. specialize (Y2 z' Z). unfold max_better in Y2. destruct (seqb f (u "max")); apply vle_int in Y2; try exact I; exact Y2.
Qed.

(** ** C29 *)
Lemma count_rows kw E M pdb edb t m w pt rows :
  prim_ok (e_P E) -> wf_meta kw M -> db_rel E M pdb edb -> dget M t = Some m -> substrb (u "value") t = false ->
  where_ok kw (e_alnum E) m w -> dget pdb t = Some pt -> filterM (selected kw w) (tb_rows pt) = Ok rows ->
  answer (proxy kw E M edb (select_stmt t (val (JDict [(u "count", JStr (u "*"))])) w None None None)) =
  Ok [[VInt (Z.of_nat (length rows))]].
Proof.
  intros HP HM D Hm Hv Hw Hpt Hr.
  rewrite (answer_sim kw E M pdb edb); [|exact HP|exact HM| |exact D].
  2:{ apply frag_select with m; [exact Hm|exact Hv| |exact Hw|exact I]. do 3 right. left. reflexivity. }
  rewrite (exec_sel kw pdb t pt Hpt). unfold exec_select. rewrite Hr. reflexivity.
Qed.

Lemma mapM_skipn {A B} (f : A -> res B) k l l' : mapM f l = Ok l' -> mapM f (skipn k l) = Ok (skipn k l').
Proof.
  revert l l'. induction k as [|k IH]; intros l l' H; [rewrite !skipn_O; exact H|].
  destruct l as [|x l]; [injection H as <-; reflexivity|]. cbn [mapM] in H.
  destruct (f x); [|discriminate]. cbn [bind] in H. destruct (mapM f l) as [r|] eqn:X; [|discriminate].
  injection H as <-. cbn [skipn]. apply IH, X.
Qed.
Lemma mapM_firstn {A B} (f : A -> res B) k l l' : mapM f l = Ok l' -> mapM f (firstn k l) = Ok (firstn k l').
Proof.
  revert l l'. induction k as [|k IH]; intros l l' H; [reflexivity|].
  destruct l as [|x l]; [injection H as <-; reflexivity|]. cbn [mapM] in H.
  destruct (f x) as [y|] eqn:Y; [|discriminate]. cbn [bind] in H. destruct (mapM f l) as [r|] eqn:X; [|discriminate].
  injection H as <-. cbn [firstn mapM]. rewrite Y, (IH l r X). reflexivity.
Qed.

Lemma limit_cut kw E M pdb edb t m sel w o n k rs :
  prim_ok (e_P E) -> wf_meta kw M -> db_rel E M pdb edb -> dget M t = Some m -> substrb (u "value") t = false ->
  select_ok m sel -> where_ok kw (e_alnum E) m w -> order_ok m o ->
  answer (proxy kw E M edb (select_stmt t sel w o None None)) = Ok rs ->
  answer (proxy kw E M edb (select_stmt t sel w o (Some (JInt (Z.of_nat n))) (Some (JInt (Z.of_nat k))))) =
  Ok (firstn n (skipn k rs)).
Proof.
  intros HP HM D Hm Hv Hs Hw Ho.
  rewrite !(answer_sim kw E M pdb edb) by (first [exact HP|exact HM|exact D|apply frag_select with m; assumption]).
  destruct (D t m Hm) as (pt & et & D1 & D2 & D3). rewrite !(exec_sel kw pdb t pt D1). unfold answer, exec_select.
  destruct (filterM (selected kw w) (tb_rows pt)) as [rows|]; [|discriminate]. cbn [bind].
  assert (C : forall i, count_of (JInt (Z.of_nat i)) = Ok i).
  { intros i. cbn [count_of]. destruct (Z.leb_spec 0 (Z.of_nat i)); [rewrite Nat2Z.id; reflexivity | lia]. }
  destruct (aggregate kw rows sel) as [[x|e]|].
  - cbn [bind]. unfold limit_rows. rewrite !C. cbn [bind]. rewrite skipn_O. cbn [bind snd]. intros [= <-]. reflexivity.
  - discriminate.
  - destruct (order_rows kw o rows) as [rows1|]; [|discriminate]. cbn [bind].
    unfold limit_rows. rewrite !C. cbn [bind]. rewrite skipn_O. cbn [bind].
    match goal with |- context [mapM ?f rows1] => set (g := f) end.
    destruct (mapM g rows1) as [l|] eqn:X; [|discriminate]. cbn [bind snd]. intros [= <-].
    rewrite (mapM_firstn g n _ _ (mapM_skipn g k _ _ X)). reflexivity.
Qed.
