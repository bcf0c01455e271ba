(** Proofs about the type of a statement. *)
From Coq Require Import String Ascii List NArith ZArith Bool Lia ZifyBool ZifyNat ZifyN.
From Verif Require Import Base BaseProof ExecModel ClassifyModel ClassifySpec.
Import ListNotations.

Definition mk (i : nat) (t : tok) : sqltok :=
  mkSql i (unquoted (t_text t)) (t_comment t) (seqb (t_text t) (u "(")).
Fixpoint number (i : nat) (l : list tok) : list sqltok :=
  match l with [] => [] | t :: r => mk i t :: number (S i) r end.

Lemma number_app a : forall i b, number i (a ++ b) = number i a ++ number (i + length a) b.
Proof.
  induction a as [|t a IH]; intros i b; cbn [number app length].
  - rewrite Nat.add_0_r. reflexivity.
  - rewrite IH. f_equal. f_equal. f_equal. lia.
Qed.

Lemma is_dot_false t : t_text t <> u "." -> is_dot t = false.
Proof. intros H. unfold is_dot. apply seqb_neq. exact H. Qed.

Lemma loop_total all : forall l i flag acc, acc <> [] -> exists tail, token_loop all i flag acc l = Ok (rev acc ++ tail).
Proof.
  induction l as [|t l IH]; intros i flag acc Ha; cbn [token_loop].
  - exists []. rewrite app_nil_r. reflexivity.
  - destruct (part_of_name t l).
    + apply IH. exact Ha.
    + cbv zeta.
      set (s := mkSql _ _ _ _).
      assert (G : exists tail, token_loop all (S i) false (s :: acc) l = Ok (rev acc ++ tail)).
      { destruct (IH (S i) false (s :: acc)) as [tail E]; [discriminate|].
        exists (s :: tail). rewrite E. cbn [rev]. rewrite <- app_assoc. reflexivity. }
      destruct i; [exact G|]. destruct acc; [congruence|exact G].
Qed.

Lemma loop_prefix all : forall p rest i acc, Forall (fun t => t_text t <> u ".") p -> ~ starts_dotted rest ->
  (i = 0%nat \/ acc <> []) -> p <> [] ->
  exists tail, token_loop all i false acc (p ++ rest) = Ok (rev acc ++ number i p ++ tail).
Proof.
  induction p as [|t p IH]; intros rest i acc Hp Hr Hi Hn; [congruence|].
  inversion Hp as [|? ? Ht Hp']; subst.
  cbn [app token_loop].
  assert (P : part_of_name t (p ++ rest) = false).
  { unfold part_of_name. rewrite (is_dot_false _ Ht). cbn [orb].
    destruct p as [|t' p'].
    - cbn [app]. destruct rest as [|t' rest']; [reflexivity|]. apply is_dot_false. intros E.
      apply Hr. exists t', rest'. split; [reflexivity|exact E].
    - cbn [app]. inversion Hp'; subst. apply is_dot_false. assumption. }
  rewrite P. cbv zeta.
  assert (G : exists tail, token_loop all (S i) false (mk i t :: acc) (p ++ rest) =
                Ok (rev acc ++ number i (t :: p) ++ tail)).
  { destruct p as [|t' p'].
    - cbn [app]. destruct (loop_total all rest (S i) false (mk i t :: acc)) as [tail E]; [discriminate|].
      exists tail. rewrite E. cbn [rev number]. rewrite <- app_assoc. reflexivity.
    - destruct (IH rest (S i) (mk i t :: acc) Hp' Hr) as [tail E]; [right; discriminate|discriminate|].
      exists tail. rewrite E. cbn [rev]. rewrite <- app_assoc. reflexivity. }
  fold (mk i t).
  destruct i; [exact G|]. destruct acc; [destruct Hi; congruence|exact G].
Qed.

Lemma sql_tokens_prefix p rest : Forall (fun t => t_text t <> u ".") p -> ~ starts_dotted rest -> p <> [] ->
  exists tail, sql_tokens (p ++ rest) = Ok (number 0 p ++ tail).
Proof.
  intros Hp Hr Hn. unfold sql_tokens.
  destruct (loop_prefix (p ++ rest) p rest 0 [] Hp Hr (or_introl eq_refl) Hn) as [tail E].
  exists tail. exact E.
Qed.

Lemma sql_tokens_whole p : Forall (fun t => t_text t <> u ".") p -> p <> [] -> sql_tokens p = Ok (number 0 p).
Proof.
  intros Hp Hn. unfold sql_tokens.
  assert (G : forall all p i acc, Forall (fun t => t_text t <> u ".") p -> (i = 0%nat \/ acc <> []) ->
    token_loop all i false acc p = Ok (rev acc ++ number i p)).
  { clear. induction p as [|t p IH]; intros i acc Hp Hi; cbn [token_loop number].
    - rewrite app_nil_r. reflexivity.
    - inversion Hp as [|? ? Ht Hp']; subst.
      assert (P : part_of_name t p = false).
      { unfold part_of_name. rewrite (is_dot_false _ Ht). cbn [orb].
        destruct p as [|t' p']; [reflexivity|]. inversion Hp'; subst. apply is_dot_false. assumption. }
      rewrite P. cbv zeta. fold (mk i t).
      assert (G : token_loop all (S i) false (mk i t :: acc) p = Ok (rev acc ++ mk i t :: number (S i) p)).
      { rewrite IH; [|exact Hp'|right; discriminate]. cbn [rev]. rewrite <- app_assoc. reflexivity. }
      destruct i; [exact G|]. destruct acc; [destruct Hi; congruence|exact G]. }
  rewrite (G p p 0%nat [] Hp (or_introl eq_refl)). reflexivity.
Qed.

Definition noncomment (s : sqltok) : bool := negb (s_comment s).

Lemma comments_plain cs : comments cs -> Forall (fun t => t_text t <> u ".") cs.
Proof. intros H. eapply Forall_impl; [|exact H]. cbv beta. tauto. Qed.
Lemma filter_comments cs : comments cs -> forall i, filter noncomment (number i cs) = [].
Proof.
  intros H. induction H as [|t cs [Hc _] _ IH]; intros i; [reflexivity|].
  cbn [number filter]. unfold noncomment at 1. cbn [mk s_comment]. rewrite Hc. cbn [negb]. apply IH.
Qed.
Lemma after_comments cs : comments cs -> forall i l, after_first (number i cs ++ l) = after_first l.
Proof.
  intros H. induction H as [|t cs [Hc _] _ IH]; intros i l; [reflexivity|].
  cbn [number app after_first mk s_comment]. rewrite Hc. apply IH.
Qed.
Lemma after_noncomment i t l : t_comment t = false -> after_first (mk i t :: l) = l.
Proof. intros H. cbn [after_first mk s_comment]. rewrite H. reflexivity. Qed.
Lemma filter_word i f l : t_comment f = false -> filter noncomment (mk i f :: l) = mk i f :: filter noncomment l.
Proof. intros H. cbn [filter]. unfold noncomment at 1. cbn [mk s_comment]. rewrite H. reflexivity. Qed.

Lemma lookup_decides k : decides k (lookup k).
Proof.
  unfold decides, lookup. split.
  - intros t H. unfold accepted in H. cbn [In] in H.
    repeat (destruct H as [H|H]; [injection H as <- <-; reflexivity|]). contradiction.
  - intros H. destruct (dget supported k) as [t|] eqn:E; [|reflexivity].
    exfalso. apply dget_In in E. apply (H t). exact E.
Qed.

Lemma unsupported k : dget supported k = None -> forall t, ~ accepted k t.
Proof.
  intros G t H. apply dget_None in G. apply G. unfold dkeys. apply (in_map fst) in H. exact H.
Qed.

Lemma smem_two k : smem k [u "CREATE"; u "ALTER"] = true <-> two_word k.
Proof.
  unfold two_word. rewrite smem_In. cbn [In]. intuition congruence.
Qed.

(** The value decided by the token [t] at index [i] of the tokens without comments. *)
Definition decided (uc : N -> pystr) (tokens : list sqltok) (index : Z) : res qtype :=
  do t <- pyindex tokens index;
  let k := normalized uc (s_value t) in
  if smem k [u "CREATE"; u "ALTER"]
  then do t' <- pyindex tokens (index + 1); lookup (k ++ normalized uc (s_value t'))
  else lookup k.

Lemma query_type_eq uc l all t0 ts : sql_tokens l = Ok all -> filter noncomment all = t0 :: ts ->
  query_type uc l =
  decided uc (t0 :: ts) (if s_lpar t0 then nearest_position (after_first all) else 0%Z).
Proof.
  intros E F. unfold query_type. rewrite E. cbn [bind]. cbv zeta. unfold noncomment in F. rewrite F. reflexivity.
Qed.

Lemma pyindex_nat {A} (l : list A) (i : nat) x : nth_error l i = Some x -> pyindex l (Z.of_nat i) = Ok x.
Proof.
  intros H. unfold pyindex. cbv zeta.
  destruct (Z.ltb_spec (Z.of_nat i) 0); [lia|].
  destruct (Z.ltb_spec (Z.of_nat i) 0); [lia|].
  rewrite Nat2Z.id, H. reflexivity.
Qed.

Lemma decided_at uc tokens (i : nat) t : nth_error tokens i = Some t -> ~ two_word (normalized uc (s_value t)) ->
  decided uc tokens (Z.of_nat i) = lookup (normalized uc (s_value t)).
Proof.
  intros H N. unfold decided. rewrite (pyindex_nat _ _ _ H). cbn [bind]. cbv zeta.
  destruct (smem _ _) eqn:E; [|reflexivity]. apply smem_two in E. contradiction.
Qed.
Lemma decided_two uc tokens (i : nat) t t' : nth_error tokens i = Some t -> nth_error tokens (S i) = Some t' ->
  two_word (normalized uc (s_value t)) ->
  decided uc tokens (Z.of_nat i) = lookup (normalized uc (s_value t) ++ normalized uc (s_value t')).
Proof.
  intros H H' N. unfold decided. rewrite (pyindex_nat _ _ _ H). cbn [bind]. cbv zeta.
  apply smem_two in N. rewrite N.
  replace (Z.of_nat i + 1)%Z with (Z.of_nat (S i)) by lia. rewrite (pyindex_nat _ _ _ H'). reflexivity.
Qed.
Lemma decided_short uc tokens (i : nat) t : nth_error tokens i = Some t -> nth_error tokens (S i) = None ->
  two_word (normalized uc (s_value t)) -> decided uc tokens (Z.of_nat i) = Err IndexError.
Proof.
  intros H H' N. unfold decided. rewrite (pyindex_nat _ _ _ H). cbn [bind]. cbv zeta.
  apply smem_two in N. rewrite N.
  unfold pyindex. cbv zeta.
  destruct (Z.ltb_spec (Z.of_nat i + 1) 0); [lia|]. destruct (Z.ltb_spec (Z.of_nat i + 1) 0); [lia|].
  replace (Z.to_nat (Z.of_nat i + 1)) with (S i) by lia. rewrite H'. reflexivity.
Qed.

(** The tokens of a statement [cs ++ f :: rest]. *)
Lemma first_tokens cs f rest : comments cs -> word f rest ->
  exists tail, sql_tokens (cs ++ f :: rest) = Ok (number 0 cs ++ mk (length cs) f :: tail).
Proof.
  intros Hc (Hf & Hd & Hr).
  destruct (sql_tokens_prefix (cs ++ [f]) rest) as [tail E].
  - apply Forall_app. split; [apply comments_plain; exact Hc|]. constructor; [exact Hd|constructor].
  - exact Hr.
  - destruct cs; discriminate.
  - exists tail. rewrite <- app_assoc in E. cbn [app] in E. rewrite E. rewrite number_app.
    cbn [number]. rewrite <- app_assoc. reflexivity.
Qed.

Lemma first_keyword uc cs f rest : comments cs -> word f rest -> t_text f <> u "(" -> ~ two_word (kw uc f) ->
  decides (kw uc f) (query_type uc (cs ++ f :: rest)).
Proof.
  intros Hc Hw Hp Ht.
  destruct (first_tokens cs f rest Hc Hw) as [tail E]. destruct Hw as (Hf & Hd & Hr).
  erewrite query_type_eq; [|exact E|].
  2:{ rewrite filter_app, (filter_comments _ Hc). cbn [app]. apply filter_word. exact Hf. }
  cbn [mk s_lpar]. rewrite (proj2 (seqb_neq _ _) Hp).
  change 0%Z with (Z.of_nat 0). erewrite decided_at; [|reflexivity|exact Ht].
  apply lookup_decides.
Qed.

Lemma two_tokens cs f cs2 g rest : comments cs -> comments cs2 -> t_comment f = false -> t_text f <> u "." ->
  word g rest ->
  exists tail, sql_tokens (cs ++ f :: cs2 ++ g :: rest) =
    Ok (number 0 cs ++ mk (length cs) f :: number (S (length cs)) cs2 ++ mk (S (length cs) + length cs2) g :: tail).
Proof.
  intros Hc Hc2 Hf Hfd (Hg & Hd & Hr).
  destruct (sql_tokens_prefix (cs ++ f :: cs2 ++ [g]) rest) as [tail E].
  - apply Forall_app. split; [apply comments_plain; exact Hc|]. constructor; [exact Hfd|].
    apply Forall_app. split; [apply comments_plain; exact Hc2|]. constructor; [exact Hd|constructor].
  - exact Hr.
  - destruct cs; discriminate.
  - exists tail. rewrite <- app_assoc in E. cbn [app] in E. rewrite <- app_assoc in E. cbn [app] in E.
    rewrite E. rewrite number_app. cbn [number]. rewrite number_app. cbn [number].
    rewrite <- app_assoc. cbn [app]. rewrite <- app_assoc. cbn [app Nat.add]. reflexivity.
Qed.

Lemma first_two_keywords uc cs f cs2 g rest : comments cs -> comments cs2 ->
  t_comment f = false -> two_word (kw uc f) -> t_text f <> u "." -> t_text f <> u "(" -> word g rest ->
  decides (kw uc f ++ kw uc g) (query_type uc (cs ++ f :: cs2 ++ g :: rest)).
Proof.
  intros Hc Hc2 Hf Ht Hfd Hp Hw.
  destruct (two_tokens cs f cs2 g rest Hc Hc2 Hf Hfd Hw) as [tail E]. destruct Hw as (Hg & Hd & Hr).
  erewrite query_type_eq; [|exact E|].
  2:{ rewrite filter_app, (filter_comments _ Hc). cbn [app]. rewrite filter_word by exact Hf. reflexivity. }
  cbn [s_lpar mk]. rewrite (proj2 (seqb_neq _ _) Hp).
  rewrite filter_app, (filter_comments _ Hc2). cbn [app]. rewrite filter_word by exact Hg.
  change 0%Z with (Z.of_nat 0).
  erewrite decided_two; [|reflexivity|reflexivity|exact Ht].
  apply lookup_decides.
Qed.

Lemma lone_keyword uc cs f cs2 : comments cs -> comments cs2 ->
  t_comment f = false -> two_word (kw uc f) -> t_text f <> u "." -> t_text f <> u "(" ->
  query_type uc (cs ++ f :: cs2) = Err IndexError.
Proof.
  intros Hc Hc2 Hf Ht Hd Hp.
  assert (E : sql_tokens (cs ++ f :: cs2) = Ok (number 0 cs ++ mk (length cs) f :: number (S (length cs)) cs2)).
  { rewrite sql_tokens_whole.
    - rewrite number_app. reflexivity.
    - apply Forall_app. split; [apply comments_plain; exact Hc|]. constructor; [exact Hd|apply comments_plain; exact Hc2].
    - destruct cs; discriminate. }
  erewrite query_type_eq; [|exact E|].
  2:{ rewrite filter_app, (filter_comments _ Hc). cbn [app]. rewrite filter_word by exact Hf.
      rewrite (filter_comments _ Hc2). reflexivity. }
  cbn [mk s_lpar]. rewrite (proj2 (seqb_neq _ _) Hp). change 0%Z with (Z.of_nat 0).
  eapply decided_short; [reflexivity|reflexivity|exact Ht].
Qed.

Lemma only_comments uc cs : comments cs -> query_type uc cs = Err ValueError.
Proof.
  intros Hc. destruct cs as [|c cs]; [reflexivity|].
  unfold query_type. rewrite sql_tokens_whole; [|apply comments_plain; exact Hc|discriminate].
  cbn [bind]. cbv zeta. change (filter _ (number 0 (c :: cs))) with (filter noncomment (number 0 (c :: cs))).
  rewrite (filter_comments _ Hc). reflexivity.
Qed.

(** A statement that begins with a qualified name. *)
Lemma dotted_start uc f g rest : t_text f <> u "." -> t_text g <> u "." -> ~ starts_dotted rest ->
  query_type uc (f :: mkTok (u ".") false :: g :: rest) = Err IndexError.
Proof.
  intros Hf Hg Hr. unfold query_type, sql_tokens. cbn [token_loop].
  assert (P1 : part_of_name f (mkTok (u ".") false :: g :: rest) = true).
  { unfold part_of_name. cbn [is_dot t_text]. rewrite orb_true_r. reflexivity. }
  assert (P3 : part_of_name g rest = false).
  { unfold part_of_name. rewrite (is_dot_false _ Hg). cbn [orb].
    destruct rest as [|t r]; [reflexivity|]. apply is_dot_false. intros E. apply Hr. exists t, r. split; [reflexivity|exact E]. }
  rewrite P1, P3. reflexivity.
Qed.

(** Left parentheses. *)
Lemma number_repeat m : forall i, filter noncomment (number i (repeat lpar m)) = number i (repeat lpar m).
Proof. induction m as [|m IH]; intros i; [reflexivity|]. cbn [repeat number]. rewrite filter_word by reflexivity. rewrite IH. reflexivity. Qed.
Lemma find_parens m : forall i l, find (fun s => negb (s_lpar s)) (number i (repeat lpar m) ++ l) =
  find (fun s => negb (s_lpar s)) l.
Proof.
  induction m as [|m IH]; intros i l; [reflexivity|].
  cbn [repeat number app find mk s_lpar]. change (seqb (t_text lpar) (u "(")) with true. cbn [negb]. apply IH.
Qed.
Lemma repeat_plain m : Forall (fun t => t_text t <> u ".") (repeat lpar m).
Proof. apply Forall_forall. intros t H. apply repeat_spec in H. subst t. discriminate. Qed.
Lemma number_length l : forall i, length (number i l) = length l.
Proof. induction l as [|t l IH]; intros i; [reflexivity|]. cbn [number length]. rewrite IH. reflexivity. Qed.

Definition not_paren (t : tok) : Prop := t_text t <> u "(".

Lemma parenthesised uc m cs f rest : comments cs -> Forall not_paren cs -> word f rest -> not_paren f ->
  ~ two_word (kw uc f) ->
  decides (kw uc f) (query_type uc (repeat lpar (S m) ++ cs ++ f :: rest)).
Proof.
  intros Hc Hcp (Hf & Hd & Hr) Hp Ht.
  set (p := repeat lpar (S m) ++ cs ++ [f]).
  destruct (sql_tokens_prefix p rest) as [tail E].
  - unfold p. apply Forall_app. split; [apply repeat_plain|]. apply Forall_app.
    split; [apply comments_plain; exact Hc|]. constructor; [exact Hd|constructor].
  - exact Hr.
  - discriminate.
  - assert (E' : sql_tokens (repeat lpar (S m) ++ cs ++ f :: rest) =
      Ok (number 0 (repeat lpar (S m)) ++ number (S m) cs ++ mk (S m + length cs) f :: tail)).
    { unfold p in E. rewrite <- !app_assoc in E. cbn [app] in E. rewrite E.
      rewrite number_app, repeat_length, number_app. cbn [number Nat.add]. rewrite <- !app_assoc. reflexivity. }
    clear E.
    erewrite query_type_eq; [|exact E'|].
    2:{ rewrite filter_app, number_repeat, filter_app, (filter_comments _ Hc). cbn [app].
        rewrite filter_word by exact Hf. cbn [repeat number app]. reflexivity. }
    cbn [s_lpar mk]. change (seqb (t_text lpar) (u "(")) with true. cbv iota.
    assert (Ep : nearest_position (after_first (number 0 (repeat lpar (S m)) ++ number (S m) cs ++
               mk (S m + length cs) f :: tail)) = Z.of_nat (S m)).
    { cbn [repeat number app]. rewrite after_noncomment by reflexivity.
      unfold nearest_position. rewrite find_parens.
      destruct cs as [|c cs].
      - cbn [number app length find mk s_lpar]. rewrite (proj2 (seqb_neq _ _) Hp). cbn [negb].
        rewrite Nat.add_0_r. reflexivity.
      - inversion Hcp as [|? ? H1 _]; subst. cbn [number app find mk s_lpar].
        rewrite (proj2 (seqb_neq _ _) H1). reflexivity. }
    rewrite Ep. rewrite (decided_at uc _ (S m) (mk (S m + length cs) f)).
    + apply lookup_decides.
    + cbn [nth_error].
      rewrite nth_error_app2; rewrite number_length, repeat_length; [|lia].
      rewrite Nat.sub_diag. reflexivity.
    + exact Ht.
Qed.

Lemma nth_error_S' {A} (x : A) l n : nth_error (x :: l) (S n) = nth_error l n.
Proof. reflexivity. Qed.

(** A comment in front of the parenthesis: the index is off by the number of comments. *)
Lemma comment_then_paren uc c m f g rest : comments [c] ->
  t_comment f = false -> t_text f <> u "." -> not_paren f -> word g rest -> ~ two_word (kw uc g) ->
  decides (kw uc g) (query_type uc (c :: repeat lpar (S m) ++ f :: g :: rest)).
Proof.
  intros Hc Hf Hd Hp (Hg & Hgd & Hr) Ht.
  set (p := c :: repeat lpar (S m) ++ [f; g]).
  destruct (sql_tokens_prefix p rest) as [tail E].
  - unfold p. constructor; [apply (Forall_inv (comments_plain _ Hc))|].
    apply Forall_app. split; [apply repeat_plain|]. constructor; [exact Hd|constructor; [exact Hgd|constructor]].
  - exact Hr.
  - discriminate.
  - assert (E' : sql_tokens (c :: repeat lpar (S m) ++ f :: g :: rest) =
      Ok (mk 0 c :: number 1 (repeat lpar (S m)) ++ mk (S (S m)) f :: mk (S (S (S m))) g :: tail)).
    { unfold p in E. cbn [app] in E. rewrite <- !app_assoc in E. cbn [app] in E. rewrite E.
      cbn [number]. rewrite number_app, repeat_length. cbn [number Nat.add app]. rewrite <- app_assoc. reflexivity. }
    clear E. pose proof (Forall_inv Hc) as [Hcc _].
    erewrite query_type_eq; [|exact E'|].
    2:{ cbn [filter]. unfold noncomment at 1. cbn [mk s_comment]. rewrite Hcc. cbn [negb].
        fold noncomment. rewrite filter_app, number_repeat.
        fold (mk (S (S m)) f). fold (mk (S (S (S m))) g).
        rewrite filter_word by exact Hf. rewrite filter_word by exact Hg. cbn [repeat number app]. reflexivity. }
    cbn [s_lpar mk]. change (seqb (t_text lpar) (u "(")) with true. cbv iota.
    assert (Ep : nearest_position (after_first (mk 0 c :: number 1 (repeat lpar (S m)) ++ mk (S (S m)) f ::
               mk (S (S (S m))) g :: tail)) = Z.of_nat (S (S m))).
    { cbn [after_first mk s_comment]. rewrite Hcc. cbn [repeat number app].
      rewrite after_noncomment by reflexivity. unfold nearest_position. rewrite find_parens.
      cbn [find mk s_lpar]. rewrite (proj2 (seqb_neq _ _) Hp). reflexivity. }
    change (mkSql 0 (unquoted (t_text c)) (t_comment c) (seqb (t_text c) (u "("))) with (mk 0 c).
    change (mkSql (S (S m)) (unquoted (t_text f)) (t_comment f) (seqb (t_text f) (u "("))) with (mk (S (S m)) f).
    change (mkSql (S (S (S m))) (unquoted (t_text g)) (t_comment g) (seqb (t_text g) (u "("))) with (mk (S (S (S m))) g).
    rewrite Ep. rewrite (decided_at uc _ (S (S m)) (mk (S (S (S m))) g)).
    + apply lookup_decides.
    + rewrite nth_error_S'.
      rewrite nth_error_app2; rewrite number_length, repeat_length; [|lia].
      replace (S m - m)%nat with 1%nat by lia. reflexivity.
    + exact Ht.
Qed.

(** Letter case. *)
Lemma forall2_rev {A B} (R : A -> B -> Prop) l l' : Forall2 R l l' -> Forall2 R (rev l) (rev l').
Proof.
  intros H. induction H as [|a b l l' E H IH]; [constructor|]. cbn [rev]. apply Forall2_app; [exact IH|].
  constructor; [exact E|constructor].
Qed.
Lemma forall2_len {A B} (R : A -> B -> Prop) l l' : Forall2 R l l' -> length l = length l'.
Proof. intros H. induction H; [reflexivity|]. cbn [length]. congruence. Qed.

Section Case.
Context (uc : N -> pystr) (Hu : caseless uc).
Notation st := (same_text uc).

Lemma eqb_case c x y : In c [96; 34; 46; 40; 32; 10; 9; 13]%N -> uc x = uc y -> N.eqb x c = N.eqb y c.
Proof.
  intros Hc E. destruct (N.eqb_spec x c) as [->|Hx].
  - rewrite (Hu c y Hc (eq_sym E)). symmetry. apply N.eqb_refl.
  - symmetry. apply N.eqb_neq. intros ->. apply Hx. exact (Hu c x Hc E).
Qed.

Lemma lstrip_case c a b : In c [96; 34; 46; 40; 32; 10; 9; 13]%N -> st a b -> st (lstrip c a) (lstrip c b).
Proof.
  intros Hc H. induction H as [|x y a b E H IH]; [constructor|].
  cbn [lstrip]. rewrite (eqb_case c x y Hc E). destruct (N.eqb y c); [exact IH|constructor; assumption].
Qed.
Lemma rstrip_case c a b : In c [96; 34; 46; 40; 32; 10; 9; 13]%N -> st a b -> st (rstrip c a) (rstrip c b).
Proof.
  intros Hc H. induction H as [|x y a b E H IH]; [constructor|].
  cbn [rstrip]. inversion IH as [|x' y' a' b' E' H' Ea Eb].
  - rewrite (eqb_case c x y Hc E). destruct (N.eqb y c); constructor; [exact E|constructor].
  - constructor; [exact E|]. rewrite Ea, Eb. exact IH.
Qed.
Lemma unquoted_case a b : st a b -> st (unquoted a) (unquoted b).
Proof.
  intros H. unfold unquoted.
  apply rstrip_case; [cbn; tauto|]. apply lstrip_case; [cbn; tauto|].
  apply rstrip_case; [cbn; tauto|]. apply lstrip_case; [cbn; tauto|]. exact H.
Qed.
Lemma seqb_case c a b : In c [96; 34; 46; 40; 32; 10; 9; 13]%N -> st a b -> seqb a [c] = seqb b [c].
Proof.
  intros Hc H. inversion H as [|x y a' b' E H']; [reflexivity|]. subst. cbn [seqb].
  rewrite (eqb_case c x y Hc E). inversion H'; subst; reflexivity.
Qed.
Lemma blank_case x y : uc x = uc y -> is_blank x = is_blank y.
Proof.
  intros E. unfold is_blank.
  rewrite (eqb_case 32 x y), (eqb_case 10 x y), (eqb_case 9 x y), (eqb_case 13 x y); try exact E; try (cbn; tauto).
Qed.
Lemma normalized_case a b : st a b -> normalized uc a = normalized uc b.
Proof.
  intros H. unfold normalized. induction H as [|x y a b E H IH]; [reflexivity|].
  cbn [filter]. rewrite (blank_case x y E). destruct (is_blank y); cbn [negb]; [exact IH|].
  cbn [flat_map]. rewrite E, IH. reflexivity.
Qed.
Lemma same_text_app a b c d : st a b -> st c d -> st (a ++ c) (b ++ d).
Proof. intros H G. apply Forall2_app; assumption. Qed.
Lemma same_text_refl a : st a a.
Proof. induction a; constructor; [reflexivity|assumption]. Qed.

Definition same_sql (a b : sqltok) : Prop :=
  s_pos a = s_pos b /\ st (s_value a) (s_value b) /\ s_comment a = s_comment b /\ s_lpar a = s_lpar b.

Lemma dot_case a b : same_tok uc a b -> is_dot a = is_dot b.
Proof. intros [H _]. unfold is_dot. apply (seqb_case 46); [cbn; tauto|exact H]. Qed.
Lemma part_case a b r r' : same_tok uc a b -> Forall2 (same_tok uc) r r' -> part_of_name a r = part_of_name b r'.
Proof.
  intros H G. unfold part_of_name. rewrite (dot_case a b H). f_equal.
  inversion G as [|x y ? ? E]; [reflexivity|]. apply dot_case. exact E.
Qed.
Lemma nth_error_case l l' i : Forall2 (same_tok uc) l l' ->
  match nth_error l i, nth_error l' i with
  | Some a, Some b => same_tok uc a b | None, None => True | _, _ => False end.
Proof.
  intros H. revert i. induction H as [|a b l l' E H IH]; intros [|i]; cbn [nth_error]; try exact I; [exact E|apply IH].
Qed.
Lemma combine_case all all' : Forall2 (same_tok uc) all all' -> forall n i v v', (i <= n)%nat -> st v v' ->
  st (combine_names all i v) (combine_names all' i v').
Proof.
  intros H. induction n as [|n IH]; intros i v v' Hi G; destruct i as [|[|j]]; try exact G; [lia|].
  cbn [combine_names].
  pose proof (nth_error_case all all' (S j) H) as H1. pose proof (nth_error_case all all' j H) as H2.
  destruct (nth_error all (S j)) as [d|], (nth_error all' (S j)) as [d'|]; try contradiction; [|exact G].
  destruct (nth_error all j) as [p|], (nth_error all' j) as [p'|]; try contradiction; [|exact G].
  rewrite (dot_case d d' H1). destruct (is_dot d'); [|exact G].
  apply IH; [lia|]. apply same_text_app; [apply unquoted_case; apply H2|].
  apply same_text_app; [apply same_text_refl|exact G].
Qed.

Definition same_res (a b : res (list sqltok)) : Prop :=
  match a, b with Ok x, Ok y => Forall2 same_sql x y | Err e, Err e' => e = e' | _, _ => False end.

Lemma loop_case all all' : Forall2 (same_tok uc) all all' -> forall l l', Forall2 (same_tok uc) l l' ->
  forall i flag acc acc', Forall2 same_sql acc acc' ->
  same_res (token_loop all i flag acc l) (token_loop all' i flag acc' l').
Proof.
  intros Ha l l' H. induction H as [|a b l l' E H IH]; intros i flag acc acc' Hacc.
  - cbn [token_loop same_res]. apply forall2_rev. exact Hacc.
  - cbn [token_loop]. rewrite (part_case a b l l' E H).
    destruct (part_of_name b l'); [apply IH; exact Hacc|]. cbv zeta.
    set (s := mkSql i _ (t_comment a) _). set (s' := mkSql i _ (t_comment b) _).
    assert (Es : same_sql s s').
    { destruct E as [E1 E2]. unfold s, s'. repeat split; cbn [s_value s_comment s_lpar].
      - destruct flag; [|apply unquoted_case; exact E1].
        eapply combine_case; [exact Ha|apply Nat.le_refl|apply unquoted_case; exact E1].
      - exact E2.
      - apply (seqb_case 40); [cbn; tauto|exact E1]. }
    assert (G : same_res (token_loop all (S i) false (s :: acc) l) (token_loop all' (S i) false (s' :: acc') l')).
    { apply IH. constructor; assumption. }
    destruct i; [exact G|]. inversion Hacc; subst; [reflexivity|exact G].
Qed.

Lemma after_case l l' : Forall2 same_sql l l' -> Forall2 same_sql (after_first l) (after_first l').
Proof.
  intros H. induction H as [|a b l l' E H IH]; [constructor|]. cbn [after_first].
  destruct E as (_ & _ & E & _). rewrite E. destruct (s_comment b); [exact IH|exact H].
Qed.
Lemma filter_case l l' : Forall2 same_sql l l' ->
  Forall2 same_sql (filter (fun s => negb (s_comment s)) l) (filter (fun s => negb (s_comment s)) l').
Proof.
  intros H. induction H as [|a b l l' E H IH]; [constructor|]. cbn [filter].
  destruct (E) as (_ & _ & E' & _). rewrite E'. destruct (s_comment b); cbn [negb]; [exact IH|constructor; assumption].
Qed.
Lemma nearest_case l l' : Forall2 same_sql l l' -> nearest_position l = nearest_position l'.
Proof.
  intros H. unfold nearest_position. induction H as [|a b l l' E H IH]; [reflexivity|]. cbn [find].
  destruct E as (E1 & _ & _ & E4). rewrite E4. destruct (s_lpar b); cbn [negb]; [exact IH|]. rewrite E1. reflexivity.
Qed.
Lemma pyindex_case l l' i : Forall2 same_sql l l' ->
  match pyindex l i, pyindex l' i with Ok a, Ok b => same_sql a b | Err e, Err e' => e = e' | _, _ => False end.
Proof.
  intros H. unfold pyindex. cbv zeta. rewrite (forall2_len _ _ _ H).
  destruct (Z.ltb _ 0); [reflexivity|].
  generalize (Z.to_nat (if (i <? 0)%Z then (i + Z.of_nat (length l'))%Z else i)). clear i. intros i.
  revert i. induction H as [|a b l l' E H IH]; intros [|i]; cbn [nth_error]; try reflexivity; [exact E|apply IH].
Qed.

Lemma query_type_case l l' : Forall2 (same_tok uc) l l' -> query_type uc l = query_type uc l'.
Proof.
  intros H. unfold query_type, sql_tokens.
  pose proof (loop_case l l' H l l' H 0 false [] [] (Forall2_nil _)) as G.
  destruct (token_loop l 0 false [] l) as [x|e], (token_loop l' 0 false [] l') as [y|e']; cbn [same_res] in G;
    try contradiction; [|subst; reflexivity].
  cbn [bind]. cbv zeta.
  pose proof (filter_case x y G) as F. pose proof (nearest_case _ _ (after_case x y G)) as P.
  destruct (filter (fun s => negb (s_comment s)) x) as [|t0 ts];
    destruct (filter (fun s => negb (s_comment s)) y) as [|t0' ts']; try (inversion F; fail); [reflexivity|].
  assert (E0 : s_lpar t0 = s_lpar t0') by (inversion F as [|? ? ? ? E]; subst; apply E).
  rewrite E0, P.
  set (ix := if s_lpar t0' then _ else _).
  pose proof (pyindex_case _ _ ix F) as P1.
  destruct (pyindex (t0 :: ts) ix) as [t|e], (pyindex (t0' :: ts') ix) as [t'|e']; try contradiction; [|subst; reflexivity].
  cbn [bind]. cbv zeta.
  destruct P1 as (_ & P1 & _). rewrite (normalized_case _ _ P1).
  destruct (smem _ _); [|reflexivity].
  pose proof (pyindex_case _ _ (ix + 1)%Z F) as P2.
  destruct (pyindex (t0 :: ts) (ix + 1)) as [t2|e], (pyindex (t0' :: ts') (ix + 1)) as [t2'|e']; try contradiction; [|subst; reflexivity].
  cbn [bind]. destruct P2 as (_ & P2 & _). rewrite (normalized_case _ _ P2). reflexivity.
Qed.
End Case.

Lemma ascii_caseless : caseless ascii_up.
Proof.
  intros c d Hc E. unfold ascii_up in E. injection E as E. cbn [In] in Hc.
  repeat (destruct Hc as [<-|Hc]; [cbn in E; destruct (N.leb_spec 97 d), (N.leb_spec d 122); cbn in E; lia|]). contradiction.
Qed.
