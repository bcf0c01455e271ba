(** Proofs about the web front end. *)
From Coq Require Import String Ascii List NArith ZArith Bool Lia ZifyBool ZifyNat ZifyN Sorted Permutation.
From Verif Require Import Base BaseProof JsonText JsonTextProof FrontModel FrontSpec.
Import ListNotations.

(** ** Trailing semicolons *)

Lemma strip_loop_clean {A} (semi : A -> bool) n q x :
  semi x = false -> strip_loop semi (S n) (q ++ [x]) = Ok (q ++ [x]).
Proof. intros H. cbn [strip_loop]. rewrite rev_app_distr. cbn. rewrite H. reflexivity. Qed.

Lemma strip_loop_semi {A} (semi : A -> bool) n q x :
  semi x = true -> strip_loop semi (S n) (q ++ [x]) = strip_loop semi n q.
Proof.
  intros H. cbn [strip_loop]. rewrite rev_app_distr. cbn. rewrite H, removelast_last. reflexivity.
Qed.

Lemma repeat_snoc {A} (x : A) n : repeat x (S n) = repeat x n ++ [x].
Proof. induction n; [reflexivity|]. cbn [repeat app]. f_equal. exact IHn. Qed.

Lemma strip_all n : strip_semis (fun c => N.eqb c 59) (repeat 59%N n) = Err IndexError.
Proof.
  unfold strip_semis. rewrite repeat_length.
  induction n as [|n IH]; [reflexivity|].
  rewrite repeat_snoc, strip_loop_semi by reflexivity. exact IH.
Qed.

Lemma strip_clean q n : clean q -> strip_semis (fun c => N.eqb c 59) (q ++ repeat 59%N n) = Ok q.
Proof.
  intros [H1 H2]. unfold strip_semis. rewrite app_length, repeat_length.
  induction n as [|n IH].
  - cbn [repeat]. rewrite app_nil_r.
    destruct (exists_last H1) as (q' & x & ->). rewrite last_last in H2.
    apply strip_loop_clean. lia.
  - rewrite repeat_snoc, app_assoc. replace (S (length q + S n)) with (S (S (length q + n))) by lia.
    rewrite strip_loop_semi by reflexivity. exact IH.
Qed.

Lemma semis_cases s : (exists n, s = repeat 59%N n) \/ exists q n, clean q /\ s = q ++ repeat 59%N n.
Proof.
  destruct (rstrip_decomp 59 s) as [n H].
  destruct (rstrip 59 s) as [|c r] eqn:E.
  - left. exists n. exact H.
  - right. exists (c :: r), n. split; [|exact H]. split; [discriminate|].
    destruct (rstrip_end 59 s) as [X|X]; rewrite E in X; [discriminate | exact X].
Qed.

Section Front.
  Context (repr : jv -> pystr) (float_int : pystr -> res Z) (eval : pystr -> res jv).

  Lemma find_source_ok db id url user pw :
    source repr db id url user pw -> find_source repr db id = Ok (url, user, pw).
  Proof.
    intros (row & rest & H1 & H2 & H3 & H4). unfold find_source, cell.
    rewrite H1. cbn [bind]. rewrite H2. cbn [bind]. rewrite H3. cbn [bind]. rewrite H4. reflexivity.
  Qed.

  Definition console_kw (tg : target) (user pw q enc ct : jv) : kwargs :=
    [(u "host", VStr (tg_host tg)); (u "db", VStr (tg_db tg)); (u "user", user);
     (u "password", pw); (u "query", q); (u "port", VInt (tg_port tg));
     (u "encrypted_columns", enc); (u "ciphertext", ct)].

  Lemma add_limit_ok d kw :
    (dget d (u "resultLimit") = None \/ exists z, dget d (u "resultLimit") = Some (VInt z)) ->
    exists kw', add_limit float_int (VDict d) kw = Ok kw'
                /\ (forall k, k <> u "limit" -> dget kw' k = dget kw k).
  Proof.
    unfold add_limit. intros [->|[z ->]]; [exists kw; split; reflexivity|].
    cbn [to_int bind]. eexists. split; [reflexivity|]. intros k Hk. apply dget_dset_other. congruence.
  Qed.

  Lemma console_run db d s id url user pw tg q n :
    console_body d s id -> source repr db id url user pw -> parse_url url = Ok (Some tg) ->
    clean q -> s = q ++ repeat 59%N n ->
    exists kw,
      dget kw (u "query") = Some (VStr q) /\ dget kw (u "host") = Some (VStr (tg_host tg))
      /\ dget kw (u "port") = Some (VInt (tg_port tg)) /\ dget kw (u "db") = Some (VStr (tg_db tg))
      /\ dget kw (u "user") = Some user /\ dget kw (u "password") = Some pw
      /\ console_runs repr float_int eval db (VDict d) kw (VStr q).
  Proof.
    intros (B1 & B2 & B3 & [ct B4] & B5) S P C E.
    destruct (add_limit_ok d (console_kw tg user pw (VStr q) (VDict []) ct) B5) as (kw & K1 & K2).
    exists kw.
    rewrite !K2 by discriminate. 
    repeat (split; [reflexivity|]).
    intros invoke batch. unfold query_post, read_request, dmem, dgetE.
    rewrite B1, B2. cbn [bind]. unfold strip_query. rewrite E, (strip_clean q n C). cbn [bind].
    rewrite B3, B4. cbn [bind]. rewrite (find_source_ok _ _ _ _ _ S). cbn [bind].
    rewrite P. cbn [bind]. fold (console_kw tg user pw (VStr q) (VDict []) ct). rewrite K1.
    cbn [bind]. unfold do_query, dmem, dgetE.
    rewrite (K2 (u "encrypted_columns")), (K2 (u "batch_process")), (K2 (u "query")) by discriminate.
    reflexivity.
  Qed.

  Lemma console_empty invoke batch db d n id :
    console_body d (repeat 59%N n) id ->
    query_post repr float_int eval invoke batch db (VDict d) = Err IndexError.
  Proof.
    intros (B1 & B2 & _). unfold query_post, read_request, dmem, dgetE.
    rewrite B1, B2. cbn [bind]. unfold strip_query. rewrite strip_all. reflexivity.
  Qed.

  Lemma create_run db d q enc id url user pw tg :
    create_body d q enc id -> source repr db id url user pw -> parse_url url = Ok (Some tg) ->
    exists kw,
      dget kw (u "query") = Some q /\ dget kw (u "host") = Some (VStr (tg_host tg))
      /\ dget kw (u "port") = Some (VInt (tg_port tg)) /\ dget kw (u "db") = Some (VStr (tg_db tg))
      /\ forall invoke batch,
           query_post repr float_int eval invoke batch db (VDict d)
           = do _ <- invoke kw q (VDict enc); Ok None.
  Proof.
    intros (B1 & (sel & B2 & B3) & B4 & B5) S P.
    destruct (add_limit_ok d (console_kw tg user pw q (VDict enc) (VBool true)) B5) as (kw & K1 & K2).
    exists kw. rewrite !K2 by discriminate. repeat (split; [reflexivity|]).
    intros invoke batch. unfold query_post, read_request, dmem, dgetE.
    rewrite B1, B2. cbn [bind jget]. unfold dgetE. rewrite B3, B4. cbn [bind].
    rewrite (find_source_ok _ _ _ _ _ S). cbn [bind]. rewrite P. cbn [bind].
    fold (console_kw tg user pw q (VDict enc) (VBool true)). rewrite K1. cbn [bind].
    unfold do_create, dgetE.
    rewrite (K2 (u "encrypted_columns")), (K2 (u "query")) by discriminate.
    cbn [bind]. 
    change (dget (console_kw tg user pw q (VDict enc) (VBool true)) (u "query")) with (Some q).
    change (dget (console_kw tg user pw q (VDict enc) (VBool true)) (u "encrypted_columns"))
      with (Some (VDict enc)).
    cbn [bind]. destruct (invoke kw q (VDict enc)); reflexivity.
  Qed.

End Front.

(** ** URLs *)

Lemma has_char_app c a b : has_char c (a ++ b) = has_char c a || has_char c b.
Proof. unfold has_char. apply existsb_app. Qed.

Lemma str_int_no c z : c <> 45%N -> ~ (48 <= c <= 57)%N -> has_char c (str_int z) = false.
Proof.
  intros H1 H2. unfold has_char. destruct (existsb (N.eqb c) (str_int z)) eqn:E; [|reflexivity].
  apply existsb_exists in E as (x & Hx & Ex). apply N.eqb_eq in Ex. subst x.
  apply str_int_char in Hx. exfalso. destruct Hx; [contradiction | apply H2; assumption].
Qed.

Lemma firstn_skipn_prefix (a b : pystr) : firstn (length a) (a ++ b) = a /\ skipn (length a) (a ++ b) = b.
Proof.
  split.
  - rewrite firstn_app, Nat.sub_diag, firstn_all. apply app_nil_r.
  - rewrite skipn_app, Nat.sub_diag, skipn_all. reflexivity.
Qed.

Lemma parse_url_rest rest :
  parse_url (u "jdbc:mysql://" ++ rest)
  = let host_port := hd [] (split 47 rest) in
    do port <- second (split 58 host_port);
    do db <- second (split 47 rest);
    do p <- parse_int port;
    Ok (Some (Target (hd [] (split 58 host_port)) p db)).
Proof.
  unfold parse_url.
  destruct (firstn_skipn_prefix (u "jdbc:mysql://") rest) as [A B].
  change (length (u "jdbc:mysql://")) with 13%nat in A, B.
  rewrite A, B, seqb_refl. reflexivity.
Qed.

Lemma parse_url_ok host port db tail :
  has_char 58 host = false -> has_char 47 host = false -> has_char 47 db = false ->
  (tail = [] \/ exists t, tail = 47%N :: t) ->
  parse_url (u "jdbc:mysql://" ++ host ++ u ":" ++ str_int port ++ u "/" ++ db ++ tail)
  = Ok (Some (Target host port db)).
Proof.
  intros H1 H2 H3 H4.
  change (u ":" ++ str_int port ++ u "/" ++ db ++ tail)
    with (58%N :: str_int port ++ 47%N :: db ++ tail).
  assert (Hp : has_char 47 (58%N :: str_int port) = false).
  { change (has_char 47 (58%N :: str_int port)) with (has_char 47 (str_int port)).
    apply str_int_no; lia. }
  assert (E : split 47 (host ++ 58%N :: str_int port ++ 47%N :: db ++ tail)
              = (host ++ 58%N :: str_int port) :: split 47 (db ++ tail)).
  { change (host ++ 58%N :: str_int port ++ 47%N :: db ++ tail)
      with (host ++ (58%N :: str_int port) ++ 47%N :: db ++ tail).
    rewrite app_assoc. apply split_app. rewrite has_char_app, H2, Hp. reflexivity. }
  assert (D : exists r, split 47 (db ++ tail) = db :: r).
  { destruct H4 as [->|[t ->]].
    - rewrite app_nil_r, split_nochar by exact H3. exists []. reflexivity.
    - rewrite split_app by exact H3. eexists. reflexivity. }
  destruct D as [r D].
  rewrite parse_url_rest, E, D. cbn [hd second]. cbv zeta.
  rewrite split_app by exact H1. rewrite split_nochar by (apply str_int_no; lia).
  cbn [hd second bind]. rewrite parse_str_int. reflexivity.
Qed.

Lemma parse_url_no_port rest :
  has_char 58 (hd [] (split 47 rest)) = false ->
  parse_url (u "jdbc:mysql://" ++ rest) = Err IndexError.
Proof.
  intros H. rewrite parse_url_rest. cbv zeta. rewrite (split_nochar 58 _ H). reflexivity.
Qed.

Lemma parse_url_no_db rest :
  has_char 47 rest = false -> parse_url (u "jdbc:mysql://" ++ rest) = Err IndexError.
Proof.
  intros H. rewrite parse_url_rest. cbv zeta. rewrite (split_nochar 47 _ H). cbn [hd].
  destruct (split 58 rest) as [|a [|b r]]; reflexivity.
Qed.

Lemma parse_url_db url tg : parse_url url = Ok (Some tg) -> has_char 47 (tg_db tg) = false.
Proof.
  unfold parse_url. destruct (seqb _ _); [|discriminate]. cbv zeta.
  destruct (second (split 58 _)) as [p|]; [|discriminate]. cbn [bind].
  destruct (split 47 (skipn 13 url)) as [|a [|b r]] eqn:E; try discriminate. cbn [second bind].
  destruct (parse_int p); [|discriminate]. cbn [bind]. intros H. injection H as <-. cbn [tg_db].
  apply (split_parts_nochar 47 (skipn 13 url)). rewrite E. right. left. reflexivity.
Qed.

Lemma parse_url_slash url tg : parse_url url = Ok (Some tg) ->
  seqb (firstn 13 url) (u "jdbc:mysql://") = true /\ has_char 47 (skipn 13 url) = true.
Proof.
  unfold parse_url. destruct (seqb _ _) eqn:E1; [|discriminate]. cbv zeta. intros H.
  split; [reflexivity|]. destruct (has_char 47 (skipn 13 url)) eqn:E; [reflexivity|].
  rewrite (split_nochar 47 _ E) in H. cbn [hd] in H.
  destruct (second (split 58 (skipn 13 url))); discriminate.
Qed.

(** ** Rows as objects *)

Definition upd (d : dict jv) (kv : pystr * jv) := dset d (fst kv) (snd kv).

Lemma upd_keys l : forall d, NoDup (map fst d) -> NoDup (map fst (fold_left upd l d)).
Proof.
  induction l as [|[k v] l IH]; intros d H; [exact H|]. cbn [fold_left]. apply IH.
  apply (dset_NoDup d k v). exact H.
Qed.

Lemma upd_other l : forall d k, ~ In k (map fst l) -> dget (fold_left upd l d) k = dget d k.
Proof.
  induction l as [|[k' v] l IH]; intros d k H; [reflexivity|]. cbn [fold_left map fst In] in *.
  rewrite IH by tauto. unfold upd. cbn [fst snd]. apply dget_dset_other. intros E. apply H. left. congruence.
Qed.

Lemma upd_app l1 l2 d : fold_left upd (l1 ++ l2) d = fold_left upd l2 (fold_left upd l1 d).
Proof. apply fold_left_app. Qed.

Lemma upd_in l : forall d k v, In (k, v) (fold_left upd l d) -> In (k, v) d \/ In (k, v) l.
Proof.
  induction l as [|[k' v'] l IH]; intros d k v H; [left; exact H|]. cbn [fold_left] in H.
  apply IH in H as [H|H]; [|right; right; exact H].
  unfold upd in H. cbn [fst snd] in H. clear IH.
  induction d as [|[a b] d IHd]; cbn [dset] in H.
  - destruct H as [H|[]]. right. left. exact H.
  - destruct (seqb_spec k' a) as [->|Hk].
    + destruct H as [H|H]; [|left; right; exact H]. right. left. exact H.
    + destruct H as [H|H]; [left; left; exact H|]. destruct (IHd H) as [X|X]; [left; right; exact X|].
      right. exact X.
Qed.

Lemma row_last names row k v :
  dget (row_dict names row) k = Some v <-> last_under names row k v.
Proof.
  unfold row_dict. fold upd.
  change (fun d kv => dset d (fst kv) (snd kv)) with upd.
  revert row. 
  assert (G : forall row d, dget (fold_left upd (combine names row) d) k = Some v <->
                (last_under names row k v
                 \/ (~ In k (map fst (combine names row)) /\ dget d k = Some v))).
  { induction names as [|a names IH]; intros row d.
    - cbn [combine fold_left map In]. split; [intros H; right; tauto|].
      intros [(j & H & _)|[_ H]]; [destruct j; discriminate | exact H].
    - destruct row as [|x row].
      + cbn [combine fold_left map In]. split; [intros H; right; tauto|].
        intros [(j & _ & H & _)|[_ H]]; [destruct j; discriminate | exact H].
      + cbn [combine fold_left map In fst]. rewrite IH. unfold upd at 1. cbn [fst snd].
        assert (NI : ~ In k (map fst (combine names row)) <->
                     forall j, nth_error names j = Some k -> nth_error row j = None).
        { clear. revert row. induction names as [|a names IH]; intros row.
          - cbn. split; [intros _ j H; destruct j; discriminate | tauto].
          - destruct row as [|x row].
            + cbn. split; [intros _ j _; destruct j; reflexivity | tauto].
            + cbn [combine map fst In]. split.
              * intros H j Hj. destruct j as [|j]; [cbn in Hj; exfalso; apply H; left; congruence|].
                cbn in *. apply IH; [tauto | exact Hj].
              * intros H [E|E]; [specialize (H 0%nat); cbn in H; subst; specialize (H eq_refl); discriminate|].
                revert E. apply IH. intros j Hj. apply (H (S j)). exact Hj. }
        split.
        * intros [(j & A & B & C)|[A B]].
          -- left. exists (S j). split; [exact A|]. split; [exact B|]. intros [|j'] Hj Hn; [lia|].
             apply C; [lia | exact Hn].
          -- destruct (seqb_spec a k) as [->|Ha].
             ++ rewrite dget_dset_same in B. left. exists 0%nat. split; [reflexivity|].
                split; [exact B|]. intros [|j'] Hj Hn; [lia|]. cbn in *. apply NI; assumption.
             ++ right. rewrite dget_dset_other in B by congruence. split; [|exact B].
                intros [E|E]; [congruence | contradiction].
        * intros [(j & A & B & C)|[A B]].
          -- destruct j as [|j].
             ++ right. cbn in A, B. injection A as ->. injection B as ->. split.
                ** apply NI. intros j Hj. apply (C (S j)); [lia | exact Hj].
                ** apply dget_dset_same.
             ++ left. exists j. split; [exact A|]. split; [exact B|]. intros j' Hj Hn.
                apply (C (S j')); [lia | exact Hn].
          -- right. split; [tauto|]. rewrite dget_dset_other; [exact B|]. intros E. apply A. left. congruence. }
  intros row. rewrite (G row []). cbn [dget]. split; [intros [H|[_ H]]; [exact H | discriminate] | tauto].
Qed.

Lemma row_nodup names row : NoDup (map fst (row_dict names row)).
Proof. apply (upd_keys (combine names row) []). constructor. Qed.

Lemma row_distinct names row :
  NoDup names -> length names = length row -> row_dict names row = combine names row.
Proof.
  intros H _. unfold row_dict.
  change (fun d kv => dset d (fst kv) (snd kv)) with upd.
  assert (G : forall (row : list jv) (d : dict jv), (forall k, In k names -> ~ In k (map fst d)) ->
               fold_left upd (combine names row) d = d ++ combine names row).
  { induction H as [|a names Ha Hn IH]; intros row' d Hd; [cbn; now rewrite app_nil_r|].
    destruct row' as [|x row']; [cbn; now rewrite app_nil_r|]. cbn [combine fold_left].
    change (upd d (a, x)) with (dset d a x). rewrite dset_fresh by (apply Hd; left; reflexivity).
    rewrite IH; [now rewrite <- app_assoc|].
    intros k Hk. rewrite map_app. intros X. apply in_app_or in X as [X|[X|[]]].
    - exact (Hd k (or_intror Hk) X).
    - cbn in X. congruence. }
  apply (G row []). intros k _ [].
Qed.

Lemma row_wf names row :
  Forall (Forall scalar) names -> Forall wfj row -> wfj (VDict (row_dict names row)).
Proof.
  intros Hn Hr. apply wfj_dict. split; [apply row_nodup|].
  apply Forall_forall. intros [k v] H. unfold row_dict in H.
  change (fun d kv => dset d (fst kv) (snd kv)) with upd in H.
  apply upd_in in H as [[]|H]. cbn [fst snd].
  pose proof (in_combine_l _ _ _ _ H) as A. pose proof (in_combine_r _ _ _ _ H) as B.
  rewrite Forall_forall in Hn, Hr. split; [apply Hn, A | apply Hr, B].
Qed.

Lemma mapM_dumps_rows order rows :
  Forall (Forall scalar) order -> cells_ok rows ->
  exists ts, mapM (fun row => dumps (VDict (row_dict order row))) rows = Ok ts
             /\ mapM dumps (map (fun row => VDict (row_dict order row)) rows) = Ok ts.
Proof.
  intros Hn H. induction H as [|row rows Hr Hrs (ts & IH1 & IH2)]; [exists []; split; reflexivity|].
  destruct (dumps_total _ (row_wf order row Hn Hr)) as [t Ht].
  exists (t :: ts). cbn [mapM map]. rewrite Ht. cbn [bind]. rewrite IH1, IH2. split; reflexivity.
Qed.

Lemma data_loads order rows :
  Forall (Forall scalar) order -> cells_ok rows ->
  exists ts, mapM (fun row => dumps (VDict (row_dict order row))) rows = Ok ts
             /\ loads (u "[" ++ join (u ",") ts ++ u "]")
                = Ok (VList (map (fun row => VDict (row_dict order row)) rows)).
Proof.
  intros Hn H. destruct (mapM_dumps_rows order rows Hn H) as (ts & A & B).
  exists ts. split; [exact A|]. apply loads_array; [|exact B].
  apply Forall_forall. intros v Hv. apply in_map_iff in Hv as (row & <- & Hin).
  apply row_wf; [exact Hn|]. unfold cells_ok in H. rewrite Forall_forall in H. apply H, Hin.
Qed.

Lemma combine_fst {A B} (a : list A) (b : list B) : length a = length b -> map fst (combine a b) = a.
Proof.
  revert b. induction a as [|x a IH]; intros [|y b] H; try discriminate; [reflexivity|].
  cbn. f_equal. apply IH. cbn in H. lia.
Qed.

Lemma combine_nth_error {A B} (a : list A) (b : list B) i x y :
  nth_error a i = Some x -> nth_error b i = Some y -> nth_error (combine a b) i = Some (x, y).
Proof.
  revert b i. induction a as [|x' a IH]; intros [|y' b] [|i] H1 H2; cbn [nth_error combine] in *;
    try discriminate; [congruence | apply IH; assumption].
Qed.

(** The general result. *)
Lemma format_narrow first rows names types :
  names_ok names -> cells_ok (first :: rows) -> length names = length types ->
  length first <= length names ->
  exists data,
    format_result (first :: rows, (names, types))
    = Ok (Some (Answer (map (fun kv => build_columns (fst kv) (snd kv)) (combine names types)) data))
    /\ loads data = Ok (VList (map (fun row => VDict (row_dict names row)) (first :: rows))).
Proof.
  intros Hn Hc Hl Hw. unfold format_result.
  rewrite (combine_fst names types Hl), combine_length, <- Hl, Nat.min_id.
  replace (length names <? length first) with false by lia.
  destruct (data_loads names (first :: rows) Hn Hc) as (ts & A & B).
  rewrite A. cbn [bind]. eexists. split; [reflexivity | exact B].
Qed.

Lemma ascii_scalar s : forallb (fun c => (c <? 128)%N) s = true -> Forall scalar s.
Proof.
  intros H. apply Forall_forall. intros c Hc. rewrite forallb_forall in H. specialize (H c Hc).
  unfold scalar. lia.
Qed.

Lemma null_names_ok n : Forall (Forall scalar) (null_names n).
Proof.
  apply Forall_forall. intros k H. unfold null_names in H. apply in_map_iff in H as (i & <- & _).
  apply Forall_app. split.
  - apply ascii_scalar. reflexivity.
  - apply Forall_forall. intros c Hc. apply str_int_char in Hc. unfold scalar. lia.
Qed.

Lemma null_names_nodup n : NoDup (null_names n).
Proof.
  unfold null_names. apply FinFun.Injective_map_NoDup; [|apply seq_NoDup].
  intros a b H. apply app_inv_head in H. apply str_int_inj in H. lia.
Qed.

Lemma null_names_length n : length (null_names n) = n.
Proof. unfold null_names. now rewrite map_length, seq_length. Qed.

Lemma null_names_nth n i : i < n -> nth_error (null_names n) i = Some (u "null" ++ str_int (Z.of_nat i)).
Proof.
  intros H. unfold null_names.
  apply (map_nth_error (fun i => u "null" ++ str_int (Z.of_nat i))).
  rewrite (nth_error_nth' _ 0%nat) by (rewrite seq_length; exact H). rewrite seq_nth by exact H. reflexivity.
Qed.

Lemma format_wide first rows names types :
  cells_ok (first :: rows) -> Nat.min (length names) (length types) < length first ->
  exists cols data,
    format_result (first :: rows, (names, types)) = Ok (Some (Answer cols data))
    /\ loads data = Ok (VList (map (fun row => VDict (row_dict (null_names (length first)) row)) (first :: rows))).
Proof.
  intros Hc Hw. unfold format_result. rewrite combine_length.
  replace (Nat.min (length names) (length types) <? length first) with true by lia.
  destruct (data_loads (null_names (length first)) (first :: rows) (null_names_ok _) Hc) as (ts & A & B).
  rewrite A. cbn [bind]. do 2 eexists. split; [reflexivity | exact B].
Qed.

(** A cell that json.dumps refuses anywhere. *)
Lemma dumps_dict_other d k : In (k, VOther) d -> dumps (VDict d) = Err TypeError
                                                 \/ exists e, dumps (VDict d) = Err e.
Proof.
  rewrite dumps_dict. intros H. right.
  assert (E : exists e, mapM item d = Err e).
  { induction d as [|[k' v] d IH]; [destruct H|]. cbn [mapM].
    destruct H as [H|H].
    - injection H as -> ->. exists TypeError. reflexivity.
    - destruct (item (k', v)) as [t|e]; [|exists e; reflexivity]. cbn [bind].
      destruct (IH H) as [e ->]. exists e. reflexivity. }
  destruct E as [e ->]. exists e. reflexivity.
Qed.

Lemma dumps_err v e : dumps v = Err e -> e = TypeError.
Proof.
  revert e. induction v as [|b|z|q|s|l IH|d IH|] using jv_ind2; intros e; try discriminate.
  - destruct b; discriminate.
  - rewrite dumps_list. intros H.
    assert (E : mapM dumps l = Err e) by (destruct (mapM dumps l); [discriminate | cbn in H; congruence]).
    clear H. induction IH as [|x l Hx Hl IHl]; [discriminate|]. cbn [mapM] in E.
    destruct (dumps x) as [t|e'] eqn:Ex; [|injection E as <-; apply Hx; reflexivity].
    cbn [bind] in E. destruct (mapM dumps l); [discriminate|]. apply IHl. exact E.
  - rewrite dumps_dict. intros H.
    assert (E : mapM item d = Err e) by (destruct (mapM item d); [discriminate | cbn in H; congruence]).
    clear H. induction IH as [|[k x] l Hx Hl IHl]; [discriminate|]. cbn [mapM] in E.
    unfold item at 1 in E. cbn [fst snd] in *.
    destruct (dumps x) as [t|e'] eqn:Ex; [|injection E as <-; apply Hx; reflexivity].
    cbn [bind] in E. destruct (mapM item l); [discriminate|]. apply IHl. exact E.
  - cbn. congruence.
Qed.

Lemma format_other first rows names types row j :
  length names = length types -> NoDup names -> length first <= length names ->
  In row (first :: rows) -> nth_error row j = Some VOther -> j < length names ->
  format_result (first :: rows, (names, types)) = Err TypeError.
Proof.
  intros Hl Hn Hw Hin Hj Hb. unfold format_result.
  rewrite (combine_fst names types Hl), combine_length, <- Hl, Nat.min_id.
  replace (length names <? length first) with false by lia.
  assert (L : exists k, dget (row_dict names row) k = Some VOther).
  { destruct (nth_error names j) as [k|] eqn:Ek; [|apply nth_error_None in Ek; lia].
    exists k. apply row_last. exists j. split; [exact Ek|]. split; [exact Hj|].
    intros j' Hlt Hk. exfalso.
    assert (E : j = j') by (apply (proj1 (NoDup_nth_error names) Hn); [lia | congruence]). lia. }
  destruct L as [k L].
  assert (I : In (k, VOther) (row_dict names row)) by (apply dget_In; exact L).
  assert (D : dumps (VDict (row_dict names row)) = Err TypeError).
  { destruct (dumps_dict_other _ _ I) as [E|[e E]]; [exact E|]. rewrite E. f_equal.
    apply (dumps_err _ _ E). }
  assert (E : mapM (fun row => dumps (VDict (row_dict names row))) (first :: rows) = Err TypeError).
  { revert Hin. generalize (first :: rows). intros l. induction l as [|r l IH]; intros Hin; [destruct Hin|].
    cbn [mapM]. destruct (dumps (VDict (row_dict names r))) as [t|e] eqn:Er.
    - cbn [bind]. destruct Hin as [->|Hin]; [congruence|]. rewrite (IH Hin). reflexivity.
    - cbn [bind]. f_equal. apply (dumps_err _ _ Er). }
  rewrite E. reflexivity.
Qed.

(** ** Schema listing *)

Lemma column_of_stored m row : mrow_ok m -> stored m row -> column_of (snd row) = Ok (shown m).
Proof.
  intros [_ W] [_ S]. unfold column_of. rewrite (loads_dumps _ _ W S). cbn [bind column_entries].
  unfold column_entry, mr_info. cbn [jget].
  change (dgetE ([(u "type", VStr (mr_type m)); (u "plaintext", VBool (mr_plain m))] ++ mr_more m) (u "type"))
    with (@Ok jv (VStr (mr_type m))).
  cbn [bind]. unfold shown.
  change (dgetE ([(u "type", VStr (mr_type m)); (u "plaintext", VBool (mr_plain m))] ++ mr_more m) (u "plaintext"))
    with (@Ok jv (VBool (mr_plain m))).
  destruct (seqb (mr_type m) (u "varchar")); [destruct (mr_plain m); reflexivity|].
  destruct (seqb (mr_type m) (u "int")); [destruct (mr_plain m); reflexivity|]. reflexivity.
Qed.

Lemma shown_wf m : mrow_ok m -> wfj (shown m).
Proof.
  intros [_ W]. apply wfj_dict in W as [_ W]. inversion W as [|? ? [Wk _] _]; subst. cbn [fst] in Wk.
  pose proof ascii_scalar as L.
  assert (Wn : Forall scalar (if mr_plain m then mr_column m else mr_column m ++ u " *")).
  { destruct (mr_plain m); [exact Wk|]. apply Forall_app. split; [exact Wk|]. apply L. reflexivity. }
  assert (G : forall a b z, forallb (fun c => (c <? 128)%N) a = true ->
                forallb (fun c => (c <? 128)%N) b = true ->
                wfj (VDict [(u "name", VStr (if mr_plain m then mr_column m else mr_column m ++ u " *"));
                            (u "javaType", VStr a); (u "dbType", VStr b); (u "length", VInt z)])).
  { intros a b z Ha Hb. apply wfj_dict. split.
    - repeat constructor; cbn; intuition discriminate.
    - constructor; [split; [apply L; reflexivity | exact Wn]|].
      constructor; [split; [apply L; reflexivity | cbn; apply L, Ha]|].
      constructor; [split; [apply L; reflexivity | cbn; apply L, Hb]|].
      constructor; [split; [apply L; reflexivity | exact I]|]. constructor. }
  unfold shown.
  destruct (seqb (mr_type m) (u "varchar")); [apply G; reflexivity|].
  destruct (seqb (mr_type m) (u "int")); [apply G; reflexivity|].
  apply wfj_dict. split; constructor.
Qed.

Lemma listed_wf t : Forall scalar (fst t) -> Forall wfj (snd t) -> wfj (listed t).
Proof.
  intros H1 H2. unfold listed. apply wfj_dict. 
  pose proof ascii_scalar as L.
  split.
  - repeat constructor; cbn; intuition discriminate.
  - constructor; [split; [apply L; reflexivity | exact H1]|].
    constructor; [split; [apply L; reflexivity | cbn; apply L; reflexivity]|].
    constructor; [split; [apply L; reflexivity | apply wfj_list; exact H2]|]. constructor.
Qed.

Lemma schema_loop_ok ms : forall rows (n : pystr) cols,
  Forall mrow_ok ms -> Forall2 stored ms rows -> Forall scalar n -> Forall wfj cols ->
  exists ts texts c1,
    schema_loop rows (Some (n, cols)) = Ok texts
    /\ mapM dumps (map listed ((n, cols ++ c1) :: ts)) = Ok texts
    /\ Forall wfj (map listed ((n, cols ++ c1) :: ts))
    /\ map (fun m => (mr_table m, shown m)) ms = flat ((n, c1) :: ts)
    /\ no_repeat (n :: map fst ts) /\ Forall (fun t => snd t <> []) ts.
Proof.
  induction ms as [|m ms IH]; intros rows n cols Hok H2 Hn Hc.
  - inversion H2; subst. exists [], [match dumps (table_obj (Some (n, cols))) with Ok t => t | Err _ => [] end], [].
    pose proof (listed_wf (n, cols) Hn Hc) as W. destruct (dumps_total _ W) as [t Ht].
    rewrite app_nil_r. cbn [schema_loop map mapM].
    change (table_obj (Some (n, cols))) with (listed (n, cols)). rewrite Ht. cbn [bind].
    split; [reflexivity|]. split; [reflexivity|]. split; [constructor; [exact W | constructor]|].
    split; [reflexivity|]. split; [exact I | constructor].
  - inversion H2 as [|? [name text] ? rows' S H2']; subst. inversion Hok as [|? ? Om Oms]; subst.
    pose proof (column_of_stored m _ Om S) as C. cbn [snd] in C. destruct S as [S1 S2]. cbn [fst snd] in S1, S2.
    cbn [schema_loop]. rewrite C. cbn [bind].
    destruct (seqb_spec name n) as [E|E].
    + destruct (IH rows' n (cols ++ [shown m]) Oms H2' Hn) as (ts & texts & c1 & A & B & W & F & R & Ne).
      { apply Forall_app. split; [exact Hc|]. constructor; [apply shown_wf, Om | constructor]. }
      exists ts, texts, (shown m :: c1). rewrite <- app_assoc in B, W. cbn [app] in B, W.
      split; [exact A|]. split; [exact B|]. split; [exact W|]. split; [|split; assumption].
      cbn [map]. rewrite F. unfold flat. cbn [map concat fst snd app]. rewrite <- S1, E. reflexivity.
    + pose proof (listed_wf (n, cols) Hn Hc) as Wt. destruct (dumps_total _ Wt) as [t Ht].
      change (table_obj (Some (n, cols))) with (listed (n, cols)). rewrite Ht. cbn [bind].
      assert (Hname : Forall scalar name) by (rewrite S1; apply Om).
      destruct (IH rows' name [shown m] Oms H2' Hname) as (ts & texts & c1 & A & B & W & F & R & Ne).
      { constructor; [apply shown_wf, Om | constructor]. }
      exists ((name, [shown m] ++ c1) :: ts), (t :: texts), [].
      rewrite A. cbn [bind]. rewrite app_nil_r. split; [reflexivity|]. split.
      { cbn [map mapM]. rewrite Ht. cbn [bind]. cbn [map mapM] in B. rewrite B. reflexivity. }
      split; [constructor; assumption|]. split.
      { cbn [map]. rewrite F. unfold flat. cbn [map concat fst snd app]. rewrite <- S1. reflexivity. }
      split; [split; [intros X; apply E; symmetry; exact X | exact R]|]. constructor; [discriminate | exact Ne].
Qed.

Lemma schema_runs ms rows :
  ms <> [] -> Forall mrow_ok ms -> Forall2 stored ms rows ->
  exists out tables,
    schema_listing rows = Ok out /\ loads out = Ok (VList (map listed tables))
    /\ flat tables = map (fun m => (mr_table m, shown m)) ms
    /\ no_repeat (map fst tables) /\ Forall (fun t => snd t <> []) tables.
Proof.
  intros Hne Hok H2. destruct ms as [|m ms]; [contradiction|]. clear Hne.
  inversion H2 as [|? [name text] ? rows' S H2']; subst. inversion Hok as [|? ? Om Oms]; subst.
  pose proof (column_of_stored m _ Om S) as C. cbn [snd] in C. destruct S as [S1 S2]. cbn [fst snd] in S1, S2.
  assert (Hname : Forall scalar name) by (rewrite S1; apply Om).
  destruct (schema_loop_ok ms rows' name [shown m] Oms H2' Hname) as (ts & texts & c1 & A & B & W & F & R & Ne).
  { constructor; [apply shown_wf, Om | constructor]. }
  exists (u "[" ++ join (u ",") texts ++ u "]"), ((name, [shown m] ++ c1) :: ts).
  unfold schema_listing. cbn [schema_loop]. rewrite C. cbn [bind]. rewrite seqb_refl. cbn [app].
  rewrite A. cbn [bind]. split; [reflexivity|]. split.
  { apply loads_array; assumption. }
  split.
  { cbn [map]. rewrite F. unfold flat. cbn [map concat fst snd app]. rewrite <- S1. reflexivity. }
  split; [exact R|]. constructor; [discriminate | exact Ne].
Qed.

Lemma flat_filter t ts :
  NoDup (map fst ts) -> forall cols, In (t, cols) ts ->
  map snd (filter (fun x => seqb (fst x) t) (flat ts)) = cols.
Proof.
  assert (Z : forall n cols, filter (fun x : pystr * jv => seqb (fst x) t) (map (fun c => (n, c)) cols)
               = if seqb n t then map (fun c => (n, c)) cols else []).
  { intros n cols. induction cols as [|c cols IH]; [cbn; destruct (seqb n t); reflexivity|].
    cbn [map filter fst]. rewrite IH. destruct (seqb n t); reflexivity. }
  induction ts as [|[n cs] ts IH]; intros Hn cols Hin; [destruct Hin|].
  cbn [map fst] in Hn. inversion Hn as [|? ? Ha Hb]; subst.
  unfold flat. cbn [map concat fst snd]. rewrite filter_app, Z.
  destruct Hin as [E|Hin].
  - injection E as -> ->. rewrite seqb_refl, map_app.
    assert (Q : filter (fun x : pystr * jv => seqb (fst x) t) (flat ts) = []).
    { clear - Ha Z. induction ts as [|[n cs] ts IH]; [reflexivity|]. unfold flat. cbn [map concat fst snd].
      rewrite filter_app, Z. cbn [map fst In] in Ha.
      destruct (seqb_spec n t) as [->|E]; [destruct Ha; left; reflexivity|]. apply IH. tauto. }
    unfold flat in Q. rewrite Q. cbn [map]. rewrite app_nil_r, map_map. cbn. apply map_id.
  - destruct (seqb_spec n t) as [->|E].
    + exfalso. apply Ha. apply in_map_iff. exists (t, cols). split; [reflexivity | exact Hin].
    + apply IH; assumption.
Qed.

Lemma flat_names ts t : Forall (fun x => snd x <> []) ts ->
  In t (map fst ts) <-> In t (map fst (flat ts)).
Proof.
  induction ts as [|[n cs] ts IH]; intros H; [tauto|]. inversion H; subst. cbn [snd] in *.
  unfold flat. cbn [map concat fst snd]. rewrite map_app, in_app_iff, map_map. cbn [fst In map].
  rewrite IH by assumption. unfold flat. split.
  - intros [<-|Hin]; [|right; exact Hin]. left. destruct cs as [|c cs]; [contradiction|]. left. reflexivity.
  - intros [Hin|Hin]; [|right; exact Hin]. left. apply in_map_iff in Hin as (c & E & _). exact E.
Qed.

(** Runs of a sorted list. *)
Lemma sorted_runs (le : pystr -> pystr -> Prop) ts :
  (forall a b, le a b -> le b a -> a = b) ->
  Forall (fun x => snd x <> []) ts -> no_repeat (map fst ts) ->
  StronglySorted le (map fst (flat ts)) ->
  NoDup (map fst ts) /\ StronglySorted le (map fst ts).
Proof.
  intros Anti. induction ts as [|[n cs] ts IH]; intros Hne Hr Hs; [split; constructor|].
  inversion Hne as [|? ? Hc Hne']; subst. cbn [snd] in Hc.
  assert (Ef : map fst (flat ((n, cs) :: ts)) = map (fun _ => n) cs ++ map fst (flat ts)).
  { unfold flat. cbn [map concat fst snd]. rewrite map_app, map_map. reflexivity. }
  rewrite Ef in Hs.
  assert (Hs' : StronglySorted le (map fst (flat ts)) /\ Forall (le n) (map fst (flat ts))).
  { clear - Hs Hc. destruct cs as [|c cs]; [contradiction|]. clear Hc.
    cbn [map app] in Hs. apply StronglySorted_inv in Hs as [Hs Hf].
    split.
    - clear Hf. induction cs as [|c' cs IH]; [exact Hs|]. cbn [map app] in Hs.
      apply StronglySorted_inv in Hs as [Hs _]. apply IH, Hs.
    - apply Forall_app in Hf. apply Hf. }
  destruct Hs' as [Hs1 Hs2]. 
  assert (Hr' : no_repeat (map fst ts)).
  { cbn [map fst] in Hr. destruct ts as [|[n2 c2] ts]; [exact I|]. apply Hr. }
  destruct (IH Hne' Hr' Hs1) as [N S]. cbn [map fst].
  assert (Hle : Forall (le n) (map fst ts)).
  { apply Forall_forall. intros t Ht. apply (flat_names ts t Hne') in Ht.
    rewrite Forall_forall in Hs2. apply Hs2, Ht. }
  split; [|constructor; assumption]. constructor; [|exact N].
  intros Hin. destruct ts as [|[n2 c2] ts]; [destruct Hin|]. cbn [map fst] in *.
  destruct Hr as [Hr _]. destruct Hin as [E|Hin]; [congruence|].
  apply Hr. apply Anti.
  - inversion Hle; assumption.
  - apply StronglySorted_inv in S as [_ S]. rewrite Forall_forall in S. apply S, Hin.
Qed.

Lemma schema_sorted (le : pystr -> pystr -> Prop) ms rows :
  (forall a b, le a b -> le b a -> a = b) ->
  ms <> [] -> Forall mrow_ok ms -> Forall2 stored ms rows -> StronglySorted le (map mr_table ms) ->
  exists out tables,
    schema_listing rows = Ok out /\ loads out = Ok (VList (map listed tables))
    /\ NoDup (map fst tables) /\ StronglySorted le (map fst tables)
    /\ (forall t, In t (map fst tables) <-> In t (map mr_table ms))
    /\ forall t cols, In (t, cols) tables ->
         cols = map shown (filter (fun m => seqb (mr_table m) t) ms).
Proof.
  intros Anti Hne Hok H2 Hs.
  destruct (schema_runs ms rows Hne Hok H2) as (out & tables & A & B & F & R & Ne).
  assert (Hs' : StronglySorted le (map fst (flat tables)))
    by (rewrite F, map_map; exact Hs).
  destruct (sorted_runs le tables Anti Ne R Hs') as [N S].
  exists out, tables. split; [exact A|]. split; [exact B|]. split; [exact N|]. split; [exact S|]. split.
  - intros t. rewrite (flat_names tables t Ne), F, map_map. reflexivity.
  - intros t cols Hin. rewrite <- (flat_filter t tables N cols Hin), F. clear.
    induction ms as [|m ms IH]; [reflexivity|]. cbn [map filter fst]. 
    destruct (seqb (mr_table m) t); cbn [map snd]; rewrite IH; reflexivity.
Qed.

(** ** The component and schema endpoints *)

Lemma component_never repr eval invoke invoke' batch batch' db id body :
  component_post repr eval invoke batch db id body = component_post repr eval invoke' batch' db id body
  /\ (component_post repr eval invoke batch db id body = Ok None
      \/ exists e, component_post repr eval invoke batch db id body = Err e).
Proof.
  unfold component_post.
  destruct (find_source repr db id) as [[[url user] pw]|e]; [|split; [reflexivity | right; exists e; reflexivity]].
  cbn [bind]. destruct (parse_url url) as [[tg|]|e]; cbn [bind].
  - destruct body as [| | | | | |d|]; try (split; [reflexivity | right; eexists; reflexivity]).
    unfold do_create, do_query. destruct (dmem d (u "create_table")).
    + split; [reflexivity | right; exists KeyError; reflexivity].
    + split; [reflexivity | right; exists KeyError; reflexivity].
  - split; [reflexivity | left; reflexivity].
  - split; [reflexivity | right; exists e; reflexivity].
Qed.

Lemma component_mysql repr eval invoke batch db id d url user pw tg :
  source repr db id url user pw -> parse_url url = Ok (Some tg) ->
  component_post repr eval invoke batch db id (VDict d) = Err KeyError.
Proof.
  intros S P. unfold component_post. rewrite (find_source_ok repr db id url user pw S). cbn [bind].
  rewrite P. cbn [bind]. destruct (dmem d (u "create_table")); reflexivity.
Qed.

Lemma schema_none repr db (store : list (pystr * (pystr * pystr))) asked id url user pw tg :
  source repr db id url user pw -> parse_url url = Ok (Some tg) ->
  (forall name, Permutation (asked name) (map snd (filter (fun r => seqb (fst r) name) store))) ->
  (forall r, In r store -> exists url' tg', parse_url url' = Ok (Some tg') /\ fst r = tg_db tg') ->
  schema_get repr db asked id = Ok (Some (u "[{}]")).
Proof.
  intros (row & rest & H1 & H2 & H3 & H4) P Hask Hst. unfold schema_get, cell.
  rewrite H1. cbn [bind]. rewrite H2. cbn [bind].
  destruct (parse_url_slash url tg P) as [E1 E2]. rewrite E1.
  assert (E : asked (skipn 13 url) = []).
  { apply Permutation_nil. rewrite (Hask (skipn 13 url)).
    assert (F : filter (fun r : pystr * (pystr * pystr) => seqb (fst r) (skipn 13 url)) store = []).
    { clear - Hst E2. induction store as [|r store IH]; [reflexivity|]. cbn [filter].
      destruct (seqb_spec (fst r) (skipn 13 url)) as [E|E].
      - exfalso. destruct (Hst r (or_introl eq_refl)) as (url' & tg' & P & Q).
        apply parse_url_db in P. rewrite <- Q, E, E2 in P. discriminate.
      - apply IH. intros r' Hr. apply Hst. right. exact Hr. }
    rewrite F. constructor. }
  rewrite E. reflexivity.
Qed.
