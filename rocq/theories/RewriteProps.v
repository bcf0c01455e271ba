(** Theorems about the rewriting of statements and the decryption of results: C20-C30, C33, C34, C67. *)
From Coq Require Import String Ascii List NArith ZArith QArith Bool Lia Sorted Permutation.
From Verif Require Import Base BaseProof CryptoModel CryptoSpec FuzzyModel OpeModel PaillierModel JsonModel
  RewriteModel LikeSpec SqlSpec EncSpec StmtSpec RewriteSpec WhereProof SimProof StmtProof UpdateProof SelectProof
  HistoryProof RewriteProof QueryProof JoinProof RewriteExample.
Import ListNotations.
Open Scope Z_scope.

Notation plain_db := (fun kw => fun _ D j => exec kw D j).
Notation through_proxy kw E M := (fun r D j => proxy kw (with_rnd E r) M D j).

(** ** C20 *)
Theorem C20_where_keeps_rows : forall kw E M t m j,
  prim_ok (e_P E) -> dget M t = Some m -> wf_table kw m -> frag_cond kw (e_alnum E) m j ->
  exists j', where_rw E M (JStr t) SYM [] j = Ok j' /\
             forall pr er, enc_row E m pr er -> cond kw er j' = cond kw pr j.
Proof. exact where_sound. Qed.
Print Assumptions C20_where_keeps_rows.

(** LIKE with parts of letters and digits keeps the rows whose text consists of letters and digits (or is NULL). *)
Theorem C20_like_letters : forall kw E M t m c cm ps,
  prim_ok (e_P E) -> dget M t = Some m -> wf_table kw m ->
  enc_col m c cm FUZ -> is_text_type (c_type cm) -> pattern_ok (e_alnum E) true ps ->
  let j := JDict [(u "like", JList [JStr c; lit (join [PCT] ps)])] in
  exists j', where_rw E M (JStr t) SYM [] j = Ok j' /\
             forall pr er, enc_row E m pr er -> (forall s, dget pr c = Some (VStr s) -> isalnum (e_alnum E) s = true) ->
                           cond kw er j' = cond kw pr j.
Proof. exact like_letters. Qed.
Print Assumptions C20_like_letters.
Example C20_like_example :
  let test v := match where_rw exE exM (JStr (u "emp")) SYM [] (cmp "like" "name" (lit (u "%obra%"))),
                      fuzzy_encrypt (e_alnum exE) (e_P exE) (u "k1") v with
                | Ok j, Ok c => cond exkw [(u "c02", VStr c)] j
                | _, _ => Err Generic
                end in
  pattern_ok (e_alnum exE) true [u ""; u "obra"; u ""] /\
  test (u "bobray") = Ok (Some true) /\ test (u "annlee") = Ok (Some false) /\ test (u "bobray lee") = Ok (Some false).
Proof.
  split; [|vm_compute; repeat split]. split; [discriminate|]. split; [|split; [|exact I]].
  - intros p [<-|[<-|[<-|[]]]]; [left; reflexivity| |left; reflexivity]. right. split; [cbn; lia|]. split; reflexivity.
  - intros p [<-|[<-|[<-|[]]]]; reflexivity.
Qed.

Example C20_example :
  (exists j', where_rw exE exM (JStr (u "emp")) SYM [] ex_cond = Ok j' /\
              forall pr er, enc_row exE emp pr er -> cond exkw er j' = cond exkw pr ex_cond) /\
  cond exkw [(u "id", VInt 4); (u "name", VStr (u "Bob Ray")); (u "age", VInt 31)] ex_cond = Ok (Some true) /\
  cond exkw [(u "id", VInt 4); (u "name", VStr (u "Bob Ray")); (u "age", VInt 30)] ex_cond = Ok (Some false).
Proof.
  split; [|split; reflexivity].
  apply (C20_where_keeps_rows exkw exE exM (u "emp") emp); [exact exE_ok|reflexivity|exact emp_wf|exact ex_cond_frag].
Qed.

(** ** C21 *)
Theorem C21_where_masked : forall kw E M t m j,
  prim_ok (e_P E) -> dget M t = Some m -> frag_cond kw (e_alnum E) m j ->
  exists j', where_rw E M (JStr t) SYM [] j = Ok j' /\ masked kw E m j j'.
Proof. exact masked_ok. Qed.
Print Assumptions C21_where_masked.

(** Conditions with any other operator go to the database unchanged ... *)
Theorem C21_other_operators_in_clear_refuted : forall E M table ci key k x,
  smem k [u "eq"; u "gt"; u "lt"; u "gte"; u "lte"; u "like"; u "and"; u "or"; u "literal"] = false ->
  where_rw E M table ci key (JDict [(k, x)]) = Ok (JDict [(k, x)]).
Proof. exact unknown_operator_kept. Qed.
Print Assumptions C21_other_operators_in_clear_refuted.

(** ... so do ordering comparisons on columns that are no integers ... *)
Theorem C21_text_order_in_clear_refuted : forall E M t m op c cm x ci key,
  dget M t = Some m -> smem op [u "gt"; u "lt"; u "gte"; u "lte"] = true ->
  dget (t_cols m) c = Some cm -> c_type cm <> u "int" ->
  where_rw E M (JStr t) ci key (JDict [(op, JList [JStr c; x])]) = Ok (JDict [(op, JList [JStr c; x])]).
Proof. exact nonint_order_kept. Qed.
Print Assumptions C21_text_order_in_clear_refuted.

(** ... floating point constants compared with an encrypted column ... *)
Theorem C21_float_in_clear_refuted : forall E M t m c cm n q,
  dget M t = Some m -> dget (t_cols m) c = Some cm -> c_plain cm = false -> dget (c_enc cm) SYM = Some n ->
  where_rw E M (JStr t) SYM [] (JDict [(u "eq", JList [JStr c; JFloat q])]) =
  Ok (JDict [(u "eq", JList [JStr n; JFloat q])]).
Proof. exact float_constant_clear. Qed.
Print Assumptions C21_float_in_clear_refuted.

(** ... and, inside the fragment, every constant of an ordering comparison: its ciphertext is the
    number itself (C09). *)
Theorem C21_order_constant_in_clear_refuted : forall E M t m op c cm n z,
  smem op [u "gt"; u "lt"; u "gte"; u "lte"] = true ->
  dget M t = Some m -> dget (t_cols m) c = Some cm -> c_plain cm = false -> c_type cm = u "int" ->
  dget (c_enc cm) OPEC = Some n -> int64 z ->
  where_rw E M (JStr t) SYM [] (JDict [(op, JList [JStr c; JInt z])]) =
  Ok (JDict [(op, JList [JStr n; JInt z])]).
Proof. exact order_constant_clear. Qed.
Print Assumptions C21_order_constant_in_clear_refuted.

Example C21_example :
  where_rw exE exM (JStr (u "emp")) SYM [] (cmp "neq" "name" (lit (u "Bob Ray"))) = Ok (cmp "neq" "name" (lit (u "Bob Ray"))) /\
  where_rw exE exM (JStr (u "emp")) SYM [] (cmp "in" "name" (JDict [(u "literal", JList [JStr (u "Ann"); JStr (u "Bob")])])) =
    Ok (cmp "in" "name" (JDict [(u "literal", JList [JStr (u "Ann"); JStr (u "Bob")])])) /\
  exists j', where_rw exE exM (JStr (u "emp")) SYM [] ex_cond = Ok j' /\ masked exkw exE emp ex_cond j'.
Proof.
  split; [reflexivity|]. split; [reflexivity|].
  apply (C21_where_masked exkw exE exM (u "emp") emp); [exact exE_ok|reflexivity|exact ex_cond_frag].
Qed.

(** ** C22 *)
(** Whenever an INSERT is rewritten, columns and values come in pairs, logical column by logical
    column in the given order. *)
Theorem C22_insert_aligned : forall E M t m cs vs j' T st,
  dget M t = Some m -> length cs = length vs ->
  rewrite_query E M (insert_stmt t cs vs) = Ok (j', T, st) ->
  exists pss, Forall2 (pairs_ok E m) (combine cs vs) pss /\
    j' = JDict [(u "insert", JStr (t_anon m)); (u "columns", JList (map fst (concat pss)));
                (u "query", JDict [(u "select", JList (map snd (concat pss)))])].
Proof. exact insert_pairs. Qed.
Print Assumptions C22_insert_aligned.

(** In the fragment the rewriting succeeds and every physical column gets a ciphertext of the value
    of its logical column. *)
Theorem C22_insert_values : forall kw E M t m cs vs,
  prim_ok (e_P E) -> wf_meta kw M -> dget M t = Some m -> length cs = length vs ->
  (forall k v, In (k, v) (combine cs vs) -> exists c, dget (t_cols m) k = Some c /\ const_ok E k c v) ->
  exists chs js,
    rewrite_query E M (insert_stmt t cs vs) =
      Ok (JDict [(u "insert", JStr (t_anon m)); (u "columns", JList (map JStr (map fst (concat chs))));
                 (u "query", JDict [(u "select", JList js)])], JStr t, s_empty) /\
    mapM (insert_const kw) js = Ok (map snd (concat chs)) /\
    Forall2 (fun kv ch => exists c, dget (t_cols m) (fst kv) = Some c /\
                                    chunk_ok E (fst kv) c (const_sql (snd kv)) ch) (combine cs vs) chs.
Proof. exact insert_values. Qed.
Print Assumptions C22_insert_values.

Lemma c22c_aux kw E (M : dbmeta) t m (D : db) tb cs vs extra :
  dget M t = Some m -> dget D t = Some tb -> length cs = length vs -> extra <> [] ->
  rewrite_query E M (insert_stmt t cs (vs ++ extra)) = rewrite_query E M (insert_stmt t cs vs) /\
  exists e, exec kw D (insert_stmt t cs (vs ++ extra)) = Err e.
Proof.
  intros Hm Ht L X. split; [apply extra_values_dropped with m; assumption|].
  apply extra_values_rejected with tb; [exact Ht|]. rewrite app_length, L.
  destruct extra; [congruence|]. cbn [length]. lia.
Qed.

(** Values beyond the column list, which the database would reject, disappear silently. *)
Theorem C22_extra_values_refuted : forall kw E M t m D tb cs vs extra,
  dget M t = Some m -> dget D t = Some tb -> length cs = length vs -> extra <> [] ->
  rewrite_query E M (insert_stmt t cs (vs ++ extra)) = rewrite_query E M (insert_stmt t cs vs) /\
  exists e, exec kw D (insert_stmt t cs (vs ++ extra)) = Err e.
Proof. exact c22c_aux. Qed.
Print Assumptions C22_extra_values_refuted.

Example C22_example : exists a b c d,
  rewrite_query exE exM (ins 7 "Bob Ray" 35) =
  Ok (JDict [(u "insert", JStr (u "t9f"));
             (u "columns", JList [JStr (u "d33"); JStr (u "e45"); JStr (u "id"); JStr (u "b71"); JStr (u "c02")]);
             (u "query", JDict [(u "select", JList [val a; val b; val (JInt 7); val c; val d])])],
      JStr (u "emp"), s_empty) /\
  b = JInt 35.
Proof. do 4 eexists. split; vm_compute; reflexivity. Qed.

(** ** C23 *)
Theorem C23_insert_select : forall kw E M h t m cs vs r r',
  prim_ok (e_P E) -> wf_meta kw M ->
  Forall (fun rj => frag_stmt kw (with_rnd E (fst rj)) M (snd rj)) h ->
  dget M t = Some m -> substrb (u "value") t = false -> NoDup cs -> length cs = length vs ->
  (forall k v, In (k, v) (combine cs vs) -> exists c, dget (t_cols m) k = Some c /\ const_ok (with_rnd E r) k c v) ->
  let all := select_stmt t (JStr (u "*")) None None None None in
  let ask h := last (run (through_proxy kw E M) (empty_enc M) (h ++ [(r', all)])) (Err Generic) in
  exists rows, ask h = Ok rows /\
  ask (h ++ [(r, insert_stmt t cs vs)]) =
  Ok (rows ++ [map (fun k => match dget (combine cs vs) k with Some v => const_sql v | None => VNull end)
                   (dkeys (t_cols m))]).
Proof. exact insert_select. Qed.
Print Assumptions C23_insert_select.

Example C23_example :
  last (run (through_proxy exkw exE exM) (empty_enc exM)
    (map (fun j => (fun _ => 2, j)) [ins 7 "Bob Ray" 35; select_stmt (u "emp") (JStr (u "*")) None None None None])) (Err Generic) =
  Ok [[VInt 7; VStr (u "Bob Ray"); VInt 35]].
Proof. vm_compute. reflexivity. Qed.

(** ** C24 *)
Theorem C24_update_like_insert : forall kw E M t m sets w,
  prim_ok (e_P E) -> wf_meta kw M -> dget M t = Some m -> NoDup (dkeys sets) ->
  (forall k v, In (k, v) sets -> exists c, dget (t_cols m) k = Some c /\ update_ok E k c v) ->
  where_ok kw (e_alnum E) m w ->
  exists stored sets' w' js,
    rewrite_query E M (update_stmt t sets w) = Ok (update_stmt (t_anon m) sets' w', JStr t, s_empty) /\
    rewrite_query E M (insert_stmt t (map fst sets) (map snd sets)) =
      Ok (JDict [(u "insert", JStr (t_anon m)); (u "columns", JList (map JStr (map fst stored)));
                 (u "query", JDict [(u "select", JList js)])], JStr t, s_empty) /\
    map fst sets' = map fst stored /\
    (forall r, mapM (operand kw r) (map snd sets') = Ok (map snd stored)) /\
    mapM (insert_const kw) js = Ok (map snd stored).
Proof. exact update_like_insert. Qed.
Print Assumptions C24_update_like_insert.

Lemma c24b_aux kw E (M : dbmeta) t m k c ci n z j' T st : wf_table kw m -> dget M t = Some m ->
  dget (t_cols m) k = Some c -> c_plain c = false -> dget (c_enc c) ci = Some n ->
  In ci [ARI; SM4C] ->
  rewrite_query E M (update_stmt t [(k, JInt z)] None) = Ok (j', T, st) ->
  exists sets', j' = update_stmt (t_anon m) sets' None /\ dget sets' n = Some (JInt z).
Proof.
  intros W Hm Hc Hp Hn Hi. apply (update_clear kw E M t m k c ci n _ j' T st); try assumption.
  destruct Hi as [<-|[<-|[]]]; reflexivity.
Qed.

(** The homomorphic and the SM4 column receive the number in clear ... *)
Theorem C24_homomorphic_sm4_in_clear_refuted : forall kw E M t m k c ci n z j' T st,
  wf_table kw m -> dget M t = Some m ->
  dget (t_cols m) k = Some c -> c_plain c = false -> dget (c_enc c) ci = Some n ->
  In ci [ARI; SM4C] ->
  rewrite_query E M (update_stmt t [(k, JInt z)] None) = Ok (j', T, st) ->
  exists sets', j' = update_stmt (t_anon m) sets' None /\ dget sets' n = Some (JInt z).
Proof. exact c24b_aux. Qed.
Print Assumptions C24_homomorphic_sm4_in_clear_refuted.

Lemma c24c_aux kw E (M : dbmeta) t m k c ci n q j' T st : wf_table kw m -> dget M t = Some m ->
  dget (t_cols m) k = Some c -> c_plain c = false -> dget (c_enc c) ci = Some n ->
  rewrite_query E M (update_stmt t [(k, JFloat q)] None) = Ok (j', T, st) ->
  exists sets', j' = update_stmt (t_anon m) sets' None /\ dget sets' n = Some (JFloat q).
Proof. intros W Hm Hc Hp Hn. apply (update_clear kw E M t m k c ci n _ j' T st); try assumption. reflexivity. Qed.

(** ... every physical column receives a floating point value in clear ... *)
Theorem C24_float_in_clear_refuted : forall kw E M t m k c ci n q j' T st,
  wf_table kw m -> dget M t = Some m ->
  dget (t_cols m) k = Some c -> c_plain c = false -> dget (c_enc c) ci = Some n ->
  rewrite_query E M (update_stmt t [(k, JFloat q)] None) = Ok (j', T, st) ->
  exists sets', j' = update_stmt (t_anon m) sets' None /\ dget sets' n = Some (JFloat q).
Proof. exact c24c_aux. Qed.
Print Assumptions C24_float_in_clear_refuted.

Lemma c24d_aux kw E (M : dbmeta) t m k c ci n s j' T st : wf_table kw m -> dget M t = Some m ->
  dget (t_cols m) k = Some c -> c_plain c = false -> dget (c_enc c) ci = Some n -> In ci [OPEC; ARI; SM4C] ->
  rewrite_query E M (update_stmt t [(k, lit s)] None) = Ok (j', T, st) ->
  exists sets', j' = update_stmt (t_anon m) sets' None /\ dget sets' n = Some (lit s).
Proof.
  intros W Hm Hc Hp Hn Hi. apply (update_clear kw E M t m k c ci n _ j' T st); try assumption.
  destruct Hi as [<-|[<-|[<-|[]]]]; reflexivity.
Qed.

(** ... and a quoted value reaches the order-preserving, homomorphic and SM4 columns in clear. *)
Theorem C24_text_in_clear_refuted : forall kw E M t m k c ci n s j' T st,
  wf_table kw m -> dget M t = Some m ->
  dget (t_cols m) k = Some c -> c_plain c = false -> dget (c_enc c) ci = Some n -> In ci [OPEC; ARI; SM4C] ->
  rewrite_query E M (update_stmt t [(k, lit s)] None) = Ok (j', T, st) ->
  exists sets', j' = update_stmt (t_anon m) sets' None /\ dget sets' n = Some (lit s).
Proof. exact c24d_aux. Qed.
Print Assumptions C24_text_in_clear_refuted.

Example C24_example :
  (exists x, rewrite_query exE exM (update_stmt (u "emp") [(u "age", JInt 50)] None) =
    Ok (update_stmt (u "t9f") [(u "d33", JStr x); (u "e45", JInt 50)] None, JStr (u "emp"), s_empty)) /\
  rewrite_query exE exM (update_stmt (u "emp") [(u "age", JFloat (7 # 2))] None) =
    Ok (update_stmt (u "t9f") [(u "d33", JFloat (7 # 2)); (u "e45", JFloat (7 # 2))] None, JStr (u "emp"), s_empty).
Proof. split; [eexists; vm_compute; reflexivity | vm_compute; reflexivity]. Qed.

(** ** C25 *)
Lemma c25_aux kw E (M : dbmeta) t m w o l off : prim_ok (e_P E) -> wf_meta kw M -> dget M t = Some m ->
  substrb (u "value") t = false -> where_ok kw (e_alnum E) m w -> order_ok m o ->
  exists w' o',
  rewrite_query E M (select_stmt t (JStr (u "*")) w o l off) =
  Ok (select_stmt (t_anon m)
        (JList (map (fun kc => JStr (if c_plain (snd kc) then fst kc
                                     else match dget (c_enc (snd kc)) SYM with Some n => n | None => [] end))
                    (t_cols m))) w' o' l off, JStr t,
      {| s_cols := map fst (t_cols m); s_types := map (fun kc => c_type (snd kc)) (t_cols m);
         s_state := map (fun kc => if c_plain (snd kc) then PLAIN else SYM) (t_cols m) |}) /\
  forall k c, In (k, c) (t_cols m) -> c_plain c = false -> exists n, dget (c_enc c) SYM = Some n.
Proof.
  intros HP HM Hm Hv Hw Ho.
  destruct (where_opt_sound kw E M t m w HP Hm (wm_table kw M HM t m Hm) Hw) as (w' & W1 & _).
  destruct (order_sim kw E M t m o HM Hm Ho) as (o' & O1 & _).
  exists w', o'. split; [exact (star_rewrite kw E M t m w w' o o' l off HM Hm Hv W1 O1)|].
  intros k c Hk Hp. apply sym_name; [|exact Hp]. apply (wm_supp kw M HM t m k c Hm).
  apply dget_NoDup; [apply (wf_log kw m (wm_table kw M HM t m Hm)) | exact Hk].
Qed.

Theorem C25_star_expansion : forall kw E M t m w o l off,
  prim_ok (e_P E) -> wf_meta kw M -> dget M t = Some m ->
  substrb (u "value") t = false -> where_ok kw (e_alnum E) m w -> order_ok m o ->
  exists w' o',
  rewrite_query E M (select_stmt t (JStr (u "*")) w o l off) =
  Ok (select_stmt (t_anon m)
        (JList (map (fun kc => JStr (if c_plain (snd kc) then fst kc
                                     else match dget (c_enc (snd kc)) SYM with Some n => n | None => [] end))
                    (t_cols m))) w' o' l off, JStr t,
      {| s_cols := map fst (t_cols m); s_types := map (fun kc => c_type (snd kc)) (t_cols m);
         s_state := map (fun kc => if c_plain (snd kc) then PLAIN else SYM) (t_cols m) |}) /\
  forall k c, In (k, c) (t_cols m) -> c_plain c = false -> exists n, dget (c_enc c) SYM = Some n.
Proof. exact c25_aux. Qed.
Print Assumptions C25_star_expansion.

(** A table with an encrypted column that has no symmetric part cannot be selected with *. *)
Theorem C25_no_symmetric_part : forall E M t m k c w o l off, dget M t = Some m -> In (k, c) (t_cols m) ->
  c_plain c = false -> dget (c_enc c) SYM = None ->
  rewrite_query E M (select_stmt t (JStr (u "*")) w o l off) = Err KeyError.
Proof. exact star_nosym. Qed.
Print Assumptions C25_no_symmetric_part.

Example C25_example :
  rewrite_query exE exM (select_stmt (u "emp") (JStr (u "*")) None None None None) =
  Ok (select_stmt (u "t9f") (JList [JStr (u "id"); JStr (u "b71"); JStr (u "d33")]) None None None None, JStr (u "emp"),
      {| s_cols := [u "id"; u "name"; u "age"]; s_types := [u "int"; u "varchar"; u "int"];
         s_state := [PLAIN; SYM; SYM] |}).
Proof. vm_compute. reflexivity. Qed.

(** ** C26 *)
Theorem C26_decryption_positions : forall E M t m st vss wss, prim_ok (e_P E) -> dget M t = Some m ->
  Forall2 (shows_row E m (s_cols st) (s_state st)) vss wss ->
  decrypt_result E M (JStr t) st wss = Ok vss.
Proof. exact decrypt_shown. Qed.
Print Assumptions C26_decryption_positions.

(** Any successful decryption keeps the shape, NULLs and plaintext columns. *)
Theorem C26_shape : forall E M T st rows out, decrypt_result E M T st rows = Ok out ->
  length (s_cols st) = length (s_state st) ->
  Forall (fun r => length r = length (s_cols st)) rows ->
  length out = length rows /\ Forall (fun r => length r = length (s_cols st)) out /\
  forall i j r o v, nth_error rows i = Some r -> nth_error out i = Some o -> nth_error r j = Some v ->
    (v = VNull \/ nth_error (s_state st) j = Some PLAIN) -> nth_error o j = Some v.
Proof. exact decrypt_shape. Qed.
Print Assumptions C26_shape.

Example C26_example : exists c,
  aes_encrypt (e_P exE) (u "k1") (u "Ann") = Ok c /\
  decrypt_result exE exM (JStr (u "emp"))
    {| s_cols := [u "age"; u "name"; u "id"]; s_types := []; s_state := [OPEC; SYM; PLAIN] |}
    [[VInt 41; VStr c; VInt 1]; [VNull; VStr c; VNull]] =
  Ok [[VInt 41; VStr (u "Ann"); VInt 1]; [VNull; VStr (u "Ann"); VNull]].
Proof. eexists. split; [vm_compute; reflexivity | vm_compute; reflexivity]. Qed.

(** ** C27 *)
Theorem C27_order_by : forall kw E M pdb edb t m k c w pt rows,
  prim_ok (e_P E) -> wf_meta kw M -> db_rel E M pdb edb -> dget M t = Some m -> substrb (u "value") t = false ->
  enc_col m k c OPEC -> c_type c = u "int" -> where_ok kw (e_alnum E) m w ->
  dget pdb t = Some pt -> filterM (selected kw w) (tb_rows pt) = Ok rows ->
  exists vs,
    answer (proxy kw E M edb (select_stmt t (val (JStr k)) w (Some (JDict [(u "value", JStr k)])) None None)) =
      Ok (map (fun v => [v]) vs) /\
    Permutation vs (map (fun r => cell r k) rows) /\ StronglySorted ascending vs.
Proof. exact order_values. Qed.
Print Assumptions C27_order_by.

Lemma c27b_aux kw E (M : dbmeta) t m k c s sel w l off : prim_ok (e_P E) -> wf_meta kw M -> dget M t = Some m ->
  substrb (u "value") t = false -> enc_col m k c OPEC -> select_ok m sel -> where_ok kw (e_alnum E) m w ->
  rewrite_query E M (select_stmt t sel w (Some (JDict [(u "value", JStr k); (u "sort", JStr s)])) l off) =
  rewrite_query E M (select_stmt t sel w (Some (JDict [(u "value", JStr k)])) l off).
Proof.
  intros HP HM Hm Hv (Hc & Hp & n & Hn) Hs Hw.
  destruct (where_opt_sound kw E M t m w HP Hm (wm_table kw M HM t m Hm) Hw) as (w' & W1 & _).
  destruct (select_list_sim kw E M t m sel HP HM Hm Hs) as (sel' & st & S1 & _).
  apply sort_lost with m c sel' st w'; try assumption. apply dget_Some_key with n, Hn.
Qed.

(** The direction is dropped: DESC is rewritten as ascending order. *)
Theorem C27_direction_lost_refuted : forall kw E M t m k c s sel w l off,
  prim_ok (e_P E) -> wf_meta kw M -> dget M t = Some m ->
  substrb (u "value") t = false -> enc_col m k c OPEC -> select_ok m sel -> where_ok kw (e_alnum E) m w ->
  rewrite_query E M (select_stmt t sel w (Some (JDict [(u "value", JStr k); (u "sort", JStr s)])) l off) =
  rewrite_query E M (select_stmt t sel w (Some (JDict [(u "value", JStr k)])) l off).
Proof. exact c27b_aux. Qed.
Print Assumptions C27_direction_lost_refuted.

Definition sorted_hist (o : json) : list ((pystr -> Z) * json) :=
  map (fun j => (fun _ => 2, j))
  [ins 1 "Ann Lee" 41; ins 2 "Bob Ray" 35; select_stmt (u "emp") (val (JStr (u "age"))) None (Some o) None None].
Example C27_example :
  let asc := JDict [(u "value", JStr (u "age"))] in
  let desc := JDict [(u "value", JStr (u "age")); (u "sort", JStr (u "desc"))] in
  last (run (through_proxy exkw exE exM) (empty_enc exM) (sorted_hist asc)) (Err Generic) = Ok [[VInt 35]; [VInt 41]] /\
  last (run (through_proxy exkw exE exM) (empty_enc exM) (sorted_hist desc)) (Err Generic) = Ok [[VInt 35]; [VInt 41]] /\
  last (run (plain_db exkw) (empty_plain exM) (sorted_hist desc)) (Err Generic) = Ok [[VInt 41]; [VInt 35]].
Proof. vm_compute. repeat split. Qed.

(** ** C28 *)
Theorem C28_min_max : forall kw E M pdb edb t m k c w pt rows f,
  prim_ok (e_P E) -> wf_meta kw M -> db_rel E M pdb edb -> dget M t = Some m -> substrb (u "value") t = false ->
  enc_col m k c OPEC -> c_type c = u "int" -> where_ok kw (e_alnum E) m w ->
  dget pdb t = Some pt -> filterM (selected kw w) (tb_rows pt) = Ok rows -> In f [u "max"; u "min"] ->
  exists x,
    answer (proxy kw E M edb (select_stmt t (val (JDict [(f, JStr k)])) w None None None)) = Ok [[x]] /\
    ((x = VNull /\ forall r, In r rows -> cell r k = VNull) \/
     exists z, x = VInt z /\ In (VInt z) (map (fun r => cell r k) rows) /\
       forall z', In (VInt z') (map (fun r => cell r k) rows) -> if seqb f (u "max") then z' <= z else z <= z').
Proof. exact minmax_values. Qed.
Print Assumptions C28_min_max.

Definition max_hist (f : string) : list ((pystr -> Z) * json) :=
  map (fun j => (fun _ => 2, j))
  [ins 1 "Ann Lee" 41; ins 2 "Bob Ray" (-35); ins 3 "Eve Fox" 7;
   select_stmt (u "emp") (val (JDict [(u f, JStr (u "age"))])) None None None None].
Example C28_example :
  last (run (through_proxy exkw exE exM) (empty_enc exM) (max_hist "max")) (Err Generic) = Ok [[VInt 41]] /\
  last (run (through_proxy exkw exE exM) (empty_enc exM) (max_hist "min")) (Err Generic) = Ok [[VInt (-35)]].
Proof. vm_compute. repeat split. Qed.

(** ** C29 *)
Theorem C29_count : forall kw E M pdb edb t m w pt rows,
  prim_ok (e_P E) -> wf_meta kw M -> db_rel E M pdb edb -> dget M t = Some m -> substrb (u "value") t = false ->
  where_ok kw (e_alnum E) m w -> dget pdb t = Some pt -> filterM (selected kw w) (tb_rows pt) = Ok rows ->
  answer (proxy kw E M edb (select_stmt t (val (JDict [(u "count", JStr (u "*"))])) w None None None)) =
  Ok [[VInt (Z.of_nat (length rows))]].
Proof. exact count_rows. Qed.
Print Assumptions C29_count.

Theorem C29_limit_offset : forall kw E M pdb edb t m sel w o n k rs,
  prim_ok (e_P E) -> wf_meta kw M -> db_rel E M pdb edb -> dget M t = Some m -> substrb (u "value") t = false ->
  select_ok m sel -> where_ok kw (e_alnum E) m w -> order_ok m o ->
  answer (proxy kw E M edb (select_stmt t sel w o None None)) = Ok rs ->
  answer (proxy kw E M edb (select_stmt t sel w o (Some (JInt (Z.of_nat n))) (Some (JInt (Z.of_nat k))))) =
  Ok (firstn n (skipn k rs)).
Proof. exact limit_cut. Qed.
Print Assumptions C29_limit_offset.

(** Rows, order and errors are those of the plaintext database. *)
Lemma c29c_aux kw E M pdb edb t m sel w o l off :
  prim_ok (e_P E) -> wf_meta kw M -> db_rel E M pdb edb -> dget M t = Some m -> substrb (u "value") t = false ->
  select_ok m sel -> where_ok kw (e_alnum E) m w -> order_ok m o ->
  answer (proxy kw E M edb (select_stmt t sel w o l off)) = answer (exec kw pdb (select_stmt t sel w o l off)).
Proof. intros HP HM D Hm Hv Hs Hw Ho. apply answer_sim; try assumption. apply frag_select with m; assumption. Qed.
Theorem C29_same_rows : forall kw E M pdb edb t m sel w o l off,
  prim_ok (e_P E) -> wf_meta kw M -> db_rel E M pdb edb -> dget M t = Some m -> substrb (u "value") t = false ->
  select_ok m sel -> where_ok kw (e_alnum E) m w -> order_ok m o ->
  answer (proxy kw E M edb (select_stmt t sel w o l off)) = answer (exec kw pdb (select_stmt t sel w o l off)).
Proof. exact c29c_aux. Qed.
Print Assumptions C29_same_rows.

Definition count_hist : list ((pystr -> Z) * json) :=
  map (fun j => (fun _ => 2, j))
  [ins 1 "Ann Lee" 41; ins 2 "Bob Ray" 35; ins 3 "Bob Ray" 22;
   select_stmt (u "emp") (val (JDict [(u "count", JStr (u "*"))])) (Some (cmp "eq" "name" (lit (u "Bob Ray")))) None None None].
Example C29_example :
  last (run (through_proxy exkw exE exM) (empty_enc exM) count_hist) (Err Generic) = Ok [[VInt 2]].
Proof. vm_compute. reflexivity. Qed.

(** ** C30 *)
Theorem C30_join_same_key : forall kw E M t0 m0 c0 k0 t1 m1 c1 k1 j,
  prim_ok (e_P E) -> wf_meta kw M -> dget M t0 = Some m0 -> dget M t1 = Some m1 -> t0 <> t1 ->
  colname kw t0 -> colname kw t1 -> colname kw (t_anon m0) -> colname kw (t_anon m1) ->
  dget (t_cols m0) c0 = Some k0 -> dget (t_cols m1) c1 = Some k1 ->
  (c_plain k0 = true /\ c_plain k1 = true) \/
  (c_plain k0 = false /\ c_plain k1 = false /\ c_key k0 = c_key k1 /\ (c_type k0 = u "int" <-> c_type k1 = u "int")) ->
  In j [u "join"; u "inner join"; u "left join"; u "right join"] ->
  exists on',
    from_rw E M (JList [JStr t0; JDict [(j, JStr t1); (u "on", join_cond t0 c0 t1 c1)]]) =
      Ok (JList [JStr (t_anon m0); JDict [(j, JStr (t_anon m1)); (u "on", on')]]) /\
    forall pr0 er0 pr1 er1, enc_row E m0 pr0 er0 -> enc_row E m1 pr1 er1 ->
      cond kw (side_by_side (t_anon m0) er0 (t_anon m1) er1) on' =
      cond kw (side_by_side t0 pr0 t1 pr1) (join_cond t0 c0 t1 c1).
Proof. exact join_sound. Qed.
Print Assumptions C30_join_same_key.

(** Example data: emp.name and dep.boss have the same key, dep.other has another one. *)
Definition sym_of (k s : string) : sqlv :=
  match aes_encrypt (e_P exE) (u k) (u s) with Ok c => VStr c | Err _ => VNull end.
Definition fuz_of (k s : string) : sqlv :=
  match fuzzy_encrypt (e_alnum exE) (e_P exE) (u k) (u s) with Ok c => VStr c | Err _ => VNull end.
Definition p_emp : row := [(u "id", VInt 1); (u "name", VStr (u "Bob Ray")); (u "age", VNull)].
Definition e_emp : row :=
  [(u "id", VInt 1); (u "b71", sym_of "k1" "Bob Ray"); (u "c02", fuz_of "k1" "Bob Ray"); (u "d33", VNull); (u "e45", VNull)].
Definition p_dep : row := [(u "boss", VStr (u "Bob Ray")); (u "other", VStr (u "Bob Ray"))].
Definition e_dep : row := [(u "f10", sym_of "k1" "Bob Ray"); (u "g11", sym_of "Z9" "Bob Ray")].
Lemma emp_row : enc_row exE emp p_emp e_emp.
Proof.
  intros k c H. apply dget_In in H. destruct H as [[= <- <-]|[[= <- <-]|[[= <- <-]|[]]]].
  - exists (VInt 1). split; reflexivity.
  - exists (VStr (u "Bob Ray")). split; [reflexivity|]. cbv iota. split.
    + split; [reflexivity|]. split; [reflexivity|]. right. discriminate.
    + intros ci n Hn. apply dget_In in Hn. destruct Hn as [[= <- <-]|[[= <- <-]|[]]].
      * eexists. split; [reflexivity|]. left. split; [reflexivity|]. eexists. split; vm_compute; reflexivity.
      * eexists. split; [reflexivity|]. right. split; [reflexivity|]. eexists. split; vm_compute; reflexivity.
  - exists VNull. split; [reflexivity|]. cbv iota. split; [exact I|].
    intros ci n Hn. apply dget_In in Hn. destruct Hn as [[= <- <-]|[[= <- <-]|[]]]; exists VNull; split; reflexivity.
Qed.
Lemma dep_row : enc_row exE dep p_dep e_dep.
Proof.
  intros k c H. apply dget_In in H. destruct H as [[= <- <-]|[[= <- <-]|[]]];
  (exists (VStr (u "Bob Ray")); split; [reflexivity|]; cbv iota; split;
   [split; [reflexivity|]; split; [reflexivity|]; right; discriminate|]);
  intros ci n Hn; apply dget_In in Hn; destruct Hn as [[= <- <-]|[]];
  (eexists; split; [reflexivity|]; left; split; [reflexivity|]; eexists; split; vm_compute; reflexivity).
Qed.

(** With different keys equal values no longer join. *)
Theorem C30_join_different_keys_refuted : exists kw E M t0 m0 c0 t1 m1 c1 pr0 er0 pr1 er1 on',
  prim_ok (e_P E) /\ wf_meta kw M /\ dget M t0 = Some m0 /\ dget M t1 = Some m1 /\
  enc_row E m0 pr0 er0 /\ enc_row E m1 pr1 er1 /\
  from_rw E M (JList [JStr t0; JDict [(u "join", JStr t1); (u "on", join_cond t0 c0 t1 c1)]]) =
    Ok (JList [JStr (t_anon m0); JDict [(u "join", JStr (t_anon m1)); (u "on", on')]]) /\
  cond kw (side_by_side t0 pr0 t1 pr1) (join_cond t0 c0 t1 c1) = Ok (Some true) /\
  cond kw (side_by_side (t_anon m0) er0 (t_anon m1) er1) on' = Ok (Some false).
Proof.
  exists exkw, exE, exM, (u "emp"), emp, (u "name"), (u "dep"), dep, (u "other"), p_emp, e_emp, p_dep, e_dep. eexists.
  split; [exact exE_ok|]. split; [exact exM_wf|]. split; [reflexivity|]. split; [reflexivity|].
  split; [exact emp_row|]. split; [exact dep_row|]. split; [vm_compute; reflexivity|]. split; vm_compute; reflexivity.
Qed.
Print Assumptions C30_join_different_keys_refuted.

Example C30_example : exists on',
  from_rw exE exM (JList [JStr (u "emp"); JDict [(u "join", JStr (u "dep")); (u "on", join_cond (u "emp") (u "name") (u "dep") (u "boss"))]]) =
    Ok (JList [JStr (u "t9f"); JDict [(u "join", JStr (u "q04")); (u "on", on')]]) /\
  on' = join_cond (u "t9f") (u "b71") (u "q04") (u "f10") /\
  cond exkw (side_by_side (u "t9f") e_emp (u "q04") e_dep) on' = Ok (Some true).
Proof. eexists. split; [vm_compute; reflexivity|]. split; vm_compute; reflexivity. Qed.

(** ** C33 *)
(** [rows]: the list of rows the parser produces for several rows of literals (utils.py L528-547). *)
Theorem C33_multi_row_insert_in_clear_refuted : forall E M t m rows, dget M t = Some m ->
  rewrite_query E M (JDict [(u "insert", JStr t); (u "values", rows)]) =
  Ok (JDict [(u "insert", JStr (t_anon m)); (u "values", rows)], JStr t, s_empty).
Proof. exact multi_insert. Qed.
Print Assumptions C33_multi_row_insert_in_clear_refuted.

Example C33_example :
  let rows := JList [JDict [(u "name", JStr (u "Ann")); (u "age", JInt 41)]; JDict [(u "name", JStr (u "Bob")); (u "age", JInt 35)]] in
  rewrite_query exE exM (JDict [(u "insert", JStr (u "emp")); (u "values", rows)]) =
  Ok (JDict [(u "insert", JStr (u "t9f")); (u "values", rows)], JStr (u "emp"), s_empty).
Proof. vm_compute. reflexivity. Qed.

(** ** C34 *)
(** [binds]: names and tables bound by the FROM items.  An unknown name gives the empty name, which
    is no table. *)
Theorem C34_table_resolution : forall items binds q,
  Forall2 (fun x nt => from_item x (fst nt) (snd nt)) items binds -> NoDup (map fst binds) ->
  (forall n t, In (n, t) binds -> valid_name t = true) ->
  get_origin_table q (JList items) = Ok (JStr (match dget binds q with Some t => t | None => [] end)).
Proof. exact origin_all. Qed.
Print Assumptions C34_table_resolution.

Example C34_example :
  let items := [JStr (u "emp"); JDict [(u "value", JStr (u "dep")); (u "name", JStr (u "d"))];
                JDict [(u "left join", JDict [(u "value", JStr (u "emp")); (u "name", JStr (u "e2"))]); (u "on", JBool true)]] in
  Forall2 (fun x nt => from_item x (fst nt) (snd nt)) items
    [(u "emp", u "emp"); (u "d", u "dep"); (u "e2", u "emp")] /\
  get_origin_table (u "e2") (JList items) = Ok (JStr (u "emp")) /\
  get_origin_table (u "d") (JList items) = Ok (JStr (u "dep")) /\
  get_origin_table (u "dep") (JList items) = Ok (JStr []).
Proof.
  cbv zeta. split; [|vm_compute; repeat split].
  constructor; [constructor|]. constructor; [constructor|]. constructor; [|constructor].
  cbn [fst snd]. constructor.
  - unfold origin_keys. cbn [In]. repeat (first [left; reflexivity | right]).
  - cbn [dkeys map fst]. intros x [<-|[]] X. apply smem_In in X. vm_compute in X. discriminate X.
Qed.

(** ** C67 *)
Lemma c67_aux kw E M h : prim_ok (e_P E) -> wf_meta kw M ->
  Forall (fun rj => frag_stmt kw (with_rnd E (fst rj)) M (snd rj)) h ->
  run (through_proxy kw E M) (empty_enc M) h = run (plain_db kw) (empty_plain M) h.
Proof. intros HP HM F. symmetry. apply run_sim; try assumption. apply empty_rel with kw, HM. Qed.

Theorem C67_transparency : forall kw E M h,
  prim_ok (e_P E) -> wf_meta kw M ->
  Forall (fun rj => frag_stmt kw (with_rnd E (fst rj)) M (snd rj)) h ->
  run (through_proxy kw E M) (empty_enc M) h = run (plain_db kw) (empty_plain M) h.
Proof. exact c67_aux. Qed.
Print Assumptions C67_transparency.

Example C67_example :
  run (through_proxy exkw exE exM) (empty_enc exM) ex_hist =
  [Ok []; Ok []; Ok []; Ok [];
   Ok [[VInt 1; VStr (u "Ann Lee"); VInt 41]; [VInt 2; VStr (u "Bob Ray"); VInt 35]; [VInt 3; VStr (u "Eve Fox"); VInt 50]];
   Ok []; Ok [[VStr (u "Eve Fox"); VInt 3]]; Ok [[VInt 50]]; Ok [[VInt 0]]].
Proof. vm_compute. reflexivity. Qed.
