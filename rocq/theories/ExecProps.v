(** Running statements (C40-C45, C71-C74). *)
From Coq Require Import String Ascii List NArith ZArith QArith Bool Lia.
From Verif Require Import Base BaseProof CryptoModel JsonModel RewriteModel SqlSpec EncSpec StmtSpec RewriteExample
  CreateModel CreateSpec CreateProps MetaModel MetaSpec ExecModel ExecSpec ExecProof.
Import ListNotations.
Open Scope Z_scope.

(** ** Examples: requests and answers *)
Definition ex_req (ty : qtype) (j : json) (enc : option (dict json)) : request :=
  {| q_db := u "db1"; q_type := Ok ty; q_parsed := Ok j; q_enc := enc; q_ciphertext := false;
     q_fresh := ex_fresh; q_anon := u "t77" |}.
Definition ex_ans (x : option exn) (rows : res (list (list sqlv))) : answer :=
  {| a_cursor := None; a_exec := x; a_fetch := rows; a_commit := None |}.
Definition ex_d : delta := {| d_class := [(u "db1", exM)]; d_inst := None; d_rows := [] |}.
Definition ex_inj : delta -> sent -> json -> res sent := fun _ _ _ => Err TypeError.
Definition ex_drop (t : string) : json := JDict [(u "drop", JDict [(u "table", JStr (u t))])].
Definition ex_sel : json := select_stmt (u "dep") (JStr (u "boss")) None None None None.
(** An inject_procedure that sends the statement it is given, when that is a SELECT. *)
Definition ex_inj2 : delta -> sent -> json -> res sent :=
  fun _ q _ => match q with
               | SJson (JDict e) => match dget e (u "drop") with None => Ok q | Some _ => Err TypeError end
               | _ => Err TypeError
               end.

(** ** C40 *)
(** The ideal is refuted: whatever execute does, the result, the metadata and the actions (among
    them the commit) are the same. *)
Theorem C40_failure_reported_refuted : forall E inj b o d r a x,
  q_type r <> Ok QSelect -> q_type r <> Ok QCreate ->
  call E inj b o d r (with_exec a x) = call E inj b o d r a.
Proof. exact exec_hidden. Qed.
Print Assumptions C40_failure_reported_refuted.

Theorem C40_create_failure_reported_refuted : forall E inj o d r a e,
  q_type r = Ok QCreate -> q_enc r <> None ->
  snd (fst (call E inj MySQL o d r (with_exec a (Some e)))) = snd (fst (call E inj MySQL o d r (with_exec a None))) /\
  snd (call E inj MySQL o d r (with_exec a (Some e))) = snd (call E inj MySQL o d r (with_exec a None)).
Proof. exact create_hidden. Qed.
Print Assumptions C40_create_failure_reported_refuted.

Theorem C40_select_failure_reported : forall E inj b o d r a,
  q_type r = Ok QSelect -> answer_ok a -> a_exec a <> None -> exists e, snd (fst (call E inj b o d r a)) = Err e.
Proof. exact select_visible. Qed.
Print Assumptions C40_select_failure_reported.

(** The exact outcome, for the types other than CREATE and DROP, whose metadata change may fail too. *)
Theorem C40_outcome : forall E inj b o d r a ty, q_type r = Ok ty -> ty <> QCreate -> ty <> QDrop ->
  ((exists x, snd (fst (call E inj b o d r a)) = Ok x) <->
   ty <> QReplace /\ a_cursor a = None /\
   (exists q table st, snd (dispatch E b o d r) = Ok (q, table, st) /\
     (ty = QSelect -> (exists t, table = JDict t) \/ exists q', inj (fst (dispatch E b o d r)) q table = Ok q')) /\
   (ty = QSelect -> exists rows, a_fetch a = Ok rows) /\ (ty <> QSelect -> a_commit a = None)).
Proof. exact outcome_iff. Qed.
Print Assumptions C40_outcome.

(** A rejected INSERT and a rejected SELECT. *)
Example C40_example :
  snd (fst (call exE ex_inj MySQL None ex_d (ex_req QInsert (ins 1 "Ann Lee" 41) None) (ex_ans (Some DbError) (Ok [])))) =
    Ok (None, JStr (u "emp"), s_empty) /\
  snd (fst (call exE ex_inj2 MySQL None ex_d (ex_req QSelect ex_sel None) (ex_ans (Some DbError) (Err DbError)))) = Err DbError.
Proof. vm_compute. split; reflexivity. Qed.

(** ** C41 *)
(** [agree]: the physical tables are exactly those of the metadata.  [careful_run]: the database
    accepts every statement, CREATE TABLE is for a table that is not known and draws an unused name. *)
Theorem C41_metadata_agrees : forall E inj h, yields_select inj ->
  careful_run E inj (fresh_install, []) h -> agree (world_run E inj (fresh_install, []) h).
Proof. exact agree_run. Qed.
Print Assumptions C41_metadata_agrees.

(** The ways to diverge.  A DROP that the database rejects: *)
Theorem C41_rejected_drop_refuted : forall E inj d phys r a e n m,
  q_type r = Ok QDrop -> q_enc r = None -> q_parsed r = Ok (JDict [(u "drop", JDict [(u "table", JStr n)])]) ->
  (forall db T, dget (self_meta d) db = Some T -> NoDup (dkeys T)) ->
  dget (db_meta d (q_db r)) n = Some m -> a_cursor a = None -> a_exec a = Some e ->
  exists d', world_step E inj (d, phys) (r, a) = (d', phys) /\ in_memory d' (q_db r) n = None /\
    snd (fst (call E inj MySQL None d r a)) = Ok (None, JDict [(u "table", JStr n)], s_empty).
Proof. exact drop_rejected_by_server. Qed.
Print Assumptions C41_rejected_drop_refuted.

(** A CREATE that the database rejects: the metadata lose the table, even one created earlier. *)
Theorem C41_rejected_create_refuted : forall E inj d phys r a j enc q n m,
  q_type r = Ok QCreate -> q_enc r = Some enc -> q_parsed r = Ok j ->
  rewrite_table E (q_fresh r) (q_anon r) (dget (self_meta d) (q_db r)) j enc = Ok (q, n, m) ->
  (forall db T, dget (self_meta d) db = Some T -> NoDup (dkeys T)) ->
  forall e, a_cursor a = None -> a_exec a = Some e -> a_commit a = None ->
  exists d', world_step E inj (d, phys) (r, a) = (d', phys) /\ in_memory d' (q_db r) n = None /\
    snd (fst (call E inj MySQL None d r a)) = Ok (None, JDict [(u "table", JStr n)], s_empty).
Proof. exact create_rejected_by_server. Qed.
Print Assumptions C41_rejected_create_refuted.

(** A CREATE for which no cursor can be had: the metadata have the table, the database does not. *)
Theorem C41_create_without_cursor_refuted : forall E inj d phys r a j enc q n m,
  q_type r = Ok QCreate -> q_enc r = Some enc -> q_parsed r = Ok j ->
  rewrite_table E (q_fresh r) (q_anon r) (dget (self_meta d) (q_db r)) j enc = Ok (q, n, m) ->
  forall e, a_cursor a = Some e ->
  exists d', world_step E inj (d, phys) (r, a) = (d', phys) /\ in_memory d' (q_db r) n = Some m /\
    snd (fst (call E inj MySQL None d r a)) = Err e.
Proof. exact create_without_cursor. Qed.
Print Assumptions C41_create_without_cursor_refuted.

(** A CREATE of a known table that the database accepts: the old physical table stays, unreachable. *)
Theorem C41_repeated_create_refuted : forall E inj d phys r a j enc q n m,
  q_type r = Ok QCreate -> q_enc r = Some enc -> q_parsed r = Ok j ->
  rewrite_table E (q_fresh r) (q_anon r) (dget (self_meta d) (q_db r)) j enc = Ok (q, n, m) ->
  forall m0, accepted a -> ~ In 40%N (q_anon r) -> in_memory d (q_db r) n = Some m0 ->
  In (q_db r, t_anon m0) phys -> ~ In (q_db r, q_anon r) phys ->
  exists d', world_step E inj (d, phys) (r, a) = (d', (q_db r, q_anon r) :: phys) /\ in_memory d' (q_db r) n = Some m /\
    In (q_db r, t_anon m0) (snd (world_step E inj (d, phys) (r, a))).
Proof. exact create_again_accepted. Qed.
Print Assumptions C41_repeated_create_refuted.

Definition ex_table : json := ex_create ex_cols [primary_con None (JStr (u "id"))].
Definition ex_calls : list (request * answer) :=
  [(ex_req QCreate ex_table (Some ex_enc), ex_ans None (Ok []));
   (ex_req QDrop (ex_drop "staff") None, ex_ans None (Ok []))].
Example C41_example :
  careful_run exE ex_inj2 (fresh_install, []) ex_calls /\ yields_select ex_inj2 /\
  snd (world_run exE ex_inj2 (fresh_install, []) (firstn 1 ex_calls)) = [(u "db1", u "t77")] /\
  snd (world_run exE ex_inj2 (fresh_install, []) ex_calls) = [].
Proof.
  split; [|split; [|vm_compute; split; reflexivity]].
  - cbn [careful_run ex_calls fst snd]. split; [repeat split|]. split.
    { intros enc j n m q H1 H2 H3. split; [reflexivity|]. split; [reflexivity|]. split; [intros []|]. cbn. intuition discriminate. }
    split; [discriminate|]. split; [repeat split|]. split; [discriminate|]. split; [|exact I].
    intros _ j [= <-]. split; [split; [intros _; eexists; reflexivity|reflexivity]|]. split; [intro N; exfalso; apply N; reflexivity|discriminate].
  - intros d q t q' H. unfold ex_inj2 in H. destruct q as [s|[| | | | | |e]]; try discriminate H.
    destruct (dget e (u "drop")) eqn:G; [discriminate H|]. injection H as <-. exists e. auto.
Qed.

(** ** C42 *)
(** A request is served by the pool of the first request with the same key that could connect. *)
Theorem C42_served_by_first : forall reach h c,
  snd (connect_db reach (pools_after reach h) c) =
  match first_under reach (db_key c) h with
  | Some c' => Ok c'
  | None => match reach c with Some e => Err e | None => Ok c end
  end.
Proof. exact served_by. Qed.
Print Assumptions C42_served_by_first.

Theorem C42_shared_iff_same_key : forall reach h c1 c2, reach c1 = None -> reach c2 = None ->
  first_under reach (db_key c1) h = None -> first_under reach (db_key c2) h = None ->
  (snd (connect_db reach (pools_after reach (h ++ [c1])) c2) = Ok c1 <-> c1 = c2 \/ db_key c1 = db_key c2).
Proof. exact shared_iff. Qed.
Print Assumptions C42_shared_iff_same_key.

(** A wrong password is served from an existing pool. *)
Theorem C42_password_checked_refuted : forall reach host port db user p1 p2 h,
  let c p := {| ci_host := host; ci_port := port; ci_db := db; ci_user := user; ci_password := p |} in
  reach (c p1) = None -> first_under reach (db_key (c p1)) h = None ->
  snd (connect_db reach (pools_after reach (h ++ [c p1])) (c p2)) = Ok (c p1).
Proof.
  intros reach host port db user p1 p2 h c R F. exact (reused reach h (c p1) (c p2) R (key_ignores_password host port db user p1 p2) F).
Qed.
Print Assumptions C42_password_checked_refuted.

(** So is a request for another database and another user. *)
Theorem C42_targets_distinct_refuted : forall reach host port db x user p1 p2 h,
  let c1 := {| ci_host := host; ci_port := port; ci_db := db ++ x; ci_user := user; ci_password := p1 |} in
  let c2 := {| ci_host := host; ci_port := port; ci_db := db; ci_user := x ++ user; ci_password := p2 |} in
  reach c1 = None -> first_under reach (db_key c1) h = None ->
  snd (connect_db reach (pools_after reach (h ++ [c1])) c2) = Ok c1.
Proof.
  intros reach host port db x user p1 p2 h c1 c2 R F. exact (reused reach h c1 c2 R (key_boundary host port db x user p1 p2) F).
Qed.
Print Assumptions C42_targets_distinct_refuted.

(** Database "pay", user "root" and database "payr", user "oot"; port 33 and database "06x", port 3306. *)
Definition ex_conn (port : Z) (db user pw : string) : conn_info :=
  {| ci_host := u "h"; ci_port := port; ci_db := u db; ci_user := u user; ci_password := u pw |}.
Definition ex_reach (c : conn_info) : option exn := if seqb (ci_password c) (u "good") then None else Some DbError.
Example C42_example :
  snd (connect_db ex_reach (pools_after ex_reach [ex_conn 3306 "pay" "root" "bad"; ex_conn 3306 "pay" "root" "good"])
         (ex_conn 3306 "payr" "oot" "bad")) = Ok (ex_conn 3306 "pay" "root" "good") /\
  db_key (ex_conn 33 "06x" "root" "a") = db_key (ex_conn 3306 "x" "root" "b") /\
  snd (connect_db ex_reach [] (ex_conn 3306 "pay" "root" "bad")) = Err DbError.
Proof. vm_compute. repeat split. Qed.

(** ** C43 *)
(** [answered]: the call returned an id.  The metadata are those at the time of the decryption. *)
Theorem C43_matching_query : forall E pre c post d rows q table st id,
  convert E (e2_meta c) (e2_db c) (e2_parsed c) = Ok (q, table, st) ->
  snd (encrypt_sql2 E (e2_meta c) (e2_run E [] pre) (e2_ms c) (e2_db c) (e2_parsed c)) = Ok (q, table, id) ->
  (forall c', In c' post -> answered E c' -> e2_ms c' <> e2_ms c) ->
  decrypt_data E d (e2_run E [] (pre ++ c :: post)) rows id = decrypt_with E d (e2_db c) table st rows.
Proof. exact matching_query. Qed.
Print Assumptions C43_matching_query.

(** Two calls in the same millisecond get the same id, and the earlier one is lost. *)
Theorem C43_same_millisecond_refuted : forall E pre c1 mid c2 post d rows q1 t1 st1 q2 t2 st2 id1 id2,
  convert E (e2_meta c1) (e2_db c1) (e2_parsed c1) = Ok (q1, t1, st1) ->
  snd (encrypt_sql2 E (e2_meta c1) (e2_run E [] pre) (e2_ms c1) (e2_db c1) (e2_parsed c1)) = Ok (q1, t1, id1) ->
  convert E (e2_meta c2) (e2_db c2) (e2_parsed c2) = Ok (q2, t2, st2) ->
  snd (encrypt_sql2 E (e2_meta c2) (e2_run E [] (pre ++ c1 :: mid)) (e2_ms c2) (e2_db c2) (e2_parsed c2)) = Ok (q2, t2, id2) ->
  e2_ms c1 = e2_ms c2 ->
  (forall c', In c' post -> answered E c' -> e2_ms c' <> e2_ms c2) ->
  id1 = id2 /\
  decrypt_data E d (e2_run E [] (pre ++ c1 :: mid ++ c2 :: post)) rows id1 = decrypt_with E d (e2_db c2) t2 st2 rows.
Proof. exact colliding_query. Qed.
Print Assumptions C43_same_millisecond_refuted.

Definition ex_e2 (ms : Z) (j : json) : e2call := {| e2_meta := ex_d; e2_ms := ms; e2_db := u "db1"; e2_parsed := Ok j |}.
Definition ex_sel2 : json := select_stmt (u "emp") (JList [val (JStr (u "name")); val (JStr (u "age"))]) None None None None.
(** The state of the query 7, with and without a later query in the same millisecond. *)
Example C43_example :
  (do p <- dgetE (e2_run exE [] [ex_e2 6 ex_sel; ex_e2 7 ex_sel2; ex_e2 8 ex_sel]) (u "7"); Ok (s_cols (p_state p))) =
    Ok [u "name"; u "age"] /\
  (do p <- dgetE (e2_run exE [] [ex_e2 6 ex_sel; ex_e2 7 ex_sel2; ex_e2 7 ex_sel]) (u "7"); Ok (s_cols (p_state p))) =
    Ok [u "boss"].
Proof. vm_compute. split; reflexivity. Qed.

(** ** C44 *)
(** The fail-closed ideal is refuted: when rewriting raises, the answer is the text of the client. *)
Theorem C44_fail_closed_refuted : forall E d ids ms db text parsed e, convert E d db parsed = Err e ->
  endpoint1 E d db text parsed = Plain text /\ snd (endpoint2 E d ids ms db text parsed) = Plain text.
Proof.
  intros E d ids ms db text parsed e H. rewrite endpoint1_outcome, endpoint2_outcome, H. destruct (seqb text version_query); split; reflexivity.
Qed.
Print Assumptions C44_fail_closed_refuted.

Theorem C44_encrypted_iff_rewritten : forall E d ids ms db text parsed,
  ((exists q table id, endpoint1 E d db text parsed = Encrypted q table id) <->
   text <> version_query /\ exists x, convert E d db parsed = Ok x) /\
  ((exists q table id, snd (endpoint2 E d ids ms db text parsed) = Encrypted q table id) <->
   text <> version_query /\ (exists x, convert E d db parsed = Ok x) /\ dget (self_meta d) db <> None).
Proof. exact endpoints_iff. Qed.
Print Assumptions C44_encrypted_iff_rewritten.

(** SELECT secret FROM nowhere. *)
Example C44_example :
  endpoint1 exE ex_d (u "db1") (u "select pin from cards where pin = 4711")
    (Ok (select_stmt (u "cards") (JStr (u "pin")) (Some (cmp "eq" "pin" (JInt 4711))) None None None)) =
  Plain (u "select pin from cards where pin = 4711").
Proof. vm_compute. reflexivity. Qed.

(** ** C45 *)
(** Integers and texts in plain columns, or columns whose parts are order-preserving, symmetric and
    fuzzy and whose type is not FLOAT or DOUBLE: batch insert fails when the rewriting of the INSERT
    fails, with the same error, and otherwise sends the row that the INSERT stores. *)
Theorem C45_batch_is_insert : forall kw E (M : dbmeta) t m cols row D tb,
  dget M t = Some m -> length cols = length row -> Forall int_or_text row ->
  (forall col c, In col cols -> dget (t_cols m) col = Some c -> batch_column c) ->
  dget D (t_anon m) = Some tb ->
  match rewrite_query E M (insert_stmt t cols (map cell_json row)) with
  | Err e => (do pcs <- batch_columns m cols; do vs <- batch_row E m cols row; Ok (pcs, vs)) = Err e
  | Ok (j', _, _) => exists pcs vs r, batch_columns m cols = Ok pcs /\ batch_row E m cols row = Ok vs /\
      send_row (fun _ => None) pcs vs = Ok r /\
      exec kw D j' = if forallb (fun c => smem c (tb_cols tb) && is_column kw c) (dkeys r)
                     then Ok (dset D (t_anon m) (stored tb r), []) else Err DbError
  end.
Proof. exact batch_is_insert. Qed.
Print Assumptions C45_batch_is_insert.

(** A column with another part: nothing of any file is ever stored. *)
Theorem C45_other_parts_refuted : forall E accept (M : dbmeta) t m cols file col c,
  dget M t = Some m -> In col cols -> dget (t_cols m) col = Some c -> odd_column c -> file <> [] ->
  exists e, batch_insert E accept M t cols file = ([], Some e).
Proof. exact odd_batch_fails. Qed.
Print Assumptions C45_other_parts_refuted.

(** A FLOAT column: the batch insert stores z, the INSERT stores z * 10^12. *)
Theorem C45_float_scaling_refuted : forall kw E m col x y c z,
  dget (t_cols m) col = Some c -> c_plain c = false -> c_enc c = [(OPEC, x)] -> c_type c = u "float" ->
  z <> 0 -> Z.abs z < 9223372 -> y = z * 10 ^ 12 ->
  batch_cell E m col (CInt z) = Ok [VInt z] /\
  (do js <- values_col E m (JStr col) (val (cell_json (CInt z))); mapM (insert_const kw) js) = Ok [VInt y].
Proof. exact float_unscaled. Qed.
Print Assumptions C45_float_scaling_refuted.

Definition ex_row : list cell := [CInt 41; CInt 7; CStr (u "Ann Lee")].
Definition ex_names : list pystr := [u "age"; u "id"; u "name"].
Example C45_example :
  Forall int_or_text ex_row /\
  (forall col c, In col ex_names -> dget (t_cols emp) col = Some c -> batch_column c) /\
  batch_columns emp ex_names = Ok [u "d33"; u "e45"; u "id"; u "b71"; u "c02"] /\
  (exists a b c, batch_row exE emp ex_names ex_row = Ok [VStr a; VInt 41; VInt 7; VStr b; VStr c]).
Proof.
  split; [repeat constructor|]. split; [|split; [reflexivity|eexists _, _, _; vm_compute; reflexivity]].
  intros col c [<-|[<-|[<-|[]]]] [= <-]; [right|left; reflexivity|right];
    (split; [|split; discriminate]); intros ci I; cbn [dkeys c_enc col_enc map fst In] in I; unfold batch_parts; cbn [In]; tauto.
Qed.

(** ** C71 *)
(** The web console passes an empty dict of encrypted columns, so that every statement goes to the
    rewriter of CREATE TABLE: any other statement is rejected and nothing is sent. *)
Theorem C71_console_rejects : forall E inj b o d r a j,
  q_parsed r = Ok j -> contains j (u "create table") = Ok false ->
  exists e, console_query E inj b o d r a = (d, Err e, []).
Proof. exact console_rejects. Qed.
Print Assumptions C71_console_rejects.

Example C71_example :
  console_query exE ex_inj2 MySQL None ex_d (ex_req QSelect ex_sel None) (ex_ans None (Ok [[VStr (u "x")]])) = (ex_d, Err Generic, []) /\
  (exists rows st, invoke exE ex_inj2 MySQL None ex_d (ex_req QSelect ex_sel None) (ex_ans None (Ok [[VNull]])) =
     (ex_d, Ok (rows, st), [Execute (SJson (select_stmt (u "q04") (JStr (u "f10")) None None None None)); Fetch; Close])).
Proof. split; [vm_compute; reflexivity|]. eexists _, _. vm_compute. reflexivity. Qed.

(** ** C72 *)
(** The decrypt endpoint answers nothing at all when some cell of some row, within the selected
    columns, is not a text: NULL or a number of a plain or order-preserving column. *)
Theorem C72_one_cell_loses_all : forall E d ids rows id p row i v,
  dget ids id = Some p -> In row rows -> nth_error row i = Some v ->
  (i < length (s_cols (p_state p)))%nat -> (i < length (s_state (p_state p)))%nat -> (forall s, v <> VStr s) ->
  endpoint_decrypt E d ids rows id = None.
Proof. exact decrypt1_drops_all. Qed.
Print Assumptions C72_one_cell_loses_all.

(** With texts only it gives what the main path gives. *)
Theorem C72_texts_decrypted : forall E d ids rows id p, dget ids id = Some p ->
  (forall row v, In row rows -> In v row -> exists s, v = VStr s) ->
  decrypt_data E d ids rows id =
  do l <- decrypt_result E (db_meta d (p_db p)) (p_table p) (p_state p) rows; Ok (s_cols (p_state p), l).
Proof. exact decrypt1_texts. Qed.
Print Assumptions C72_texts_decrypted.

(** SELECT boss FROM dep, with a NULL in the second row. *)
Example C72_example :
  let ids := e2_run exE [] [ex_e2 6 ex_sel] in
  let c := match aes_encrypt (e_P exE) (u "k1") (u "Ann Lee") with Ok s => s | Err _ => [] end in
  endpoint_decrypt exE ex_d ids [[VStr c]] (u "6") = Some ([u "boss"], [[VStr (u "Ann Lee")]]) /\
  endpoint_decrypt exE ex_d ids [[VStr c]; [VNull]] (u "6") = None /\
  (do p <- dgetE ids (u "6"); decrypt_result exE exM (p_table p) (p_state p) [[VStr c]; [VNull]]) = Ok [[VStr (u "Ann Lee")]; [VNull]].
Proof. vm_compute. repeat split. Qed.

(** ** C73 *)
(** The rows committed by a batch insert are those of whole chunks from the beginning of the file,
    in order; all of them exactly when there is no error. *)
Theorem C73_whole_chunks : forall E accept (M : dbmeta) t m pcs cols file done x,
  dget M t = Some m -> batch_columns m cols = Ok pcs ->
  batch_insert E accept M t cols file = (done, x) ->
  let n := N.to_nat 20000 in
  exists k, Forall2 (fun row r => row_sent E accept m cols pcs row = Ok r) (firstn (k * n) file) done /\
    match x with
    | None => (length file <= k * n)%nat
    | Some _ => (k * n < length file)%nat /\
                exists row, In row (firstn n (skipn (k * n) file)) /\ exists e, row_sent E accept m cols pcs row = Err e
    end.
Proof. exact batch_prefix. Qed.
Print Assumptions C73_whole_chunks.

(** Three rows of which the third is rejected: none of the chunk is stored. *)
Example C73_example :
  fst (batch_insert exE (fun _ => None) exM (u "emp") ex_names [ex_row; ex_row]) <> [] /\
  batch_insert exE (fun _ => None) exM (u "emp") ex_names [ex_row; ex_row; [CNan; CInt 1; CInt 2]] = ([], Some ValueError).
Proof.
  assert (X : forall l, (0 < length l <= 3)%nat -> @chunked (list cell) (length l) (N.to_nat chunk_size) l = [l]).
  { intros l L. destruct l as [|x l]; [cbn in L; lia|]. cbn [length chunked]. 
    rewrite (firstn_all2 (x :: l)), (skipn_all2 (x :: l)) by (cbn [length] in *; unfold chunk_size; lia). destruct (length l); reflexivity. }
  unfold batch_insert. rewrite !X by (cbn; lia). split; vm_compute; [discriminate|reflexivity].
Qed.

(** ** C74 *)
(** Everything that is executed on the database connection is the outcome of rewriting, for SELECT
    possibly changed by inject_procedure; when rewriting fails nothing is executed. *)
Theorem C74_only_rewritten_sent : forall E inj b o d r a s, In (Execute s) (snd (call E inj b o d r a)) ->
  exists q table st, snd (dispatch E b o d r) = Ok (q, table, st) /\
    (s = q \/ inj (fst (dispatch E b o d r)) q table = Ok s).
Proof. exact only_rewritten. Qed.
Print Assumptions C74_only_rewritten_sent.

Theorem C74_failure_sends_nothing : forall E inj b o d r a e, snd (dispatch E b o d r) = Err e ->
  snd (call E inj b o d r a) = [] /\ exists e', snd (fst (call E inj b o d r a)) = Err e'.
Proof. exact failure_silent. Qed.
Print Assumptions C74_failure_sends_nothing.

Example C74_example :
  snd (call exE ex_inj2 MySQL None ex_d (ex_req QDrop (ex_drop "dep") None) (ex_ans None (Ok []))) =
    [Execute (SJson (ex_drop "q04")); Close] /\
  snd (call exE ex_inj2 MySQL None ex_d (ex_req QDrop (ex_drop "pay") None) (ex_ans None (Ok []))) = [].
Proof. vm_compute. split; reflexivity. Qed.

(** One statement per call: a successful call is execute, then fetch for SELECT, nothing for DROP, commit
    otherwise, then close; a failing call stops before close, so its connection is not given back. *)
Lemma c74_sequence E inj b o d r a ty : q_type r = Ok ty ->
  exists s, let full := match ty with
                        | QSelect => [Execute s; Fetch; Close]
                        | QDrop => [Execute s; Close]
                        | _ => [Execute s; Commit; Close]
                        end in
  match snd (fst (call E inj b o d r a)) with
  | Ok _ => snd (call E inj b o d r a) = full
  | Err _ => exists n, (n < length full)%nat /\ snd (call E inj b o d r a) = firstn n full
  end.
Proof.
  intro T. unfold call. rewrite T.
  destruct (in_sql_types ty); [|exists (SText []); exists 0%nat; destruct ty; cbn; split; (lia || reflexivity)].
  destruct (dispatch E b o d r) as [d1 [[[q table] st]|e]]; cbn [negb];
    [|exists (SText []); exists 0%nat; destruct ty; cbn; split; (lia || reflexivity)].
  match goal with |- context [match ?X with Ok q' => _ | Err e => (d1, Err e, [])  end] => destruct X as [q'|e] end;
    [|exists (SText []); exists 0%nat; destruct ty; cbn; split; (lia || reflexivity)].
  exists q'. destruct (a_cursor a); [exists 0%nat; destruct ty; cbn; split; (lia || reflexivity)|].
  match goal with |- context [let '(d2, x2) := ?X in _] => destruct X as [d2 [e|]] end;
    [exists 1%nat; destruct ty; cbn; split; (lia || reflexivity)|].
  destruct ty; cbn [fst snd]; try (destruct (a_commit a); cbn [fst snd]; [exists 2%nat; cbn; split; (lia || reflexivity)|reflexivity]).
  all: try (destruct (forget b o d2 (q_db r) table) as [d3 [e|]]; cbn [fst snd];
       [exists 1%nat; cbn; split; (lia || reflexivity)|reflexivity]).
  all: try (destruct (a_fetch a); cbn [fst snd]; [reflexivity|exists 2%nat; cbn; split; (lia || reflexivity)]).
Qed.
Theorem C74_sequence : forall E inj b o d r a ty, q_type r = Ok ty ->
  exists s, let full := match ty with
                        | QSelect => [Execute s; Fetch; Close]
                        | QDrop => [Execute s; Close]
                        | _ => [Execute s; Commit; Close]
                        end in
  match snd (fst (call E inj b o d r a)) with
  | Ok _ => snd (call E inj b o d r a) = full
  | Err _ => exists n, (n < length full)%nat /\ snd (call E inj b o d r a) = firstn n full
  end.
Proof. exact c74_sequence. Qed.
Print Assumptions C74_sequence.
Example C74_sequence_example :
  call exE ex_inj2 MySQL None ex_d (ex_req QSelect ex_sel None) (ex_ans (Some DbError) (Err DbError)) =
    (ex_d, Err DbError, firstn 2 (snd (call exE ex_inj2 MySQL None ex_d (ex_req QSelect ex_sel None) (ex_ans None (Ok []))))).
Proof. vm_compute. reflexivity. Qed.
