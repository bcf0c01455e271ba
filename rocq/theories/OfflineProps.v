(** C66: offline decryption. *)
From Coq Require Import String Ascii List NArith ZArith QArith Bool Lia.
From Verif Require Import Base BaseProof CryptoModel CryptoProof JsonModel RewriteModel OfflineModel OfflineProof.
From Verif Require Import RewriteExample.
Import ListNotations.

(** A pool returns the results in the order of the input, whatever the number of workers and the
    order in which they work: the same as one loop over the data, including the first exception. *)
Theorem C66_pool_order : forall {I V} (f : I -> res V) data n r, (1 <= n)%nat ->
  pool_run true f data n r -> r = mapM f data.
Proof. intros I V f data n r Hn H. exact (pool_result true f data n r H Hn). Qed.
Print Assumptions C66_pool_order.

(** It always answers: no schedule has more than three steps per value, and no state before the end
    is stuck. *)
Theorem C66_pool_answers : forall {I V} pickles (f : I -> res V) data n, (1 <= n)%nat ->
  (exists r, pool_run pickles f data n r) /\
  (forall k s, psteps pickles f k (p_init data n) s ->
     (k <= 3 * length data)%nat /\ (p_final s \/ exists s', pstep pickles f s s')).
Proof.
  intros I V p f data n Hn. split; [apply pool_answers|]. intros k s H.
  split; [exact (pool_bounded _ _ _ _ _ _ H)|exact (pool_not_stuck _ _ _ _ _ _ Hn H)].
Qed.
Print Assumptions C66_pool_answers.

(** But the function that pool_decrypt hands to the pool is local and cannot be pickled: the claim is
    refuted for every column that is not empty. *)
Theorem C66_pool_decrypt_refuted : forall E data k ty r, pool_decrypt E data k ty r ->
  r = match data with [] => Ok [] | _ => Err AttributeError end.
Proof.
  intros E data k ty r H. apply pool_result in H; [|unfold CPU_NUM; lia]. subst r.
  destruct data as [|x data]; [reflexivity|]. apply mapM_err_first. reflexivity.
Qed.
Print Assumptions C66_pool_decrypt_refuted.

(** With Spark, however it slices the data: as single_decrypt, if that raises nothing. *)
Theorem C66_spark : forall E data slices k ty r, concat slices = data -> single_decrypt E data k ty = Ok r ->
  distributed_decrypt E true (Ok slices) data k ty = Ok r.
Proof.
  intros E data slices k ty r Hs H. unfold distributed_decrypt, spark. cbn [bind].
  rewrite spark_slices, Hs. unfold single_decrypt in H. rewrite H. reflexivity.
Qed.
Print Assumptions C66_spark.

(** Without Spark, or when Spark fails or a value does not decode, the values are decrypted and not
    decoded; single_decrypt decodes the same values. *)
Theorem C66_distributed_local : forall E conf slices data k ty r,
  conf = false \/ (exists e, slices = Err e) \/ (exists s e, slices = Ok s /\ concat s = data /\ single_decrypt E data k ty = Err e) ->
  mapM (key_decrypt E k) data = Ok r ->
  distributed_decrypt E conf slices data k ty = Ok r /\
  single_decrypt E data k ty = mapM (fun x => decode E x ty) r.
Proof.
  intros E conf slices data k ty r Hc H. split.
  - unfold distributed_decrypt. destruct Hc as [->|[(e & ->)|(s & e & -> & Hs & He)]]; [exact H|..].
    + destruct conf; exact H.
    + unfold spark. cbn [bind]. rewrite spark_slices, Hs. unfold single_decrypt in He. rewrite He. destruct conf; exact H.
  - unfold single_decrypt, cell. apply mapM_split. exact H.
Qed.
Print Assumptions C66_distributed_local.

Lemma decode_number E v ty w : ty = u "float" \/ ty = u "double" -> decode E v ty = Ok w -> exists q, w = VFloat q.
Proof.
  intros Ht H. unfold decode in H.
  assert (Em : smem ty [u "int"; u "float"; u "double"] = true) by (destruct Ht as [->| ->]; reflexivity).
  assert (Ei : seqb ty (u "int") = false) by (destruct Ht as [->| ->]; reflexivity).
  rewrite Em, Ei in H. cbv zeta in H.
  destruct (match v with VStr s => match py_eval E s with Some x => x | None => v end | _ => v end); cbn [bind] in H;
    try discriminate H; destruct (seqb ty (u "float")); try (injection H as <-; eexists; reflexivity);
    (destruct (EncodeModel.inverse_stretch _) as [q'|]; [|discriminate H]; cbn [bind] in H; injection H as <-; eexists; reflexivity).
Qed.

(** So the two differ for every fractional column: the claim is refuted for the distributed mode. *)
Theorem C66_distributed_refuted : forall E slices data c state ty r, state = SYM \/ state = OPEC ->
  ty = u "float" \/ ty = u "double" -> data <> [] ->
  distributed_decrypt E false slices data (c, state) ty = Ok r -> single_decrypt E data (c, state) ty <> Ok r.
Proof.
  intros E slices data c state ty r Hs Ht Hd H Hsingle.
  destruct data as [|v data]; [congruence|]. unfold distributed_decrypt in H.
  unfold single_decrypt in Hsingle. cbn [mapM] in H, Hsingle. unfold cell at 1 in Hsingle.
  destruct (key_decrypt E (c, state) v) as [x|e] eqn:K; [|discriminate H]. cbn [bind] in H, Hsingle.
  destruct (mapM (key_decrypt E (c, state)) data) as [xs|e]; [|discriminate H]. cbn [bind] in H. injection H as <-.
  destruct (decode E x ty) as [w|e] eqn:D; [|discriminate Hsingle]. cbn [bind] in Hsingle.
  destruct (mapM (cell E (c, state) ty) data); [|discriminate Hsingle]. cbn [bind] in Hsingle.
  assert (w = x) as -> by congruence.
  destruct (decode_number E x ty x Ht D) as [q ->].
  unfold key_decrypt, decrypt_state in K. cbn [fst snd] in K. destruct Hs as [->| ->].
  - change (seqb SYM SYM) with true in K. cbv iota in K. destruct v; try discriminate K.
    destruct (aes_decrypt _ _ _); discriminate K.
  - change (seqb OPEC SYM) with false in K. change (seqb OPEC OPEC) with true in K. cbv iota in K.
    destruct (cell_int v); [|discriminate K]. cbn [bind] in K. destruct (env_ope_dec E _ _); discriminate K.
Qed.
Print Assumptions C66_distributed_refuted.

(** Cell by cell the same as the decryption of a query result, for cells that are not NULL. *)
Theorem C66_as_online : forall E (M : dbmeta) t m n c state data,
  has_char DOT n = false -> dget M t = Some m -> dget (t_cols m) n = Some c -> Forall (fun v => v <> VNull) data ->
  single_decrypt E data (c, state) (c_type c) = mapM (decrypt_cell E M (JStr t) n state) data.
Proof.
  intros E M t m n c state data Hn Hm Hc Hd. unfold single_decrypt.
  induction Hd as [|v data Hv Hd IH]; [reflexivity|]. cbn [mapM]. rewrite IH. f_equal.
  unfold cell, key_decrypt, decrypt_cell. rewrite Hn. cbn [bind fst snd]. unfold lookup. unfold dgetE. rewrite Hm. cbn [bind].
  rewrite Hc. cbn [bind]. destruct v; [congruence|reflexivity..].
Qed.
Print Assumptions C66_as_online.

(** The content: what was encrypted comes back, in order. *)
Theorem C66_content : forall E c ty vals ciphers, prim_ok (e_P E) -> smem ty [u "int"; u "float"; u "double"] = false ->
  Forall (fun s => s = [] \/ last s 0%N <> 0%N) vals ->
  mapM (aes_encrypt (e_P E) (c_key c)) vals = Ok ciphers ->
  single_decrypt E (map VStr ciphers) (c, SYM) ty = Ok (map VStr vals).
Proof.
  intros E c ty vals ciphers HP Ht Hv. revert ciphers. induction Hv as [|s vals Hs Hv IH]; intros ciphers; cbn [mapM].
  - intros [= <-]. reflexivity.
  - destruct (aes_encrypt (e_P E) (c_key c) s) as [x|e] eqn:X; [|discriminate]. cbn [bind].
    destruct (mapM (aes_encrypt (e_P E) (c_key c)) vals) as [xs|e]; [|discriminate]. cbn [bind]. intros [= <-]. cbn [map]. unfold single_decrypt. cbn [mapM].
    fold (single_decrypt E (map VStr xs) (c, SYM) ty). rewrite (IH xs eq_refl).
    assert (K : key_decrypt E (c, SYM) (VStr x) = Ok (VStr s)).
    { unfold key_decrypt, decrypt_state. cbn [fst snd]. change (seqb SYM SYM) with true. cbv iota.
      rewrite (aes_roundtrip (e_P E) HP _ _ _ X). cbn [bind]. rewrite (rstrip_fix 0 s Hs). reflexivity. }
    unfold cell. rewrite K. cbn [bind]. unfold decode. rewrite Ht. reflexivity.
Qed.
Print Assumptions C66_content.

(** Two workers, the second task is finished before the first. *)
Example C66_pool_example : exists s,
  psteps true (fun n : nat => Ok (n * n)%nat) 6 (p_init [3; 5]%nat 2) s /\ p_final s /\ gets s 2 = Ok [9; 25]%nat.
Proof.
  eexists. split; [|split].
  - eapply steps_cons; [apply step_submit; reflexivity|].
    eapply steps_cons; [apply (step_take _ _ _ _ _ _ _ _ 0); reflexivity|].
    eapply steps_cons; [apply step_submit; reflexivity|].
    eapply steps_cons; [apply (step_take _ _ _ _ _ _ _ _ 1); reflexivity|].
    eapply steps_cons; [apply (step_finish _ _ _ _ _ _ 1); reflexivity|].
    eapply steps_cons; [apply (step_finish _ _ _ _ _ _ 0); reflexivity|].
    apply steps_nil.
  - repeat split; repeat constructor.
  - reflexivity.
Qed.

(** The column emp.name of the example database: encrypted, decrypted in slices and in one loop; a
    fractional column without Spark. *)
Definition ex_name : colmeta := col_enc "varchar" "k1" [(SYM, u "b71")].
Definition ex_cells : list sqlv :=
  match mapM (aes_encrypt prim_rot (u "k1")) [u "Ann"; u "Bob"; u "Cy"] with Ok l => map VStr l | Err _ => [] end.
Example C66_example :
  single_decrypt exE ex_cells (ex_name, SYM) (u "varchar") = Ok [VStr (u "Ann"); VStr (u "Bob"); VStr (u "Cy")] /\
  distributed_decrypt exE true (Ok [firstn 2 ex_cells; skipn 2 ex_cells]) ex_cells (ex_name, SYM) (u "varchar") =
    single_decrypt exE ex_cells (ex_name, SYM) (u "varchar") /\
  (forall r, pool_decrypt exE ex_cells (ex_name, SYM) (u "varchar") r -> r = Err AttributeError) /\
  exists c, aes_encrypt prim_rot (u "k1") (u "1500000000000") = Ok c /\
    distributed_decrypt exE false (Err Generic) [VStr c] (ex_name, SYM) (u "float") = Ok [VStr (u "1500000000000")] /\
    single_decrypt exE [VStr c] (ex_name, SYM) (u "float") = Ok [VFloat (inject_Z 1500000000000 / inject_Z (10 ^ 12))%Q].
Proof.
  split; [vm_compute; reflexivity|]. split; [vm_compute; reflexivity|]. split.
  - intros r H. apply C66_pool_decrypt_refuted in H. rewrite H. vm_compute. reflexivity.
  - eexists. split; [vm_compute; reflexivity|]. split; vm_compute; reflexivity.
Qed.
