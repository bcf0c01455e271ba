(** CREATE TABLE (C31, C32, C70). *)
From Coq Require Import String Ascii List NArith ZArith QArith Bool.
From Verif Require Import Base BaseProof CryptoModel JsonModel RewriteModel WidthModel SqlSpec EncSpec StmtSpec
  RewriteExample CreateModel CreateSpec CreateProof DeclProof.
Import ListNotations.
Open Scope Z_scope.

(** ** C31 *)
(** [defs]: name, type and type argument of the columns; [dss]: the physical columns of each. *)
Theorem C31_schema_described : forall E fresh anon meta j enc q n m t cols cons defs,
  rewrite_table E fresh anon meta j enc = Ok (q, n, m) -> create_of j t cols cons ->
  Forall2 (fun col d => col_def col (fst (fst d)) (snd (fst d)) (snd d)) cols defs ->
  NoDup (map (fun d => fst (fst d)) defs) ->
  n = t /\ t_anon m = anon /\ dkeys (t_cols m) = map (fun d => fst (fst d)) defs /\
  exists dss ks tail, q = create_text anon (concat dss) ks tail /\ map fst (concat dss) = phys m /\
    Forall2 (fun d kcds => described E enc (fst (fst d)) (snd (fst d)) (snd d) (snd (fst kcds)) (snd kcds))
            defs (combine (t_cols m) dss) /\ length dss = length defs.
Proof. exact create_schema. Qed.
Print Assumptions C31_schema_described.

Theorem C31_names_distinct : forall kw E fresh anon meta j enc q n m t cols cons defs,
  rewrite_table E fresh anon meta j enc = Ok (q, n, m) -> create_of j t cols cons ->
  Forall2 (fun col d => col_def col (fst (fst d)) (snd (fst d)) (snd d)) cols defs ->
  NoDup (map (fun d => fst (fst d)) defs) ->
  (forall a b, fresh a = fresh b -> a = b) ->
  (forall a, ~ In (fresh a) (map (fun d => fst (fst d)) defs)) ->
  NoDup (phys m) /\
  ((forall d, In d defs -> colname kw (fst (fst d))) -> (forall a, colname kw (fresh a)) -> wf_table kw m).
Proof. exact create_wf. Qed.
Print Assumptions C31_names_distinct.

(** The columns meet the hypothesis of the transparency theorem C67. *)
Theorem C31_supported : forall E fresh anon meta j enc q n m t cols cons defs,
  rewrite_table E fresh anon meta j enc = Ok (q, n, m) -> create_of j t cols cons ->
  Forall2 (fun col d => col_def col (fst (fst d)) (snd (fst d)) (snd d)) cols defs ->
  NoDup (map (fun d => fst (fst d)) defs) ->
  (forall d o, In d defs -> dget enc (fst (fst d)) = Some o -> asked o "sm4" = false /\
     (snd (fst d) = u "int" \/ In (snd (fst d)) [u "char"; u "varchar"] /\ asked o "arithmetic" = false)) ->
  forall k c, dget (t_cols m) k = Some c -> supported c.
Proof. exact create_supported. Qed.
Print Assumptions C31_supported.

(** Columns without a default are declared word for word as [decl_of] says: of the parts of an encrypted
    column, the symmetric one alone is the primary key. *)
Theorem C31_declarations : forall E fresh anon meta j enc q n m t cols cons defs,
  rewrite_table E fresh anon meta j enc = Ok (q, n, m) -> create_of j t cols cons ->
  Forall2 (fun col d => col_def col (fst (fst d)) (snd (fst d)) (snd d)) cols defs ->
  NoDup (map (fun d => fst (fst d)) defs) -> Forall no_default cols ->
  (forall d, In d defs -> dget enc (fst (fst d)) <> None ->
     In (snd (fst d)) [u "int"; u "varchar"; u "char"; u "float"; u "double"]) ->
  exists ks tail, q = create_text anon
    (concat (map (fun x => decl_of E (fst (fst x)) (fst (fst (snd (fst x)))) (snd (fst (snd (fst x))))
                                   (snd (snd (fst x))) (snd (snd x)))
                 (combine (combine cols defs) (t_cols m)))) ks tail.
Proof. exact create_declarations. Qed.
Print Assumptions C31_declarations.

(** CREATE TABLE staff (id int, name varchar(20) NOT NULL, boss varchar(9), age int UNIQUE, PRIMARY KEY (id),
    CONSTRAINT fk FOREIGN KEY (boss) REFERENCES dep (boss) ON DELETE CASCADE), with name, boss, age encrypted. *)
Definition ex_fresh (i : nat) : pystr := u "c" ++ str_int (Z.of_nat i).
Definition ex_cols : list json :=
  [JDict [(u "name", JStr (u "id")); (u "type", JDict [(u "int", JDict [])])];
   JDict [(u "name", JStr (u "name")); (u "type", JDict [(u "varchar", JInt 20)]); (u "nullable", JBool false)];
   JDict [(u "name", JStr (u "boss")); (u "type", JDict [(u "varchar", JInt 9)])];
   JDict [(u "unique", JBool true); (u "name", JStr (u "age")); (u "type", JDict [(u "int", JDict [])])]].
Definition ex_cons : list json :=
  [primary_con None (JStr (u "id"));
   foreign_con (Some (u "fk")) (JStr (u "boss")) (u "dep") (JStr (u "boss")) [(u "on_delete", JStr (u "cascade"))]].
Definition ex_create (cols cons : list json) : json :=
  JDict [(u "create table", JDict [(u "name", JStr (u "staff")); (u "columns", JList cols); (u "constraint", JList cons)])].
Definition ex_opts (key : string) (fz ar : bool) : json :=
  JDict [(u "key", JStr (u key)); (u "fuzzy", JBool fz); (u "arithmetic", JBool ar);
         (u "homomorphic_key", JList [JInt 1009; JInt 1013])].
Definition ex_enc : dict json :=
  [(u "name", ex_opts "k1" true false); (u "boss", ex_opts "k1" false false); (u "age", ex_opts "k2" false true)].
Definition ex_defs : list (pystr * pystr * json) :=
  [(u "id", u "int", JDict []); (u "name", u "varchar", JInt 20); (u "boss", u "varchar", JInt 9); (u "age", u "int", JDict [])].

Definition col_homo (c : colmeta) : colmeta :=
  {| c_plain := c_plain c; c_type := c_type c; c_key := c_key c; c_enc := c_enc c; c_homo := Some (Some (1009, 1013));
     c_sm4 := None; c_comment := None |}.
Example C31_example :
  rewrite_table exE ex_fresh (u "t77") (Some exM) (ex_create ex_cols ex_cons) ex_enc =
    Ok (u "CREATE TABLE IF NOT EXISTS t77(id int,c0 varchar(44) NOT NULL ,c1 VARCHAR(2000) NOT NULL ,c2 varchar(24),c3 BIGINT,c4 VARCHAR(300),c5 Decimal(65,0),PRIMARY KEY(id),CONSTRAINT fk FOREIGN KEY(c2) REFERENCES q04(f10));",
        u "staff",
        {| t_anon := u "t77";
           t_cols := [(u "id", col_plain "int"); (u "name", col_enc "varchar" "k1" [(SYM, u "c0"); (FUZ, u "c1")]);
                      (u "boss", col_enc "varchar" "k1" [(SYM, u "c2")]);
                      (u "age", col_homo (col_enc "int" "k2" [(OPEC, u "c3"); (SYM, u "c4"); (ARI, u "c5")]))];
           t_comment := None |}) /\
  create_of (ex_create ex_cols ex_cons) (u "staff") ex_cols ex_cons /\
  Forall2 (fun col d => col_def col (fst (fst d)) (snd (fst d)) (snd d)) ex_cols ex_defs /\
  NoDup (map (fun d => fst (fst d)) ex_defs) /\
  (forall a, ~ In (ex_fresh a) (map (fun d => fst (fst d)) ex_defs)).
Proof.
  split; [vm_compute; reflexivity|]. split; [eexists _, _; repeat split|]. split; [|split].
  - repeat (constructor; [eexists; repeat split|]). constructor.
  - nodup.
  - intros a X. cbn [map ex_defs fst In] in X. unfold ex_fresh in X. decompose [or] X; try discriminate; contradiction.
Qed.

(** id int PRIMARY KEY AUTO_INCREMENT NOT NULL, encrypted: only c1, the symmetric part, is the key. *)
Definition ex_id : json :=
  JDict [(u "name", JStr (u "id")); (u "type", JDict [(u "int", JDict [])]); (u "nullable", JBool false);
         (u "primary_key", JBool true); (u "auto_increment", JBool true)].
Example C31_primary_example :
  no_default ex_id /\
  match rewrite_table exE ex_fresh (u "t77") None
          (JDict [(u "create table", JDict [(u "name", JStr (u "t")); (u "columns", ex_id)])])
          [(u "id", ex_opts "k2" false true)] with
  | Ok (q, _, m) =>
    q = u "CREATE TABLE IF NOT EXISTS t77(c0 BIGINT NOT NULL ,c1 VARCHAR(300) NOT NULL  primary key auto_increment ,c2 Decimal(65,0) NOT NULL );" /\
    q = create_text (u "t77") (concat (map (fun x => decl_of exE ex_id (u "id") (u "int") (JDict []) (snd x)) (t_cols m))) [] (u ";")
  | Err _ => False
  end.
Proof. split; [reflexivity|]. vm_compute. split; reflexivity. Qed.

(** ** C32 *)
Theorem C32_key_constraints_moved : forall E fresh anon meta j enc q n m t cols cons,
  rewrite_table E fresh anon meta j enc = Ok (q, n, m) -> create_of j t cols cons -> Forall key_con cons ->
  exists ds ks tail, q = create_text anon ds ks tail /\ Forall2 (con_rewritten (t_cols m) meta) cons ks.
Proof. exact create_constraints. Qed.
Print Assumptions C32_key_constraints_moved.

Theorem C32_other_constraints_rejected : forall E fresh anon meta j enc t cols cons c,
  create_of j t cols cons -> In (JDict c) cons ->
  dget c (u "primary_key") = None -> dget c (u "foreign_key") = None ->
  exists e, rewrite_table E fresh anon meta j enc = Err e.
Proof.
  intros E fresh anon meta j enc t cols cons c C I P F. apply (create_fails E fresh anon meta j enc t cols cons _ C I).
  intro kv. apply other_constraint; assumption.
Qed.
Print Assumptions C32_other_constraints_rejected.

(** A foreign key to a table that is not known, in particular to the table being created. *)
Theorem C32_unknown_reference_rejected : forall E fresh anon meta j enc t cols cons o cs r rs more,
  create_of j t cols cons -> In (foreign_con o cs r rs more) cons ->
  match meta with Some M => dget M r | None => None end = None ->
  exists e, rewrite_table E fresh anon meta j enc = Err e.
Proof.
  intros E fresh anon meta j enc t cols cons o cs r rs more C I N. apply (create_fails E fresh anon meta j enc t cols cons _ C I).
  intro kv. exists KeyError. apply unknown_reference. exact N.
Qed.
Print Assumptions C32_unknown_reference_rejected.

(** UNIQUE, CHECK, REFERENCES, COLLATE and the like in a column definition have no effect. *)
Theorem C32_inline_constraints_lost_refuted : forall E fresh enc d k x i,
  smem k [u "name"; u "type"; u "nullable"; u "primary_key"; u "auto_increment"; u "comment"; u "default"] = false ->
  create_column E fresh enc (JDict ((k, x) :: d)) i = create_column E fresh enc (JDict d) i.
Proof. exact column_option_lost. Qed.
Print Assumptions C32_inline_constraints_lost_refuted.

(** The statement of C31_example: UNIQUE and ON DELETE are absent from the text; both constraints are key
    constraints and are moved to id and c2.  A unique constraint, an unknown table and a self reference raise. *)
Example C32_example :
  Forall key_con ex_cons /\
  con_rewritten [(u "id", col_plain "int"); (u "boss", col_enc "varchar" "k1" [(SYM, u "c2")])] (Some exM)
    (nth 1 ex_cons JNull) (u "CONSTRAINT fk FOREIGN KEY(c2) REFERENCES q04(f10)") /\
  rewrite_table exE ex_fresh (u "t77") (Some exM)
    (ex_create ex_cols [JDict [(u "unique", JDict [(u "columns", JStr (u "name"))])]]) ex_enc = Err AssertionError /\
  rewrite_table exE ex_fresh (u "t77") (Some exM)
    (ex_create ex_cols [foreign_con None (JStr (u "boss")) (u "staff") (JStr (u "name")) []]) ex_enc = Err KeyError.
Proof.
  split; [|split; [|vm_compute; split; reflexivity]].
  - constructor; [|constructor; [|constructor]].
    + left. exists None, (JStr (u "id")), [u "id"]. split; [right; eexists; split; reflexivity|reflexivity].
    + right. exists (Some (u "fk")), (JStr (u "boss")), [u "boss"], (u "dep"), (JStr (u "boss")), [u "boss"], [(u "on_delete", JStr (u "cascade"))].
      repeat split; right; eexists; split; reflexivity.
  - apply (foreign_rewritten _ _ (Some (u "fk")) (JStr (u "boss")) [u "boss"] [u "c2"] (u "dep") (JStr (u "boss")) [u "boss"] [u "f10"]
      [(u "on_delete", JStr (u "cascade"))] exM dep).
    + right. eexists; split; reflexivity.
    + right. eexists; split; reflexivity.
    + reflexivity.
    + reflexivity.
    + repeat constructor. eexists; split; reflexivity.
    + repeat constructor. eexists; split; reflexivity.
Qed.

(** ** C70 *)
(** A default that Python takes for false (0, 0.0, '', FALSE) is dropped. *)
Theorem C70_falsy_default_lost_refuted : forall E fresh enc d v i,
  truthy v = false -> dget d (u "default") = None ->
  create_column E fresh enc (JDict ((u "default", v) :: d)) i = create_column E fresh enc (JDict d) i.
Proof. exact default_falsy. Qed.
Print Assumptions C70_falsy_default_lost_refuted.

(** Numbers other than zero and string literals (dicts with the key 'literal') are rejected. *)
Theorem C70_default_rejected : forall E fresh enc d v i,
  dget d (u "default") = Some v -> truthy v = true ->
  (forall s, v <> JStr s) -> (forall e, v = JDict e -> dmem e (u "null") = false) ->
  exists e, create_column E fresh enc (JDict d) i = Err e.
Proof.
  intros E fresh enc d v i D T S N. apply (default_bad E fresh enc d v i D T). intros s X.
  unfold default_of in X. destruct v as [| | | | |l0|l0]; try discriminate X; [apply (S s); congruence|].
  rewrite (N l0 eq_refl) in X. discriminate X.
Qed.
Print Assumptions C70_default_rejected.

(** DEFAULT NULL on an encrypted column: the default is the ciphertext of the text "NULL ", without quotes. *)
Theorem C70_null_default_encrypted_refuted : forall E fresh enc d x o i ds n c j,
  dget d (u "default") = Some (JDict [(u "null", x)]) ->
  create_column E fresh enc (JDict d) i = Ok (ds, n, c, j) -> dget enc n = Some o ->
  exists t txt r, aes_encrypt (e_P E) (c_key c) (u "NULL ") = Ok t /\ ds = (fresh i, txt ++ u " DEFAULT " ++ t) :: r.
Proof. intros E fresh enc d x o i ds n c j D. apply (default_encrypted E fresh enc d _ (u "NULL ") o i ds n c j D); reflexivity. Qed.
Print Assumptions C70_null_default_encrypted_refuted.

Definition ex_age (dflt : json) : json :=
  JDict [(u "default", dflt); (u "name", JStr (u "age")); (u "type", JDict [(u "int", JDict [])])].
Example C70_example :
  create_column exE ex_fresh [] (ex_age (JInt 0)) 0 = Ok ([(u "age", u "int")], u "age", col_plain "int", 0%nat) /\
  create_column exE ex_fresh [] (ex_age (JInt 5)) 0 = Err TypeError /\
  create_column exE ex_fresh [] (ex_age (JDict [(u "null", JDict [])])) 0 =
    Ok ([(u "age", u "int DEFAULT NULL ")], u "age", col_plain "int", 0%nat) /\
  exists t, aes_encrypt (e_P exE) (u "k2") (u "NULL ") = Ok t /\
    create_column exE ex_fresh [(u "age", ex_opts "k2" false false)] (ex_age (JDict [(u "null", JDict [])])) 0 =
      Ok ([(u "c0", u "BIGINT DEFAULT " ++ t); (u "c1", u "VARCHAR(300) DEFAULT " ++ t)], u "age",
          col_enc "int" "k2" [(OPEC, u "c0"); (SYM, u "c1")], 2%nat).
Proof.
  repeat split; try (vm_compute; reflexivity). eexists. split; vm_compute; reflexivity.
Qed.
