(** C102: what the engine prepares of the grammar of SQL parses each text as the grammar that is written. *)
From Coq Require Import String Ascii List Arith NArith Bool Lia.
From Verif Require Import Base FmtSpec EngineModel EngineSpec EngineTblProof EngineProof EngineLineProof EngineWordProof EngineProps EngineSqlModel EngineSqlProof.
Import ListNotations.

(** The grammar in the code, and one in which the empty choices of CREATE TABLE ... AS match nothing also after preparation. *)
Notation code tok skip act := (body tok skip act (First [])).
Notation mended tok skip act := (body tok skip act NoMatch).

(** The parse of the prepared grammar, to a depth of [d + k] Forwards, gives the result of the written one to the depth [k], for
    each of the Forwards of the grammar and at each place of each text.  [act]: what is done with the tokens of an element. *)
Theorem C102_prepared : forall (T : Type) (tok : pystr -> T) full skip act, white_space skip ->
  (forall w r i j s r' j', act w r i j s = Done r' j' -> i < j' -> i < j) ->
  forall k n s i, settled (written tok full skip (code tok skip act) k n s i) ->
  forall d, prepared tok full skip (mended tok skip act) (d + k) n s i = written tok full skip (code tok skip act) k n s i.
Proof. intros T tok full skip act W A k n s i S d. apply sql_ok; [exact W | exact A | exact S]. Qed.
Print Assumptions C102_prepared.

(** A table is built for each choice of the prepared grammar, and it keeps the order of the alternatives. *)
Theorem C102_choices : forall (T : Type) (tok : pystr -> T) skip act, white_space skip ->
  (forall w r i j s r' j', act w r i j s = Done r' j' -> i < j' -> i < j) ->
  forall n, plain (mended tok skip act n) /\ good (streamline false (mended tok skip act n)).
Proof. intros T tok skip act W A n. split; [apply ok_plain, ok_body; assumption | apply good_body; assumption]. Qed.
Print Assumptions C102_choices.

(** A reserved word is no name, with and without tables. *)
Theorem C102_reserved : forall (T : Type) (tok : pystr -> T) full skip act ref quick w s i,
  In w reserved_names -> word_at w s i -> run tok full skip ref quick (var_name tok act) s i = Fail.
Proof. intros T tok full skip act ref quick w s i. apply var_name_ok. Qed.
Print Assumptions C102_reserved.

(** ** Examples: tokens are texts, white space is spaces, actions drop what is suppressed *)
Definition drops (w : string) (r : list pystr) (i j : nat) (s : pystr) : out pystr :=
  if String.eqb w "Suppress" then Done [] j else Done r j.
Notation sql := (code (fun w : pystr => w) spaces drops).
Notation sql' := (mended (fun w : pystr => w) spaces drops).
Definition text1 : pystr := u "SELECT a, b+1 AS c FROM t WHERE x IN (SELECT max(y) FROM u) ORDER BY a LIMIT 5".
Definition tokens1 : list pystr := map u ["a"; "b"; "+"; "1"; "c"; "t"; "x"; "in"; "max"; "y"; "u"; "a"; "5"]%string.
Example C102_example :
  written (fun w => w) any spaces sql 12 7 text1 0 = Done tokens1 78 /\ length text1 = 78 /\
  prepared (fun w => w) any spaces sql' 12 7 text1 0 = Done tokens1 78 /\
  white_space spaces /\ (forall w r i j s r' j', drops w r i j s = Done r' j' -> i < j' -> i < j).
Proof.
  split; [vm_compute; reflexivity|]. split; [reflexivity|]. split; [vm_compute; reflexivity|]. split; [apply (blanks_spaces [])|].
  intros w r i j s r' j'. unfold drops. destruct (String.eqb w "Suppress"); intros H L; injection H as _ <-; exact L.
Qed.
Example C102_reserved_example :
  In (u "select") reserved_names /\ word_at (u "select") (u "x, Select y") 3 /\
  run (fun w => w) any spaces (fun _ => no_parser) true (var_name (fun w => w) drops) (u "x, Select y") 3 = Fail /\
  run (fun w => w) any spaces (fun _ => no_parser) true (var_name (fun w => w) drops) (u "x, Selects y") 3 = Done [u "Selects"] 11.
Proof.
  split; [vm_compute; tauto|]. split; [split; [exists (u " y"); vm_compute; reflexivity | vm_compute; intuition discriminate]|].
  split; vm_compute; reflexivity.
Qed.

(** The grammar of the code prepared is another one: two queries in a row after CREATE TABLE ... AS are accepted. *)
Theorem C102_two_queries_refuted : exists s r r' j,
  written (fun w => w) any spaces sql 10 7 s 0 = Done r j /\ j < length s /\
  prepared (fun w => w) any spaces sql 10 7 s 0 = Done r' (length s) /\
  prepared (fun w => w) any spaces sql' 10 7 s 0 = Done r j.
Proof.
  exists (u "create table t as select 1 select 2"), (map u ["create"; "t"; "1"]%string), (map u ["create"; "t"; "1"; "2"]%string), 27.
  split; [vm_compute; reflexivity|]. split; [vm_compute; lia|]. split; vm_compute; reflexivity.
Qed.
Print Assumptions C102_two_queries_refuted.
