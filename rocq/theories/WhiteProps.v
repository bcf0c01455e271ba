(** C103: white space and comments are found as they are written, whatever the engine remembers of texts. *)
From Coq Require Import String Ascii List Arith NArith Bool Lia.
From Verif Require Import Base EngineModel EngineSpec EngineProps EngineSqlModel EngineSqlProof EngineSqlProps WhiteModel WhiteSpec WhiteProof.
From Verif Require GramModel.
Import ListNotations.

(** After any calls, with any texts, [skip] gives the place after all white space and comments that are set. *)
Theorem C103_remembered : forall text ws ops o i, Forall proper ops ->
  after_gap (last_white ws ops) (first_ignored ops) (text o) i (snd (skip text o i (fold_left (step text) ops (new ws)))).
Proof.
  intros text ws ops o i F. destruct (run_ok text ops (new ws)) as (M & W & I & P); [intros o' E; discriminate | intros g [] | exact F|].
  pose proof (skip_ok text (fold_left (step text) ops (new ws)) o i M P) as S. destruct (skip text o i _) as (e' & j). destruct S as (_ & _ & _ & ->).
  cbn [snd]. rewrite W, I in *. apply skip_gap. exact P.
Qed.
Print Assumptions C103_remembered.

(** In SQL this is one place: blanks and comments that begin with -- or # or stand between /* and */. *)
Theorem C103_place : forall text ops o i j, (forall c, In c ops -> c = Enter \/ exists o' i', c = Skip o' i') ->
  after_gap [9; 10; 13; 32]%N [Line (u "--"); Line (u "#"); Block (u "/*") (u "*/")] (text o) i j <->
  snd (skip text o i (fold_left (step text) ops sql_engine)) = j.
Proof.
  intros text ops o i j H. change [Line _; _; _] with sql_ignored. rewrite sql_only.
  destruct (run_ok text ops sql_engine) as (M & W & I & P).
  - intros o' E. discriminate.
  - apply sql_open.
  - apply Forall_forall. intros c Hc. destruct (H c Hc) as [->|(o' & i' & ->)]; exact Logic.I.
  - assert (S : last_white (white_chars sql_engine) ops = white_chars sql_engine /\ first_ignored ops = []).
    { clear - H. induction ops as [|c ops IH]; [auto|]. destruct (H c (or_introl eq_refl)) as [->|(o' & i' & ->)]; cbn; apply IH; intros d Hd; apply H; right; exact Hd. }
    destruct S as (S & S'). rewrite S in W. rewrite S', app_nil_r in I.
    pose proof (skip_ok text (fold_left (step text) ops sql_engine) o i M P) as K. destruct (skip text o i _) as (e' & j'). destruct K as (_ & _ & _ & ->).
    rewrite W, I. cbn [snd]. split; intros X; symmetry; exact X.
Qed.
Print Assumptions C103_place.

(** The parser of texts of C94 to C99 skips the same. *)
Theorem C103_texts : forall s i, skipn (sql_skip s i) s = GramModel.skip (skipn i s).
Proof. exact gram_skip. Qed.
Print Assumptions C103_texts.

(** With this white space and actions that take no characters, a text is parsed by the prepared grammar of SQL as by the written one. *)
Theorem C103_parse : forall (T : Type) (tok : pystr -> T) full act,
  (forall w r i j s r' j', act w r i j s = Done r' j' -> i < j' -> i < j) ->
  forall k s, settled (written tok full sql_skip (code tok sql_skip act) k 7 s (sql_skip s 0)) ->
  forall d, parse_string sql_skip (prepared tok full sql_skip (mended tok sql_skip act) (d + k) 7) s =
            parse_string sql_skip (written tok full sql_skip (code tok sql_skip act) k 7) s.
Proof.
  intros T tok full act A k s S d. unfold parse_string. rewrite (C102_prepared T tok full sql_skip act (skip_white _ _ sql_open) A k 7 s _ S d). reflexivity.
Qed.
Print Assumptions C103_parse.
(** A parse of a whole text: white space and comments at most are left. *)
Theorem C103_whole : forall (T : Type) (p : parser T) s r j,
  parse_string sql_skip p s = Done r j <->
  p s (sql_skip s 0) = Done r j /\ gap [9; 10; 13; 32]%N [Line (u "--"); Line (u "#"); Block (u "/*") (u "*/")] (skipn j s) [].
Proof.
  intros T p s r j. change [Line _; _; _] with sql_ignored. rewrite <- at_end. unfold parse_string. destruct (p s (sql_skip s 0)) as [| | |r' j'].
  1-3: split; [discriminate | intros (X & _); discriminate].
  destruct (string_end s (sql_skip s j')) eqn:E; split.
  - intros H. injection H as <- <-. auto.
  - intros (H & _). exact H.
  - discriminate.
  - intros (H & E'). injection H as <- <-. congruence.
Qed.
Print Assumptions C103_whole.
Theorem C103_white_space : white_space sql_skip.
Proof. exact (skip_white _ _ sql_open). Qed.
Print Assumptions C103_white_space.

(** ** Examples *)
Definition text2 : pystr := u "SELECT a /* b, */ -- , c" ++ [10%N] ++ u "FROM t # end".
Definition texts (o : nat) : pystr := match o with 0 => text2 | _ => u "  x" end.
Example C103_example :
  let e := fold_left (step texts) [Skip 0 6; Skip 0 8; Skip 1 0; Skip 0 8; Skip 0 8] sql_engine in
  snd (skip texts 0 8 e) = 25 /\ nth_error (skips e) 8 = Some (Some 25) /\ snd (skip texts 1 0 e) = 2 /\ snd (skip texts 0 100 e) = 100 /\
  parse_string sql_skip (written (fun w => w) any sql_skip (code (fun w => w) sql_skip drops) 9 7) text2 = Done [u "a"; u "t"] 37 /\
  parse_string sql_skip (prepared (fun w => w) any sql_skip (mended (fun w => w) sql_skip drops) 9 7) text2 = Done [u "a"; u "t"] 37.
Proof. vm_compute. repeat split. Qed.
Example C103_calls_example :
  let ops := [Ignore [Line (u "//")]; Skip 0 0; SetWhite [32%N]; Ignore [Line (u ";")]] in
  Forall proper ops /\ last_white [9%N] ops = [32%N] /\ first_ignored ops = [Line (u "//"); Line (u ";")] /\
  snd (skip (fun _ => u "  ; a") 0 0 (fold_left (step (fun _ => u "  ; a")) ops (new [9%N]))) = 5.
Proof. split; [repeat constructor; intros g [<-|[]]; discriminate|]. vm_compute. auto. Qed.

(** Several comments at once: only the first is set. *)
Theorem C103_several_refuted : exists a b s,
  snd (skip (fun _ => s) 0 0 (add_ignore [a; b] (new [32%N]))) = 0 /\
  snd (skip (fun _ => s) 0 0 (add_ignore [b] (add_ignore [a] (new [32%N])))) = length s.
Proof. exists (Line (u "--")), (Line (u "#")), (u "# x"). split; reflexivity. Qed.
Print Assumptions C103_several_refuted.
