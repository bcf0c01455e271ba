(** Proofs about string literals and quoted names. *)
From Coq Require Import String Ascii List NArith ZArith Bool Lia ZifyBool ZifyNat ZifyN.
From Verif Require Import Base BaseProof JsonModel SqlLex DotsModel DotsSpec DotsProof LitModel LitSpec.
Import ListNotations.
Open Scope N_scope.

Local Notation surrogate := LitModel.surrogate.
Lemma clean_facts c : clean_char c = true -> c <> 92 /\ c <> 10 /\ c <> 13 /\ c <> 0 /\ surrogate c = false.
Proof. unfold clean_char. intros H. apply negb_true_iff in H. change (LitSpec.surrogate c) with (surrogate c) in H. destruct (surrogate c); lia. Qed.
Lemma clean_cons c s : clean (c :: s) <-> clean_char c = true /\ clean s.
Proof. unfold clean. cbn [forallb]. now rewrite andb_true_iff. Qed.
Lemma clean_app s t : clean (s ++ t) <-> clean s /\ clean t.
Proof. unfold clean. rewrite forallb_app. now rewrite andb_true_iff. Qed.

(** ** The regular expression *)
Lemma regex_doubled q v rest : not_next q rest -> regex_quoted q (doubled q v ++ q :: rest) = Some (doubled q v, rest).
Proof.
  intros R. induction v as [|c v IH]; cbn [doubled flat_map app].
  - cbn [regex_quoted]. rewrite N.eqb_refl. destruct rest as [|d r]; [reflexivity|]. cbn in R. destruct (N.eqb_spec d q); [contradiction|reflexivity].
  - fold (doubled q v). destruct (N.eqb_spec c q) as [->|NE]; cbn [app].
    + cbn [regex_quoted]. rewrite !N.eqb_refl. now rewrite IH.
    + cbn [regex_quoted]. destruct (N.eqb_spec c q); [contradiction|]. now rewrite IH.
Qed.
Lemma regex_src l rest : Forall piece_ok l -> not_next 39 rest -> regex_quoted 39 (src l ++ 39 :: rest) = Some (src l, rest).
Proof.
  intros F R. induction F as [|p l P F IH]; cbn [src flat_map app].
  - cbn [regex_quoted]. rewrite N.eqb_refl. destruct rest as [|d r]; [reflexivity|]. cbn in R. destruct (N.eqb_spec d 39); [contradiction|reflexivity].
  - fold (src l). rewrite <- app_assoc. destruct p as [c| |c]; cbn [piece_src app].
    + destruct P as [_ P]. cbn [regex_quoted]. destruct (N.eqb_spec c 39); [contradiction|]. now rewrite IH.
    + cbn [regex_quoted]. rewrite !N.eqb_refl. now rewrite IH.
    + assert (C : c <> 39) by (cbn in P; intros ->; intuition discriminate). cbn [regex_quoted]. change (92 =? 39) with false. cbn match.
      destruct (N.eqb_spec c 39); [contradiction|]. now rewrite IH.
Qed.

(** ** Replacing pairs *)
Lemma replace_pair_other c t x r : x <> c -> replace_pair c t (x :: r) = x :: replace_pair c t r.
Proof. intros H. cbn [replace_pair]. destruct r as [|y r]; [reflexivity|]. destruct (N.eqb_spec x c); [contradiction|reflexivity]. Qed.
Lemma replace_pair_two c t r : replace_pair c t (c :: c :: r) = t ++ replace_pair c t r.
Proof. cbn [replace_pair]. now rewrite !N.eqb_refl. Qed.
Lemma replace_doubled c t v : replace_pair c t (doubled c v) = flat_map (fun x => if x =? c then t else [x]) v.
Proof.
  induction v as [|x v IH]; [reflexivity|]. cbn [doubled flat_map]. fold (doubled c v). destruct (N.eqb_spec x c) as [->|NE]; cbn [app].
  - now rewrite replace_pair_two, IH.
  - now rewrite replace_pair_other, IH.
Qed.
Lemma replace_pair_none c t v : ~ In c v -> replace_pair c t v = v.
Proof. induction v as [|x v IH]; intros H; [reflexivity|]. rewrite replace_pair_other by (intros ->; apply H; now left). rewrite IH; [reflexivity|]. intros J. apply H. now right. Qed.

(** ** Source texts *)
Definition src_ok (s : pystr) : Prop := forallb (fun c => negb ((c =? 0) || (c =? 13) || surrogate c)) s = true.
Lemma src_ok_app s t : src_ok (s ++ t) <-> src_ok s /\ src_ok t.
Proof. unfold src_ok. rewrite forallb_app. now rewrite andb_true_iff. Qed.
Lemma src_ok_cons c s : src_ok (c :: s) <-> negb ((c =? 0) || (c =? 13) || surrogate c) = true /\ src_ok s.
Proof. unfold src_ok. cbn [forallb]. now rewrite andb_true_iff. Qed.
Lemma clean_src s : clean s -> src_ok s.
Proof.
  induction s as [|c s IH]; [reflexivity|]. rewrite clean_cons, src_ok_cons. intros [C H]. split; [|now apply IH].
  apply clean_facts in C. destruct C as (A & B & D & E & ->). lia.
Qed.
Lemma newlines_id s : src_ok s -> newlines s = s.
Proof.
  induction s as [|c s IH]; [reflexivity|]. rewrite src_ok_cons. intros [C H]. cbn [newlines].
  destruct (N.eqb_spec c 13) as [->|]; [discriminate|]. now rewrite IH.
Qed.
Lemma no_nul s : src_ok s -> has_char 0 s = false /\ existsb surrogate s = false.
Proof.
  induction s as [|c s IH]; [split; reflexivity|]. rewrite src_ok_cons. intros [C H]. destruct (IH H) as [A B].
  unfold has_char in *. cbn [existsb]. rewrite A, B, !orb_false_r.
  destruct (surrogate c); [rewrite orb_true_r in C; discriminate|]. split; [lia|reflexivity].
Qed.

Section Main.
Variable uname : pystr -> option N.
Variable more : pystr -> pystr -> res pystr.
Notation py_string := (py_string uname).
Notation literal_eval := (literal_eval uname more).

(** Reading goes on with what is left after a part. *)
Lemma py_chr f q c r : c <> q -> c <> 10 -> c <> 92 -> py_string (S f) q (c :: r) = bind (py_string f q r) (fun p => Ok ([c] ++ fst p, snd p)).
Proof.
  intros A B C. cbn [LitModel.py_string]. destruct (N.eqb_spec c q); [contradiction|]. destruct (N.eqb_spec c 10); [contradiction|].
  destruct (N.eqb_spec c 92); [contradiction|]. reflexivity.
Qed.
Lemma py_esc f q d v r : q <> 92 -> py_escape d = Some v -> py_string (S f) q (92 :: d :: r) = bind (py_string f q r) (fun p => Ok (v ++ fst p, snd p)).
Proof.
  intros Q E. cbn [LitModel.py_string]. destruct (N.eqb_spec 92 q); [congruence|]. change (92 =? 10) with false. change (92 =? 92) with true. cbn [negb].
  now rewrite E.
Qed.
Lemma py_keep f q d r : q <> 92 -> ~ In d python_escapes -> py_string (S f) q (92 :: d :: r) = bind (py_string f q r) (fun p => Ok ([92; d] ++ fst p, snd p)).
Proof.
  intros Q E. assert (X : Forall (fun x => d <> x) python_escapes) by (apply Forall_forall; intros x I ->; contradiction).
  unfold python_escapes in X. repeat match goal with H : Forall _ (_ :: _) |- _ => inversion H; clear H; subst end.
  cbn [LitModel.py_string]. destruct (N.eqb_spec 92 q); [congruence|]. change (92 =? 10) with false. change (92 =? 92) with true. cbn [negb].
  unfold py_escape. repeat match goal with |- context [d =? ?k] => destruct (N.eqb_spec d k); [congruence|] end. cbn [orb].
  unfold octal. destruct ((48 <=? d) && (d <=? 55)) eqn:O; [|reflexivity]. exfalso. lia.
Qed.
Lemma py_close f q r : py_string (S f) q (q :: r) = Ok ([], r).
Proof. cbn [LitModel.py_string]. now rewrite N.eqb_refl. Qed.

(** The pieces after the quotes have been replaced. *)
Definition py_src (p : piece) : pystr := match p with Two => [92; 39] | _ => piece_src p end.
Lemma replace_src l : Forall piece_ok l -> replace_pair 39 [92; 39] (src l) = flat_map py_src l.
Proof.
  induction 1 as [|p l P F IH]; [reflexivity|]. cbn [src flat_map]. fold (src l). destruct p as [c| |c]; cbn [piece_src py_src app].
  - rewrite replace_pair_other by apply P. now rewrite IH.
  - now rewrite replace_pair_two, IH.
  - assert (C : c <> 39) by (cbn in P; intros ->; intuition discriminate). rewrite replace_pair_other by discriminate.
    rewrite replace_pair_other by exact C. now rewrite IH.
Qed.
Lemma py_src_ok l : Forall piece_ok l -> src_ok (flat_map py_src l).
Proof.
  induction 1 as [|p l P F IH]; [reflexivity|]. cbn [flat_map]. apply src_ok_app. split; [|exact IH].
  destruct p as [c| |c]; cbn [py_src piece_src]; [|reflexivity|].
  - apply clean_src. unfold clean. cbn [forallb]. now rewrite (proj1 P).
  - cbn in P. repeat (destruct P as [<-|P]; [reflexivity|]). contradiction.
Qed.
Lemma py_pieces l : Forall piece_ok l -> forall n rest, (length l < n)%nat ->
  py_string n 39 (flat_map py_src l ++ 39 :: rest) = Ok (val l, rest).
Proof.
  induction 1 as [|p l P F IH]; intros n rest L; (destruct n as [|n]; [lia|]).
  - apply py_close.
  - cbn [flat_map val length] in *. fold (val l). rewrite <- app_assoc. specialize (IH n rest ltac:(lia)).
    destruct p as [c| |c]; cbn [py_src piece_src piece_val app].
    + destruct P as [P1 P2]. apply clean_facts in P1. rewrite py_chr by tauto. rewrite IH. reflexivity.
    + rewrite (py_esc n 39 39 [39]) by (try discriminate; reflexivity). rewrite IH. reflexivity.
    + cbn [piece_ok common_escapes In] in P.
      assert (D : py_escape c = Some (unescape c) \/ ~ In c python_escapes /\ unescape c = [92; c]).
      { repeat (destruct P as [<-|P]; [first [left; reflexivity|right; split; [cbn; intuition discriminate|reflexivity]]|]). contradiction. }
      destruct D as [D|[D E]].
      * rewrite (py_esc n 39 c _ _ ltac:(discriminate) D). rewrite IH. reflexivity.
      * rewrite (py_keep n 39 c _ ltac:(discriminate) D). rewrite IH, E. reflexivity.
Qed.
Lemma eval_simple q s v : src_ok s -> py_string (S (length s)) q s = Ok (v, []) -> literal_eval q s = Ok v.
Proof.
  intros S P. unfold LitModel.literal_eval. destruct (no_nul s S) as [-> ->]. rewrite (newlines_id s S), P. reflexivity.
Qed.
Lemma flat_len l : (length l <= length (flat_map py_src l))%nat.
Proof. induction l as [|p l IH]; [cbn; lia|]. cbn [flat_map length]. rewrite app_length. destruct p; cbn; lia. Qed.
Lemma to_string_pieces l : Forall piece_ok l -> to_string uname more (src l) = Ok (val l).
Proof.
  intros F. unfold to_string. rewrite (replace_src l F). apply eval_simple.
  - apply src_ok_app. split; [now apply py_src_ok|reflexivity].
  - apply py_pieces; [exact F|]. rewrite app_length. pose proof (flat_len l). lia.
Qed.
Lemma read_pieces l rest : Forall piece_ok l -> not_next 39 rest -> read_string uname more (39 :: src l ++ 39 :: rest) = Ok (val l, rest).
Proof.
  intros F R. unfold read_string. change (39 =? 39) with true. cbn [orb]. rewrite (regex_src l rest F R). rewrite to_string_pieces by exact F. reflexivity.
Qed.

(** ** Literals without backslashes *)
Definition pieces_of (v : pystr) : list piece := map (fun c => if c =? 39 then Two else Chr c) v.
Lemma pieces_src v : src (pieces_of v) = doubled 39 v.
Proof.
  unfold src, pieces_of, doubled. induction v as [|c v IH]; [reflexivity|]. cbn [map flat_map]. rewrite IH. now destruct (c =? 39).
Qed.
Lemma pieces_val v : val (pieces_of v) = v.
Proof.
  unfold val, pieces_of. induction v as [|c v IH]; [reflexivity|]. cbn [map flat_map]. rewrite IH. destruct (N.eqb_spec c 39) as [->|]; reflexivity.
Qed.
Lemma pieces_ok v : clean v -> Forall piece_ok (pieces_of v).
Proof.
  induction v as [|c v IH]; [constructor|]. rewrite clean_cons. intros [C H]. cbn [pieces_of map]. constructor; [|now apply IH].
  destruct (N.eqb_spec c 39); [exact I|]. split; assumption.
Qed.
Lemma read_doubled v rest : clean v -> not_next 39 rest -> read_string uname more (39 :: doubled 39 v ++ 39 :: rest) = Ok (v, rest).
Proof. intros C R. rewrite <- pieces_src. rewrite (read_pieces _ rest (pieces_ok v C) R). now rewrite pieces_val. Qed.

(** The SQL lexer on texts without backslashes. *)
Lemma quoted_shorter bs q n : forall s v rest, (length s <= n)%nat -> read_quoted bs q s = Some (v, rest) -> (length rest < length s)%nat.
Proof.
  induction n as [|n IH]; intros s v rest L H; (destruct s as [|c s]; [discriminate|]); cbn [length] in *; [lia|].
  cbn [read_quoted] in H. destruct (c =? q).
  - destruct s as [|d s]; [injection H as _ <-; cbn; lia|]. destruct (d =? q).
    + destruct (read_quoted bs q s) as [[a b]|] eqn:E; [|discriminate]. injection H as _ <-. apply IH in E; cbn [length] in *; lia.
    + injection H as _ <-. cbn. lia.
  - destruct (bs && (c =? 92)).
    + destruct s as [|d s]; [discriminate|]. destruct (read_quoted bs q s) as [[a b]|] eqn:E; [|discriminate]. injection H as _ <-.
      apply IH in E; cbn [length] in *; lia.
    + destruct (read_quoted bs q s) as [[a b]|] eqn:E; [|discriminate]. injection H as _ <-. apply IH in E; lia.
Qed.
Lemma quoted_shape bs q rest n : forall body v, (length body <= n)%nat -> ~ In 92 body -> read_quoted bs q (body ++ rest) = Some (v, rest) ->
  body = doubled q v ++ [q] /\ not_next q rest.
Proof.
  induction n as [|n IH]; intros body v L B H.
  - destruct body as [|]; [|cbn in L; lia]. cbn [app] in H. apply quoted_shorter with (n := length rest) in H; lia.
  - destruct body as [|c body].
    + cbn [app] in H. apply quoted_shorter with (n := length rest) in H; lia.
    + cbn [app] in H. cbn [read_quoted] in H. destruct (N.eqb_spec c q) as [->|NE].
      * destruct body as [|d body]; cbn [app] in H.
        -- destruct rest as [|d r]; [injection H as <-; split; [reflexivity|exact I]|]. destruct (N.eqb_spec d q) as [->|ND].
           ++ destruct (read_quoted bs q r) as [[a b]|] eqn:E; [|discriminate]. injection H as <- H. subst b.
              apply quoted_shorter with (n := length r) in E; [cbn in E; lia|lia].
           ++ injection H as <-. split; [reflexivity|exact ND].
        -- destruct (N.eqb_spec d q) as [->|ND].
           ++ destruct (read_quoted bs q (body ++ rest)) as [[a b]|] eqn:E; [|discriminate]. injection H as <- H. subst b.
              destruct (IH body a) as [-> R]; [cbn in L; lia|intros J; apply B; cbn; auto|exact E|].
              split; [|exact R]. cbn [doubled flat_map]. rewrite N.eqb_refl. reflexivity.
           ++ injection H as <- H. exfalso. apply (f_equal (@length N)) in H. cbn in H. rewrite app_length in H. lia.
      * assert (C : c <> 92) by (intros ->; apply B; now left).
        replace (bs && (c =? 92)) with false in H by (destruct (N.eqb_spec c 92); [contradiction|]; now rewrite andb_false_r).
        destruct (read_quoted bs q (body ++ rest)) as [[a b]|] eqn:E; [|discriminate]. injection H as <- H. subst b.
        destruct (IH body a) as [-> R]; [cbn in L; lia|intros J; apply B; cbn; auto|exact E|].
        split; [|exact R]. cbn [doubled flat_map]. destruct (N.eqb_spec c q); [contradiction|]. reflexivity.
Qed.
Lemma doubled_clean q v : clean (doubled q v) -> clean v.
Proof.
  induction v as [|c v IH]; [reflexivity|]. cbn [doubled flat_map]. rewrite clean_app, clean_cons. intros [A B]. split; [|now apply IH].
  destruct (N.eqb_spec c q) as [->|]; rewrite !clean_cons in A; tauto.
Qed.
Lemma clean_no_bs s : clean s -> ~ In 92 s.
Proof. intros C I. unfold clean in C. rewrite forallb_forall in C. specialize (C _ I). discriminate. Qed.
Lemma read_standard bs dq body rest v : clean body -> read_token bs dq (39 :: body ++ rest) = Some (TStr v, rest) ->
  read_string uname more (39 :: body ++ rest) = Ok (v, rest).
Proof.
  intros C H. cbn [read_token] in H. change (39 =? 39) with true in H. cbn match in H.
  destruct (read_quoted bs 39 (body ++ rest)) as [[a b]|] eqn:E; [|discriminate]. injection H as -> ->.
  destruct (quoted_shape bs 39 rest (length body) body v (le_n _) (clean_no_bs _ C) E) as [-> R].
  rewrite <- app_assoc. cbn [app]. apply read_doubled; [|exact R]. rewrite clean_app in C. now apply doubled_clean with 39.
Qed.
(** The SQL lexer on pieces. *)
Lemma quoted_pieces l t v rest : Forall piece_ok l -> read_quoted true 39 t = Some (v, rest) ->
  read_quoted true 39 (src l ++ t) = Some (val l ++ v, rest).
Proof.
  intros F T. induction F as [|p l P F IH]; [exact T|]. cbn [src val flat_map]. fold (src l) (val l). rewrite <- !app_assoc.
  destruct p as [c| |c]; cbn [piece_src piece_val app].
  - destruct P as [P1 P2]. apply clean_facts in P1. cbn [read_quoted]. destruct (N.eqb_spec c 39); [contradiction|].
    destruct (N.eqb_spec c 92); [tauto|]. cbn [andb]. now rewrite IH.
  - cbn [read_quoted]. rewrite !N.eqb_refl. now rewrite IH.
  - cbn [read_quoted]. change (92 =? 39) with false. change (92 =? 92) with true. cbn [andb]. now rewrite IH.
Qed.
Lemma quoted_end q bs rest : not_next q rest -> read_quoted bs q (q :: rest) = Some ([], rest).
Proof. intros R. cbn [read_quoted]. rewrite N.eqb_refl. destruct rest as [|d r]; [reflexivity|]. cbn in R. destruct (N.eqb_spec d q); [contradiction|reflexivity]. Qed.
Lemma sql_pieces dq l rest : Forall piece_ok l -> not_next 39 rest -> read_token true dq (39 :: src l ++ 39 :: rest) = Some (TStr (val l), rest).
Proof.
  intros F R. cbn [read_token]. change (39 =? 39) with true. cbn match. rewrite (quoted_pieces l (39 :: rest) [] rest F); [now rewrite app_nil_r|].
  now apply quoted_end.
Qed.

(** ** One escape *)
Definition same_escapes : list N := [48; 98; 110; 114; 116; 92; 34; 37; 95].
Lemma sql_escape dq c rest : not_next 39 rest -> read_token true dq (39 :: 92 :: c :: 39 :: rest) = Some (TStr (unescape c), rest).
Proof.
  intros R. cbn [read_token]. change (39 =? 39) with true. cbn match.
  replace (read_quoted true 39 (92 :: c :: 39 :: rest)) with (match read_quoted true 39 (39 :: rest) with Some (a, b) => Some (unescape c ++ a, b) | None => None end) by reflexivity.
  rewrite (quoted_end 39 true rest R). now rewrite app_nil_r.
Qed.
Lemma regex_escape c rest : c <> 39 -> not_next 39 rest -> regex_quoted 39 (92 :: c :: 39 :: rest) = Some ([92; c], rest).
Proof.
  intros C R. pose proof (regex_doubled 39 [92; c] rest R) as H. cbn [doubled flat_map app] in H. change (92 =? 39) with false in H.
  destruct (N.eqb_spec c 39); [contradiction|]. exact H.
Qed.
Lemma read_escape c rest : c <> 39 -> not_next 39 rest ->
  read_string uname more (39 :: 92 :: c :: 39 :: rest) = do v <- literal_eval 39 [92; c; 39]; Ok (v, rest).
Proof.
  intros C R. unfold read_string. change (39 =? 39) with true. cbn [orb]. rewrite (regex_escape c rest C R). unfold to_string.
  rewrite replace_pair_other by discriminate. rewrite replace_pair_other by exact C. reflexivity.
Qed.
Lemma eval_odd c : c = 0 \/ surrogate c = true \/ c = 13 -> literal_eval 39 [92; c; 39] = Ok (unescape c) -> False.
Proof.
  intros H. unfold LitModel.literal_eval. destruct H as [->|[H| ->]]; [discriminate| |discriminate].
  destruct (has_char 0 [92; c; 39]); [discriminate|]. cbn [existsb]. rewrite H. change (surrogate 92) with false. discriminate.
Qed.
Lemma eval_escape c : c <> 39 -> (literal_eval 39 [92; c; 39] = Ok (unescape c) <-> In c same_escapes).
Proof.
  intros NQ. split.
  - intros H. destruct (N.eq_dec c 0) as [->|N0]; [exfalso; apply (eval_odd 0); auto|].
    destruct (N.eq_dec c 13) as [->|N13]; [exfalso; apply (eval_odd 13); auto|].
    destruct (surrogate c) eqn:SU; [exfalso; apply (eval_odd c); auto|].
    assert (OK : src_ok [92; c; 39]). { unfold src_ok. cbn [forallb]. rewrite SU. destruct (N.eqb_spec c 0); [contradiction|]. destruct (N.eqb_spec c 13); [contradiction|]. reflexivity. }
    unfold LitModel.literal_eval in H. destruct (no_nul _ OK) as [E1 E2]. rewrite E1, E2, (newlines_id _ OK) in H. cbn [length] in H.
    destruct (in_dec N.eq_dec c python_escapes) as [I|I].
    + cbn [python_escapes In] in I. repeat (destruct I as [<-|I]; [try discriminate H; try contradiction; cbn; tauto|]). contradiction.
    + rewrite py_keep in H by (try discriminate; exact I). rewrite py_close in H. cbn [bind] in H. cbn [fst snd app] in H.
      injection H as H. unfold unescape in H. repeat match type of H with context [if ?b then _ else _] => destruct b eqn:?; try discriminate H end.
      assert (c = 37 \/ c = 95) as [->| ->] by lia; cbn; tauto.
  - cbn [same_escapes In]. intros H. repeat (destruct H as [<-|H]; [reflexivity|]). contradiction.
Qed.
Lemma read_escape_iff c rest : c <> 39 -> not_next 39 rest ->
  (read_string uname more (39 :: 92 :: c :: 39 :: rest) = Ok (unescape c, rest) <-> In c same_escapes).
Proof.
  intros C R. rewrite (read_escape c rest C R), <- (eval_escape c C). destruct (literal_eval 39 [92; c; 39]) as [v|e]; cbn [bind]; [|split; discriminate].
  split; [intros H; now injection H as ->|intros H; now injection H as ->].
Qed.

(** ** What goes wrong *)
Lemma py_prefix l t : Forall piece_ok l -> forall n, py_string (length l + n) 39 (flat_map py_src l ++ t) =
  bind (py_string n 39 t) (fun p => Ok (val l ++ fst p, snd p)).
Proof.
  induction 1 as [|p l P F IH]; intros n.
  - cbn [length flat_map app plus]. destruct (py_string n 39 t) as [[a b]|]; reflexivity.
  - cbn [flat_map val length plus]. fold (val l). rewrite <- app_assoc. specialize (IH n).
    destruct p as [c| |c]; cbn [py_src piece_src piece_val app].
    + destruct P as [P1 P2]. apply clean_facts in P1. rewrite py_chr by tauto. rewrite IH. now destruct (py_string n 39 t) as [[a b]|].
    + rewrite (py_esc _ 39 39 [39]) by (try discriminate; reflexivity). rewrite IH. now destruct (py_string n 39 t) as [[a b]|].
    + cbn [piece_ok common_escapes In] in P.
      assert (D : py_escape c = Some (unescape c) \/ ~ In c python_escapes /\ unescape c = [92; c]).
      { repeat (destruct P as [<-|P]; [first [left; reflexivity|right; split; [cbn; intuition discriminate|reflexivity]]|]). contradiction. }
      destruct D as [D|[D E]].
      * rewrite (py_esc _ 39 c _ _ ltac:(discriminate) D). rewrite IH. destruct (py_string n 39 t) as [[a b]|]; [|reflexivity]. cbn. now rewrite app_assoc.
      * rewrite (py_keep _ 39 c _ ltac:(discriminate) D). rewrite IH, E. now destruct (py_string n 39 t) as [[a b]|].
Qed.
Lemma replace_pieces l t : Forall piece_ok l -> not_next 39 t -> replace_pair 39 [92; 39] (src l ++ t) = flat_map py_src l ++ replace_pair 39 [92; 39] t.
Proof.
  intros F _. induction F as [|p l P F IH]; [reflexivity|]. cbn [src flat_map]. fold (src l). rewrite <- !app_assoc. destruct p as [c| |c]; cbn [piece_src py_src app].
  - rewrite replace_pair_other by apply P. now rewrite IH.
  - now rewrite replace_pair_two, IH.
  - assert (C : c <> 39) by (cbn in P; intros ->; intuition discriminate). rewrite replace_pair_other by discriminate.
    rewrite replace_pair_other by exact C. now rewrite IH.
Qed.
Lemma regex_pieces l t a b : Forall piece_ok l -> regex_quoted 39 t = Some (a, b) -> regex_quoted 39 (src l ++ t) = Some (src l ++ a, b).
Proof.
  intros F R. induction F as [|p l P F IH]; [exact R|]. cbn [src flat_map]. fold (src l). rewrite <- !app_assoc. destruct p as [c| |c]; cbn [piece_src app].
  - destruct P as [_ P]. cbn [regex_quoted]. destruct (N.eqb_spec c 39); [contradiction|]. now rewrite IH.
  - cbn [regex_quoted]. rewrite !N.eqb_refl. now rewrite IH.
  - assert (C : c <> 39) by (cbn in P; intros ->; intuition discriminate). cbn [regex_quoted]. change (92 =? 39) with false. cbn match.
    destruct (N.eqb_spec c 39); [contradiction|]. now rewrite IH.
Qed.
(** An error in what follows some pieces. *)
Lemma eval_error l t : Forall piece_ok l -> src_ok t -> (forall n, (length t <= n)%nat -> py_string (S n) 39 t = Err ValueError) ->
  literal_eval 39 (flat_map py_src l ++ t) = Err ValueError.
Proof.
  intros F S H. assert (OK : src_ok (flat_map py_src l ++ t)) by (apply src_ok_app; split; [now apply py_src_ok|exact S]).
  unfold LitModel.literal_eval. destruct (no_nul _ OK) as [-> ->]. rewrite (newlines_id _ OK). pose proof (flat_len l).
  replace (Datatypes.S (length (flat_map py_src l ++ t))) with (length l + Datatypes.S (length (flat_map py_src l ++ t) - length l))%nat by (rewrite app_length; lia).
  rewrite (py_prefix l t F). rewrite H; [reflexivity|]. rewrite app_length. lia.
Qed.
Lemma read_backslash_quote l t : Forall piece_ok l -> not_next 39 t -> read_string uname more (39 :: src l ++ 92 :: 39 :: t) = Err ValueError.
Proof.
  intros F R. unfold read_string. change (39 =? 39) with true. cbn [orb].
  assert (E : regex_quoted 39 (92 :: 39 :: t) = Some ([92], t)).
  { pose proof (regex_doubled 39 [92] t R) as H. exact H. }
  rewrite (regex_pieces l _ _ _ F E). unfold to_string. rewrite (replace_pieces l [92] F) by discriminate. rewrite <- app_assoc.
  rewrite (eval_error l); [reflexivity|exact F|reflexivity|]. intros n L. change (replace_pair 39 [92; 39] [92] ++ [39]) with [92; 39] in *. cbn in L.
  rewrite (py_esc n 39 39 [39]) by (try discriminate; reflexivity). destruct n as [|n]; [lia|]. reflexivity.
Qed.
Lemma read_line_end l v rest : Forall piece_ok l -> clean v -> not_next 39 rest ->
  read_string uname more (39 :: src l ++ 10 :: doubled 39 v ++ 39 :: rest) = Err ValueError.
Proof.
  intros F C R. unfold read_string. change (39 =? 39) with true. cbn [orb].
  assert (E : regex_quoted 39 (10 :: doubled 39 v ++ 39 :: rest) = Some (10 :: doubled 39 v, rest)).
  { cbn [regex_quoted]. change (10 =? 39) with false. cbn match. now rewrite (regex_doubled 39 v rest R). }
  rewrite (regex_pieces l _ _ _ F E). unfold to_string. rewrite (replace_pieces l _ F) by discriminate. rewrite <- app_assoc.
  rewrite (eval_error l); [reflexivity|exact F| |].
  - rewrite replace_pair_other by discriminate. cbn [app]. rewrite src_ok_cons, src_ok_app. split; [reflexivity|]. split; [|reflexivity].
    rewrite <- pieces_src, replace_src by now apply pieces_ok. apply py_src_ok. now apply pieces_ok.
  - intros n L. rewrite replace_pair_other by discriminate. reflexivity.
Qed.
Lemma sql_backslash_quote dq l t v rest : Forall piece_ok l -> read_quoted true 39 t = Some (v, rest) ->
  read_token true dq (39 :: src l ++ 92 :: 39 :: t) = Some (TStr (val l ++ 39 :: v), rest).
Proof.
  intros F T. cbn [read_token]. change (39 =? 39) with true. cbn match. rewrite (quoted_pieces l (92 :: 39 :: t) (39 :: v) rest F); [reflexivity|].
  cbn [read_quoted]. change (92 =? 39) with false. change (92 =? 92) with true. cbn [andb]. now rewrite T.
Qed.
Lemma quoted_doubled bs q v rest : q <> 92 -> (bs = true -> ~ In 92 v) -> not_next q rest -> read_quoted bs q (doubled q v ++ q :: rest) = Some (v, rest).
Proof.
  intros Q B R. induction v as [|c v IH]; [now apply quoted_end|]. cbn [doubled flat_map]. fold (doubled q v).
  assert (IH' : read_quoted bs q (doubled q v ++ q :: rest) = Some (v, rest)) by (apply IH; intros E J; apply (B E); now right).
  destruct (N.eqb_spec c q) as [->|NE]; cbn [app read_quoted].
  - rewrite !N.eqb_refl. now rewrite IH'.
  - destruct (N.eqb_spec c q); [contradiction|]. destruct bs; [|cbn [andb]; now rewrite IH'].
    destruct (N.eqb_spec c 92) as [->|]; [exfalso; apply B; [reflexivity|now left]|]. cbn [andb]. now rewrite IH'.
Qed.
Lemma sql_line_end dq l v rest : Forall piece_ok l -> clean v -> not_next 39 rest ->
  read_token true dq (39 :: src l ++ 10 :: doubled 39 v ++ 39 :: rest) = Some (TStr (val l ++ 10 :: v), rest).
Proof.
  intros F C R. cbn [read_token]. change (39 =? 39) with true. cbn match. rewrite (quoted_pieces l (10 :: doubled 39 v ++ 39 :: rest) (10 :: v) rest F); [reflexivity|].
  change (read_quoted true 39 (10 :: doubled 39 v ++ 39 :: rest)) with
    (match read_quoted true 39 (doubled 39 v ++ 39 :: rest) with Some (a, b) => Some (10 :: a, b) | None => None end).
  rewrite quoted_doubled; [reflexivity|discriminate|intros _; now apply clean_no_bs|exact R].
Qed.

(** ** Double quotes *)
Lemma py_clean q v t : clean v -> ~ In q v -> forall n, py_string (length v + n) q (v ++ t) = bind (py_string n q t) (fun p => Ok (v ++ fst p, snd p)).
Proof.
  induction v as [|c v IH]; intros C Q n.
  - cbn [length app plus]. now destruct (py_string n q t) as [[a b]|].
  - rewrite clean_cons in C. destruct C as [C1 C2]. apply clean_facts in C1. cbn [length app plus].
    rewrite py_chr by (try tauto; intros ->; apply Q; now left). rewrite IH by (try assumption; intros J; apply Q; now right).
    now destruct (py_string n q t) as [[a b]|].
Qed.
Lemma doubled_is_clean q v : clean_char q = true -> clean v -> clean (doubled q v).
Proof.
  intros Q. induction v as [|c v IH]; [reflexivity|]. rewrite clean_cons. intros [A B]. cbn [doubled flat_map]. fold (doubled q v). rewrite clean_app. split; [|now apply IH].
  destruct (c =? q); rewrite ?clean_cons; repeat split; assumption.
Qed.
Lemma doubled_in q v c : In c (doubled q v) -> In c v.
Proof.
  unfold doubled. rewrite in_flat_map. intros (x & I & J). destruct (N.eqb_spec x q) as [->|]; cbn in J; intuition (subst; assumption).
Qed.
Lemma doubled_none q v : ~ In q v -> doubled q v = v.
Proof.
  induction v as [|c v IH]; intros H; [reflexivity|]. cbn [doubled flat_map]. fold (doubled q v). destruct (N.eqb_spec c q) as [->|]; [exfalso; apply H; now left|].
  cbn [app]. rewrite IH; [reflexivity|]. intros J. apply H. now right.
Qed.
Lemma doubled_len q v : (length v <= length (doubled q v))%nat /\ (In q v -> (length v < length (doubled q v))%nat).
Proof.
  induction v as [|c v [IH1 IH2]]; [split; [cbn; lia|intros []]|]. cbn [doubled flat_map]. fold (doubled q v). rewrite app_length. destruct (N.eqb_spec c q) as [->|NE]; cbn [length].
  - split; [lia|]. lia.
  - split; [lia|]. intros [->|J]; [contradiction|]. specialize (IH2 J). lia.
Qed.
Lemma read_double v rest : clean v -> ~ In 39 v -> not_next 34 rest -> read_string uname more (34 :: doubled 34 v ++ 34 :: rest) = Ok (doubled 34 v, rest).
Proof.
  intros C Q R. unfold read_string. change ((34 =? 39) || (34 =? 34)) with true. cbn match. rewrite (regex_doubled 34 v rest R). unfold to_string.
  assert (Q' : ~ In 39 (doubled 34 v)) by (intros J; apply doubled_in in J; contradiction).
  assert (C' : clean (doubled 34 v)) by (apply doubled_is_clean; [reflexivity|exact C]).
  rewrite replace_pair_none by exact Q'. rewrite (eval_simple 39 _ (doubled 34 v)); [reflexivity| |].
  - apply src_ok_app. split; [now apply clean_src|reflexivity].
  - rewrite app_length. replace (S (length (doubled 34 v) + length [39])) with (length (doubled 34 v) + 2)%nat by (cbn [length]; lia).
    rewrite (py_clean 39 _ [39] C' Q'). change (py_string 2 39 [39]) with (Ok ([] : pystr, [] : pystr)). cbn [bind fst snd]. now rewrite app_nil_r.
Qed.
Lemma replace_pair_app c t a b : ~ In c a -> replace_pair c t (a ++ b) = a ++ replace_pair c t b.
Proof.
  induction a as [|x a IH]; intros H; [reflexivity|]. cbn [app]. rewrite replace_pair_other by (intros ->; apply H; now left). rewrite IH; [reflexivity|]. intros J. apply H. now right.
Qed.
Lemma replace_pair_in c t s x : In x (replace_pair c t s) -> In x s \/ In x t.
Proof.
  revert x. induction s as [|a|a b r IH1 IH2] using pystr_two_ind; intros x; [intros []|cbn; tauto|].
  cbn [replace_pair] in *. destruct ((a =? c) && (b =? c)).
  - rewrite in_app_iff. intros [H|H]; [tauto|]. destruct (IH1 x H); [left; now right; right|tauto].
  - intros [->|H]; [left; now left|]. destruct (IH2 x H); [left; now right|tauto].
Qed.
Lemma src_ok_in s : (forall x, In x s -> negb ((x =? 0) || (x =? 13) || surrogate x) = true) -> src_ok s.
Proof. intros H. unfold src_ok. now apply forallb_forall. Qed.
Lemma clean_in s x : clean s -> In x s -> negb ((x =? 0) || (x =? 13) || surrogate x) = true.
Proof. intros C I. apply clean_src in C. unfold src_ok in C. rewrite forallb_forall in C. now apply C. Qed.
Lemma read_double_inner a b rest : clean a -> clean b -> ~ In 39 a -> not_next 39 b -> ~ In 34 (a ++ b) -> not_next 34 rest ->
  read_string uname more (34 :: a ++ 39 :: b ++ 34 :: rest) = (do v <- more a (replace_pair 39 [92; 39] b ++ [39]); Ok (v, rest)).
Proof.
  intros Ca Cb Qa Qb D R. unfold read_string. change ((34 =? 39) || (34 =? 34)) with true. cbn match.
  assert (D' : ~ In 34 (a ++ 39 :: b)). { rewrite in_app_iff in *. cbn. intros [J|[J|J]]; [tauto|discriminate|tauto]. }
  pose proof (regex_doubled 34 (a ++ 39 :: b) rest R) as E. rewrite (doubled_none 34 _ D') in E. rewrite <- app_assoc in E. cbn [app] in E. rewrite E. clear E.
  unfold to_string. rewrite (replace_pair_app 39 _ a _ Qa). rewrite <- app_assoc.
  assert (E : replace_pair 39 [92; 39] (39 :: b) = 39 :: replace_pair 39 [92; 39] b).
  { destruct b as [|d b]; [reflexivity|]. cbn in Qb. cbn [replace_pair]. rewrite N.eqb_refl. destruct (N.eqb_spec d 39); [contradiction|reflexivity]. }
  rewrite E. cbn [app].
  assert (OK : src_ok (a ++ 39 :: replace_pair 39 [92; 39] b ++ [39])).
  { apply src_ok_in. intros x J. rewrite !in_app_iff in J. cbn [In] in J. rewrite in_app_iff in J.
    destruct J as [J|[<-|[J|[<-|[]]]]]; [now apply (clean_in a)|reflexivity| |reflexivity].
    apply replace_pair_in in J. destruct J as [J|[<-|[<-|[]]]]; [now apply (clean_in b)|reflexivity|reflexivity]. }
  unfold LitModel.literal_eval. destruct (no_nul _ OK) as [-> ->]. rewrite (newlines_id _ OK).
  rewrite app_length. cbn [length]. set (T := replace_pair 39 [92; 39] b ++ [39]) in *. replace (S (length a + S (length T))) with (length a + S (S (length T)))%nat by lia.
  rewrite (py_clean 39 a _ Ca Qa). rewrite py_close. cbn [bind fst snd]. rewrite app_nil_r.
  destruct T eqn:X; [unfold T in X; destruct (replace_pair 39 [92; 39] b); discriminate X|]. reflexivity.
Qed.

(** ** A backslash in a name *)
Lemma read_back_escape c rest : c <> 96 -> c <> 34 -> c <> 13 -> c <> 0 -> surrogate c = false -> not_next 96 rest ->
  (read_quoted_name uname more (96 :: 92 :: c :: 96 :: rest) = Ok (escape_dots [92; c], rest) <-> ~ In c python_escapes).
Proof.
  intros B D R0 Z SU R. unfold read_quoted_name. change (96 =? 96) with true. cbn match.
  assert (E : regex_quoted 96 (92 :: c :: 96 :: rest) = Some ([92; c], rest)).
  { pose proof (regex_doubled 96 [92; c] rest R) as H. cbn [doubled flat_map app] in H. change (92 =? 96) with false in H. destruct (N.eqb_spec c 96); [contradiction|]. exact H. }
  rewrite E. unfold unquote_back. rewrite replace_pair_other by discriminate. rewrite replace_pair_other by exact B. cbn [replace_pair replace_char flat_map].
  change (92 =? 34) with false. destruct (N.eqb_spec c 34); [contradiction|]. cbn [app].
  assert (OK : src_ok [92; c; 34]). { unfold src_ok. cbn [forallb]. rewrite SU. destruct (N.eqb_spec c 0); [contradiction|]. destruct (N.eqb_spec c 13); [contradiction|]. reflexivity. }
  unfold LitModel.literal_eval. destruct (no_nul _ OK) as [E1 E2]. rewrite E1, E2, (newlines_id _ OK). cbn [length]. split.
  - intros H I. cbn [python_escapes In] in I. repeat (destruct I as [<-|I]; [discriminate H || contradiction|]). contradiction.
  - intros I. rewrite py_keep by (try discriminate; exact I). rewrite py_close. reflexivity.
Qed.

(** ** Names *)
Definition dq_src (v : pystr) : pystr := replace_char 34 [92; 34] v.
Lemma replace_char_doubled q v : replace_pair q [q] (doubled q v) = v.
Proof.
  rewrite replace_doubled. induction v as [|c v IH]; [reflexivity|]. cbn [flat_map]. rewrite IH. destruct (N.eqb_spec c q) as [->|]; reflexivity.
Qed.
Lemma py_dq v t : clean v -> forall n, py_string (length v + n) 34 (dq_src v ++ t) = bind (py_string n 34 t) (fun p => Ok (v ++ fst p, snd p)).
Proof.
  induction v as [|c v IH]; intros C n.
  - cbn [length app plus dq_src replace_char flat_map]. now destruct (py_string n 34 t) as [[a b]|].
  - rewrite clean_cons in C. destruct C as [C1 C2]. apply clean_facts in C1. cbn [dq_src replace_char flat_map length plus]. fold (replace_char 34 [92; 34] v). fold (dq_src v).
    rewrite <- app_assoc. destruct (N.eqb_spec c 34) as [->|NE]; cbn [app].
    + rewrite (py_esc _ 34 34 [34]) by (try discriminate; reflexivity). rewrite IH by exact C2. now destruct (py_string n 34 t) as [[a b]|].
    + rewrite py_chr by tauto. rewrite IH by exact C2. now destruct (py_string n 34 t) as [[a b]|].
Qed.
Lemma dq_ok v : clean v -> src_ok (dq_src v).
Proof.
  induction v as [|c v IH]; [reflexivity|]. rewrite clean_cons. intros [A B]. cbn [dq_src replace_char flat_map]. fold (replace_char 34 [92; 34] v). fold (dq_src v).
  apply src_ok_app. split; [|now apply IH]. destruct (c =? 34); [reflexivity|]. apply clean_src. unfold clean. cbn [forallb]. now rewrite A.
Qed.
Lemma dq_len v : (length v <= length (dq_src v))%nat.
Proof.
  induction v as [|c v IH]; [cbn; lia|]. cbn [dq_src replace_char flat_map]. fold (replace_char 34 [92; 34] v). fold (dq_src v). rewrite app_length. destruct (c =? 34); cbn [length]; lia.
Qed.
Lemma eval_name v : clean v -> literal_eval 34 (dq_src v ++ [34]) = Ok v.
Proof.
  intros C. apply eval_simple.
  - apply src_ok_app. split; [now apply dq_ok|reflexivity].
  - rewrite app_length. pose proof (dq_len v). replace (S (length (dq_src v) + length [34])) with (length v + S (length (dq_src v) + 1 - length v))%nat by (cbn [length]; lia).
    rewrite (py_dq v [34] C). rewrite py_close. cbn [bind fst snd]. now rewrite app_nil_r.
Qed.
Lemma read_back v rest : clean v -> not_next 96 rest -> read_quoted_name uname more (96 :: doubled 96 v ++ 96 :: rest) = Ok (escape_dots v, rest).
Proof.
  intros C R. unfold read_quoted_name. change (96 =? 96) with true. cbn match. rewrite (regex_doubled 96 v rest R). unfold unquote_back.
  rewrite replace_char_doubled. fold (dq_src v). rewrite (eval_name v C). reflexivity.
Qed.
Lemma read_bracket v rest : clean v -> not_next 93 rest -> read_quoted_name uname more (91 :: doubled 93 v ++ 93 :: rest) = Ok (escape_dots v, rest).
Proof.
  intros C R. unfold read_quoted_name. change (91 =? 96) with false. change (91 =? 91) with true. cbn match. rewrite (regex_doubled 93 v rest R). unfold unquote_bracket.
  rewrite replace_char_doubled. fold (dq_src v). rewrite (eval_name v C). reflexivity.
Qed.
Lemma sql_back bs dq v rest : not_next 96 rest -> read_token bs dq (96 :: doubled 96 v ++ 96 :: rest) = Some (TQuoted v, rest).
Proof.
  intros R. cbn [read_token]. change (96 =? 39) with false. change (96 =? 34) with false. change (96 =? 96) with true. cbn match.
  rewrite (quoted_doubled false 96 v rest); [reflexivity|discriminate|discriminate|exact R].
Qed.
Lemma escape_dots_inj v w : ~ In 92 v -> ~ In 92 w -> escape_dots v = escape_dots w -> v = w.
Proof.
  revert w. induction v as [|c v IH]; intros [|d w] V W; cbn [escape_dots replace_char flat_map];
    [reflexivity|destruct (d =? 46); discriminate|destruct (c =? 46); discriminate|].
  fold (replace_char 46 [92; 46] v) (replace_char 46 [92; 46] w). fold (escape_dots v) (escape_dots w).
  destruct (N.eqb_spec c 46) as [->|NC]; destruct (N.eqb_spec d 46) as [->|ND]; cbn [app]; intros H; injection H as H; subst.
  - f_equal. apply IH; [intros J; apply V; now right|intros J; apply W; now right|assumption].
  - exfalso. apply W. now left.
  - exfalso. apply V. now left.
  - f_equal. apply IH; [intros J; apply V; now right|intros J; apply W; now right|assumption].
Qed.
(** A plain name. *)
Local Notation ident_char := LitModel.ident_char.
Local Notation is_digit := LitModel.is_digit.
Lemma run_app v rest : forallb ident_char v = true -> match rest with c :: _ => ident_char c = false | [] => True end -> ident_run (v ++ rest) = (v, rest).
Proof.
  intros F R. induction v as [|c v IH]; cbn [app].
  - destruct rest as [|d r]; [reflexivity|]. cbn [ident_run]. now rewrite R.
  - cbn [forallb] in F. apply andb_true_iff in F. destruct F as [F1 F2]. cbn [ident_run]. rewrite F1. now rewrite (IH F2).
Qed.
Lemma read_simple v rest : v <> [] -> forallb ident_char v = true -> is_digit (hd 0 v) = false ->
  match rest with c :: _ => ident_char c = false /\ c <> 45 | [] => True end -> read_simple_name (v ++ rest) = Ok (v, rest).
Proof.
  intros NE F D R. destruct v as [|c v]; [contradiction|]. cbn [hd] in D. assert (FC : ident_char c = true) by (cbn [forallb] in F; now apply andb_true_iff in F).
  unfold read_simple_name. cbn [app]. rewrite FC, D. cbn [negb andb].
  change (c :: v ++ rest) with ((c :: v) ++ rest). rewrite run_app; [|exact F|destruct rest; tauto].
  destruct rest as [|d [|e r]]; [reflexivity|reflexivity|]. destruct R as [_ R]. destruct (N.eqb_spec d 45); [contradiction|]. reflexivity.
Qed.
Lemma ident_not_quote c : ident_char c = true -> c <> 96 /\ c <> 91 /\ c <> 46.
Proof. unfold ident_char, is_digit. lia. Qed.
Lemma ident_no_dot v : forallb ident_char v = true -> escape_dots v = v.
Proof.
  induction v as [|c v IH]; intros F; [reflexivity|]. cbn [forallb] in F. apply andb_true_iff in F. destruct F as [F1 F2]. apply ident_not_quote in F1.
  cbn [escape_dots replace_char flat_map]. fold (replace_char 46 [92; 46] v) (escape_dots v). destruct (N.eqb_spec c 46); [tauto|]. cbn [app]. now rewrite (IH F2).
Qed.
(** After a part: the end of the name, or a dot. *)
Definition after (rest : pystr) : Prop := match rest with c :: _ => c <> 96 /\ c <> 93 /\ c <> 45 /\ ident_char c = false | [] => True end.
Lemma read_part_ok w rest : written_ok w -> after rest -> read_part uname more (text_of w ++ rest) = Ok (escape_dots (name_of w), rest).
Proof.
  intros (C & NE & _ & _ & X) A. unfold read_part. destruct w as [v|v|v]; cbn [text_of name_of] in *.
  - cbn [app]. rewrite <- app_assoc. cbn [app]. rewrite read_back; [reflexivity|exact C|destruct rest; cbn in *; tauto].
  - cbn [app]. rewrite <- app_assoc. cbn [app]. rewrite read_bracket; [reflexivity|exact C|destruct rest; cbn in *; tauto].
  - destruct X as [F D]. rewrite (ident_no_dot v F).
    assert (Q : exists e, read_quoted_name uname more (v ++ rest) = Err e).
    { destruct v as [|c v]; [contradiction|]. cbn [forallb] in F. apply andb_true_iff in F. destruct F as [F _]. apply ident_not_quote in F.
      unfold read_quoted_name. cbn [app]. destruct (N.eqb_spec c 96); [tauto|]. destruct (N.eqb_spec c 91); [tauto|]. eauto. }
    destruct Q as [e ->]. apply read_simple; [exact NE|exact F|exact D|destruct rest; cbn in *; tauto].
Qed.
Definition names (l : list written) : pystr := join [46] (map (fun w => escape_dots (name_of w)) l).
Lemma join2 (x y : pystr) (l : list pystr) : join [46] (x :: y :: l) = x ++ 46 :: join [46] (y :: l).
Proof. reflexivity. Qed.
Lemma blank_In c : blank c = true <-> In c [32; 9; 10; 13].
Proof. unfold blank. cbn. lia. Qed.
Lemma skip_app b s : blanks b -> skip_blanks (b ++ s) = skip_blanks s.
Proof. intros F. induction F as [|c b C F IH]; [reflexivity|]. cbn [app skip_blanks]. apply blank_In in C. now rewrite C. Qed.
Lemma skip_back s : exists b, s = b ++ skip_blanks s /\ blanks b.
Proof.
  induction s as [|c s (b & E & F)]; [exists []; split; [reflexivity|constructor]|]. cbn [skip_blanks]. destruct (blank c) eqn:C.
  - exists (c :: b). split; [cbn; now f_equal|]. constructor; [now apply blank_In|exact F].
  - exists []. split; [reflexivity|constructor].
Qed.
Lemma skip_dot s : skip_blanks (46 :: s) = 46 :: s.
Proof. reflexivity. Qed.
Lemma skip_text w s : written_ok w -> skip_blanks (text_of w ++ s) = text_of w ++ s.
Proof.
  intros (C & NE & _ & _ & X). destruct w as [v|v|v]; cbn [text_of name_of] in *; [reflexivity|reflexivity|]. destruct v as [|c v]; [contradiction|]. destruct X as [X _].
  cbn [forallb] in X. apply andb_true_iff in X. destruct X as [X _]. cbn [app skip_blanks]. destruct (blank c) eqn:B; [|reflexivity].
  apply blank_In in B. cbn in B. destruct B as [<-|[<-|[<-|[<-|[]]]]]; discriminate X.
Qed.
Lemma after_blanks b s : blanks b -> after (b ++ 46 :: s).
Proof. intros [|c b' C F]; [cbn; repeat split; discriminate || reflexivity|]. cbn in C. cbn [app after]. destruct C as [<-|[<-|[<-|[<-|[]]]]]; repeat split; discriminate || reflexivity. Qed.
Lemma ends_after rest : ends rest -> after rest.
Proof. intros [_ E]. destruct rest; cbn in *; tauto. Qed.
Lemma ends_skip rest : ends rest -> match skip_blanks rest with d :: _ => d <> 46 | [] => True end.
Proof. intros [E _]. destruct (skip_back rest) as (b & H & F). destruct (skip_blanks rest) as [|d r]; [exact Logic.I|]. intros ->. exact (E _ _ H F). Qed.
Lemma read_names l : Forall further_ok l -> forall w n rest, written_ok w -> (length l < n)%nat -> ends rest ->
  read_name uname more n (dotted w l ++ rest) = Ok (names (w :: map f_name l), rest).
Proof.
  intros F. induction F as [|x l (B1 & B2 & W2) F IH]; intros w n rest W L E; (destruct n as [|n]; [cbn in L; lia|]).
  - unfold dotted. cbn [flat_map map]. rewrite app_nil_r. cbn [read_name names map join]. rewrite read_part_ok; [|exact W|now apply ends_after]. cbn [bind].
    pose proof (ends_skip rest E) as S. destruct (skip_blanks rest) as [|d r]; [reflexivity|]. destruct (N.eqb_spec d 46); [tauto|]. reflexivity.
  - destruct x as [[b1 b2] w2]. cbn [fst snd] in *.
    assert (D : dotted w (@cons further (b1, b2, w2) l) ++ rest = text_of w ++ b1 ++ 46 :: b2 ++ dotted w2 l ++ rest).
    { unfold dotted. cbn [flat_map fst snd]. repeat (rewrite <- app_assoc || cbn [app]). reflexivity. }
    rewrite D. cbn [read_name]. rewrite read_part_ok; [|exact W|now apply after_blanks]. cbn [bind].
    rewrite (skip_app _ _ B1), skip_dot. change (46 =? 46) with true. cbn match. rewrite (skip_app _ _ B2).
    assert (K : skip_blanks (dotted w2 l ++ rest) = dotted w2 l ++ rest) by (unfold dotted; rewrite <- app_assoc; now apply skip_text).
    rewrite K, (IH w2 n rest W2 ltac:(cbn in L; lia) E). cbn [map f_name snd names]. unfold names. cbn [map]. now rewrite join2.
Qed.
Lemma names_join l : l <> [] -> Forall written_ok l -> names l = join_names (map name_of l).
Proof.
  intros NE F. unfold join_names.
  assert (S : free BSL (join [DOT] (map (replace1 DOT [BEL]) (map name_of l)))).
  { apply join_free; [discriminate|]. apply Forall_map, Forall_map. eapply Forall_impl; [|exact F]. intros w (C & _). apply rep1_other; [cbn; intros [H|[]]; discriminate|]. now apply clean_no_bs. }
  assert (X : forall s, free BSL s -> replace_escdot BS s = s).
  { induction s as [|c s IHs]; intros H; [reflexivity|]. apply free_cons in H. destruct H as [H1 H2]. rewrite esc_cons by (intros; contradiction). now rewrite (IHs H2). }
  rewrite (X _ S). clear S X NE. unfold names. induction F as [|w l W F IH]; [reflexivity|].
  assert (E : replace1 BEL [BSL; DOT] (replace1 DOT [BEL] (name_of w)) = escape_dots (name_of w)).
  { destruct W as (_ & _ & B & _). revert B. generalize (name_of w) as v. induction v as [|c v IHv]; intros B; [reflexivity|]. rewrite rep1_cons.
    cbn [escape_dots replace_char flat_map]. fold (replace_char 46 [92; 46] v) (escape_dots v). rewrite <- IHv by (intros J; apply B; now right). change DOT with 46. change BEL with 7.
    destruct (N.eqb_spec c 46) as [->|]; [reflexivity|]. cbn [app]. rewrite rep1_cons. destruct (N.eqb_spec c 7) as [->|]; [exfalso; apply B; now left|]. reflexivity. }
  destruct l as [|w2 l].
  - cbn [map join]. now rewrite E.
  - cbn [map] in *. rewrite join2. change DOT with 46 in *. rewrite (join2 _ _ (map (replace1 46 [BEL]) (map name_of l))). rewrite IH.
    assert (RA : forall a b, replace1 BEL [BSL; 46] (a ++ b) = replace1 BEL [BSL; 46] a ++ replace1 BEL [BSL; 46] b) by (intros; apply flat_map_app).
    rewrite RA, E, rep1_cons. reflexivity.
Qed.
Lemma read_names_path w l n rest : written_ok w -> Forall further_ok l -> (length l < n)%nat -> ends rest ->
  exists f, read_name uname more n (dotted w l ++ rest) = Ok (f, rest) /\ join_field (map Name (map name_of (w :: map f_name l))) = Ok f /\
    split_field f = map Name (map name_of (w :: map f_name l)).
Proof.
  intros W F L E. exists (names (w :: map f_name l)). split; [now apply read_names|].
  assert (NE : w :: map f_name l <> []) by discriminate.
  assert (FW : Forall written_ok (w :: map f_name l)).
  { constructor; [exact W|]. apply Forall_map. eapply Forall_impl; [|exact F]. intros x (_ & _ & X). exact X. }
  clear W F L. rename FW into F. revert NE F. generalize (w :: map f_name l) as k. clear w l. intros l NE F. rewrite (names_join l NE F).
  assert (G : good_path (map Name (map name_of l))).
  { exists 0%nat, (map name_of l). split; [reflexivity|]. split.
    - apply Forall_map. eapply Forall_impl; [|exact F]. intros w (_ & _ & B & S & _). split; assumption.
    - destruct F as [|w l W F]; [contradiction|]. destruct W as (_ & W & _). destruct l; cbn [map]; auto. }
  destruct (split_join_good _ G) as (f & J & S).
  assert (E2 : f = join_names (map name_of l)).
  { destruct l as [|w l]; [contradiction|]. cbn [map join_field] in J. rewrite <- (map_cons Name) in J. rewrite mapM_names in J. cbn [bind] in J. injection J as <-.
    destruct (join_names (name_of w :: map name_of l)) eqn:X; [|cbn [map]; now rewrite X]. apply join_names_nil in X; [|discriminate]. exfalso. inversion F as [|? ? W ? ]; subst. destruct W as (_ & W & _). now injection X. }
  subst f. now split.
Qed.
(** ** Numbers after a backslash, carriage returns *)
Lemma read_plain w v rest : ~ In 39 w -> src_ok w -> not_next 39 rest -> (forall n, (length w <= n)%nat -> py_string (S n) 39 (w ++ [39]) = Ok (v, [])) ->
  read_string uname more (39 :: w ++ 39 :: rest) = Ok (v, rest).
Proof.
  intros Q S R H. unfold read_string. change (39 =? 39) with true. cbn [orb]. pose proof (regex_doubled 39 w rest R) as E. rewrite (doubled_none 39 w Q) in E. rewrite E.
  unfold to_string. rewrite (replace_pair_none _ _ w Q). rewrite (eval_simple 39 (w ++ [39]) v); [reflexivity|apply src_ok_app; split; [exact S|reflexivity]|].
  apply H. rewrite app_length. lia.
Qed.
Lemma read_plain_err w rest : ~ In 39 w -> src_ok w -> not_next 39 rest -> (forall n, (length w <= n)%nat -> py_string (S n) 39 (w ++ [39]) = Err ValueError) ->
  read_string uname more (39 :: w ++ 39 :: rest) = Err ValueError.
Proof.
  intros Q S R H. unfold read_string. change (39 =? 39) with true. cbn [orb]. pose proof (regex_doubled 39 w rest R) as E. rewrite (doubled_none 39 w Q) in E. rewrite E.
  unfold to_string. rewrite (replace_pair_none _ _ w Q). 
  assert (E2 : literal_eval 39 (w ++ [39]) = Err ValueError).
  { apply (eval_error [] (w ++ [39])); [constructor|apply src_ok_app; split; [exact S|reflexivity]|]. intros n L. apply H. rewrite app_length in L. lia. }
  now rewrite E2.
Qed.
Lemma py_tail v n : clean v -> ~ In 39 v -> (length v < n)%nat -> py_string n 39 (v ++ [39]) = Ok (v, []).
Proof.
  intros C Q L. replace n with (length v + S (n - length v - 1))%nat by lia. rewrite (py_clean 39 v [39] C Q). rewrite py_close. cbn [bind fst snd]. now rewrite app_nil_r.
Qed.
Lemma hex_digit_value c n : hex_digit c n -> hex c = Some (N.of_nat n) /\ c <> 39 /\ clean_char c = true.
Proof.
  intros [H|H]; (do 16 (destruct n as [|n]; [injection H as <-; repeat split; (reflexivity || discriminate)|])); destruct n; discriminate H.
Qed.
Lemma py_hex f a b x y r : hex a = Some x -> hex b = Some y ->
  py_string (S f) 39 (92 :: 120 :: a :: b :: r) = bind (py_string f 39 r) (fun p => Ok ([16 * x + y] ++ fst p, snd p)).
Proof.
  intros A B. cbn [LitModel.py_string]. change (92 =? 39) with false. change (92 =? 10) with false. change (92 =? 92) with true. cbn [negb].
  change (py_escape 120) with (@None pystr). change (120 =? 120) with true. cbn match. cbn [hex_digits]. rewrite A. cbn [hex_digits]. rewrite B. cbn [hex_digits].
  replace (16 * (16 * 0 + x) + y) with (16 * x + y) by lia. reflexivity.
Qed.
Lemma read_hex a b x y v rest : hex_digit a x -> hex_digit b y -> clean v -> ~ In 39 v -> not_next 39 rest ->
  read_string uname more (39 :: 92 :: 120 :: a :: b :: v ++ 39 :: rest) = Ok (16 * N.of_nat x + N.of_nat y :: v, rest).
Proof.
  intros A B C Q R. apply hex_digit_value in A. apply hex_digit_value in B. destruct A as (A & A1 & A2), B as (B & B1 & B2).
  change (39 :: 92 :: 120 :: a :: b :: v ++ 39 :: rest) with (39 :: (92 :: 120 :: a :: b :: v) ++ 39 :: rest). apply read_plain; [cbn [In]; intuition discriminate| |exact R|].
  - rewrite !src_ok_cons. split; [reflexivity|]. split; [reflexivity|]. unfold clean_char, LitSpec.surrogate, LitModel.surrogate in *. split; [lia|]. split; [lia|]. now apply clean_src.
  - intros n L. cbn [app]. rewrite (py_hex n a b _ _ _ A B). cbn [length] in L. rewrite py_tail by (try assumption; lia). reflexivity.
Qed.
Lemma read_hex_err v rest : (forall a b x y w, hex_digit a x -> hex_digit b y -> v <> a :: b :: w) -> clean v -> ~ In 39 v -> not_next 39 rest ->
  read_string uname more (39 :: 92 :: 120 :: v ++ 39 :: rest) = Err ValueError.
Proof.
  intros H C Q R. change (39 :: 92 :: 120 :: v ++ 39 :: rest) with (39 :: (92 :: 120 :: v) ++ 39 :: rest). apply read_plain_err; [cbn [In]; intuition discriminate| |exact R|].
  - rewrite !src_ok_cons. split; [reflexivity|]. split; [reflexivity|]. now apply clean_src.
  - intros n L. cbn [app]. cbn [LitModel.py_string]. change (92 =? 39) with false. change (92 =? 10) with false. change (92 =? 92) with true. cbn [negb].
    change (py_escape 120) with (@None pystr). change (120 =? 120) with true. cbn match.
    assert (HX : forall c d, hex c = Some d -> exists n, hex_digit c n).
    { intros c d E. unfold hex in E. destruct ((48 <=? c) && (c <=? 57)) eqn:E1; [|destruct ((97 <=? c) && (c <=? 102)) eqn:E2; [|destruct ((65 <=? c) && (c <=? 70)) eqn:E3; [|discriminate]]].
      - exists (N.to_nat (c - 48)). left. assert (exists k, (k <= 9)%nat /\ c = 48 + N.of_nat k) as (k & K & ->) by (exists (N.to_nat (c - 48)); lia).
        replace (48 + N.of_nat k - 48) with (N.of_nat k) by lia. rewrite Nnat.Nat2N.id. do 10 (destruct k as [|k]; [reflexivity|]). lia.
      - exists (N.to_nat (c - 87)). left. assert (exists k, (k <= 5)%nat /\ c = 97 + N.of_nat k) as (k & K & ->) by (exists (N.to_nat (c - 97)); lia).
        replace (97 + N.of_nat k - 87) with (N.of_nat (10 + k)) by lia. rewrite Nnat.Nat2N.id. do 6 (destruct k as [|k]; [reflexivity|]). lia.
      - exists (N.to_nat (c - 55)). right. assert (exists k, (k <= 5)%nat /\ c = 65 + N.of_nat k) as (k & K & ->) by (exists (N.to_nat (c - 65)); lia).
        replace (65 + N.of_nat k - 55) with (N.of_nat (10 + k)) by lia. rewrite Nnat.Nat2N.id. do 6 (destruct k as [|k]; [reflexivity|]). lia. }
    destruct v as [|a [|b w]]; cbn [app hex_digits].
    + reflexivity.
    + destruct (hex a); reflexivity.
    + destruct (hex a) eqn:A; [|reflexivity]. destruct (hex b) eqn:B; [|reflexivity]. destruct (HX _ _ A) as [x X], (HX _ _ B) as [y Y]. exfalso. now apply (H a b x y w).
Qed.
Lemma octal_digit_value d : (d < 8)%nat -> octal (octal_digit d) = Some (N.of_nat d) /\ octal_digit d <> 39 /\ clean_char (octal_digit d) = true /\ py_escape (octal_digit d) = None.
Proof. intros L. do 8 (destruct d as [|d]; [repeat split; (reflexivity || discriminate)|]). lia. Qed.
Lemma octal_none c : (forall d, (d < 8)%nat -> c <> octal_digit d) -> octal c = None.
Proof.
  intros H. unfold octal. destruct ((48 <=? c) && (c <=? 55)) eqn:E; [|reflexivity]. exfalso. assert (exists k, (k < 8)%nat /\ c = 48 + N.of_nat k) as (k & K & ->) by (exists (N.to_nat (c - 48)); lia).
  apply (H k K). do 8 (destruct k as [|k]; [reflexivity|]). lia.
Qed.
Lemma octal_run l : Forall (fun d => (d < 8)%nat) l -> forall n acc r, (length l <= n)%nat -> ((length l < n)%nat -> match r with c :: _ => octal c = None | [] => True end) ->
  octal_digits n acc (map octal_digit l ++ r) = (fold_left (fun a d => 8 * a + N.of_nat d) l acc, r).
Proof.
  induction 1 as [|d l D F IH]; intros n acc r L X; cbn [map app length fold_left] in *.
  - destruct n as [|n]; [reflexivity|]. cbn [octal_digits]. destruct r as [|c r]; [reflexivity|]. rewrite X by lia. reflexivity.
  - destruct n as [|n]; [lia|]. cbn [octal_digits]. destruct (octal_digit_value d D) as (-> & _). apply IH; [lia|]. intros Y. apply X. lia.
Qed.
Lemma read_octal d l v rest : Forall (fun d => (d < 8)%nat) (d :: l) -> (length l <= 2)%nat ->
  ((length l < 2)%nat -> match v with c :: _ => forall d, (d < 8)%nat -> c <> octal_digit d | [] => True end) ->
  clean v -> ~ In 39 v -> not_next 39 rest ->
  read_string uname more (39 :: 92 :: map octal_digit (d :: l) ++ v ++ 39 :: rest) = Ok (octal_value (d :: l) :: v, rest).
Proof.
  intros F L X C Q R. inversion F as [|? ? D FL]; subst. replace (39 :: 92 :: map octal_digit (d :: l) ++ v ++ 39 :: rest) with (39 :: (92 :: map octal_digit (d :: l) ++ v) ++ 39 :: rest) by (cbn; now rewrite <- app_assoc).
  assert (OD : forall c, In c (map octal_digit (d :: l)) -> c <> 39 /\ clean_char c = true).
  { intros c I. apply in_map_iff in I. destruct I as (e & <- & I). rewrite Forall_forall in F. destruct (octal_digit_value e (F e I)) as (_ & ? & ? & _). auto. }
  apply read_plain; [| |exact R|].
  - intros [E|E]; [discriminate|]. apply in_app_iff in E. destruct E as [E|E]; [|contradiction]. now apply OD in E.
  - rewrite src_ok_cons, src_ok_app. split; [reflexivity|]. split; [|now apply clean_src]. apply src_ok_in. intros x I. apply OD in I. unfold clean_char, LitSpec.surrogate in I. unfold LitModel.surrogate. lia.
  - intros n LN. cbn [app map]. destruct (octal_digit_value d D) as (O & _ & _ & PE). rewrite <- app_assoc. cbn [LitModel.py_string]. change (92 =? 39) with false. change (92 =? 10) with false. change (92 =? 92) with true. cbn [negb].
    rewrite PE. assert (NX : forall k, (k = 120 \/ k = 117 \/ k = 85 \/ k = 78) -> (octal_digit d =? k) = false).
    { intros k K. unfold octal in O. destruct ((48 <=? octal_digit d) && (octal_digit d <=? 55)) eqn:E; [|discriminate]. lia. }
    rewrite !NX by tauto. rewrite O. rewrite (octal_run l FL 2).
    + rewrite py_tail; [reflexivity|exact C|exact Q|]. cbn [length map app] in LN. rewrite app_length in LN. lia.
    + exact L.
    + intros Y. specialize (X Y). destruct v as [|c v]; [reflexivity|]. cbn [app]. now apply octal_none.
Qed.
Lemma sql_unescaped dq c v rest : clean v -> ~ In 39 v -> not_next 39 rest ->
  read_token true dq (39 :: 92 :: c :: v ++ 39 :: rest) = Some (TStr (unescape c ++ v), rest).
Proof.
  intros C Q R. cbn [read_token]. change (39 =? 39) with true. cbn match.
  replace (read_quoted true 39 (92 :: c :: v ++ 39 :: rest)) with (match read_quoted true 39 (v ++ 39 :: rest) with Some (a, b) => Some (unescape c ++ a, b) | None => None end) by reflexivity.
  pose proof (quoted_doubled true 39 v rest ltac:(discriminate) (fun _ => clean_no_bs v C) R) as E. rewrite (doubled_none 39 v Q) in E. now rewrite E.
Qed.
Lemma newlines_app a b : src_ok a -> newlines (a ++ b) = a ++ newlines b.
Proof.
  intros S. induction a as [|c a IH]; [reflexivity|]. apply src_ok_cons in S. destruct S as [S1 S2]. cbn [app newlines]. destruct (N.eqb_spec c 13); [subst; discriminate S1|]. now rewrite IH.
Qed.
Lemma read_return l v rest : Forall piece_ok l -> clean v -> not_next 39 rest ->
  read_string uname more (39 :: src l ++ 13 :: doubled 39 v ++ 39 :: rest) = Err ValueError.
Proof.
  intros F C R. unfold read_string. change (39 =? 39) with true. cbn [orb].
  assert (E : regex_quoted 39 (13 :: doubled 39 v ++ 39 :: rest) = Some (13 :: doubled 39 v, rest)).
  { cbn [regex_quoted]. change (13 =? 39) with false. cbn match. now rewrite (regex_doubled 39 v rest R). }
  rewrite (regex_pieces l _ _ _ F E). unfold to_string. rewrite (replace_pieces l _ F) by discriminate. rewrite <- app_assoc.
  rewrite replace_pair_other by discriminate. set (w := replace_pair 39 [92; 39] (doubled 39 v)).
  assert (W : src_ok (w ++ [39])). { apply src_ok_app. split; [|reflexivity]. unfold w. rewrite <- pieces_src, replace_src by now apply pieces_ok. apply py_src_ok. now apply pieces_ok. }
  pose proof (py_src_ok l F) as S. cbn [app]. set (s := flat_map py_src l ++ 13 :: w ++ [39]).
  unfold LitModel.literal_eval. destruct (no_nul _ S) as [A1 A2]. destruct (no_nul _ W) as [B1 B2].
  assert (H0 : has_char 0 s = false).
  { destruct (has_char 0 s) eqn:H; [|reflexivity]. apply DotsProof.has_char_In in H. unfold s in H. apply in_app_iff in H. destruct H as [H|[H|H]]; [|discriminate|];
      apply DotsProof.has_char_In in H; congruence. }
  rewrite H0. unfold s at 1. rewrite existsb_app. cbn [existsb]. rewrite A2, B2. change (surrogate 13) with false. cbn [orb].
  replace (newlines s) with (flat_map py_src l ++ 10 :: w ++ [39]).
  - pose proof (flat_len l). replace (Datatypes.S (length s)) with (length l + Datatypes.S (length s - length l))%nat by (unfold s; rewrite app_length; lia).
    rewrite (py_prefix l _ F). reflexivity.
  - unfold s. rewrite newlines_app by exact S. f_equal. cbn [newlines]. change (13 =? 13) with true. cbn match. f_equal.
    assert (NL : newlines (w ++ [39]) = w ++ [39]) by now apply newlines_id. destruct (w ++ [39]) as [|x y] eqn:EW; [reflexivity|].
    destruct (N.eqb_spec x 10) as [->|]; [|now rewrite NL]. exfalso.
    unfold w in EW. destruct v as [|c v]; [discriminate EW|]. apply clean_cons in C. destruct C as [C _]. apply clean_facts in C. cbn [doubled flat_map] in EW.
    destruct (N.eqb_spec c 39) as [->|]; [cbn [app] in EW; rewrite replace_pair_two in EW; discriminate EW|]. cbn [app] in EW. rewrite replace_pair_other in EW by assumption. injection EW as -> _. tauto.
Qed.
Lemma sql_return dq l v rest : Forall piece_ok l -> clean v -> not_next 39 rest ->
  read_token true dq (39 :: src l ++ 13 :: doubled 39 v ++ 39 :: rest) = Some (TStr (val l ++ 13 :: v), rest).
Proof.
  intros F C R. cbn [read_token]. change (39 =? 39) with true. cbn match. rewrite (quoted_pieces l (13 :: doubled 39 v ++ 39 :: rest) (13 :: v) rest F); [reflexivity|].
  change (read_quoted true 39 (13 :: doubled 39 v ++ 39 :: rest)) with
    (match read_quoted true 39 (doubled 39 v ++ 39 :: rest) with Some (a, b) => Some (13 :: a, b) | None => None end).
  rewrite quoted_doubled; [reflexivity|discriminate|intros _; now apply clean_no_bs|exact R].
Qed.

(** A dash after a plain name. *)
Lemma simple_dash v d rest n : v <> [] -> forallb ident_char v = true -> is_digit (hd 0 v) = false ->
  read_name uname more (S n) (v ++ 45 :: d :: rest) =
  if is_digit (last v 0) || is_digit d || (d =? 32) then Ok (v, 45 :: d :: rest) else Err ValueError.
Proof.
  intros NE F D. cbn [read_name]. unfold read_part.
  assert (Q : exists e, read_quoted_name uname more (v ++ 45 :: d :: rest) = Err e).
  { destruct v as [|c v]; [contradiction|]. cbn [forallb] in F. apply andb_true_iff in F. destruct F as [F _]. apply ident_not_quote in F.
    unfold read_quoted_name. cbn [app]. destruct (N.eqb_spec c 96); [tauto|]. destruct (N.eqb_spec c 91); [tauto|]. eauto. }
  destruct Q as [e ->]. unfold read_simple_name. destruct v as [|c v]; [contradiction|]. cbn [hd] in D. assert (FC : ident_char c = true) by (cbn [forallb] in F; now apply andb_true_iff in F).
  cbn [app]. rewrite FC, D. cbn [negb andb]. change (c :: v ++ 45 :: d :: rest) with ((c :: v) ++ 45 :: d :: rest). rewrite run_app; [|exact F|reflexivity].
  change (45 =? 45) with true. cbn [andb]. destruct (is_digit (last (c :: v) 0)); cbn [negb andb orb bind]; [reflexivity|]. destruct (is_digit d); cbn [negb andb orb bind]; [reflexivity|].
  destruct (d =? 32); reflexivity.
Qed.
End Main.
