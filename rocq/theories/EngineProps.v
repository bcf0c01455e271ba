(** C100: looking up the alternatives of a choice by the characters they begin with finds what trying them in order finds.
    C101: simplifying a grammar does not change what it parses. *)
From Coq Require Import String Ascii List Arith NArith Bool Lia.
From Verif Require Import Base FmtSpec EngineModel EngineSpec EngineTblProof EngineProof EngineLineProof EngineWordProof.
Import ListNotations.

(** An element that takes characters begins with one of the keys it declares. *)
Theorem C100_keys : forall (T : Type) (tok : pystr -> T) full skip ref quick (e : pe T) s i r j,
  modest e -> keys e <> [] -> run tok full skip ref quick e s i = Done r j -> (0 < min_length e \/ i < j) ->
  exists k, In k (keys e) /\ hits k s i.
Proof. intros T tok full skip ref quick e s i r j. apply keys_hit. Qed.
Print Assumptions C100_keys.

(** A parse with tables gives the result of the parse without, at every place of every text, when the latter ends without an error.
    [slow], [ref]: what stands behind the Forwards, without and with tables. *)
Theorem C100_lookup : forall (T : Type) (tok : pystr -> T) full skip slow ref (e : pe T),
  (forall n, follows (slow n) (ref n)) -> good e -> forall s i, settled (run tok full skip slow false e s i) ->
  run tok full skip ref true e s i = run tok full skip slow false e s i.
Proof. intros T tok full skip slow ref e R G s i. apply quick_ok; assumption. Qed.
Print Assumptions C100_lookup.

(** The choice of all reserved words fulfils the condition; with its table it finds the reserved words and nothing else, in any text. *)
Theorem C100_reserved_words : forall (T : Type) (tok : pystr -> T) full skip ref s i,
  good (RESERVED tok) /\
  run tok full skip ref true (RESERVED tok) s i = run tok full skip ref false (RESERVED tok) s i /\
  ((exists r j, run tok full skip ref true (RESERVED tok) s i = Done r j) <-> exists w, In w reserved_names /\ word_at w s i).
Proof. intros T tok full skip ref s i. split; [apply good_reserved | apply reserved_words_ok]. Qed.
Print Assumptions C100_reserved_words.

(** ** Examples: tokens are texts, white space is spaces *)
Fixpoint blanks (l : pystr) : nat := match l with c :: r => if N.eqb c 32 then S (blanks r) else 0 | [] => 0 end.
Definition spaces (s : pystr) (i : nat) : nat := i + blanks (skipn i s).
Definition any (r : list pystr) : bool := negb (null r).
Notation go := (run (fun w : pystr => w) any spaces (fun _ => no_parser)).
Definition lits (l : list string) : list (pe pystr) := map (fun w => Lit (u w)) l.
Definition kws (l : list string) : list (pe pystr) := map (fun w => Kw (u w)) l.

(** The table of the reserved words: words with a common beginning stand together, keys are as short as possible. *)
Example C100_reserved_example :
  let r := RESERVED (fun w => w) in
  match faster (match r with First l => map keys l | _ => [] end) with
  | [Tbl t] => length t = 54 /\ firstn 3 t = [(u "al", [0]); (u "an", [1]); (u "as", [2; 3])] /\
      find (fun it => seqb (fst it) (u "g")) t = Some (u "g", [21; 22]) /\
      find (fun it => seqb (fst it) (u "in")) t = Some (u "in", [24; 25; 26; 27; 28]) /\
      find (fun it => seqb (fst it) (u "wit")) t = Some (u "wit", [61; 62])
  | _ => False
  end /\
  go true r (u "x INNER join") 2 = Done [u "inner"] 7 /\
  go true r (u "group  By x") 0 = Done [] 9 /\
  go true r (u "group x") 0 = Done [] 5 /\
  go true r (u "groups") 0 = Fail /\
  go true r (u "is  not") 0 = Done [u "is"; u "not"] 7.
Proof. vm_compute. repeat split. Qed.

(** Without a condition the result is another one.  An optional alternative declares keys, so it is not tried at other
    characters, where it would match the empty text. *)
Theorem C100_optional_refuted : exists l : list (pe pystr),
  modest (First l) /\ (forall x k, In x l -> In k (keys x) -> small k = k) /\ tidy (map keys l) /\
  exists s, go false (First l) s 0 = Done [] 0 /\ go true (First l) s 0 = Fail.
Proof.
  exists (kws ["a"; "b"; "c"; "d"]%string ++ [Opt (Kw (u "x"))]). split; [|split; [|split]].
  - apply noact_ok. reflexivity.
  - intros x k H. repeat (destruct H as [<-|H]; [intros [<-|[]]; reflexivity|]). destruct H.
  - apply chk_tidy. reflexivity.
  - exists (u "y"). vm_compute. auto.
Qed.
Print Assumptions C100_optional_refuted.

(** The alternatives of one key are tried together, also when one of another key stands between them. *)
Theorem C100_order_refuted : exists l : list (pe pystr),
  modest (First l) /\ (forall x, In x l -> keys x <> [] -> 0 < min_length x) /\ (forall x k, In x l -> In k (keys x) -> small k = k) /\
  exists s, go false (First l) s 0 = Done [u "a"] 1 /\ go true (First l) s 0 = Done [u "ab"] 2.
Proof.
  exists (And (lits ["ab"; "c"]%string) :: lits ["a"; "ab"; "d"; "e"; "f"; "g"]%string). split; [|split; [|split]].
  - apply noact_ok. reflexivity.
  - intros x H _. repeat (destruct H as [<-|H]; [vm_compute; lia|]). destruct H.
  - intros x k H. repeat (destruct H as [<-|H]; [intros [<-|[]]; reflexivity|]). destruct H.
  - exists (u "ab"). vm_compute. auto.
Qed.
Print Assumptions C100_order_refuted.

(** A capital letter as a Char is found in the text and not in the table: KeyError. *)
Theorem C100_capital_refuted : exists l : list (pe pystr),
  modest (First l) /\ (forall x, In x l -> keys x <> [] -> 0 < min_length x) /\ tidy (map keys l) /\
  exists s, go false (First l) s 0 = Done [u "E"] 1 /\ go true (First l) s 0 = Crash.
Proof.
  exists (Chr (u "E") :: lits ["a"; "b"; "c"; "d"]%string). split; [|split; [|split]].
  - apply noact_ok. reflexivity.
  - intros x H _. repeat (destruct H as [<-|H]; [vm_compute; lia|]). destruct H.
  - apply chk_tidy. reflexivity.
  - exists (u "E"). vm_compute. auto.
Qed.
Print Assumptions C100_capital_refuted.

(** An action that takes characters after an empty match takes them where no key stands. *)
Theorem C100_action_refuted : exists l : list (pe pystr),
  (forall x, In x l -> keys x <> [] -> 0 < min_length x) /\ (forall x k, In x l -> In k (keys x) -> small k = k) /\ tidy (map keys l) /\
  exists s, go false (First l) s 0 = Done [u "y"] 1 /\ go true (First l) s 0 = Fail.
Proof.
  exists (kws ["a"; "b"; "c"; "d"]%string ++ [And [Act true (fun _ _ j _ => Done [u "y"] (S j)) (Opt (Kw (u "x"))); Look (Kw (u "z"))]]). split; [|split; [|split]].
  - intros x H _. repeat (destruct H as [<-|H]; [vm_compute; lia|]). destruct H.
  - intros x k H. repeat (destruct H as [<-|H]; [cbn; intros K; repeat (destruct K as [<-|K]; [reflexivity|]); destruct K|]). destruct H.
  - apply chk_tidy. reflexivity.
  - exists (u "yz"). vm_compute. auto.
Qed.
Print Assumptions C100_action_refuted.

(** ** C101 *)
(** The simplified grammar gives the result of the grammar, at every place of every text; it has no choice directly in a choice. *)
Theorem C101_streamline : forall (T : Type) (tok : pystr -> T) full skip ref (e : pe T),
  white_space skip -> (forall n, forward (ref n)) -> plain e -> merged (streamline false e) /\
  forall s i, run tok full skip ref false (streamline false e) s i = run tok full skip ref false e s i.
Proof. intros T tok full skip ref e W F P. apply (streamline_ok tok full skip ref W F e P false). Qed.
Print Assumptions C101_streamline.

(** What the engine runs, the simplified grammar with its tables, gives the result of the grammar. *)
Theorem C101_prepared : forall (T : Type) (tok : pystr -> T) full skip slow ref (e : pe T),
  white_space skip -> (forall n, forward (slow n)) -> (forall n, follows (slow n) (ref n)) -> plain e -> good (streamline false e) ->
  forall s i, settled (run tok full skip slow false e s i) ->
  run tok full skip ref true (streamline false e) s i = run tok full skip slow false e s i.
Proof.
  intros T tok full skip slow ref e W F R P G s i S. destruct (streamline_ok tok full skip slow W F e P false) as (_ & _ & Q).
  rewrite <- (Q s i) in S |- *. apply quick_ok; assumption.
Qed.
Print Assumptions C101_prepared.

Lemma blanks_spaces s : white_space spaces /\ spaces s 0 = blanks s.
Proof.
  split; [|reflexivity]. split; intros t i; unfold spaces; [lia|].
  assert (K : forall n m (l : pystr), skipn (n + m) l = skipn m (skipn n l)).
  { induction n as [|n IH]; intros m [|c l]; cbn; try reflexivity; [destruct m; reflexivity | apply IH]. }
  rewrite K. generalize (skipn i t) as l. clear. intros l.
  assert (H : blanks (skipn (blanks l) l) = 0).
  { induction l as [|c l IH]; [reflexivity|]. cbn. destruct (N.eqb c 32) eqn:E; [exact IH | cbn; rewrite E; reflexivity]. }
  rewrite H. lia.
Qed.

(** A nested grammar: or of or, sequence in sequence. *)
Definition nested : pe pystr :=
  First [First [And [Kw (u "null")]; First (kws ["true"; "false"]%string)];
         And [And [Kw (u "case"); Opt (Kw (u "when"))]; And [And [Lit (u "("); Many 1 None (Lit (u "*"))]; Lit (u ")")]];
         First [Kw (u "cast"); First [Lit (u "(")]]].
Example C101_example :
  streamline false nested =
    First (kws ["null"; "true"; "false"]%string ++
           [And [Kw (u "case"); Opt (Kw (u "when")); Lit (u "("); Many 1 None (Lit (u "*")); Lit (u ")")]; Kw (u "cast"); Lit (u "(")]) /\
  length (faster (match streamline false nested with First l => map keys l | _ => [] end)) = 1 /\
  go false nested (u "Case ( * * ) ") 0 = Done [u "case"; u "("; u "*"; u "*"; u ")"] 12 /\
  go true (streamline false nested) (u "Case ( * * ) ") 0 = Done [u "case"; u "("; u "*"; u "*"; u ")"] 12 /\
  white_space spaces /\ plain nested /\ good (streamline false nested).
Proof.
  split; [reflexivity|]. split; [reflexivity|]. split; [vm_compute; reflexivity|]. split; [vm_compute; reflexivity|].
  split; [apply (blanks_spaces [])|]. split.
  - apply neat_plain. cbn. repeat split; try discriminate; intros; congruence.
  - apply fine_good. cbn [fine]. vm_compute. repeat split.
Qed.

(** A choice of nothing matches nothing; simplified, it matches everywhere. *)
Theorem C101_empty_choice_refuted : exists e : pe pystr, forall s i,
  go false e s i = Fail /\ go false (streamline false e) s i = Done [] i.
Proof. exists (First []). intros s i. split; reflexivity. Qed.
Print Assumptions C101_empty_choice_refuted.

(** Exactly one of an element: fails at the end of the text; simplified, it is the element, which may match there. *)
Theorem C101_exact_refuted : exists e : pe pystr,
  go false (Many 1 (Some 1) e) [] 0 = Fail /\ go false (streamline false (Many 1 (Some 1) e)) [] 0 = Done [] 0.
Proof. exists (Opt (Kw (u "a"))). split; reflexivity. Qed.
Print Assumptions C101_exact_refuted.

(** A repetition that matches without progress never ends. *)
Theorem C101_repetition_of_empty_refuted : exists e : pe pystr, forall s, go false e (98%N :: s) 0 = Hang.
Proof. exists (Many 0 None (Opt (Kw (u "a")))). intros s. reflexivity. Qed.
Print Assumptions C101_repetition_of_empty_refuted.
