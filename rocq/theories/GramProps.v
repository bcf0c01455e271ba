(** C94: the text of a statement, from its characters to the parsed statement. *)
From Coq Require Import String Ascii List Arith NArith ZArith Bool Lia.
From Verif Require Import Base BaseProof JsonModel SqlRead ScrubModel InfixModel OperModel OperSpec ValuesModel ValuesSpec StmtSpec TextSpec LitModel LitSpec GramModel GramSpec
  GramNumProof GramSimProof GramTextProof GramLexProof GramStmtProof.
Import ListNotations.

(** Whatever letters, blanks, quotes and comments a SELECT, INSERT, UPDATE or DELETE statement is written with, the parser
    gives the parsed statement. *)
Theorem C94_parse : forall uname more ft c ls text,
  good_cmd ft c -> cmd_lex c ls -> spells ls text ->
  exists o j, parse_mysql uname more ft text = Ok o /\ parsed ft c = Ok j /\ same_dict (json_of o) j /\ keys_once (json_of o).
Proof.
  exact statement_parsed.
Qed.
Print Assumptions C94_parse.

(** The same parts are always parsed the same way. *)
Theorem C94_spelling : forall uname more ft c ls text text',
  good_cmd ft c -> cmd_lex c ls -> spells ls text -> spells ls text' ->
  parse_mysql uname more ft text = parse_mysql uname more ft text'.
Proof.
  intros uname more ft c ls text text' G C S0 S1.
  destruct (where_exists ft (cmd_where c)) as (x & X); [destruct c; cbn in G |- *; tauto|].
  assert (E : forall t, spells ls t -> parse_mysql uname more ft t = Ok (scrub (cmd_pv c x))).
  { intros t H. apply (text_of_parts uname more ft ls); [exact H|destruct C; discriminate|]. intros k L. now apply whole_ok. }
  now rewrite !E.
Qed.
Print Assumptions C94_spelling.

(** Refuted for texts with two minus signs in a row: the parser takes them for the beginning of a comment.  For MySQL they
    are one only when a blank or the end of the text follows: WHERE a = 1--1 AND b = 2 means a = 1 - (-1) AND b = 2. *)
Local Ltac next := let c := fresh "c" in let r := fresh "r" in let H := fresh "H" in intros c r H; injection H as <- _; repeat split; try (vm_compute; intuition discriminate).
Local Ltac sym := let l := fresh "l" in let H := fresh "H" in let x := fresh "x" in let E := fresh "E" in
  constructor; [vm_compute; tauto|]; intros l H (x & E); cbn in H;
  repeat (destruct H as [<-|H]; [solve [discriminate E | eexists; vm_compute; reflexivity]|]); destruct H.
Local Ltac part := match goal with
  | |- writes (K _) _ _ => constructor; [vm_compute; tauto|reflexivity|next]
  | |- writes (Y _) _ _ => sym
  end.
Local Ltac white := repeat (apply Forall_cons; [vm_compute; tauto|]); apply Forall_nil.
Theorem C94_minus_minus_refuted : forall uname more ft t digits z d,
  plain_name t -> numeral digits z -> ~ In 10%N d ->
  let text := u "DELETE FROM " ++ t ++ u " WHERE a = " ++ digits in
  parse_mysql uname more ft (text ++ u "--" ++ d) = parse_mysql uname more ft text.
Proof.
  intros uname more ft t digits z d T D ND text.
  assert (Z0 : (0 <= z)%Z).
  { apply numeral_iff in D. destruct D as (_ & _ & ->). unfold digits_value. enough (forall l a, (0 <= a)%Z -> (0 <= fold_left (fun a c => (10 * a + Z.of_N (c - 48))%Z) l a)%Z) by (apply H; lia).
    induction l as [|x l IH]; intros a A; [exact A|]. cbn [fold_left]. apply IH. lia. }
  set (ls := [K "delete"; K "from"; LName t; K "where"; LName (u "a"); Y "="; LNum z]).
  assert (W : forall e, trail e -> (forall x r, e = x :: r -> x = 45%N) -> spells ls (text ++ e)).
  { intros e TR HE. exists [], (text ++ e), [], []. split; [cbn [app]; symmetry; apply app_nil_r|]. split; [constructor|]. split; [|split; [constructor|reflexivity]].
    unfold text, ls. rewrite <- !app_assoc.
    apply (sp_cons (K "delete") (u "DELETE") (u " ") (u "FROM " ++ t ++ u " WHERE a = " ++ digits ++ e)); [part|white|discriminate|].
    apply (sp_cons (K "from") (u "FROM") (u " ") (t ++ u " WHERE a = " ++ digits ++ e)); [part|white|discriminate|].
    apply (sp_cons (LName t) t (u " ") (u "WHERE a = " ++ digits ++ e)); [constructor; [exact T|next]|white|discriminate|].
    apply (sp_cons (K "where") (u "WHERE") (u " ") (u "a = " ++ digits ++ e)); [part|white|discriminate|].
    apply (sp_cons (LName (u "a")) (u "a") (u " ") (u "= " ++ digits ++ e)).
    { constructor; [|next]. repeat split; [discriminate|]. vm_compute. intuition discriminate. }
    { white. } { discriminate. }
    apply (sp_cons (Y "=") (u "=") (u " ") (digits ++ e)); [part|white|discriminate|].
    apply sp_last; [|exact TR]. constructor; [exact D|]. intros x r E. rewrite (HE x r E). split; [reflexivity|vm_compute; intuition discriminate]. }
  apply (C94_spelling uname more ft (Delete t (Some (XBin OEq false (XAtom (PText (u "a")) (ECol [u "a"])) (XAtom (PNum z) (EInt z))))) ls).
  - cbn [good_cmd where_good]. split.
    + cbn -[FmtSpec.tree_of u]. unfold expr_of. repeat split; try discriminate. cbn. unfold FmtSpec.int_of. now replace (z <? 0)%Z with false by lia.
    + cbn. repeat split; try lia; eexists; reflexivity.
  - apply (l_delete t _ [K "where"; LName (u "a"); Y "="; LNum z]). exists [LName (u "a"); Y "="; LNum z]. split; [|reflexivity].
    apply (c_bin OEq false _ _ [LName (u "a")] [LNum z]); constructor; now constructor.
  - apply W.
    + exists [], (u "--" ++ d). split; [reflexivity|]. split; [constructor|]. right. exists (u "--"), d. auto.
    + intros x r E. now injection E as <- _.
  - rewrite <- (app_nil_r text). apply W; [|discriminate]. exists [], []. repeat split; [constructor|now left].
Qed.
Print Assumptions C94_minus_minus_refuted.

(** A text of an application and the statement that it spells. *)
Definition ex_text : pystr := u "select Count( * ) FROM `my tab` WHERE a>=5 and not(b = 'it''s' OR c in (1,'x')) order  by a desc LIMIT 10 # ten;  ".
Definition ex_uname : pystr -> option N := fun _ => None.
Definition ex_more : pystr -> pystr -> res pystr := fun _ _ => Err Generic.
Definition ex_ft : pystr -> bool := fun _ => false.
Definition ex_col (s : string) : sx := XAtom (PText (u s)) (ECol [u s]).
Definition ex_c : cmd sx := Select ICount (u "my tab")
  (Some (XBin OAnd false (XBin OGte false (ex_col "a") (XAtom (PNum 5) (EInt 5)))
     (XNot (XPar (XBin OOr false (XBin OEq false (ex_col "b") (XAtom (PDict [(u "literal", PText (u "it's"))]) (EStr (u "it's"))))
       (XIn false (ex_col "c") [(PNum 1, EInt 1); (PDict [(u "literal", PText (u "x"))], EStr (u "x"))]))))))
  (Some (u "a", true)) (Some (10%N, None)).
Lemma sp_part x t w rest ls s : s = t ++ w ++ rest -> writes x t (w ++ rest) -> blanks w -> ls <> [] -> spelled rest ls -> spelled s (x :: ls).
Proof. intros ->. now constructor. Qed.
Local Ltac plain := repeat split; [discriminate|vm_compute; intuition discriminate].
Local Ltac written := match goal with
  | |- writes (LFun _) _ _ => apply w_fun; [plain|next]
  | |- writes (LName _) _ _ => apply w_name; [plain|next]
  | |- writes (LNum _) _ _ => apply w_num; [apply numeral_iff; repeat split; discriminate|next]
  | |- _ => part
  end.
Local Ltac pt t w := eapply (sp_part _ t w); [vm_compute; reflexivity|written|white|discriminate|].
Lemma ex_parts : exists ls, cmd_lex ex_c ls /\ spells ls ex_text.
Proof.
  eexists. split.
  - apply l_select; [apply (i_count (u "Count")); reflexivity|]. eexists. split; [|reflexivity].
    apply (c_bin OAnd false); [apply (c_bin OGte false); constructor; constructor; lia|]. apply c_not, c_par. apply (c_bin OOr false).
    + apply (c_bin OEq false); constructor; constructor.
    + apply (c_in false); [constructor; constructor|]. repeat constructor. lia.
  - exists [], (u "select Count( * ) FROM `my tab` WHERE a>=5 and not(b = 'it''s' OR c in (1,'x')) order  by a desc LIMIT 10 # ten"), (u ";"), (u "  ").
    split; [reflexivity|]. split; [constructor|]. split; [|split; [repeat constructor|reflexivity]]. cbn [app order_lex limit_lex op_lex separated map].
    pt (u "select") (u " "). pt (u "Count") (u ""). pt (u "(") (u " "). pt (u "*") (u " "). pt (u ")") (u " "). pt (u "FROM") (u " "). 
    eapply (sp_part _ (u "`my tab`") (u " ")); [vm_compute; reflexivity|apply (w_quoted (u "my tab")); [split; [discriminate|split; [reflexivity|vm_compute; intuition discriminate]]|next]|white|discriminate|].
    pt (u "WHERE") (u " "). pt (u "a") (u ""). pt (u ">=") (u ""). pt (u "5") (u " "). pt (u "and") (u " "). pt (u "not") (u ""). pt (u "(") (u ""). pt (u "b") (u " "). pt (u "=") (u " "). 
    eapply (sp_part _ (u "'it''s'") (u " ")); [vm_compute; reflexivity|apply (w_str [Chr 105; Chr 116; Two; Chr 115]); [repeat constructor; discriminate|next]|white|discriminate|].
    pt (u "OR") (u " "). pt (u "c") (u " "). pt (u "in") (u " "). pt (u "(") (u ""). pt (u "1") (u ""). pt (u ",") (u ""). 
    eapply (sp_part _ (u "'x'") (u "")); [vm_compute; reflexivity|apply (w_str [Chr 120]); [repeat constructor; discriminate|next]|white|discriminate|].
    pt (u ")") (u ""). pt (u ")") (u " "). pt (u "order") (u "  "). pt (u "by") (u " "). pt (u "a") (u " "). pt (u "desc") (u " "). pt (u "LIMIT") (u " "). 
    apply (sp_last (LNum 10) (u "10") (u " # ten")); [written|]. exists (u " "), (u "# ten"). split; [reflexivity|]. split; [white|]. right. exists (u "#"), (u " ten"). split; [reflexivity|]. split; [now right|]. vm_compute. intuition discriminate.
Qed.
Example C94_example :
  good_cmd ex_ft ex_c /\ (exists ls, cmd_lex ex_c ls /\ spells ls ex_text) /\
  (do o <- parse_mysql ex_uname ex_more ex_ft ex_text; Ok (json_of o)) = parsed ex_ft ex_c.
Proof.
  split; [|split; [exact ex_parts|vm_compute; reflexivity]]. split.
  - cbn -[FmtSpec.tree_of u]. unfold expr_of, member_ok. repeat split; try discriminate; try (cbn; lia); try (repeat constructor; discriminate);
      try (eexists; reflexivity); try (vm_compute; reflexivity).
    all: try (intros op J; cbn in J; destruct J as [J|[J|[J|[J|[]]]]]; subst op; reflexivity).
  - cbn. repeat split; try lia; first [eexists; reflexivity|eexists _, _; reflexivity|cbv; lia].
Qed.
(** The two readings of WHERE a = 1--1 AND b = 2. *)
Example C94_minus_minus :
  (do o <- parse_mysql ex_uname ex_more ex_ft (u "DELETE FROM t WHERE a = 1--1 AND b = 2"); Ok (json_of o)) =
    Ok (JDict [(u "where", JDict [(u "eq", JList [JStr (u "a"); JInt 1])]); (u "delete", JStr (u "t"))]) /\
  (do o <- parse_mysql ex_uname ex_more ex_ft (u "DELETE FROM t WHERE a = 1- -1 AND b = 2"); Ok (json_of o)) =
    Ok (JDict [(u "where", JDict [(u "and", JList [
          JDict [(u "eq", JList [JStr (u "a"); JDict [(u "sub", JList [JInt 1; JInt (-1)])]])];
          JDict [(u "eq", JList [JStr (u "b"); JInt 2])]])]); (u "delete", JStr (u "t"))]).
Proof. vm_compute. split; reflexivity. Qed.
