(** C84: what parsed operator expressions mean. *)
From Coq Require Import String Ascii List Arith NArith ZArith Bool Lia.
From Verif Require Import Base BaseProof JsonModel DotsModel DotsSpec SqlLex SqlRead FmtModel FmtSpec ScrubModel InfixModel InfixSpec InfixProof
  OperModel OperSpec OperProof OperCondProof FmtProps.
Import ListNotations.

(** Reading the tokens of an expression gives a value that stands for the expression, up to the grouping of the
    operands of [+], [*], AND and OR. *)
Theorem C84_meaning : forall float_text s, grouped float_text s ->
  exists x t, read_tokens float_text (tokens_of float_text s) = Ok (TVal x) /\ expr_of x = Some t /\ assoc_eq t (mean s).
Proof. exact read_ok. Qed.
Print Assumptions C84_meaning.

(** Search conditions that are read and written again are read by the database, and by this parser, as conditions
    with the same meaning. *)
Theorem C84_written : forall float_text alnum fstr bs s, ascii_ok alnum -> grouped float_text s -> plain s -> search (mean s) ->
  good_leaves bs (mean s) ->
  exists x text t, read_tokens float_text (tokens_of float_text s) = Ok (TVal x) /\
    format_sql alnum fstr (json_of (scrub x)) = Ok text /\
    reads bs false mysql_lev 14 text t /\ reads bs false repo_lev 26 text t /\ assoc_eq t (mean s).
Proof.
  intros float_text alnum fstr bs s AL G P S L. destruct (read_condition float_text s G P S) as (x & t & R & E & A & C).
  destruct (C57_conditions alnum fstr bs _ t AL E C) as (text & F & M & Q); [now apply (assoc_leaves bs t (mean s) A)|].
  exists x, text, t. auto.
Qed.
Print Assumptions C84_written.

(** Refuted for comparisons with NULL: these are read as IS NULL and IS NOT NULL, also IS DISTINCT FROM NULL, whose
    meaning is turned around. *)
Definition is_distinct : res tokv := Ok (TOp (Some (u "is_distinct_from")) (u "eq!")).
Definition is_not_distinct : res tokv := Ok (TOp (Some (u "is_not_distinct_from")) (u "ne!")).
Definition then_null (float_text : pystr -> bool) (s : sx) (w : res tokv) : list (res tokv * option nat) :=
  tokens_of float_text s ++ [(w, Some O_eq); (Ok (TVal PNull), None)].
Theorem C84_null_refuted : forall float_text s w, grouped float_text s -> (lev (code float_text s) <= S O_eq)%nat ->
  (In w [sym "="; sym "=="; is_distinct] ->
   read_tokens float_text (then_null float_text s w) = read_tokens float_text (tokens_of float_text (XIs false s))) /\
  (In w [sym "<>"; sym "!="; is_not_distinct] ->
   read_tokens float_text (then_null float_text s w) = read_tokens float_text (tokens_of float_text (XIs true s))).
Proof.
  intros f s w (SO & R) L. destruct (value_good f s SO) as (x & V & _).
  assert (X : forall k t, nth_error sql_levels k = Some (LBin k false) -> (5 <= k <= 30)%nat -> (lev (code f s) <= S k)%nat ->
    read_tokens f (tokens_of f s ++ [(Ok t, Some k); (Ok (TVal PNull), None)]) =
    Ok (TVal (group (binary x (match elem t with PText s => s | _ => parser_name t end) PNull)))).
  { intros k t K K2 LK.
    assert (Y : tokens_of f s ++ [(Ok t, Some k); (Ok (TVal PNull), None)] = yield sql_levels (Bin k (code f s) (Ok t) (Leaf (Ok (TVal PNull))))).
    { cbn [yield]. unfold op1. now rewrite K. }
    rewrite Y. unfold read_tokens. rewrite (make_tree_ok (act_json f) sql_levels sql_levels_ok).
    - cbn [value bind]. rewrite V. now apply act3.
    - cbn [respects lev]. repeat split; eauto. lia. }
  assert (I0 : read_tokens f (tokens_of f (XIs false s)) = Ok (TVal (group (binary x (u "is") PNull)))).
  { apply (X O_is (TOp (Some (u "is")) (u "is"))); [reflexivity|cbv; lia|]. eapply Nat.le_trans; [exact L|cbv; lia]. }
  assert (I1 : read_tokens f (tokens_of f (XIs true s)) = Ok (TVal (group (binary x (u "is_not") PNull)))).
  { apply (X O_isnot (TOp None (u "is_not"))); [reflexivity|cbv; lia|]. eapply Nat.le_trans; [exact L|cbv; lia]. }
  assert (E : (5 <= O_eq <= 30)%nat) by (cbv; lia).
  unfold then_null. split; intros W; [rewrite I0|rewrite I1];
    (destruct W as [W|[W|[W|[]]]]; rewrite <- W; unfold sym, words, is_distinct, is_not_distinct; rewrite X by (try exact E; try exact L; reflexivity); reflexivity).
Qed.
Print Assumptions C84_null_refuted.

(** Refuted for lists with one member: the list is read as the member itself, and with a number the writer fails. *)
Theorem C84_one_member_refuted : forall float_text alnum fstr m z,
  exists x, read_tokens float_text [(Ok (TVal m), None); (word "in", Some O_in); (Ok (TVal (to_tuple_call [PNum z])), None)] = Ok (TVal x) /\
    format_sql alnum fstr (json_of (scrub x)) = Err TypeError.
Proof.
  intros f alnum fstr m z. exists (group (call (u "in") [m; group (PNum z)])). split; [reflexivity|].
  rewrite scrub_group by exact I. rewrite scrub_call by (cbn; lia). reflexivity.
Qed.
Print Assumptions C84_one_member_refuted.

(** Refuted for a minus before a column whose name float() accepts: reading fails. *)
Theorem C84_minus_refuted : forall float_text name, float_text name = true ->
  read_tokens float_text [(Ok (TOp (Some (u "-")) (u "neg")), Some O_neg); (Ok (TVal (PText name)), None)] = Err TypeError.
Proof.
  intros f name H. change (act_json f 8 [Ok (TOp (Some (u "-")) (u "neg")); Ok (TVal (PText name))] = Err TypeError).
  unfold act_json, to_json_operator. cbn. now rewrite H.
Qed.
Print Assumptions C84_minus_refuted.

(** [(a = 1 OR NOT b BETWEEN 2 AND 'x') AND (c IN (1, 'y') AND d IS NOT NULL)]: AND becomes one list; written and
    read again it is the same.  [a = NULL]; [a IN (5)]; [- inf]. *)
Definition ex_float (s : pystr) : bool := smem s (map u ["inf"; "infinity"; "nan"]%string).
Definition ex_col (s : string) : sx := XAtom (PText (u s)) (ECol [u s]).
Definition ex_int (z : Z) : sx := XAtom (PNum z) (EInt z).
Definition ex_lit (s : string) : pv := PDict [(u "literal", PText (u s))].
Definition ex_cond : sx :=
  XBin OAnd false
    (XPar (XBin OOr false (XBin OEq false (ex_col "a") (ex_int 1))
      (XNot (XBetween false (ex_col "b") (ex_int 2) (XAtom (ex_lit "x") (EStr (u "x")))))))
    (XPar (XBin OAnd false (XIn false (ex_col "c") [(PNum 1, EInt 1); (ex_lit "y", EStr (u "y"))]) (XIs true (ex_col "d")))).
Example C84_example :
  grouped ex_float ex_cond /\ plain ex_cond /\ search (mean ex_cond) /\ good_leaves true (mean ex_cond) /\
  (exists x, read_tokens ex_float (tokens_of ex_float ex_cond) = Ok (TVal x) /\
    fmt (json_of (scrub x)) = Ok (u "(a = 1 OR NOT(b BETWEEN 2 AND 'x')) AND c IN (1, 'y') AND d IS NOT NULL")) /\
  (exists x, read_tokens ex_float (then_null ex_float (ex_col "a") (sym "=")) = Ok (TVal x) /\
    fmt (json_of (scrub x)) = Ok (u "a IS NULL")) /\
  read_tokens ex_float [(Ok (TOp (Some (u "-")) (u "neg")), Some O_neg); (Ok (TVal (PText (u "inf"))), None)] = Err TypeError.
Proof.
  assert (NO : forall s, In s ["a"; "b"; "c"; "d"]%string -> name_ok (u s)).
  { intros s J. cbn in J. destruct J as [J|[J|[J|[J|[]]]]]; subst s; split; discriminate. }
  split; [|split; [|split; [|split; [|split; [|split]]]]].
  - split; [|cbn; repeat split; eauto; lia].
    cbn -[tree_of u]. unfold expr_of. repeat split; try (cbn; lia); try discriminate; auto; repeat constructor.
    all: try (eexists; reflexivity); try (eexists _, _; reflexivity). cbn -[u]. intros op J; cbn in J; destruct J as [J|[J|[J|[J|[]]]]]; subst op; reflexivity.
  - cbn. auto 10.
  - cbn. apply S_and; [apply S_or; [|apply S_not]|apply S_and]; constructor; reflexivity.
  - assert (CO : forall s, In s ["a"; "b"; "c"; "d"]%string -> Forall name_ok [u s]) by (intros s J; constructor; [now apply NO|constructor]).
    cbn -[u]. repeat split; try exact I; try (apply CO; cbn; tauto); intros _ J; cbn in J; intuition discriminate.
  - eexists. split; [vm_compute; reflexivity|vm_compute; reflexivity].
  - eexists. split; [vm_compute; reflexivity|vm_compute; reflexivity].
  - reflexivity.
Qed.
