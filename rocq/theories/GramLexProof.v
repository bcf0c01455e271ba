(** The grammar on the parts of a statement: expressions. *)
From Coq Require Import String Ascii List Arith NArith ZArith Bool Lia ZifyBool ZifyNat ZifyN.
From Verif Require Import Base BaseProof JsonModel SqlRead FmtSpec ScrubModel InfixModel InfixSpec InfixProof OperModel OperSpec OperProof ValuesModel TextSpec
  LitModel LitSpec GramModel GramSpec GramSimProof.
Import ListNotations.

Lemma alt_none {I A} (p q : parser I A) s : p s = Ok None -> alt p q s = q s.
Proof. unfold alt. now intros ->. Qed.
Lemma alt_some {I A} (p q : parser I A) s a s' : p s = Ok (Some (a, s')) -> alt p q s = Ok (Some (a, s')).
Proof. unfold alt. now intros ->. Qed.
Lemma seq_some {I A B} (p : parser I A) (f : A -> parser I B) s a s' : p s = Ok (Some (a, s')) -> GramModel.seq p f s = f a s'.
Proof. unfold GramModel.seq. now intros ->. Qed.
Lemma seq_none {I A B} (p : parser I A) (f : A -> parser I B) s : p s = Ok None -> GramModel.seq p f s = Ok None.
Proof. unfold GramModel.seq. now intros ->. Qed.
Lemma absent_none {I A} (p : parser I A) s : p s = Ok None -> absent p s = Ok (Some (tt, s)).
Proof. unfold absent, alt, unmodelled. now intros ->. Qed.
Lemma option_none {I A} (p : parser I A) s : p s = Ok None -> option_of p s = Ok (Some (None, s)).
Proof. unfold option_of. now intros ->. Qed.
Lemma option_some {I A} (p : parser I A) s a s' : p s = Ok (Some (a, s')) -> option_of p s = Ok (Some (Some a, s')).
Proof. unfold option_of. now intros ->. Qed.
Lemma act_some {I A B} (p : parser I A) (f : A -> res B) s a s' b : p s = Ok (Some (a, s')) -> f a = Ok b -> GramModel.act p f s = Ok (Some (b, s')).
Proof. unfold GramModel.act. now intros -> ->. Qed.

Section Lex.
Variables (ft : pystr -> bool) (k : nat).
Notation P := (parser (list lexeme)).

(** ** What may come next *)
(** After an operand. *)
Definition open (rest : list lexeme) : Prop :=
  no_suffix lx rest = Ok (Some (tt, rest)) /\ LB lx rest = Ok None /\ GramModel.lit lx ".*" rest = Ok None.
(** After an expression. *)
Definition stop (rest : list lexeme) : Prop := infix_op lx rest = Ok None /\ open rest.
(** How an expression begins. *)
Inductive begins : list lexeme -> Prop :=
| b_par ls : begins ls -> begins (Y "(" :: ls)
| b_minus ls : begins (Y "-" :: ls)
| b_tilde ls : begins (Y "~" :: ls)
| b_not ls : begins (K "not" :: ls)
| b_null ls : begins (K "null" :: ls)
| b_name v ls : begins (LName v :: ls)
| b_num z ls : begins (LNum z :: ls)
| b_str s ls : begins (LStr s :: ls)
| b_fun v ls : begins (LFun v :: ls).
Lemma begins_app ls rest : begins ls -> begins (ls ++ rest).
Proof. induction 1; cbn [app]; constructor; assumption. Qed.
Lemma not_query j ls : begins ls -> (length ls < j)%nat -> (many j (LB lx) ls = Err OutOfFuel -> False) /\
  exists l ls', many j (LB lx) ls = Ok (Some (l, ls')) /\ kw_of lx ["select"; "values"; "with"]%string ls' = Ok None.
Proof.
  intros B. revert j. induction B as [ls B IH|ls|ls|ls|ls|v ls|z ls|s ls|v ls]; intros j L; destruct j as [|j]; cbn in L; try lia;
    try (split; [discriminate|]; eexists; eexists; split; reflexivity).
  destruct (IH j) as (_ & l & ls' & E & Q); [lia|]. split.
  - cbn [many]. change (LB lx (Y "(" :: ls)) with (Ok (Some (tt, ls))). cbn iota beta. rewrite E. discriminate.
  - exists (tt :: l), ls'. split; [|exact Q]. cbn [many]. change (LB lx (Y "(" :: ls)) with (Ok (Some (tt, ls))). cbn iota beta. now rewrite E.
Qed.
Lemma ahead_none ls : begins ls -> (length ls < k)%nat -> query_ahead lx k ls = Ok None.
Proof. intros B L. unfold query_ahead. destruct (not_query k ls B L) as (_ & l & ls' & E & Q). now rewrite (seq_some _ _ _ _ _ E). Qed.

(** ** Operands *)
Lemma compound_name num e v rest : num (LName v :: rest) = Ok None -> open rest -> compound lx k num e (LName v :: rest) = Ok (Some (PText v, rest)).
Proof.
  intros N (_ & O1 & O2). unfold compound. cbn [first].
  do 10 (rewrite alt_none by reflexivity). rewrite alt_none by exact N.
  rewrite alt_none.
  2: { unfold call_function. rewrite (seq_some _ _ _ v rest) by reflexivity. now apply seq_none. }
  apply alt_some. rewrite (seq_some _ _ _ v rest) by reflexivity. rewrite (seq_some _ _ _ tt rest) by (now apply absent_none). reflexivity.
Qed.
Lemma compound_num num e z rest x : num (LNum z :: rest) = Ok (Some (x, rest)) -> compound lx k num e (LNum z :: rest) = Ok (Some (x, rest)).
Proof. intros N. unfold compound. cbn [first]. do 10 (rewrite alt_none by reflexivity). now apply alt_some. Qed.
Lemma compound_str num e s rest : compound lx k num e (LStr s :: rest) = Ok (Some (PDict [(u "literal", PText s)], rest)).
Proof. unfold compound. cbn [first]. do 9 (rewrite alt_none by reflexivity). apply alt_some. reflexivity. Qed.
Lemma compound_null num e rest : compound lx k num e (K "null" :: rest) = Ok (Some (PNull, rest)).
Proof. unfold compound. cbn [first]. apply alt_some. reflexivity. Qed.
Lemma compound_par num e ls l rest : begins ls -> (length ls < k)%nat -> list_of k e (comma lx) ls = Ok (Some (l, Y ")" :: rest)) ->
  compound lx k num e (Y "(" :: ls) = Ok (Some (to_tuple_call l, rest)).
Proof.
  intros B L E. unfold compound. cbn [first]. do 7 (rewrite alt_none by reflexivity). rewrite alt_none.
  2: { unfold unmodelled. rewrite (seq_some _ _ _ tt ls) by reflexivity. now rewrite (ahead_none ls B L). }
  apply alt_some. rewrite (seq_some _ _ _ tt ls) by reflexivity. rewrite (seq_some _ _ _ _ _ E). now rewrite (seq_some _ _ _ tt rest) by reflexivity.
Qed.
Lemma compound_call num e f ls l rest : num (LFun f :: Y "(" :: ls) = Ok None -> (kw_of lx ["select"; "values"; "with"]%string ls = Ok None) -> LB lx ls = Ok None -> (0 < k)%nat ->
  list_of k e (comma lx) ls = Ok (Some (l, Y ")" :: rest)) -> compound lx k num e (LFun f :: Y "(" :: ls) = Ok (Some (function_call f l, rest)).
Proof.
  intros N Q B L E. unfold compound. cbn [first]. do 10 (rewrite alt_none by reflexivity). rewrite alt_none by exact N. apply alt_some.
  unfold call_function. rewrite (seq_some _ _ _ f (Y "(" :: ls)) by reflexivity. rewrite (seq_some _ _ _ tt ls) by reflexivity.
  rewrite (seq_some _ _ _ tt ls).
  2: { apply absent_none. unfold query_ahead. rewrite (seq_some _ _ _ [] ls); [exact Q|]. destruct k as [|k']; [lia|]. cbn [many]. now rewrite B. }
  rewrite (seq_some _ _ _ (Some l) (Y ")" :: rest)) by (now apply option_some). rewrite (seq_some _ _ _ tt (Y ")" :: rest)) by reflexivity.
  now rewrite (seq_some _ _ _ tt rest) by reflexivity.
Qed.

(** ** Expressions *)
Section Level.
Variable a : P pv.
(** An operand. *)
Record operand_at (x : pv) (ls : list lexeme) : Prop := {
  oa_begins : begins ls;
  oa_prefix : forall rest, prefix_op lx (ls ++ rest) = Ok None;
  oa_reads : forall rest, open rest -> (length (ls ++ rest) < k)%nat -> a (ls ++ rest) = Ok (Some (x, rest)) }.
(** Prefix operators and an operand. *)
Inductive pre_lex : GramModel.item -> lexeme -> Prop :=
| p_minus : pre_lex (Ok (TOp (Some (u "-")) (u "neg")), Some O_neg) (Y "-")
| p_tilde : pre_lex (Ok (TOp (Some (u "~")) (u "binary_not")), Some O_bnot) (Y "~")
| p_not : pre_lex (word "not", Some O_not) (K "not").
Inductive segment : list GramModel.item -> list lexeme -> Prop :=
| g_atom x ls : operand_at x ls -> segment [(Ok (TVal x), None)] ls
| g_pre o l it ls : pre_lex o l -> segment it ls -> segment (o :: it) (l :: ls).
Definition infix_lex (o : GramModel.item) (lo : list lexeme) : Prop :=
  lo <> [] /\ (forall rest, open (lo ++ rest)) /\ forall rest, begins rest -> infix_op lx (lo ++ rest) = Ok (Some (o, rest)).
Inductive tail : list GramModel.item -> list lexeme -> Prop :=
| t_nil : tail [] []
| t_more o lo it ls it' ls' : lo <> [] -> (forall rest, open (lo ++ rest)) -> (forall rest, infix_op lx (lo ++ ls ++ rest) = Ok (Some (o, ls ++ rest))) ->
    segment it ls -> tail it' ls' -> tail (o :: it ++ it') (lo ++ ls ++ ls').
Definition chain (it : list GramModel.item) (ls : list lexeme) : Prop :=
  exists it0 ls0 it1 ls1, it = it0 ++ it1 /\ ls = ls0 ++ ls1 /\ segment it0 ls0 /\ tail it1 ls1.
Lemma segment_begins it ls : segment it ls -> begins ls.
Proof. induction 1 as [x ls H|o l it ls O S0 IH]; [apply H|]. destruct O; constructor. Qed.
Lemma chain_begins it ls : chain it ls -> begins ls.
Proof. intros (it0 & ls0 & it1 & ls1 & _ & -> & S0 & _). apply begins_app. now apply (segment_begins it0). Qed.
Lemma tail_app it ls it' ls' : tail it ls -> tail it' ls' -> tail (it ++ it') (ls ++ ls').
Proof.
  induction 1 as [|o lo it ls it2 ls2 N0 O F S0 T IH]; intros T'; [exact T'|]. cbn [app]. rewrite <- !app_assoc. apply t_more; try assumption. now apply IH.
Qed.
Lemma chain_infix it ls o lo it' ls' : chain it ls -> infix_lex o lo -> chain it' ls' -> chain (it ++ o :: it') (ls ++ lo ++ ls').
Proof.
  intros (a0 & b0 & a1 & b1 & -> & -> & S0 & T0) (N0 & O & F) (c0 & d0 & c1 & d1 & -> & -> & S1 & T1).
  exists a0, b0, (a1 ++ o :: c0 ++ c1), (b1 ++ lo ++ d0 ++ d1). split; [now rewrite <- !app_assoc|]. split; [now rewrite <- !app_assoc|].
  split; [exact S0|]. apply tail_app; [exact T0|]. apply t_more; try assumption. intros rest. apply F. apply begins_app. now apply (segment_begins c0).
Qed.
Lemma chain_pre o l it ls : pre_lex o l -> chain it ls -> chain (o :: it) (l :: ls).
Proof.
  intros O (a0 & b0 & a1 & b1 & -> & -> & S0 & T0). exists (o :: a0), (l :: b0), a1, b1. repeat split; try assumption. now constructor.
Qed.
Lemma chain_atom x ls : operand_at x ls -> chain [(Ok (TVal x), None)] ls.
Proof. intros H. exists [(Ok (TVal x), None)], ls, [], []. split; [reflexivity|]. split; [symmetry; apply app_nil_r|]. split; constructor. exact H. Qed.
Lemma chain_last it ls o lo x lx0 : chain it ls -> lo <> [] -> (forall rest, open (lo ++ rest)) ->
  (forall rest, infix_op lx (lo ++ lx0 ++ rest) = Ok (Some (o, lx0 ++ rest))) -> operand_at x lx0 ->
  chain (it ++ [o; (Ok (TVal x), None)]) (ls ++ lo ++ lx0).
Proof.
  intros (a0 & b0 & a1 & b1 & -> & -> & S0 & T0) N0 O F H.
  exists a0, b0, (a1 ++ o :: [(Ok (TVal x), None)] ++ []), (b1 ++ lo ++ lx0 ++ []).
  split; [now rewrite <- !app_assoc|]. split; [rewrite (app_nil_r lx0); now rewrite <- !app_assoc|]. split; [exact S0|]. apply tail_app; [exact T0|].
  apply t_more; try assumption; constructor. exact H.
Qed.

Lemma segment_pre it ls : segment it ls -> forall rest j, (length ls < j)%nat -> exists pre x ls', it = pre ++ [(Ok (TVal x), None)] /\
  many j (prefix_op lx) (ls ++ rest) = Ok (Some (pre, ls' ++ rest)) /\ operand_at x ls' /\ (length ls' <= length ls)%nat.
Proof.
  induction 1 as [x ls H|o l it ls O S0 IH]; intros rest j L; (destruct j as [|j]; [lia|]).
  - exists [], x, ls. repeat split; try apply H; try lia. cbn [many]. now rewrite (oa_prefix _ _ H rest).
  - cbn in L. destruct (IH rest j) as (pre & x & ls' & -> & E & H & LE); [lia|]. exists (o :: pre), x, ls'. split; [reflexivity|]. split; [|split; [exact H|cbn; lia]].
    cbn [many app]. assert (X : prefix_op lx (l :: ls ++ rest) = Ok (Some (o, ls ++ rest))) by (destruct O; reflexivity). rewrite X, E. reflexivity.
Qed.
Lemma modified_ok it ls rest : segment it ls -> open rest -> (length (ls ++ rest) < k)%nat -> modified lx k a (ls ++ rest) = Ok (Some (it, rest)).
Proof.
  intros S0 O L. rewrite app_length in L. destruct (segment_pre it ls S0 rest k) as (pre & x & ls' & -> & E & H & LE); [lia|]. unfold modified.
  rewrite (seq_some _ _ _ _ _ E). rewrite (seq_some _ _ _ x rest) by (apply H; [exact O|]; rewrite app_length; lia).
  rewrite (seq_some _ _ _ tt rest) by apply O. reflexivity.
Qed.
Lemma tail_ok it ls : tail it ls -> forall rest j, stop rest -> (length (ls ++ rest) < k)%nat -> (length ls < j)%nat ->
  exists m, concat m = it /\
  many j (GramModel.seq (infix_op lx) (fun o => GramModel.seq (modified lx k a) (fun l => ret (o :: l)))) (ls ++ rest) = Ok (Some (m, rest)).
Proof.
  induction 1 as [|o lo it ls it' ls' N0 O F S0 T IH]; intros rest j ST L J; (destruct j as [|j]; [lia|]).
  - exists []. split; [reflexivity|]. cbn [many app]. rewrite (seq_none _ _ rest); [reflexivity|apply ST].
  - assert (LL : (0 < length lo)%nat) by (destruct lo; [congruence|cbn; lia]). rewrite !app_length in *.
    destruct (IH rest j ST) as (m & <- & E); [rewrite !app_length; lia|lia|]. exists ((o :: it) :: m). split; [reflexivity|]. cbn [many].
    replace ((lo ++ ls ++ ls') ++ rest) with (lo ++ ls ++ (ls' ++ rest)) by (now rewrite <- !app_assoc).
    rewrite (seq_some _ _ _ o (ls ++ (ls' ++ rest))) by apply F. rewrite (seq_some _ _ _ it (ls' ++ rest)).
    + change (ret (o :: it) (ls' ++ rest)) with (@Ok (option (list GramModel.item * list lexeme)) (Some (o :: it, ls' ++ rest))). cbv beta iota. rewrite E. reflexivity.
    + apply modified_ok; [exact S0| |rewrite !app_length; lia]. destruct T as [|o2 lo2 it2 ls2 it2' ls2' N2 O2 F2 S2 T2]; [apply ST|]. rewrite <- !app_assoc. apply O2.
Qed.
Lemma flat_ok it ls rest : chain it ls -> stop rest -> (length (ls ++ rest) < k)%nat -> flat lx k a (ls ++ rest) = Ok (Some (it, rest)).
Proof.
  intros (it0 & ls0 & it1 & ls1 & -> & -> & S0 & T0) ST L. unfold flat. rewrite <- app_assoc. rewrite (seq_some _ _ _ it0 (ls1 ++ rest)).
  - rewrite !app_length in L. destruct (tail_ok it1 ls1 T0 rest k ST) as (m & <- & E); [rewrite app_length; lia|lia|]. now rewrite (seq_some _ _ _ _ _ E).
  - apply modified_ok; [exact S0| |now rewrite app_assoc]. destruct T0 as [|o2 lo2 it2 ls2 it2' ls2' N2 O2 F2 S2 T2]; [apply ST|]. rewrite <- !app_assoc. apply O2.
Qed.
Lemma begins_star ls : begins ls -> GramModel.lit lx "*" ls = Ok None.
Proof. destruct 1; reflexivity. Qed.
Lemma expr_ok it ls rest x : chain it ls -> stop rest -> (length (ls ++ rest) < k)%nat -> read_tokens ft it = Ok (TVal x) ->
  expr lx ft k a (ls ++ rest) = Ok (Some (x, rest)).
Proof.
  intros C ST L R. unfold expr. rewrite alt_none.
  - apply (act_some _ _ _ it rest); [now apply flat_ok|]. now rewrite R.
  - unfold as_, GramModel.act. rewrite begins_star; [reflexivity|]. apply begins_app. now apply (chain_begins it).
Qed.
Lemma expr_atom x ls rest : operand_at x ls -> stop rest -> (length (ls ++ rest) < k)%nat -> expr lx ft k a (ls ++ rest) = Ok (Some (x, rest)).
Proof. intros H ST L. apply (expr_ok [(Ok (TVal x), None)]); [now apply chain_atom|exact ST|exact L|reflexivity]. Qed.
End Level.

(** Lists with commas. *)
Definition reads_if {A} (Q : list lexeme -> Prop) (p : P A) (x : A) (ls : list lexeme) : Prop :=
  forall r, Q r -> (length (ls ++ r) < k)%nat -> p (ls ++ r) = Ok (Some (x, r)).
Notation reads := (reads_if stop).
Lemma stop_comma r : stop (Y "," :: r). Proof. repeat split. Qed.
Lemma stop_close r : stop (Y ")" :: r). Proof. repeat split. Qed.
Lemma stop_nil : stop []. Proof. repeat split. Qed.
Lemma separated_cons x y l : separated (x :: y :: l) = x ++ Y "," :: separated (y :: l). Proof. reflexivity. Qed.
Lemma many_ok {A} (Q : list lexeme -> Prop) (p : P A) xs lls : (forall r, Q (Y "," :: r)) -> Forall2 (reads_if Q p) xs lls -> forall rest j, Q rest -> comma lx rest = Ok None ->
  (length (flat_map (fun ls => Y "," :: ls) lls ++ rest) < k)%nat -> (length lls < j)%nat ->
  many j (GramModel.seq (comma lx) (fun _ => p)) (flat_map (fun ls => Y "," :: ls) lls ++ rest) = Ok (Some (xs, rest)).
Proof.
  intros QC. induction 1 as [|x ls xs lls R F IH]; intros rest j ST C L J; (destruct j as [|j]; [lia|]); cbn [flat_map app many].
  - now rewrite (seq_none _ _ rest C).
  - cbn in J. rewrite <- app_assoc. cbn [flat_map app] in L. rewrite <- app_assoc in L.
    rewrite (seq_some _ _ _ tt (ls ++ flat_map (fun ls => Y "," :: ls) lls ++ rest)) by reflexivity. rewrite R.
    + rewrite IH; [reflexivity|exact ST|exact C| |lia]. cbn [length] in L. rewrite app_length in L. lia.
    + destruct lls; [exact ST|apply QC].
    + cbn [length] in L. lia.
Qed.
Lemma separated_flat x lls : separated (x :: lls) = x ++ flat_map (fun ls => Y "," :: ls) lls.
Proof. revert x. induction lls as [|y lls IH]; intros x; [symmetry; apply app_nil_r|]. rewrite separated_cons, IH. reflexivity. Qed.
Lemma flat_length (lls : list (list lexeme)) : (length lls <= length (flat_map (fun ls => Y "," :: ls) lls))%nat.
Proof. induction lls as [|x lls IH]; [cbn; lia|]. cbn [flat_map app length]. rewrite app_length. lia. Qed.
Lemma list_if {A} (Q : list lexeme -> Prop) (p : P A) xs lls rest : (forall r, Q (Y "," :: r)) -> Forall2 (reads_if Q p) xs lls -> xs <> [] -> Q rest -> comma lx rest = Ok None ->
  (length (separated lls ++ rest) < k)%nat -> list_of k p (comma lx) (separated lls ++ rest) = Ok (Some (xs, rest)).
Proof.
  intros QC F NE ST C L. destruct F as [|x ls xs lls R F]; [congruence|]. rewrite separated_flat, <- app_assoc in *. unfold list_of.
  rewrite (seq_some _ _ _ x (flat_map (fun ls => Y "," :: ls) lls ++ rest)).
  - pose proof (flat_length lls). rewrite !app_length in L. rewrite (seq_some _ _ _ xs rest); [reflexivity|]. apply (many_ok Q); [exact QC|exact F|exact ST|exact C|rewrite app_length; lia|lia].
  - apply R; [|exact L]. destruct lls; [exact ST|apply QC].
Qed.
Lemma list_ok {A} (p : P A) xs lls rest : Forall2 (reads p) xs lls -> xs <> [] -> stop rest -> comma lx rest = Ok None ->
  (length (separated lls ++ rest) < k)%nat -> list_of k p (comma lx) (separated lls ++ rest) = Ok (Some (xs, rest)).
Proof. apply (list_if stop). intros r. apply stop_comma. Qed.
Lemma list_one {A} (p : P A) x s rest : (0 < k)%nat -> p s = Ok (Some (x, rest)) -> comma lx rest = Ok None -> list_of k p (comma lx) s = Ok (Some ([x], rest)).
Proof.
  intros K0 E C. unfold list_of. rewrite (seq_some _ _ _ _ _ E). rewrite (seq_some _ _ _ [] rest); [reflexivity|]. destruct k as [|k']; [lia|]. cbn [many]. now rewrite (seq_none _ _ rest C).
Qed.

(** ** Conditions *)
Notation atoms n := (atom lx ft k n).
Lemma operand_ok n x l : GramSpec.operand x l -> operand_at (atoms (S n)) x [l].
Proof.
  intros O. split.
  - destruct O; constructor.
  - intros rest. destruct O; reflexivity.
  - intros rest OP L. cbn [app atom]. destruct O.
    + now apply compound_name.
    + now apply compound_num.
    + apply compound_str.
    + apply compound_null.
Qed.
Lemma par_ok n ls x : (forall r, stop r -> (length (ls ++ r) < k)%nat -> expression lx ft k n (ls ++ r) = Ok (Some (x, r))) -> begins ls ->
  operand_at (atoms (S n)) (to_tuple_call [x]) (Y "(" :: ls ++ [Y ")"]).
Proof.
  intros E B. split.
  - constructor. now apply begins_app.
  - reflexivity.
  - intros rest OP L. cbn [atom]. cbn [app] in L |- *. rewrite <- app_assoc in *. cbn [app length] in *.
    apply compound_par; [now apply begins_app|lia|]. change (ls ++ Y ")" :: rest) with (separated [ls] ++ Y ")" :: rest).
    apply list_ok; [|discriminate|apply stop_close|reflexivity|cbn [separated]; lia]. constructor; [exact E|constructor].
Qed.
Lemma set_ok n (l : list (pv * tree)) ll : Forall2 (fun p x => GramSpec.operand (fst p) x) l ll -> l <> [] ->
  operand_at (atoms (S (S n))) (to_tuple_call (map fst l)) (Y "(" :: separated (map (fun x => [x]) ll) ++ [Y ")"]).
Proof.
  intros F NE. assert (B : begins (separated (map (fun x => [x]) ll))).
  { destruct F as [|p x l ll O F]; [congruence|]. cbn [map]. rewrite separated_flat. cbn [app]. destruct O; constructor. }
  split.
  - constructor. now apply begins_app.
  - reflexivity.
  - intros rest OP L. cbn [atom]. cbn [app] in L |- *. rewrite <- app_assoc in *. cbn [app length] in *.
    apply compound_par; [now apply begins_app|lia|]. apply list_ok; [|now destruct l|apply stop_close|reflexivity|lia].
    clear NE B L. induction F as [|p x l ll O F IH]; cbn [map]; constructor; [|exact IH].
    intros r ST L. now apply expr_atom; [apply operand_ok| |].
Qed.
Lemma infix_bin o alt : infix_lex (snd (bin_tok o alt), op1 sql_levels (fst (bin_tok o alt))) (op_lex o alt).
Proof.
  repeat split.
  - destruct o; discriminate.
  - destruct o, alt; reflexivity.
  - destruct o, alt; reflexivity.
  - destruct o, alt; reflexivity.
  - intros rest _. destruct o, alt; reflexivity.
Qed.
Lemma infix_between (n : bool) :
  infix_lex (if n then words "not_between" else word "between", Some (if n then O_nbetween else O_between)) (if n then [K "not"; K "between"] else [K "between"]).
Proof. repeat split; destruct n; try discriminate; try reflexivity. Qed.
Lemma infix_and : infix_lex (word "and", Some O_and) [K "and"].
Proof. repeat split; try discriminate; reflexivity. Qed.
Lemma infix_in (n : bool) : infix_lex (if n then words "nin" else word "in", Some (if n then O_nin else O_in)) (if n then [K "not"; K "in"] else [K "in"]).
Proof. repeat split; destruct n; try discriminate; try reflexivity. Qed.
Lemma respects_par s : source ft (XPar s) -> exists x, read_tokens ft (tokens_of ft s) = Ok (TVal x).
Proof. intros (R & S0). destruct (read_ok ft s (Logic.conj S0 R)) as (x & t & E & _). eauto. Qed.

Theorem cond_chain s ls : cond_lex s ls -> source ft s -> forall n, (length ls <= n)%nat -> chain (atoms n) (tokens_of ft s) ls.
Proof.
  unfold tokens_of. induction 1 as [x t l O| |s ls C IH|z Z0|s ls C IH|s ls C IH|o alt a b la lb CA IHA CB IHB|neg m l lm ll CM IHM F|neg a b c la lb lc CA IHA CB IHB CC IHC|neg s ls C IH];
    intros S0 n L.
  - destruct n as [|n]; [cbn in L; lia|]. apply chain_atom. now apply operand_ok.
  - destruct n as [|n]; [cbn in L; lia|]. apply chain_atom. apply operand_ok. constructor.
  - cbn [length] in L. rewrite app_length in L. destruct n as [|n]; [lia|]. destruct (respects_par s S0) as (x & R). destruct S0 as (RS & S0). cbn [code yield].
    unfold tokens_of in R. rewrite R. cbn [parens bind elem]. cbn [length] in L. apply chain_atom. apply par_ok.
    + intros r ST LR. apply (expr_ok _ (yield sql_levels (code ft s))); [apply IH; [exact S0|lia]|exact ST|exact LR|exact R].
    + apply (chain_begins (atoms n) (yield sql_levels (code ft s))). apply IH; [exact S0|lia].
  - destruct n as [|n]; [cbn in L; lia|]. cbn [code yield]. apply chain_pre; [constructor|]. apply chain_atom. apply operand_ok. now constructor.
  - cbn [code yield]. apply chain_pre; [constructor|]. apply IH; [exact S0|cbn in L; lia].
  - cbn [code yield]. apply chain_pre; [constructor|]. apply IH; [exact S0|cbn in L; lia].
  - rewrite !app_length in L. destruct S0 as (_ & SA & SB). cbn [code yield]. apply chain_infix; [apply IHA; [exact SA|lia]|apply infix_bin|apply IHB; [exact SB|lia]].
  - destruct S0 as (SM & LL & _). rewrite !app_length in L. cbn [length] in L. rewrite app_length in L. cbn [length] in L.
    destruct n as [|[|n]]; [lia|destruct neg; cbn [length] in L; lia|].
    assert (A : operand_at (atoms (S (S n))) (to_tuple_call (map fst l)) (Y "(" :: separated (map (fun x => [x]) ll) ++ [Y ")"])) by (apply set_ok; [exact F|destruct l; [cbn in LL; lia|discriminate]]).
    pose proof (infix_in neg) as I0. pose proof (IHM SM (S (S n)) ltac:(lia)) as CH.
    destruct neg; cbn [code yield]; (apply (chain_infix _ _ _ _ _ _ _ CH I0); now apply chain_atom).
  - destruct S0 as (SA & SB & SC). rewrite !app_length in L. cbn [length] in L. pose proof (IHA SA n ltac:(lia)) as HA. pose proof (IHB SB n ltac:(lia)) as HB. pose proof (IHC SC n ltac:(lia)) as HC.
    pose proof (chain_infix _ _ _ _ _ _ _ HB infix_and HC) as BC. pose proof (chain_infix _ _ _ _ _ _ _ HA (infix_between neg) BC) as ABC. destruct neg; exact ABC.
  - rewrite app_length in L. pose proof (IH S0 n ltac:(lia)) as CH. destruct n as [|n]; [destruct neg; cbn [length] in L; lia|].
    assert (A : operand_at (atoms (S n)) PNull [K "null"]) by (apply operand_ok; constructor).
    destruct neg; cbn [code yield].
    + apply (chain_last _ _ _ _ [K "is"; K "not"] _ [K "null"]); [exact CH|discriminate|repeat split|reflexivity|exact A].
    + apply (chain_last _ _ _ _ [K "is"] _ [K "null"]); [exact CH|discriminate|repeat split|reflexivity|exact A].
Qed.
Lemma cond_value s : grouped ft s -> exists x, read_tokens ft (tokens_of ft s) = Ok (TVal x) /\ nice x /\ scrub x <> ONone.
Proof.
  intros (S0 & R). destruct (value_good ft s S0) as (x & V & (N & S1 & _) & _). exists x. split; [|now split].
  unfold read_tokens, tokens_of. now rewrite (make_tree_ok (act_json ft) sql_levels sql_levels_ok _ R), V.
Qed.
Lemma cond_reads s ls n : cond_lex s ls -> grouped ft s -> (length ls <= n)%nat ->
  exists x, read_tokens ft (tokens_of ft s) = Ok (TVal x) /\ nice x /\ scrub x <> ONone /\ reads (expression lx ft k n) x ls.
Proof.
  intros C G L. destruct (cond_value s G) as (x & R & N & S1). exists x. split; [exact R|]. split; [exact N|]. split; [exact S1|]. intros r ST LR.
  apply (expr_ok _ (tokens_of ft s)); [apply cond_chain; [exact C|apply G|exact L]|exact ST|exact LR|exact R].
Qed.
(** Function calls. *)
Lemma call_ok n f ls l : (forall r, kw_of lx ["select"; "values"; "with"]%string (ls ++ Y ")" :: r) = Ok None) -> (forall r, LB lx (ls ++ Y ")" :: r) = Ok None) ->
  (forall r, (length (ls ++ Y ")" :: r) < k)%nat -> list_of k (expression lx ft k n) (comma lx) (ls ++ Y ")" :: r) = Ok (Some (l, Y ")" :: r))) ->
  operand_at (atoms (S n)) (function_call f l) (LFun f :: Y "(" :: ls ++ [Y ")"]).
Proof.
  intros Q B E. split.
  - constructor.
  - reflexivity.
  - intros rest OP L. cbn [atom app] in *. rewrite <- app_assoc in *. cbn [app length] in *. apply compound_call; [reflexivity|apply Q|apply B|lia|apply E; lia].
Qed.
(** Constants. *)
Definition const_pv (c : const) : pv :=
  match c with KInt z => if (z <? 0)%Z then group (PNum z) else PNum z | KText s => PDict [(u "literal", PText s)] end.
Lemma const_reads c n : (0 < n)%nat -> reads (expression lx ft k n) (const_pv c) (const_lex c).
Proof.
  intros N0 r ST L. destruct n as [|n]; [lia|]. destruct c as [z|s]; cbn [const_lex const_pv] in *.
  - destruct (z <? 0)%Z eqn:Z0.
    + change ([Y "-"; LNum (- z)] ++ r) with ((Y "-" :: [LNum (- z)]) ++ r).
      eapply (expr_ok _ [(Ok (TOp (Some (u "-")) (u "neg")), Some O_neg); (Ok (TVal (PNum (- z))), None)]); [|exact ST|exact L|].
      * apply chain_pre; [constructor|]. apply chain_atom. apply operand_ok. constructor. lia.
      * cbn. now rewrite Z.opp_involutive.
    + apply expr_atom; [|exact ST|exact L]. apply operand_ok. constructor. lia.
  - apply expr_atom; [|exact ST|exact L]. apply operand_ok. constructor.
Qed.
Lemma name_reads v n : (0 < n)%nat -> reads (expression lx ft k n) (PText v) [LName v].
Proof. intros N0 r ST L. destruct n as [|n]; [lia|]. apply expr_atom; [|exact ST|exact L]. apply operand_ok. constructor. Qed.
Lemma num_reads z n : (0 <= z)%Z -> (0 < n)%nat -> reads (expression lx ft k n) (PNum z) [LNum z].
Proof. intros Z0 N0 r ST L. destruct n as [|n]; [lia|]. apply expr_atom; [|exact ST|exact L]. apply operand_ok. now constructor. Qed.
End Lex.
