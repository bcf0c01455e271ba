(** Vocabulary for the statement about conditions from the tokens of the SQL text to the SQL text that is sent: the
    truth value of an expression in a row, and the supported conditions, as written.  Nothing here mentions parsed JSON. *)
From Coq Require Import String Ascii List NArith ZArith QArith Bool.
From Verif Require Import Base CryptoModel FuzzyModel JsonModel RewriteModel LikeSpec SqlSpec EncSpec
  SqlLex SqlRead FmtSpec ScrubModel OperSpec.
Import ListNotations.
Open Scope Z_scope.

(** Values of columns and constants. *)
Definition tval (r : row) (t : tree) : res sqlv :=
  match t with
  | ECol [c] => match dget r c with Some v => Ok v | None => Err DbError end
  | EStr s => Ok (VStr s)
  | EInt z => Ok (VInt z)
  | ENeg (EInt z) => Ok (VInt (- z))
  | ENull => Ok VNull
  | _ => Err DbError
  end.
(** The comparison operators. *)
Definition sat (o : binop) (c : Datatypes.comparison) : res bool :=
  match o, c with
  | OEq, Eq | ONeq, Lt | ONeq, Gt | OLt, Lt | OGt, Gt | OLte, Lt | OLte, Eq | OGte, Gt | OGte, Eq => Ok true
  | OEq, _ | ONeq, _ | OLt, _ | OGt, _ | OLte, _ | OGte, _ => Ok false
  | _, _ => Err DbError
  end.
Definition compare_vals (o : binop) (a b : sqlv) : res tv :=
  match o with
  | OLike => like_vals a b
  | ONotLike => do t <- like_vals a b; Ok (tv_not t)
  | OEq | ONeq | OLt | OGt | OLte | OGte =>
    do c <- vcmp a b; match c with Some c => do x <- sat o c; Ok (Some x) | None => Ok None end
  | _ => Err DbError
  end.
(** The truth value of a condition in a row, by three-valued logic; [Err DbError]: not a condition of the kind considered,
    an unknown column or a comparison of a number with a text. *)
Fixpoint truth (r : row) (t : tree) : res tv :=
  match t with
  | EBin OAnd a b => do x <- truth r a; do y <- truth r b; Ok (tv_and x y)
  | EBin OOr a b => do x <- truth r a; do y <- truth r b; Ok (tv_or x y)
  | EBin o a b => do x <- tval r a; do y <- tval r b; compare_vals o x y
  | ENot a => do x <- truth r a; Ok (tv_not x)
  | EIn n m l => do x <- tval r m; do xs <- mapM (tval r) l; do t <- member x xs; Ok (negated n t)
  | EBetween n a b c => do x <- tval r a; do y <- tval r b; do z <- tval r c; do t <- range x y z; Ok (negated n t)
  | EIs n a => do x <- tval r a; Ok (Some (match x with VNull => negb n | _ => n end))
  | _ => Err DbError
  end.

(** The columns of an expression. *)
Fixpoint tcols (t : tree) : list (list pystr) :=
  match t with
  | ECol l => [l]
  | ENeg t | EBnot t | ENot t | EIs _ t => tcols t
  | EBin _ a b => tcols a ++ tcols b
  | EIn _ m l => tcols m ++ concat (map tcols l)
  | EBetween _ a b c => tcols a ++ tcols b ++ tcols c
  | ECall _ l => concat (map tcols l)
  | _ => []
  end.

(** The supported conditions, as [EncSpec.frag_cond] has them: AND and OR over
    - any condition over plaintext columns, without backslashes in its texts if the database treats these as escapes ([bs]),
      and with the column of = < <= > >= LIKE on the left;
    - encrypted column = constant; encrypted integer column < <= > >= integer; encrypted text column LIKE pattern. *)
Inductive supported (al : N -> bool) (bs : bool) (m : tmeta) : tree -> Prop :=
| sup_and a b : supported al bs m a -> supported al bs m b -> supported al bs m (EBin OAnd a b)
| sup_or a b : supported al bs m a -> supported al bs m b -> supported al bs m (EBin OOr a b)
| sup_plain t : search t -> top_op t <> Some OAnd -> top_op t <> Some OOr -> good_leaves bs t ->
    (forall l, In l (tcols t) -> exists c, l = [c] /\ plain_col m c) ->
    (forall o a b, t = EBin o a b -> In o [OEq; OLt; OLte; OGt; OGte; OLike] -> exists c, a = ECol [c]) ->
    supported al bs m t
| sup_text c cm s : enc_col m c cm SYM -> is_text_type (c_type cm) -> text_ok s ->
    supported al bs m (EBin OEq (ECol [c]) (EStr s))
| sup_int c cm z : enc_col m c cm SYM -> c_type cm = u "int" -> (length (str_int z) <= 32)%nat ->
    supported al bs m (EBin OEq (ECol [c]) (int_of z))
| sup_order o c cm z : In o [OLt; OLte; OGt; OGte] -> enc_col m c cm OPEC -> c_type cm = u "int" -> int64 z ->
    supported al bs m (EBin o (ECol [c]) (int_of z))
| sup_like c cm ps : enc_col m c cm FUZ -> is_text_type (c_type cm) -> pattern_ok al false ps ->
    supported al bs m (EBin OLike (ECol [c]) (EStr (join [PCT] ps))).

(** Source conditions whose operands are names, integers and texts as the grammar gives them. *)
Fixpoint simple_atoms (s : sx) : Prop :=
  match s with
  | XAtom x t =>
    match x with
    | PText c => t = ECol [c]
    | PNum z => t = int_of z
    | PDict [(k, PText s)] => k = u "literal" /\ t = EStr s
    | _ => False
    end
  | XNull | XMinus _ => True
  | XPar s | XBnot s | XNot s | XIs _ s => simple_atoms s
  | XBin _ _ a b => simple_atoms a /\ simple_atoms b
  | XIn _ m _ => simple_atoms m
  | XBetween _ a b c => simple_atoms a /\ simple_atoms b /\ simple_atoms c
  end.
