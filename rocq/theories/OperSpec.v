(** Vocabulary for the statements about the parse actions of operator expressions: source expressions with
    their parentheses, their tokens, and the expression that each stands for. *)
From Coq Require Import String Ascii List Arith NArith ZArith Bool.
From Verif Require Import Base JsonModel DotsModel SqlLex SqlRead FmtModel FmtSpec ScrubModel InfixModel InfixSpec OperModel.
Import ListNotations.

(** The JSON value of a normalised parse result; NULL is the value {"null": {}} (sql_parsing/__init__.py L24-27). *)
Fixpoint json_of (o : out) : json :=
  match o with
  | ONull => JDict [(u "null", JDict [])]
  | ONone => JNull
  | OText s => JStr s
  | ONum z => JInt z
  | OBool b => JBool b
  | ODict d => JDict (map (fun kv => (fst kv, json_of (snd kv))) d)
  | OList l => JList (map json_of l)
  end.
(** The expression that a parse result stands for. *)
Definition expr_of (x : pv) : option tree := tree_of (json_of (scrub x)).

(** Source expressions: an operand as the grammar gives it, together with the expression it stands for; NULL;
    parentheses; a minus sign before a number; operators.  [alt] chooses the second spelling of [=] and [<>]. *)
Inductive sx : Type :=
| XAtom (x : pv) (t : tree)
| XNull
| XPar (s : sx)
| XMinus (z : Z)
| XBnot (s : sx)
| XNot (s : sx)
| XBin (o : binop) (alt : bool) (a b : sx)
| XIn (neg : bool) (m : sx) (l : list (pv * tree))
| XBetween (neg : bool) (a b c : sx)
| XIs (neg : bool) (s : sx).

(** What a source expression stands for. *)
Fixpoint mean (s : sx) : tree :=
  match s with
  | XAtom _ t => t
  | XNull => ENull
  | XPar s => mean s
  | XMinus z => ENeg (EInt z)
  | XBnot s => EBnot (mean s)
  | XNot s => ENot (mean s)
  | XBin o _ a b => EBin o (mean a) (mean b)
  | XIn n m l => EIn n (mean m) (map snd l)
  | XBetween n a b c => EBetween n (mean a) (mean b) (mean c)
  | XIs n s => EIs n (mean s)
  end.

(** Operator tokens: symbols, keywords, Groups of keywords. *)
Definition sym (s : string) : res tokv := Ok (TOp (Some (u s)) []).
Definition word (s : string) : res tokv := Ok (TOp (Some (u s)) (u s)).
Definition words (s : string) : res tokv := Ok (TOp None (u s)).
Definition bin_tok (o : binop) (alt : bool) : nat * res tokv :=
  match o with
  | OConcat => (O_concat, sym "||") | OMul => (O_mul, sym "*") | ODiv => (O_mul, sym "/") | OMod => (O_mul, sym "%")
  | OAdd => (O_add, sym "+") | OSub => (O_add, sym "-") | OBand => (O_band, sym "&") | OBor => (O_bor, sym "|")
  | OLt => (O_cmp, sym "<") | OLte => (O_cmp, sym "<=") | OGt => (O_cmp, sym ">") | OGte => (O_cmp, sym ">=")
  | OEq => (O_eq, sym (if alt then "==" else "=")) | ONeq => (O_eq, sym (if alt then "<>" else "!="))
  | OLike => (O_like, word "like") | ONotLike => (O_nlike, words "not_like")
  | ORlike => (O_rlike, word "rlike") | ONotRlike => (O_nrlike, words "not_rlike")
  | OAnd => (O_and, word "and") | OOr => (O_or, word "or")
  end%string.

Section Code.
Variable float_text : pystr -> bool.
Notation act := (act_json float_text).
(** Reading the tokens of an expression, and the operand that a parenthesised expression is. *)
Definition read_tokens (flat : list (res tokv * option nat)) : res tokv :=
  bind (make_tree act sql_levels flat) (fun r => r).
Definition parens (r : res tokv) : res tokv := bind r (fun t => Ok (TVal (to_tuple_call [elem t]))).
(** The operators of a source expression with their levels; parentheses are read on their own. *)
Fixpoint code (s : sx) : etree (res tokv) :=
  match s with
  | XAtom x _ => Leaf (Ok (TVal x))
  | XNull => Leaf (Ok (TVal PNull))
  | XPar s => Leaf (parens (read_tokens (yield sql_levels (code s))))
  | XMinus z => Pre O_neg (Ok (TOp (Some (u "-")) (u "neg"))) (Leaf (Ok (TVal (PNum z))))
  | XBnot s => Pre O_bnot (Ok (TOp (Some (u "~")) (u "binary_not"))) (code s)
  | XNot s => Pre O_not (word "not") (code s)
  | XBin o alt a b => Bin (fst (bin_tok o alt)) (code a) (snd (bin_tok o alt)) (code b)
  | XIn false m l => Bin O_in (code m) (word "in") (Leaf (Ok (TVal (to_tuple_call (map fst l)))))
  | XIn true m l => Bin O_nin (code m) (words "nin") (Leaf (Ok (TVal (to_tuple_call (map fst l)))))
  | XBetween false a b c => Tri O_between (code a) (word "between") (code b) (word "and") (code c)
  | XBetween true a b c => Tri O_nbetween (code a) (words "not_between") (code b) (word "and") (code c)
  | XIs false s => Bin O_is (code s) (word "is") (Leaf (Ok (TVal PNull)))
  | XIs true s => Bin O_isnot (code s) (words "is_not") (Leaf (Ok (TVal PNull)))
  end.
(** The tokens of a source expression from left to right. *)
Definition tokens_of (s : sx) : list (res tokv * option nat) := yield sql_levels (code s).

(** Operands: not NULL itself, not a Group, not a call of a function with the name of one of the four associative
    operators, and with the meaning given. *)
Definition atom_ok (x : pv) (t : tree) : Prop :=
  expr_of x = Some t /\ scrub x <> ONone /\
  match x with
  | PText _ | PNum _ => True
  | PCall op _ _ => ~ In op (map u ["add"; "mul"; "and"; "or"]%string)
  | PDict d => forall op, In op (map u ["add"; "mul"; "and"; "or"]%string) -> dget d op = None
  | _ => False
  end.
(** Members of IN lists: columns, numbers, texts, NULL. *)
Definition member_ok (p : pv * tree) : Prop :=
  match fst p with
  | PText s => s <> u "literal" /\ col_of s = Some (snd p)
  | PNum z => snd p = int_of z
  | PDict [(k, PText s)] => k = u "literal" /\ snd p = EStr s
  | PNull => snd p = ENull
  | _ => False
  end.
Definition bare_null (s : sx) : bool := match s with XNull => true | _ => false end.
(** Source expressions whose operands are as above, whose IN lists have two members or more, in which NULL is not
    compared by [=] or [<>], and whose parentheses hold expressions grouped by the levels. *)
Fixpoint source (s : sx) : Prop :=
  match s with
  | XAtom x t => atom_ok x t
  | XNull => True
  | XPar s => respects sql_levels (code s) /\ source s
  | XMinus z => (0 < z)%Z
  | XBnot s => source s
  | XNot s => source s
  | XBin o _ a b => (o = OEq \/ o = ONeq -> bare_null a = false /\ bare_null b = false) /\ source a /\ source b
  | XIn _ m l => source m /\ (2 <= length l)%nat /\ Forall member_ok l
  | XBetween _ a b c => source a /\ source b /\ source c
  | XIs _ s => source s
  end.
(** ... and which is itself grouped by the levels. *)
Definition grouped (s : sx) : Prop := source s /\ respects sql_levels (code s).
End Code.

(** Equality up to the grouping of [+], [*], AND and OR. *)
Definition assoc_op (o : binop) : bool := match o with OAdd | OMul | OAnd | OOr => true | _ => false end.
Inductive assoc_eq : tree -> tree -> Prop :=
| ae_refl t : assoc_eq t t
| ae_sym t t' : assoc_eq t t' -> assoc_eq t' t
| ae_trans t t' t'' : assoc_eq t t' -> assoc_eq t' t'' -> assoc_eq t t''
| ae_assoc o a b c : assoc_op o = true -> assoc_eq (EBin o a (EBin o b c)) (EBin o (EBin o a b) c)
| ae_bnot t t' : assoc_eq t t' -> assoc_eq (EBnot t) (EBnot t')
| ae_not t t' : assoc_eq t t' -> assoc_eq (ENot t) (ENot t')
| ae_bin o a a' b b' : assoc_eq a a' -> assoc_eq b b' -> assoc_eq (EBin o a b) (EBin o a' b')
| ae_in n m m' l : assoc_eq m m' -> assoc_eq (EIn n m l) (EIn n m' l)
| ae_between n a a' b b' c c' : assoc_eq a a' -> assoc_eq b b' -> assoc_eq c c' ->
    assoc_eq (EBetween n a b c) (EBetween n a' b' c')
| ae_is n t t' : assoc_eq t t' -> assoc_eq (EIs n t) (EIs n t').

(** Search conditions, as written: comparisons of columns and constants, combined by NOT, AND and OR. *)
Inductive search : tree -> Prop :=
| S_cmp o a b : comparison o = true -> value_tree a = true -> value_tree b = true -> search (EBin o a b)
| S_in n m l : value_tree m = true -> forallb value_tree l = true -> search (EIn n m l)
| S_between n a b c : value_tree a = true -> value_tree b = true -> value_tree c = true -> search (EBetween n a b c)
| S_is n t : value_tree t = true -> search (EIs n t)
| S_not t : search t -> search (ENot t)
| S_and a b : search a -> search b -> search (EBin OAnd a b)
| S_or a b : search a -> search b -> search (EBin OOr a b).
(** The operands of the source are columns and constants. *)
Fixpoint plain (s : sx) : Prop :=
  match s with
  | XAtom _ t => value_tree t = true
  | XNull | XMinus _ => True
  | XPar s | XBnot s | XNot s | XIs _ s => plain s
  | XBin _ _ a b => plain a /\ plain b
  | XIn _ m _ => plain m
  | XBetween _ a b c => plain a /\ plain b /\ plain c
  end.
