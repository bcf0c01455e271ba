(** * A reader of SQL expressions, for the statements about the SQL writer

    Specification, not a model of /repo code.  Operators are read by precedence: [lev] gives
    the level of each operator, a smaller level binds tighter, operators of one level group to the
    left. *)
From Coq Require Import String Ascii List NArith ZArith Bool.
From Verif Require Import Base SqlLex.
Import ListNotations.

Inductive binop :=
| OConcat | OMul | ODiv | OMod | OAdd | OSub | OBand | OBor | OLt | OLte | OGt | OGte | OEq | ONeq
| OLike | ONotLike | ORlike | ONotRlike | OAnd | OOr.

(** Everything that has a level. *)
Inductive opk := KBin (o : binop) | KIn (neg : bool) | KBetween (neg : bool) | KIs (neg : bool) | KNot.

Inductive tree :=
| ECol (parts : list pystr)                      (* a.b.c *)
| EStar                                          (* * *)
| EStr (s : pystr)
| EInt (z : Z)                                   (* not negative *)
| ENull
| ENeg (t : tree)                                (* - t *)
| EBnot (t : tree)                               (* ~ t *)
| ENot (t : tree)                                (* NOT t *)
| EBin (o : binop) (a b : tree)
| EIn (neg : bool) (m : tree) (l : list tree)
| EBetween (neg : bool) (a b c : tree)
| EIs (neg : bool) (t : tree)                    (* IS [NOT] NULL *)
| ECall (f : pystr) (l : list tree).

Section TreeInd.
  Variable P : tree -> Prop.
  Hypothesis HCol : forall l, P (ECol l).
  Hypothesis HStar : P EStar.
  Hypothesis HStr : forall s, P (EStr s).
  Hypothesis HInt : forall z, P (EInt z).
  Hypothesis HNull : P ENull.
  Hypothesis HNeg : forall t, P t -> P (ENeg t).
  Hypothesis HBnot : forall t, P t -> P (EBnot t).
  Hypothesis HNot : forall t, P t -> P (ENot t).
  Hypothesis HBin : forall o a b, P a -> P b -> P (EBin o a b).
  Hypothesis HIn : forall n m l, P m -> Forall P l -> P (EIn n m l).
  Hypothesis HBetween : forall n a b c, P a -> P b -> P c -> P (EBetween n a b c).
  Hypothesis HIs : forall n t, P t -> P (EIs n t).
  Hypothesis HCall : forall f l, Forall P l -> P (ECall f l).
  Fixpoint tree_ind2 (t : tree) : P t :=
    let all := fix go (l : list tree) : Forall P l :=
      match l with [] => Forall_nil _ | x :: r => Forall_cons _ (tree_ind2 x) (go r) end in
    match t with
    | ECol l => HCol l | EStar => HStar | EStr s => HStr s | EInt z => HInt z | ENull => HNull
    | ENeg t => HNeg t (tree_ind2 t) | EBnot t => HBnot t (tree_ind2 t) | ENot t => HNot t (tree_ind2 t)
    | EBin o a b => HBin o a b (tree_ind2 a) (tree_ind2 b)
    | EIn n m l => HIn n m l (tree_ind2 m) (all l)
    | EBetween n a b c => HBetween n a b c (tree_ind2 a) (tree_ind2 b) (tree_ind2 c)
    | EIs n t => HIs n t (tree_ind2 t)
    | ECall f l => HCall f l (all l)
    end.
End TreeInd.

(** Keywords of expressions, compared without regard to case. *)
Inductive kw := WAnd | WOr | WNot | WLike | WRlike | WIn | WBetween | WIs | WNull.
Definition low (c : N) : N := if (N.leb 65 c && N.leb c 90)%bool then (c + 32)%N else c.
Definition kw_list : list (pystr * kw) :=
  [(u "and", WAnd); (u "or", WOr); (u "not", WNot); (u "like", WLike); (u "rlike", WRlike); (u "in", WIn);
   (u "between", WBetween); (u "is", WIs); (u "null", WNull)].
Definition kw_of (s : pystr) : option kw :=
  match find (fun p => seqb (fst p) (map low s)) kw_list with Some p => Some (snd p) | None => None end.

(** A word that is not one of the keywords. *)
Definition name_tok (t : token) : option pystr :=
  match t with
  | TQuoted s => Some s
  | TWord s => match kw_of s with None => Some s | Some _ => None end
  | _ => None
  end.

(** The operators written with symbols. *)
Definition sym_list : list (pystr * binop) :=
  [(u "||", OConcat); (u "*", OMul); (u "/", ODiv); (u "%", OMod); (u "+", OAdd); (u "-", OSub);
   (u "&", OBand); (u "|", OBor); (u "<", OLt); (u "<=", OLte); (u ">", OGt); (u ">=", OGte); (u "=", OEq);
   (u "<>", ONeq); (u "!=", ONeq)].
Definition sym_op (s : pystr) : option binop :=
  match find (fun p => seqb (fst p) s) sym_list with Some p => Some (snd p) | None => None end.

(** The operator at the start of the rest of an expression, and what follows it. *)
Definition peek (ts : list token) : option (opk * list token) :=
  match ts with
  | TSym s :: r => match sym_op s with Some o => Some (KBin o, r) | None => None end
  | TWord s :: r =>
    match kw_of s with
    | Some WAnd => Some (KBin OAnd, r)
    | Some WOr => Some (KBin OOr, r)
    | Some WLike => Some (KBin OLike, r)
    | Some WRlike => Some (KBin ORlike, r)
    | Some WIn => Some (KIn false, r)
    | Some WBetween => Some (KBetween false, r)
    | Some WIs =>
      match r with
      | TWord a :: r1 =>
        match kw_of a, r1 with
        | Some WNull, _ => Some (KIs false, r1)
        | Some WNot, TWord b :: r2 => match kw_of b with Some WNull => Some (KIs true, r2) | _ => None end
        | _, _ => None
        end
      | _ => None
      end
    | Some WNot =>
      match r with
      | TWord a :: r1 =>
        match kw_of a with
        | Some WLike => Some (KBin ONotLike, r1)
        | Some WRlike => Some (KBin ONotRlike, r1)
        | Some WIn => Some (KIn true, r1)
        | Some WBetween => Some (KBetween true, r1)
        | _ => None
        end
      | _ => None
      end
    | _ => None
    end
  | _ => None
  end.

Definition LP : pystr := u "(".
Definition RP : pystr := u ")".
Definition COMMA : pystr := u ",".
Definition PERIOD : pystr := u ".".
Definition is_sym (s : pystr) (t : token) : bool := match t with TSym x => seqb x s | _ => false end.

(** The names after the first of a dotted name. *)
Fixpoint dotted (ts : list token) : list pystr * list token :=
  match ts with
  | p :: x :: r =>
    if is_sym PERIOD p
    then match name_tok x with Some s => let (l, q) := dotted r in (s :: l, q) | None => ([], ts) end
    else ([], ts)
  | _ => ([], ts)
  end.

Definition numval (s : pystr) : Z := match parse_int s with Ok z => z | Err _ => 0%Z end.
(** An unquoted word followed by a parenthesis is the name of a function. *)
Definition call_tok (t : token) (r : list token) : option (pystr * list token) :=
  match t, r with
  | TWord s, p :: r' => if is_sym LP p then match kw_of s with None => Some (s, r') | Some _ => None end else None
  | _, _ => None
  end.

Section Read.
Variable lev : opk -> nat.
Variable top : nat.   (* the loosest level *)

(** [rd l]: an expression whose operators outside parentheses have levels at most [l].
    [loop l a]: the rest of such an expression, [a] being read already.  [atom]: an operand.
    [args]: expressions separated by commas, up to a closing parenthesis. *)
Fixpoint rd (n : nat) (l : nat) (ts : list token) {struct n} : option (tree * list token) :=
  match n with
  | O => None
  | S n => match atom n ts with Some (a, r) => loop n l a r | None => None end
  end
with loop (n : nat) (l : nat) (a : tree) (ts : list token) {struct n} : option (tree * list token) :=
  match n with
  | O => None
  | S n =>
    match peek ts with
    | None => Some (a, ts)
    | Some (k, r) =>
      if Nat.leb (lev k) l then
        match k with
        | KBin o => match rd n (lev k - 1) r with Some (b, r') => loop n l (EBin o a b) r' | None => None end
        | KIs neg => loop n l (EIs neg a) r
        | KIn neg =>
          match r with
          | p :: r1 => if is_sym LP p then match args n r1 with Some (l', r') => loop n l (EIn neg a l') r' | None => None end
                       else None
          | [] => None
          end
        | KBetween neg =>
          match rd n (lev k - 1) r with
          | Some (b, TWord w :: r') =>
            match kw_of w with
            | Some WAnd => match rd n (lev k - 1) r' with Some (c, r'') => loop n l (EBetween neg a b c) r'' | None => None end
            | _ => None
            end
          | _ => None
          end
        | KNot => None
        end
      else Some (a, ts)
    end
  end
with atom (n : nat) (ts : list token) {struct n} : option (tree * list token) :=
  match n with
  | O => None
  | S n =>
    match ts with
    | [] => None
    | t :: r =>
      match call_tok t r with
      | Some (f, r') => match args n r' with Some (l, r'') => Some (ECall f l, r'') | None => None end
      | None =>
        match name_tok t with
        | Some s => let (l, q) := dotted r in Some (ECol (s :: l), q)
        | None =>
          match t with
          | TStr s => Some (EStr s, r)
          | TNum s => Some (EInt (numval s), r)
          | TWord s =>
            match kw_of s with
            | Some WNull => Some (ENull, r)
            | Some WNot => match rd n (lev KNot - 1) r with Some (a, r') => Some (ENot a, r') | None => None end
            | _ => None
            end
          | TSym s =>
            if seqb s (u "*") then Some (EStar, r)
            else if seqb s (u "-") then match atom n r with Some (a, r') => Some (ENeg a, r') | None => None end
            else if seqb s (u "~") then match atom n r with Some (a, r') => Some (EBnot a, r') | None => None end
            else if seqb s LP then
              match rd n top r with
              | Some (a, p :: r') => if is_sym RP p then Some (a, r') else None
              | _ => None
              end
            else None
          | _ => None
          end
        end
      end
    end
  end
with args (n : nat) (ts : list token) {struct n} : option (list tree * list token) :=
  match n with
  | O => None
  | S n =>
    match ts with
    | p :: r =>
      if is_sym RP p then Some ([], r)
      else match rd n top ts with
           | Some (a, q :: r') =>
             if is_sym RP q then Some ([a], r')
             else if is_sym COMMA q then
               match args n r' with
               | Some ([], _) => None
               | Some (l, r'') => Some (a :: l, r'')
               | None => None
               end
             else None
           | _ => None
           end
    | [] => None
    end
  end.
End Read.
