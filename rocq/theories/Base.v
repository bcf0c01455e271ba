(** Common vocabulary of the model: Python values and exceptions.

    Nothing here models a particular function of /repo; the definitions are the
    fragment of Python's own library that the modelled code calls (str, dict,
    int, list slicing).  Each comment names the Python operation and one place in
    /repo that uses it. *)
From Coq Require Import String Ascii Decimal DecimalZ List NArith ZArith Bool.
From Coq Require Import Init.Byte.
Import ListNotations.

(** Python exceptions that the modelled code raises or lets escape.  The
    constructor is the exception class; the message is dropped.
    [Generic] is [raise Exception(...)] (scheduler/handers/clause/sql_where.py L65),
    the OPE classes are scheduler/crypto/ope/errors used in ope.py L8-14 and stat.py. *)
Inductive exn : Type :=
| KeyError | TypeError | ValueError | IndexError | AttributeError | AssertionError
| ZeroDivisionError | UnicodeError | NotImplementedErr | Generic
| OutOfRange | InvalidCiphertext | InvalidRangeLimits | NotEnoughCoins | InvalidCoin
| DbError | OutOfFuel.

(** A Python computation either returns a value or raises. *)
Inductive res (A : Type) : Type := Ok (a : A) | Err (e : exn).
Arguments Ok {A} a.
Arguments Err {A} e.

Definition bind {A B} (x : res A) (f : A -> res B) : res B :=
  match x with Ok a => f a | Err e => Err e end.
Notation "'do' x <- m ; f" := (bind m (fun x => f))
  (at level 200, x name, m at level 100, f at level 200, right associativity).
Notation "'do' ' p <- m ; f" := (bind m (fun x => match x with p => f end))
  (at level 200, p strict pattern, m at level 100, f at level 200, right associativity).

(** List comprehension whose body may raise: [[f(x) for x in l]]
    (e.g. scheduler/handers/clause/sql_where.py L52). *)
Section MapM.
Context {A B : Type} (f : A -> res B).
Fixpoint mapM (l : list A) : res (list B) :=
  match l with
  | [] => Ok []
  | x :: r => do y <- f x; do ys <- mapM r; Ok (y :: ys)
  end.
End MapM.

(** Python [str]: a list of code points. *)
Definition pystr := list N.

(** Literals: [u "abc"]. *)
Fixpoint u (s : string) : pystr :=
  match s with
  | EmptyString => []
  | String a r => N_of_ascii a :: u r
  end.

(** [==] on str. *)
Fixpoint seqb (a b : pystr) : bool :=
  match a, b with
  | [], [] => true
  | x :: a', y :: b' => N.eqb x y && seqb a' b'
  | _, _ => false
  end.

(** [x in [s1, s2, ...]] on lists of str. *)
Definition smem (x : pystr) (l : list pystr) : bool := existsb (seqb x) l.

(** Python [dict] with str keys, in insertion order. *)
Definition dict (V : Type) := list (pystr * V).

(** [d.get(k)] as an option; [d[k]] is [dgetE]. *)
Fixpoint dget {V} (d : dict V) (k : pystr) : option V :=
  match d with
  | [] => None
  | (k', v) :: r => if seqb k k' then Some v else dget r k
  end.

(** [d[k]]: raises KeyError when absent. *)
Definition dgetE {V} (d : dict V) (k : pystr) : res V :=
  match dget d k with Some v => Ok v | None => Err KeyError end.

(** [d[k] = v]: replaces in place, or appends. *)
Fixpoint dset {V} (d : dict V) (k : pystr) (v : V) : dict V :=
  match d with
  | [] => [(k, v)]
  | (k', v') :: r => if seqb k k' then (k', v) :: r else (k', v') :: dset r k v
  end.

(** [d.update(e)]. *)
Definition dupdate {V} (d e : dict V) : dict V :=
  fold_left (fun acc kv => dset acc (fst kv) (snd kv)) e d.

(** [d.pop(k, None)] (state part). *)
Fixpoint dpop {V} (d : dict V) (k : pystr) : dict V :=
  match d with
  | [] => []
  | (k', v) :: r => if seqb k k' then r else (k', v) :: dpop r k
  end.

Definition dkeys {V} (d : dict V) : list pystr := map fst d.
Definition dvals {V} (d : dict V) : list V := map snd d.
Definition dmem {V} (d : dict V) (k : pystr) : bool :=
  match dget d k with Some _ => true | None => false end.

(** [s.rstrip(c)] for a one-character argument
    (scheduler/crypto/encrypt.py L175, sql_parsing/__init__.py L81). *)
Fixpoint rstrip (c : N) (s : pystr) : pystr :=
  match s with
  | [] => []
  | x :: r => match rstrip c r with
              | [] => if N.eqb x c then [] else [x]
              | r' => x :: r'
              end
  end.

(** [s.split(c)] for a one-character separator (sql_where.py L57, rewriter.py L10). *)
Fixpoint split (c : N) (s : pystr) : list pystr :=
  match s with
  | [] => [[]]
  | x :: r => if N.eqb x c then [] :: split c r
              else match split c r with
                   | [] => [[x]]
                   | p :: ps => (x :: p) :: ps
                   end
  end.

(** [sep.join(l)] (sql_where.py L68, table.py L137). *)
Fixpoint join (sep : pystr) (l : list pystr) : pystr :=
  match l with
  | [] => []
  | [x] => x
  | x :: r => x ++ sep ++ join sep r
  end.

(** [sub in s] for one character: [c in s]. *)
Definition has_char (c : N) (s : pystr) : bool := existsb (N.eqb c) s.

(** [str(n)] and [int(s)] for integers, in decimal.  [parse_int] accepts exactly
    an optional '-' followed by decimal digits; Python's [int] also accepts
    surrounding blanks, '+' and '_' separators, which the model leaves out
    (it answers ValueError there). *)
Fixpoint uint_chars (d : uint) : pystr :=
  match d with
  | Nil => []
  | D0 r => 48%N :: uint_chars r
  | D1 r => 49%N :: uint_chars r
  | D2 r => 50%N :: uint_chars r
  | D3 r => 51%N :: uint_chars r
  | D4 r => 52%N :: uint_chars r
  | D5 r => 53%N :: uint_chars r
  | D6 r => 54%N :: uint_chars r
  | D7 r => 55%N :: uint_chars r
  | D8 r => 56%N :: uint_chars r
  | D9 r => 57%N :: uint_chars r
  end.

Definition str_int (z : Z) : pystr :=
  match Z.to_int z with
  | Pos d => uint_chars d
  | Neg d => 45%N :: uint_chars d
  end.

Fixpoint parse_uint (s : pystr) : option uint :=
  match s with
  | [] => Some Nil
  | c :: r =>
    match parse_uint r with
    | None => None
    | Some d =>
      (if N.eqb c 48 then Some (D0 d) else
       if N.eqb c 49 then Some (D1 d) else
       if N.eqb c 50 then Some (D2 d) else
       if N.eqb c 51 then Some (D3 d) else
       if N.eqb c 52 then Some (D4 d) else
       if N.eqb c 53 then Some (D5 d) else
       if N.eqb c 54 then Some (D6 d) else
       if N.eqb c 55 then Some (D7 d) else
       if N.eqb c 56 then Some (D8 d) else
       if N.eqb c 57 then Some (D9 d) else None)%N
    end
  end.

Definition parse_int (s : pystr) : res Z :=
  match s with
  | [] => Err ValueError
  | c :: r =>
    if N.eqb c 45
    then match r with
         | [] => Err ValueError
         | _ => match parse_uint r with
                | Some d => Ok (Z.of_int (Neg d)) | None => Err ValueError end
         end
    else match parse_uint s with
         | Some d => Ok (Z.of_int (Pos d)) | None => Err ValueError end
  end.
