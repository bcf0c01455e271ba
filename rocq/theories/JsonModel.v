(** Parsed statements.  sql_parsing.parse (sql_parsing/__init__.py L42-54) returns nested Python
    dicts, lists, strings and numbers; the parser itself is not modelled.  Dicts keep their
    insertion order. *)
From Coq Require Import String Ascii List NArith ZArith QArith Bool.
From Verif Require Import Base.
Import ListNotations.

Inductive json : Type :=
| JNull
| JBool (b : bool)
| JInt (z : Z)
| JFloat (q : Q)
| JStr (s : pystr)
| JList (l : list json)
| JDict (d : list (pystr * json)).

(** Induction through lists and dicts. *)
Section JsonInd.
  Variable P : json -> Prop.
  Hypothesis Hnull : P JNull.
  Hypothesis Hbool : forall b, P (JBool b).
  Hypothesis Hint : forall z, P (JInt z).
  Hypothesis Hfloat : forall q, P (JFloat q).
  Hypothesis Hstr : forall s, P (JStr s).
  Hypothesis Hlist : forall l, Forall P l -> P (JList l).
  Hypothesis Hdict : forall d, Forall (fun kv => P (snd kv)) d -> P (JDict d).
  Fixpoint json_ind2 (j : json) : P j :=
    match j with
    | JNull => Hnull
    | JBool b => Hbool b
    | JInt z => Hint z
    | JFloat q => Hfloat q
    | JStr s => Hstr s
    | JList l => Hlist l ((fix go l := match l return Forall P l with
                                       | [] => Forall_nil _
                                       | x :: r => Forall_cons _ (json_ind2 x) (go r)
                                       end) l)
    | JDict d => Hdict d ((fix go d := match d return Forall (fun kv => P (snd kv)) d with
                                       | [] => Forall_nil _
                                       | kv :: r => Forall_cons _ (json_ind2 (snd kv)) (go r)
                                       end) d)
    end.
End JsonInd.

(** [v[i]] with a non-negative index: lists and strings; a dict has no integer key. *)
Definition index (v : json) (i : nat) : res json :=
  match v with
  | JList l => match nth_error l i with Some x => Ok x | None => Err IndexError end
  | JStr s => match nth_error s i with Some c => Ok (JStr [c]) | None => Err IndexError end
  | JDict _ => Err KeyError
  | _ => Err TypeError
  end.

(** [v[k]] with a string key. *)
Definition getitem (v : json) (k : pystr) : res json :=
  match v with
  | JDict d => dgetE d k
  | _ => Err TypeError
  end.

(** [d[k]] on a Python dict with string keys, [k] an arbitrary parsed value: lists and dicts are
    not hashable, other values are simply not found. *)
Definition lookup {V} (d : dict V) (k : json) : res V :=
  match k with
  | JStr s => dgetE d s
  | JList _ | JDict _ => Err TypeError
  | _ => Err KeyError
  end.

(** Iterating over a value: list elements, characters, keys. *)
Definition iter (v : json) : res (list json) :=
  match v with
  | JList l => Ok l
  | JStr s => Ok (map (fun c => JStr [c]) s)
  | JDict d => Ok (map (fun kv => JStr (fst kv)) d)
  | _ => Err TypeError
  end.

(** [sub in s] on strings. *)
Fixpoint prefixb (p s : pystr) : bool :=
  match p, s with
  | [], _ => true
  | x :: p', y :: s' => N.eqb x y && prefixb p' s'
  | _, [] => false
  end.
Fixpoint substrb (p s : pystr) : bool :=
  prefixb p s || match s with [] => false | _ :: s' => substrb p s' end.

(** [k in v] with a string [k]: key of a dict, element of a list, part of a string. *)
Definition contains (v : json) (k : pystr) : res bool :=
  match v with
  | JDict d => Ok (dmem d k)
  | JStr s => Ok (substrb k s)
  | JList l => Ok (existsb (fun x => match x with JStr s => seqb s k | _ => false end) l)
  | _ => Err TypeError
  end.

Definition DOT : N := 46%N. (* . *)

(** A cell of a result set (decrypt_handler.py L24-37).  Simplification: Decimal and float cells
    are rationals; datetime cells (formatted at L31-32) are left out. *)
Inductive sqlv := VNull | VInt (z : Z) | VFloat (q : Q) | VStr (s : pystr).
