(** What the regular expression of an element should match. *)
From Coq Require Import String Ascii List Arith NArith Bool.
From Verif Require Import Base RegexModel PatModel.
Import ListNotations.

(** Elements one after another, the first that matches, repetitions, text up to an element. *)
Fixpoint meaning (e : el) : re :=
  match e with
  | Atom r => r
  | Lit w => word w
  | AndE l => seql (map meaning l)
  | FirstE l => altl (map meaning l)
  | ManyE least most e => repeated least most (meaning e)
  | SkipE _ e => Seq (Lazy (Cls (fun _ => true))) (meaning e)
  | Pat e => meaning e
  end.
(** The same matches, tried in the same order. *)
Definition same (a b : re) : Prop := forall x, ends a x = ends b x.
(** No repetition of a repetition, no empty choice, and bounds in order. *)
Fixpoint fine (e : el) : Prop :=
  match e with
  | Atom _ | Lit _ => True
  | AndE l => fold_right and True (map fine l)
  | FirstE l => l <> [] /\ fold_right and True (map fine l)
  | ManyE least most e => fine e /\ match most with Some m => least <= m | None => True end /\ match e with ManyE _ _ _ => False | _ => True end
  | SkipE _ e | Pat e => fine e
  end.
