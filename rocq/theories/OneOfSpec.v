(** How Python's re reads and runs a pattern of alternatives made of characters, the last of which may be a class in brackets. *)
From Coq Require Import String Ascii List Arith NArith Bool.
From Verif Require Import Base RangeSpec.
Import ListNotations.

(** A character after a backslash. *)
Definition escaped (e : N) : option N :=
  if N.eqb e 110 then Some 10%N else if N.eqb e 114 then Some 13%N else if N.eqb e 116 then Some 9%N else if letter_or_digit e then None else Some e.
Fixpoint read_alts (cur : list (N -> bool)) (l : pystr) : option (list (list (N -> bool))) :=
  match l with
  | [] => Some [cur]
  | c :: r =>
    if N.eqb c 92 then
      match r with
      | [] => None
      | e :: r => match escaped e with Some d => read_alts (cur ++ [N.eqb d]) r | None => None end
      end
    else if N.eqb c 124 then option_map (cons cur) (read_alts [] r)
    else if N.eqb c 91 then match cur, one_char l with [], Some f => Some [[f]] | _, _ => None end
    else if meta c then None
    else read_alts (cur ++ [N.eqb c]) r
  end.
Fixpoint takes (a : list (N -> bool)) (t : pystr) : bool :=
  match a, t with [], _ => true | f :: a, c :: t => f c && takes a t | _ :: _, [] => false end.
(** The first alternative that matches at the beginning of the text: how many characters it takes. *)
Definition run (alts : list (list (N -> bool))) (t : pystr) : option nat := option_map (@length _) (find (fun a => takes a t) alts).

(** Of the texts that begin t, one of the longest has length n. *)
Definition begins_with (same : N -> N -> Prop) (s t : pystr) : Prop := exists p r, t = p ++ r /\ Forall2 same s p.
Definition longest (same : N -> N -> Prop) (symbols : list pystr) (t : pystr) (found : option nat) : Prop :=
  match found with
  | Some n => (exists s, In s symbols /\ length s = n /\ begins_with same s t) /\ forall s, In s symbols -> begins_with same s t -> length s <= n
  | None => forall s, In s symbols -> ~ begins_with same s t
  end.
(** Letters of ASCII in either case. *)
Definition same_letter (c d : N) : Prop := c = d \/ (exists k, k < 26 /\ (c = 65 + k /\ d = 97 + k \/ c = 97 + k /\ d = 65 + k))%N.
