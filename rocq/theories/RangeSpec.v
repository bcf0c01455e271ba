(** How Python's re reads a pattern for one character: a class in brackets, or the character. *)
From Coq Require Import String Ascii List Arith NArith Bool.
From Verif Require Import Base.
Import ListNotations.

Definition letter_or_digit (c : N) : bool := ((48 <=? c) && (c <=? 57) || (65 <=? c) && (c <=? 90) || (97 <=? c) && (c <=? 122))%N.
(** One character with its escape; escapes with other letters and digits have other meanings and are refused here. *)
Definition read_char (l : pystr) : option (N * pystr) :=
  match l with
  | [] => None
  | c :: r =>
    if N.eqb c 92 then
      match r with
      | [] => None
      | e :: r =>
        if N.eqb e 110 then Some (10%N, r) else if N.eqb e 114 then Some (13%N, r) else if N.eqb e 116 then Some (9%N, r)
        else if letter_or_digit e then None else Some (e, r)
      end
    else Some (c, r)
  end.
(** A minus sign makes a range unless the bracket follows. *)
Definition range_end (l : pystr) : option pystr :=
  match l with a :: b :: r => if N.eqb a 45 && negb (N.eqb b 93) then Some (b :: r) else None | _ => None end.
(** The items of a class up to the closing bracket, which is the end of the pattern.  A bracket at the beginning is a character. *)
Fixpoint read_items (fuel : nat) (first : bool) (l : pystr) : option (list (N * N)) :=
  match fuel, l with
  | S fuel, c :: r =>
    if N.eqb c 93 && negb first then match r with [] => Some [] | _ => None end
    else
      match read_char l with
      | None => None
      | Some (lo, rest) =>
        match range_end rest with
        | Some rest =>
          match read_char rest with
          | Some (hi, rest) => if N.leb lo hi then option_map (cons (lo, hi)) (read_items fuel false rest) else None
          | None => None
          end
        | None => option_map (cons (lo, lo)) (read_items fuel false rest)
        end
      end
  | _, _ => None
  end.
Definition inside (x : list (N * N)) (c : N) : bool := existsb (fun r => (fst r <=? c) && (c <=? snd r))%N x.
(** Characters that mean something else outside brackets. *)
Definition meta (c : N) : bool := existsb (N.eqb c) (u ".^$*?+{}[]|()").
Definition one_char (t : pystr) : option (N -> bool) :=
  match t with
  | [] => None
  | c :: r =>
    if N.eqb c 91 then
      match r with
      | [] => None
      | d :: r' =>
        if N.eqb d 94 then option_map (fun x c => negb (inside x c)) (read_items (length r') true r')
        else option_map inside (read_items (length r) true r)
      end
    else if meta c then None else match read_char t with Some (d, []) => Some (N.eqb d) | _ => None end
  end.
