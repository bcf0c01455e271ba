(** Specification: SQL LIKE (binary collation, MySQL escape character backslash), and the
    plain meaning of patterns made of %-separated parts. *)
From Coq Require Import String Ascii List NArith Bool Arith.
From Verif Require Import Base CryptoModel FuzzyModel.
Import ListNotations.

(** [like pat s]: % matches any text, _ any character, backslash quotes the next character. *)
Fixpoint like (pat s : pystr) {struct pat} : bool :=
  match pat with
  | [] => match s with [] => true | _ => false end
  | c :: p =>
    if N.eqb c 37 then
      (fix any (t : pystr) : bool :=
         like p t || match t with [] => false | _ :: t' => any t' end) s
    else if N.eqb c 95 then
      match s with [] => false | _ :: s' => like p s' end
    else if N.eqb c 92 then
      match p with
      | [] => match s with [x] => N.eqb x 92 | _ => false end
      | d :: p' => match s with [] => false | x :: s' => N.eqb d x && like p' s' end
      end
    else match s with [] => false | x :: s' => N.eqb c x && like p s' end
  end.

(** [s] occurs in [v]. *)
Definition substring (s v : pystr) : Prop := exists a b, v = a ++ s ++ b.

(** [p] stands in [s] at position [i]. *)
Definition stands {A} (i : nat) (p s : list A) : Prop := exists a b, s = a ++ p ++ b /\ length a = i.
(** The parts stand in [s] in their order: each non-empty part starts at most [o] places before the end [lo] of the
    non-empty part before it, and the last part ends where [s] ends. *)
Fixpoint laid {A} (o lo : nat) (ps : list (list A)) (s : list A) : Prop :=
  match ps with
  | [] => True
  | p :: qs =>
    (p = [] /\ laid o lo qs s) \/
    (p <> [] /\ exists i, lo <= i + o /\ stands i p s /\
       match qs with [] => i + length p = length s | _ => laid o (i + length p) qs s end)
  end.
(** The same for a whole pattern of parts between percent signs: the first part stands at the start, a pattern without
    percent sign is the text itself. *)
Definition laid_out {A} (o : nat) (ps : list (list A)) (s : list A) : Prop :=
  match ps with
  | [] => False
  | [p] => s = p
  | p :: qs => stands 0 p s /\ laid o (length p) qs s
  end.
(** No end of [p] with at most [o] characters is a beginning of [q]. *)
Definition apart {A} (o : nat) (p q : list A) : Prop :=
  forall x a b, p = a ++ x -> q = x ++ b -> length x <= o -> x = [].
(** Consecutive non-empty parts are apart. *)
Fixpoint all_apart {A} (o : nat) (ps : list (list A)) : Prop :=
  match ps with
  | p :: ((q :: _) as r) => apart o p q /\ all_apart o r
  | _ => True
  end.
Definition nonempty {A} (p : list A) : bool := match p with [] => false | _ => true end.

(** A character that occurs in searchable text: a Unicode scalar other than NUL. *)
Definition textc (c : N) : bool := scalar c && negb (N.eqb c 0).
(** Characters that are not special in a LIKE pattern. *)
Definition plainc (c : N) : bool := negb (N.eqb c 37 || N.eqb c 95 || N.eqb c 92).
(** Patterns the fuzzy column answers exactly for texts of the class [cls] (alphanumeric or not): parts between percent
    signs, empty or at least three plain characters of that class, of which no two consecutive ones may overlap. *)
Definition pattern_ok (alnum : N -> bool) (cls : bool) (ps : list pystr) : Prop :=
  ps <> [] /\
  (forall p, In p ps -> p = [] \/ (3 <= length p /\ forallb textc p = true /\ isalnum alnum p = cls)) /\
  (forall p, In p ps -> forallb plainc p = true) /\
  all_apart (if cls then 2 else 1) (filter nonempty ps).
