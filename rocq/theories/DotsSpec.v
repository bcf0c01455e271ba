(** * Specification vocabulary for dotted names *)
From Coq Require Import List NArith ZArith Bool.
From Verif Require Import Base DotsModel.
Import ListNotations.

Definition free (c : N) (s : pystr) : Prop := ~ In c s.

(** Free of the two control characters the code uses as marks. *)
Definition plain (s : pystr) : Prop := free BEL s /\ free BS s.

(** Steps to the parent followed by plain names, where: without steps to the parent
    a single name is not empty and the first two names are not both empty; after steps to the
    parent there is a name, and the first of several is not empty. *)
Definition good_path (p : list step) : Prop :=
  exists n names, p = repeat Up n ++ map Name names /\ Forall plain names /\
    match n with
    | O => match names with [] => True | [x] => x <> [] | x :: y :: _ => x <> [] \/ y <> [] end
    | S _ => match names with [] => False | [x] => True | x :: _ => x <> [] end
    end.
