(** What is said about the parsing engine. *)
From Coq Require Import String Ascii List Arith NArith Bool.
From Verif Require Import Base EngineModel.
Import ListNotations.

(** A text that begins with another one; a capital letter counts as the small one. *)
Definition begins (k t : pystr) : Prop := exists r, t = k ++ r.
Definition small (s : pystr) : pystr := map (fun c => if ((65 <=? c) && (c <=? 90))%N then (c + 32)%N else c) s.
Definition hits (k s : pystr) (i : nat) : Prop := begins (small k) (small (skipn i s)).

(** Alternatives that can be looked up by their keys without a change of their order: when a key [y] is shared by two
    alternatives, an alternative between them that has a key [x] related to [y] has the key [y] as well.  The keys [x] and [y] are related
    when one key [m] begins both. *)
Definition tidy_run (seg : list (list pystr)) : Prop :=
  forall A c B n C a D x y m,
  seg = A ++ c :: B ++ n :: C ++ a :: D ->
  In y c -> In y a -> In x n -> (exists q, In q seg /\ In m q) -> begins m x -> begins m y -> In y n.
(** The condition is for runs of alternatives that have keys. *)
Definition tidy (kss : list (list pystr)) : Prop :=
  forall before seg after, kss = before ++ seg ++ after -> (forall ks, In ks seg -> ks <> []) -> tidy_run seg.

Section Spec.
Context {T : Type}.
(** Neither a loop without end nor an error. *)
Definition settled (o : out T) : Prop := o = Fail \/ exists r e, o = Done r e.

(** The elements of a grammar. *)
Inductive inside : pe T -> pe T -> Prop :=
| inside_self e : inside e e
| inside_and x y l : In y l -> inside x y -> inside x (And l)
| inside_first x y l : In y l -> inside x y -> inside x (First l)
| inside_many x mn mx e : inside x e -> inside x (Many mn mx e)
| inside_opt x e : inside x e -> inside x (Opt e)
| inside_look x e : inside x e -> inside x (Look e)
| inside_not x e : inside x e -> inside x (Not e)
| inside_prim x y f ks m l : In y l -> inside x y -> inside x (Prim f ks m l)
| inside_act x own f e : inside x e -> inside x (Act own f e).

(** Parsers that do the same; one that does the same as another where that one ends without an error; one that does not go back. *)
Definition same (p q : parser T) : Prop := forall s i, p s i = q s i.
Definition follows (p q : parser T) : Prop := forall s i, settled (p s i) -> q s i = p s i.
Definition forward (p : parser T) : Prop := forall s i r j, p s i = Done r j -> i <= j.
(** A parser that begins with one of the keys [ks], if any; [m]: the number of characters that it needs. *)
Definition announces (p : parser T) (ks : list pystr) (m : nat) : Prop :=
  ks <> [] -> forall s i r j, p s i = Done r j -> 0 < m \/ i < j -> exists k, In k ks /\ hits k s i.

(** A grammar that may be simplified: no sequence and no choice of nothing, no repetition of exactly no or exactly one
    element, and no element goes back in the text. *)
Definition plain (e : pe T) : Prop := forall x, inside x e ->
  match x with
  | And l | First l => l <> []
  | Many mn mx _ => mx = Some mn -> mn <> 0 /\ mn <> 1
  | Prim f _ _ _ => (forall ps, (forall p, In p ps -> forward p) -> forward (f ps)) /\
                    (forall ps qs, Forall2 same ps qs -> same (f ps) (f qs))
  | _ => True
  end.
(** No choice stands directly in a choice. *)
Definition merged (e : pe T) : Prop := forall l l', inside (First l) e -> ~ In (First l') l.
(** An action does not take characters for an element that took none; other elements begin with their keys when their parts do. *)
Definition modest (e : pe T) : Prop :=
  (forall own f x r i j s r' j', inside (Act own f x) e -> f r i j s = Done r' j' -> i < j' -> i < j) /\
  (forall f ks m l ps, inside (Prim f ks m l) e -> Forall2 (fun p x => announces p (keys x) (min_length x)) ps l -> announces (f ps) ks m).
(** A grammar whose alternatives may be looked up. *)
Definition good (e : pe T) : Prop :=
  modest e /\
  (forall f ks m l ps qs, inside (Prim f ks m l) e -> Forall2 follows ps qs -> follows (f ps) (f qs)) /\
  forall l, inside (First l) e ->
  (forall x, In x l -> keys x <> [] -> 0 < min_length x) /\
  (forall x k, In x l -> In k (keys x) -> small k = k \/ (length k = 1 /\ In (small k) (keys x))) /\
  tidy (map keys l).
End Spec.
(** White space: the place after it is not before it, and no white space follows. *)
Definition white_space (skip : pystr -> nat -> nat) : Prop :=
  (forall s i, i <= skip s i) /\ (forall s i, skip s (skip s i) = skip s i).

(** A word of a text: in small or capital letters, and no letter, digit, [_] or [$] follows. *)
Definition word_at (w s : pystr) (i : nat) : Prop :=
  hits w s i /\ match skipn (i + length w) s with
                | c :: _ => ~ (48 <= c <= 57 \/ 65 <= c <= 90 \/ 97 <= c <= 122 \/ c = 95 \/ c = 36)%N
                | [] => True
                end.
