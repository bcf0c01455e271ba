(** What a regular expression may match, as a relation of places. *)
From Coq Require Import String Ascii List Arith NArith Bool.
From Verif Require Import Base RegexModel.
Import ListNotations.

Inductive matches : re -> place -> place -> Prop :=
| m_eps x : matches Eps x x
| m_cls p b c t : p c = true -> matches (Cls p) (b, c :: t) (Some c, t)
| m_seq a b x y z : matches a x y -> matches b y z -> matches (Seq a b) x z
| m_left a b x y : matches a x y -> matches (Alt a b) x y
| m_right a b x y : matches b x y -> matches (Alt a b) x y
| m_none a x : matches (Star a) x x
| m_more a x y z : matches a x y -> matches (Star a) y z -> matches (Star a) x z
| m_lazy a x y : matches (Star a) x y -> matches (Lazy a) x y
| m_behind p c t : p c = true -> matches (Behind p) (Some c, t) (Some c, t)
| m_ahead p b c t : p c = true -> matches (Ahead p) (b, c :: t) (b, c :: t).
(** A text with each [q] written twice. *)
Fixpoint double (q : N) (w : pystr) : pystr :=
  match w with [] => [] | c :: w => (if N.eqb c q then [q; q] else [c]) ++ double q w end.
