(** What is said about white space. *)
From Coq Require Import String Ascii List Arith NArith Bool.
From Verif Require Import Base EngineModel EngineSpec WhiteModel.
Import ListNotations.

Section Gap.
Variable ws : pystr.                 (* the characters of white space *)
Variable gs : list ignored.          (* the comments *)
(** A text that begins with a comment: to the end of its line, or up to a closing text. *)
Definition commented (r : pystr) : Prop :=
  (exists p t, In (Line p) gs /\ r = p ++ t) \/ (exists p q b t, In (Block p q) gs /\ r = p ++ b ++ q ++ t).
(** [gap g r]: white space and comments [g], all of them, before [r]. *)
Inductive gap : pystr -> pystr -> Prop :=
| gap_end r : (forall c t, r = c :: t -> ~ In c ws) -> ~ commented r -> gap [] r
| gap_white c g r : In c ws -> gap g r -> gap (c :: g) r
| gap_line p b g r : In (Line p) gs -> ~ In 10%N b -> (g ++ r = [] \/ exists t, g ++ r = 10%N :: t) -> gap g r -> gap (p ++ b ++ g) r
| gap_block p q b g r : In (Block p q) gs ->
    (forall x y, b ++ q ++ g ++ r = x ++ q ++ y -> length b <= length x) -> gap g r -> gap (p ++ b ++ q ++ g) r.
(** The place [j] of the text [s] is the one after the white space at [i]. *)
Definition after_gap (s : pystr) (i j : nat) : Prop := exists g r, skipn i s = g ++ r /\ j = i + length g /\ gap g r.
End Gap.

(** No comment begins with nothing. *)
Definition opening (g : ignored) : pystr := match g with Line p => p | Block p _ => p end.
Definition proper (c : op) : Prop := match c with Ignore gs => forall g, In g gs -> opening g <> [] | _ => True end.
(** The last setting of white space; the comments, the first of each call. *)
Fixpoint last_white (ws : pystr) (l : list op) : pystr :=
  match l with SetWhite ws' :: l => last_white ws' l | _ :: l => last_white ws l | [] => ws end.
Definition first_ignored (l : list op) : list ignored := flat_map (fun c => match c with Ignore (g :: _) => [g] | _ => [] end) l.
