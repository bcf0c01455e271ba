(** Where a text could not be parsed: col, lineno, line of parsing/utils.py L310-345 and ParseException of parsing/exceptions.py L13-80, L191-214. *)
From Coq Require Import String Ascii List Arith NArith Bool.
From Verif Require Import Base.
Import ListNotations.

(** str.find and str.rfind of a line feed, and str.count. *)
Fixpoint find_nl (s : pystr) : option nat :=
  match s with [] => None | c :: s => if N.eqb c 10 then Some 0 else option_map S (find_nl s) end.
Fixpoint rfind_nl (s : pystr) : option nat :=
  match s with [] => None | c :: s => match rfind_nl s with Some i => Some (S i) | None => if N.eqb c 10 then Some 0 else None end end.
Definition count_nl (s : pystr) : nat := length (filter (N.eqb 10) s).

(** col, L310-322. *)
Definition col (loc : nat) (s : pystr) : nat :=
  if Nat.ltb 0 loc && Nat.ltb loc (length s) && N.eqb (nth (loc - 1) s 0%N) 10 then 1
  else match rfind_nl (firstn loc s) with Some i => loc - i | None => loc + 1 end.
(** lineno, L325-335. *)
Definition lineno (loc : nat) (s : pystr) : nat := count_nl (firstn loc s) + 1.
(** line, L338-345. *)
Definition line (loc : nat) (s : pystr) : pystr :=
  let from := match rfind_nl (firstn loc s) with Some i => i + 1 | None => 0 end in
  match find_nl (skipn loc s) with
  | Some j => firstn (loc + j - from) (skipn from s)
  | None => skipn from s
  end.

(** A cause: an exception of another class, or a ParseException (L13-29): the elements that it names as expected, whether its element has a
    name, start, whether it has a message, its causes in the order given.  Simplified: an element is a number, the text is left out. *)
Inductive exc : Type :=
| Foreign
| Failed (what : list nat) (named : bool) (start : nat) (msg : bool) (causes : list exc).

(** sort_causes, L191-214: sorted with compare_causes; what it compares is the class, loc and _msg.  sorted asks only whether
    compare_causes(a, b) < 0. *)
Definition rank := option (nat * bool).
Definition before (a b : rank) : bool :=
  match a, b with
  | Some (l, m), Some (l', m') => if Nat.ltb l l' then false else if Nat.ltb l' l then true else if m' then false else m
  | Some _, None => false
  | None, Some _ => true
  | None, None => false
  end.
Fixpoint place {A} (x : rank * A) (l : list (rank * A)) : list (rank * A) :=
  match l with [] => [x] | y :: r => if before (fst y) (fst x) then y :: place x r else x :: l end.
Definition sort_causes {A} (l : list (rank * A)) : list (rank * A) := fold_right place [] l.
(** loc, L72-80. *)
Definition has_msg (e : exc) : bool := match e with Foreign => false | Failed _ _ _ m _ => m end.
Fixpoint loc (e : exc) : nat :=
  match e with
  | Foreign => 0
  | Failed _ _ start _ causes =>
    match sort_causes (map (fun c => (match c with Foreign => None | Failed _ _ _ m _ => Some (loc c, m) end, tt)) causes) with
    | (Some (l, _), _) :: _ => l
    | _ => start
    end
  end.
Definition rank_of (e : exc) : rank := match e with Foreign => None | Failed _ _ _ m _ => Some (loc e, m) end.
(** best_cause, L43-66; the element made of those that are expected at the furthest place has no name. *)
Definition start_of (e : exc) : nat := match e with Foreign => 0 | Failed _ _ s _ _ => s end.
Definition what_of (e : exc) : list nat := match e with Foreign => [] | Failed w _ _ _ _ => w end.
Definition is_failed (e : exc) : bool := match e with Foreign => false | _ => true end.
Definition sorted_by_rank (l : list exc) : list exc := map snd (sort_causes (map (fun c => (rank_of c, c)) l)).
Fixpoint best_cause (e : exc) : exc :=
  match e with
  | Foreign => Foreign
  | Failed what named start msg causes =>
    match sorted_by_rank (filter is_failed (map snd (sort_causes (map (fun c => (rank_of c, best_cause c)) causes)))) with
    | [] => e
    | b0 :: r =>
      if named && Nat.leb (start_of b0) start then e
      else match r with
           | [] => b0
           | _ => Failed (flat_map what_of (filter (fun b => Nat.eqb (loc b) (loc b0)) (b0 :: r))) false (start_of b0) (has_msg b0) (b0 :: r)
           end
    end
  end.
