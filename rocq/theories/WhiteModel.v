(** White space of the parsing engine: Whitespace of parsing/whitespaces.py, as sql_parsing/sql_parser.py L73-76 uses it, and parse_string.

    Simplifications.  What is ignored is a beginning and the rest of the line, or a beginning, anything and an end, as in sql_parser.py L74-76.
    The regular expression (?:W*(?:I))*W* of L165-173 is run without going back; it never has to when no beginning of something ignored
    begins with white space.  Backup, L184-196, is used nowhere and left out; so is the error of re.compile for white space of no characters with something
    ignored. *)
From Coq Require Import String Ascii List Arith NArith Bool.
From Verif Require Import Base EngineModel EngineSqlModel.
Import ListNotations.

(** What is ignored, sql_parser.py L74-76: Literal(p) + restOfLine (helpers.py L790), Literal(p) + SkipTo(q, include=True). *)
Inductive ignored := Line (p : pystr) | Block (p q : pystr).
(** .*?q, enhancement.py L504-508, with re.DOTALL: the number of characters before [q]. *)
Fixpoint until (q l : pystr) : option nat :=
  if startswith l q then Some 0 else match l with [] => None | _ :: r => option_map S (until q r) end.
(** The regular expression of what is ignored, expressions.py L307-308, whitespaces.py L172. *)
Definition match_one (g : ignored) (l : pystr) : option nat :=
  match g with
  | Line p => if startswith l p then Some (length p + span (fun c => negb (N.eqb c 10)) (skipn (length p) l)) else None
  | Block p q =>
    if startswith l p then option_map (fun k => length p + (k + length q)) (until q (skipn (length p) l)) else None
  end.
Fixpoint match_any (gs : list ignored) (l : pystr) : option nat :=
  match gs with [] => None | g :: gs => match match_one g l with Some k => Some k | None => match_any gs l end end.
(** regex.match, whitespaces.py L158, L165-173: the number of characters; [n] bounds the turns of the loop. *)
Fixpoint match_white (ws : pystr) (gs : list ignored) (n : nat) (l : pystr) : nat :=
  match n with
  | O => 0
  | S n' =>
    let w := span (fun c => existsb (N.eqb c) ws) l in let r := skipn w l in
    match match_any gs r with Some k => w + (k + match_white ws gs n' (skipn k r)) | None => w end
  end.
Definition regex_match (ws : pystr) (gs : list ignored) (l : pystr) : nat := match_white ws gs (S (length l)) l.

(** Whitespace, L20-34.  A text is an object, by its number; [skips]: what is remembered of the text [content], [None] for -1. *)
Record engine := { white_chars : pystr; ignore_list : list ignored; content : option nat; skips : list (option nat) }.
(** Whitespace(white), L20-34; set_whitespace, L109-114. *)
Definition new (ws : pystr) : engine := {| white_chars := ws; ignore_list := []; content := None; skips := [] |}.
Definition set_whitespace (ws : pystr) (e : engine) : engine :=
  {| white_chars := ws; ignore_list := ignore_list e; content := None; skips := skips e |}.
(** add_ignore, L116-127: returns in the first turn of its loop. *)
Definition add_ignore (gs : list ignored) (e : engine) : engine :=
  match gs with
  | [] => e
  | g :: _ => {| white_chars := white_chars e; ignore_list := ignore_list e ++ [g]; content := None; skips := skips e |}
  end.
(** copy, L36-49, which __enter__, L51-57, puts in place of the engine. *)
Definition copy (e : engine) : engine :=
  {| white_chars := white_chars e; ignore_list := ignore_list e; content := None; skips := [] |}.
(** skip, L137-163.  [text o]: the characters of the text [o]. *)
Definition set_nth (i : nat) (x : option nat) (l : list (option nat)) : list (option nat) := firstn i l ++ x :: skipn (S i) l.
Section Skip.
Variable text : nat -> pystr.
Definition skip (o start : nat) (e : engine) : engine * nat :=
  match ignore_list e, white_chars e with
  | [], [] => (e, start)
  | _, _ =>
    let work (e : engine) :=
      let en := start + regex_match (white_chars e) (ignore_list e) (skipn start (text o)) in
      ({| white_chars := white_chars e; ignore_list := ignore_list e; content := content e; skips := set_nth start (Some en) (skips e) |}, en) in
    if match content e with Some o' => o =? o' | None => false end then
      match nth_error (skips e) start with
      | None => (e, start)                                  (* IndexError *)
      | Some (Some en) => (e, en)
      | Some None => work e
      end
    else
      let e := {| white_chars := white_chars e; ignore_list := ignore_list e; content := Some o; skips := repeat None (length (text o)) |} in
      if length (text o) <=? start then (e, start) else work e
  end.

(** Calls of an engine. *)
Inductive op := SetWhite (ws : pystr) | Ignore (gs : list ignored) | Enter | Skip (o start : nat).
Definition step (e : engine) (c : op) : engine :=
  match c with
  | SetWhite ws => set_whitespace ws e
  | Ignore gs => add_ignore gs e
  | Enter => copy e
  | Skip o i => fst (skip o i e)
  end.
End Skip.

(** The engine of the SQL grammar, sql_parser.py L73-76, and what its [skip] finds when it remembers nothing. *)
Definition sql_ignored : list ignored := [Line (u "--"); Line (u "#"); Block (u "/*") (u "*/")].
Definition sql_engine : engine := fold_left (fun e g => add_ignore [g] e) sql_ignored (copy (new [9; 10; 13; 32]%N)).
Definition skip_of (ws : pystr) (gs : list ignored) (s : pystr) (i : nat) : nat := i + regex_match ws gs (skipn i s).
Definition sql_skip : pystr -> nat -> nat := skip_of [9; 10; 13; 32]%N sql_ignored.

(** parse_string with parse_all, core.py L144-162; StringEnd, tokens.py L705-715. *)
Fixpoint newlines (l : pystr) : pystr :=
  match l with
  | 10%N :: r => newlines r
  | 13%N :: r => match r with 10%N :: r' => newlines r' | _ => l end
  | _ => l
  end.
Definition string_end (s : pystr) (i : nat) : bool := (length s <=? i) || match newlines (skipn i s) with [] => true | _ => false end.
Definition parse_string {T} (skip : pystr -> nat -> nat) (p : parser T) (s : pystr) : out T :=
  match p s (skip s 0) with Done r j => if string_end s (skip s j) then Done r j else Fail | x => x end.
