(** Statements with their values replaced: Generalizator.generalize of scheduler/compile/generalizator.py L53-92.  Simplified: without_comments
    (sqlparse.format) is the given text, _normalize_likes is any function. *)
From Coq Require Import String Ascii List Arith NArith Bool.
From Verif Require Import Base.
Import ListNotations.

(** \s and str.strip: white space of Unicode. *)
Definition space (c : N) : bool :=
  ((9 <=? c) && (c <=? 13) || (28 <=? c) && (c <=? 32) || (8192 <=? c) && (c <=? 8202) ||
   existsb (N.eqb c) [133; 160; 5760; 8232; 8233; 8239; 8287; 12288])%N.
Definition digit (c : N) : bool := ((48 <=? c) && (c <=? 57))%N.
(** re.sub of a pair of characters by nothing, L75-77. *)
Fixpoint remove2 (x y : N) (s : pystr) : pystr :=
  match s with
  | c :: ((d :: r) as t) => if N.eqb c x && N.eqb d y then remove2 x y r else c :: remove2 x y t
  | _ => s
  end.
(** re.sub(r"'[^\']*'", "X", sql), L78, and the same for double quotes, L79: what came after an opening quote is kept until the next. *)
Fixpoint quoted (q : N) (open : option pystr) (s : pystr) : pystr :=
  match s with
  | [] => match open with Some acc => q :: acc | None => [] end
  | c :: s =>
    match open with
    | None => if N.eqb c q then quoted q (Some []) s else c :: quoted q None s
    | Some acc => if N.eqb c q then u "X" ++ quoted q None s else quoted q (Some (acc ++ [c])) s
    end
  end.
(** re.sub(r"\s+", " ", sql), L82. *)
Fixpoint spaces (prev : bool) (s : pystr) : pystr :=
  match s with
  | [] => []
  | c :: s => if space c then (if prev then [] else [32%N]) ++ spaces true s else c :: spaces false s
  end.
(** re.sub(r"\s{2,}", " ", sql), L70: a single one is kept; the run is that of the white space just read. *)
Definition flush (run : pystr) : pystr := match run with _ :: _ :: _ => [32%N] | _ => run end.
Fixpoint spaces2 (run : pystr) (s : pystr) : pystr :=
  match s with
  | [] => flush run
  | c :: s => if space c then spaces2 (run ++ [c]) s else flush run ++ c :: spaces2 [] s
  end.
(** re.sub(r"-?[0-9]+", "N", sql), L85. *)
Inductive nstate := NText | NMinus | NNumber.
Fixpoint numbers (st : nstate) (s : pystr) : pystr :=
  match s with
  | [] => match st with NMinus => u "-" | _ => [] end
  | c :: s =>
    if digit c then match st with NNumber => numbers NNumber s | _ => u "N" ++ numbers NNumber s end
    else (match st with NMinus => u "-" | _ => [] end) ++ (if N.eqb c 45 then numbers NMinus s else c :: numbers NText s)
  end.
(** re.sub(r" (IN|VALUES)\s*\([^,]+,[^)]+\)", " \\1 (XYZ)", sql, flags=re.IGNORECASE), L88-90.  Simplified: letters of ASCII. *)
Definition up (c : N) : N := if ((97 <=? c) && (c <=? 122))%N then (c - 32)%N else c.
Fixpoint word (w s : pystr) : option (pystr * pystr) :=
  match w, s with
  | [], _ => Some ([], s)
  | a :: w, c :: s => if N.eqb (up c) a then option_map (fun p => (c :: fst p, snd p)) (word w s) else None
  | _ :: _, [] => None
  end.
Fixpoint drop_spaces (s : pystr) : pystr := match s with c :: t => if space c then drop_spaces t else s | [] => [] end.
(** [^x]+x: what follows. *)
Fixpoint past (x : N) (some : bool) (s : pystr) : option pystr :=
  match s with [] => None | c :: s => if N.eqb c x then (if some then Some s else None) else past x true s end.
Definition list_end (s : pystr) : option pystr :=
  match drop_spaces s with
  | c :: s => if N.eqb c 40 then match past 44 false s with Some s => past 41 false s | None => None end else None
  | [] => None
  end.
Definition listed (w s : pystr) : option (pystr * pystr) :=
  match word w s with Some (m, r) => option_map (pair m) (list_end r) | None => None end.
Fixpoint lists (fuel : nat) (s : pystr) : pystr :=
  match fuel, s with
  | S fuel, c :: s =>
    if N.eqb c 32 then
      match (match listed (u "IN") s with Some p => Some p | None => listed (u "VALUES") s end) with
      | Some (m, r) => u " " ++ m ++ u " (XYZ)" ++ lists fuel r
      | None => c :: lists fuel s
      end
    else c :: lists fuel s
  | _, _ => s
  end.
(** str.strip, L92. *)
Definition strip (s : pystr) : pystr := rev (drop_spaces (rev (drop_spaces s))).
(** What comes after _normalize_likes, L75-92. *)
Definition hide (s : pystr) : pystr :=
  let s := remove2 92 34 (remove2 92 39 (remove2 92 92 s)) in
  let s := numbers NText (spaces false (quoted 34 None (quoted 39 None s))) in
  strip (lists (length s) s).
(** generalize, L53-92, of a statement that is not empty; L67: all double quotes are removed. *)
Definition generalize (likes : pystr -> pystr) (s : pystr) : pystr := hide (likes (spaces2 [] (filter (fun c => negb (N.eqb c 34)) s))).
