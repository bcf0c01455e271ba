(** String literals and quoted identifiers of the SQL parser: to_string and unquote,
    sql_parsing/utils.py L569-588, and the regular expressions L611-617.

    ast.literal_eval is Python's: a short string literal, read here as the Python reference manual
    (section String and Bytes literals) says.  Simplifications: what Python makes of a text in
    which something follows the first string literal (a comment, a second literal, an operator) is the
    parameter [more] of the value and the text that follows; \N{...} is the parameter [uname] (the character with
    that name, if any).  A lone surrogate cannot be encoded, and a NUL is refused: both are errors. *)
From Coq Require Import String Ascii List NArith ZArith Bool.
From Verif Require Import Base JsonModel.
Import ListNotations.
Open Scope N_scope.

(** The rest of a match of [q(qq|[^q])*q] (L611-617) after the first [q]: the text between the quotes and what
    follows the match.  The pattern is greedy, and gives a pair of quotes back if no closing one comes. *)
Fixpoint regex_quoted (q : N) (s : pystr) : option (pystr * pystr) :=
  match s with
  | [] => None
  | c :: r =>
    if c =? q then
      match r with
      | d :: r' =>
        if d =? q then match regex_quoted q r' with Some (a, b) => Some (q :: q :: a, b) | None => Some ([], r) end
        else Some ([], r)
      | [] => Some ([], [])
      end
    else match regex_quoted q r with Some (a, b) => Some (c :: a, b) | None => None end
  end.

(** [s.replace(cc, t)] for two equal characters, L572-578, L587. *)
Fixpoint replace_pair (c : N) (t : pystr) (s : pystr) : pystr :=
  match s with
  | [] => []
  | x :: r =>
    match r with
    | y :: r' => if (x =? c) && (y =? c) then t ++ replace_pair c t r' else x :: replace_pair c t r
    | [] => [x]
    end
  end.
(** [s.replace(c, t)] for one character, L576, L578, L581. *)
Definition replace_char (c : N) (t : pystr) (s : pystr) : pystr := flat_map (fun x => if x =? c then t else [x]) s.

(** ** Python string literals (called at L581 and L588) *)
(** The digits (part of ast.literal_eval, called in sql_parsing/utils.py L581, L588). *)
Definition octal (c : N) : option N := if (48 <=? c) && (c <=? 55) then Some (c - 48) else None.
Definition hex (c : N) : option N :=
  if (48 <=? c) && (c <=? 57) then Some (c - 48)
  else if (97 <=? c) && (c <=? 102) then Some (c - 87)
  else if (65 <=? c) && (c <=? 70) then Some (c - 55) else None.
(** Exactly [n] hexadecimal digits (part of ast.literal_eval, called in sql_parsing/utils.py L581, L588). *)
Fixpoint hex_digits (n : nat) (acc : N) (s : pystr) : option (N * pystr) :=
  match n with
  | O => Some (acc, s)
  | S m => match s with c :: r => match hex c with Some d => hex_digits m (16 * acc + d) r | None => None end | [] => None end
  end.
(** Up to [n] further octal digits (part of ast.literal_eval, called in sql_parsing/utils.py L581, L588). *)
Fixpoint octal_digits (n : nat) (acc : N) (s : pystr) : N * pystr :=
  match n with
  | O => (acc, s)
  | S m => match s with c :: r => match octal c with Some d => octal_digits m (8 * acc + d) r | None => (acc, s) end | [] => (acc, s) end
  end.
(** One-character escapes (part of ast.literal_eval, called in sql_parsing/utils.py L581, L588). *)
Definition py_escape (c : N) : option pystr :=
  if (c =? 92) || (c =? 39) || (c =? 34) then Some [c]
  else if c =? 97 then Some [7] else if c =? 98 then Some [8] else if c =? 102 then Some [12] else if c =? 110 then Some [10]
  else if c =? 114 then Some [13] else if c =? 116 then Some [9] else if c =? 118 then Some [11]
  else if c =? 10 then Some [] else None.
(** Code points that cannot be encoded (part of ast.literal_eval, called in sql_parsing/utils.py L581, L588). *)
Definition surrogate (c : N) : bool := (55296 <=? c) && (c <=? 57343).

Section Eval.
Variable uname : pystr -> option N.
Variable more : pystr -> pystr -> res pystr.

(** The name between braces of \N, and what follows (part of ast.literal_eval, called in sql_parsing/utils.py L581, L588). *)
Fixpoint braced (s : pystr) : option (pystr * pystr) :=
  match s with
  | [] => None
  | c :: r => if c =? 125 then Some ([], r) else match braced r with Some (a, b) => Some (c :: a, b) | None => None end
  end.

(** The characters of a short string literal after its quote [q]: its value and what follows the closing quote
    (part of ast.literal_eval, called in sql_parsing/utils.py L581, L588). *)
Fixpoint py_string (fuel : nat) (q : N) (s : pystr) : res (pystr * pystr) :=
  match fuel with
  | O => Err OutOfFuel
  | S f =>
    let add v r := bind (py_string f q r) (fun p => Ok (v ++ fst p, snd p)) in
    match s with
    | [] => Err ValueError
    | c :: r =>
      if c =? q then Ok ([], r)
      else if c =? 10 then Err ValueError
      else if negb (c =? 92) then add [c] r
      else
        match r with
        | [] => Err ValueError
        | d :: r' =>
          match py_escape d with
          | Some v => add v r'
          | None =>
            if d =? 120 then match hex_digits 2 0 r' with Some (n, r'') => add [n] r'' | None => Err ValueError end
            else if d =? 117 then match hex_digits 4 0 r' with Some (n, r'') => add [n] r'' | None => Err ValueError end
            else if d =? 85 then
              match hex_digits 8 0 r' with
              | Some (n, r'') => if n <=? 1114111 then add [n] r'' else Err ValueError
              | None => Err ValueError
              end
            else if d =? 78 then
              match r' with
              | o :: r'' =>
                if o =? 123 then
                  match braced r'' with
                  | Some (name, rest) => match uname name with Some n => add [n] rest | None => Err ValueError end
                  | None => Err ValueError
                  end
                else Err ValueError
              | [] => Err ValueError
              end
            else match octal d with
                 | Some n => let (v, r'') := octal_digits 2 n r' in add [v] r''
                 | None => add [92; d] r'
                 end
          end
        end
    end
  end.

(** The line ends of a source text, as Python's tokenizer sees them (part of ast.literal_eval, called in sql_parsing/utils.py L581, L588). *)
Fixpoint newlines (s : pystr) : pystr :=
  match s with
  | [] => []
  | c :: r =>
    if c =? 13 then 10 :: match r with d :: r' => if d =? 10 then newlines r' else newlines r | [] => [] end
    else c :: newlines r
  end.

(** ast.literal_eval of a text that starts with the quote [q], sql_parsing/utils.py L581, L588. *)
Definition literal_eval (q : N) (s : pystr) : res pystr :=
  if has_char 0 s then Err ValueError
  else if existsb surrogate s then Err UnicodeError
  else
    do ' (v, rest) <- py_string (S (length s)) q (newlines s);
    match rest with [] => Ok v | _ => more v rest end.

(** to_string, L585-588, of the text between the quotes (single or double). *)
Definition to_string (body : pystr) : res pystr := literal_eval 39 (replace_pair 39 [92; 39] body ++ [39]).

(** unquote, L569-582, of the text between back quotes, brackets, double quotes. *)
Definition escape_dots (s : pystr) : pystr := replace_char 46 [92; 46] s.
Definition unquote_back (body : pystr) : res pystr :=
  do v <- literal_eval 34 (replace_char 34 [92; 34] (replace_pair 96 [96] body) ++ [34]); Ok (escape_dots v).
Definition unquote_bracket (body : pystr) : res pystr :=
  do v <- literal_eval 34 (replace_char 34 [92; 34] (replace_pair 93 [93] body) ++ [34]); Ok (escape_dots v).
Definition unquote_double (body : pystr) : res pystr :=
  do v <- literal_eval 34 (replace_pair 34 [92; 34] body ++ [34]); Ok (escape_dots v).

(** ansi_string and mysql_doublequote_string, L611-612, alternatives of the parser for MySQL (sql_parser.py L49): the
    value of the literal at the start of a text and what follows. *)
Definition read_string (s : pystr) : res (pystr * pystr) :=
  match s with
  | c :: r =>
    if (c =? 39) || (c =? 34) then
      match regex_quoted c r with
      | Some (body, rest) => do v <- to_string body; Ok (v, rest)
      | None => Err ValueError
      end
    else Err ValueError
  | [] => Err ValueError
  end.
(** The identifiers mysql_backtick_ident and sqlserver_ident of that parser, L616-617 (sql_parser.py L50-54). *)
Definition read_quoted_name (s : pystr) : res (pystr * pystr) :=
  match s with
  | c :: r =>
    if c =? 96 then
      match regex_quoted 96 r with Some (body, rest) => do v <- unquote_back body; Ok (v, rest) | None => Err ValueError end
    else if c =? 91 then
      match regex_quoted 93 r with Some (body, rest) => do v <- unquote_bracket body; Ok (v, rest) | None => Err ValueError end
    else Err ValueError
  | [] => Err ValueError
  end.

(** IDENT_CHAR, sql_parsing/utils.py L30-31. *)
Definition is_digit (c : N) : bool := (48 <=? c) && (c <=? 57).
Definition ident_char (c : N) : bool :=
  (c =? 64) || (c =? 95) || (c =? 36) || is_digit c || ((65 <=? c) && (c <=? 90)) || ((97 <=? c) && (c <=? 122)) ||
  ((192 <=? c) && (c <=? 214)) || ((216 <=? c) && (c <=? 246)) || ((248 <=? c) && (c <=? 447)).
(** The characters of a plain name, sql_parser.py L33-37. *)
Fixpoint ident_run (s : pystr) : pystr * pystr :=
  match s with
  | c :: r => if ident_char c then let (a, b) := ident_run r in (c :: a, b) else ([], s)
  | [] => ([], [])
  end.
(** simple_ident, sql_parsing/sql_parser.py L33-37: a dash between two characters that are neither blanks nor digits belongs to
    the match, and no_dashes (L21-29) refuses it. *)
Definition read_simple_name (s : pystr) : res (pystr * pystr) :=
  match s with
  | c :: _ =>
    if ident_char c && negb (is_digit c) then
      let (a, b) := ident_run s in
      match b with
      | dash :: d :: _ =>
        if (dash =? 45) && negb (is_digit (last a 0)) && negb (is_digit d) && negb (d =? 32) then Err ValueError else Ok (a, b)
      | _ => Ok (a, b)
      end
    else Err ValueError
  | [] => Err ValueError
  end.
(** One part of mysql_ident, sql_parser.py L50-54: the first alternative that matches. *)
Definition read_part (s : pystr) : res (pystr * pystr) :=
  match read_quoted_name s with Ok p => Ok p | Err _ => read_simple_name s end.
(** The blanks that are skipped before an element, parsing/whitespaces.py L21 (mysql_ident is made outside the context that
    adds comments to them, sql_parser.py L48-56). *)
Definition blank (c : N) : bool := (c =? 32) || (c =? 10) || (c =? 13) || (c =? 9).
Fixpoint skip_blanks (s : pystr) : pystr :=
  match s with c :: r => if blank c then skip_blanks r else s | [] => [] end.
(** mysql_ident: parts separated by dots, put together as one text (delimited_list, parsing/infix.py L32-43; Combine,
    parsing/enhancement.py L741-761), blanks around the dots skipped; a dot that no part follows is left, with what is before it. *)
Fixpoint read_name (fuel : nat) (s : pystr) : res (pystr * pystr) :=
  match fuel with
  | O => Err OutOfFuel
  | S f =>
    do ' (v, rest) <- read_part s;
    match skip_blanks rest with
    | dot :: r =>
      if dot =? 46 then match read_name f (skip_blanks r) with Ok (w, r') => Ok (v ++ 46 :: w, r') | Err _ => Ok (v, rest) end
      else Ok (v, rest)
    | [] => Ok (v, rest)
    end
  end.
End Eval.
