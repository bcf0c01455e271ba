(** Parser(text).query_type from the text: scheduler/compile/parser.py (_preprocess_query, tokens, query_type), the regular
    expressions of scheduler/compile/parse/keywords.py, the lexer and the statement splitter of scheduler/compile/parse.
    What is done with the tokens is in ClassifyModel.

    Simplifications: the text does not contain the placeholder of parser.py L952; grouping (parse/engine/grouping.py), which keeps
    the tokens in their order, is left out, and with it the joining of a number and a name behind it (parser.py L1025-1056);
    letters outside ASCII have no case.  [uword], [uspace], [udigit], [ulet] are \w, \s, \d and [A-ZÀ-Ü] (without regard to case)
    outside ASCII; [uc] is str.upper on one character. *)
From Coq Require Import String Ascii List NArith ZArith Bool.
From Verif Require Import Base ExecModel ClassifyModel.
Import ListNotations.
Open Scope N_scope.

(** ** _preprocess_query, parser.py L935-965 *)
(** The rest of a match of ['.*?'] behind the first quote, L960: what is before the next quote on the line, and what follows. *)
Fixpoint to_quote (s : pystr) : option (pystr * pystr) :=
  match s with
  | [] => None
  | c :: r => if c =? 39 then Some ([], r) else if c =? 10 then None
              else match to_quote r with Some (a, b) => Some (c :: a, b) | None => None end
  end.
(** L960 and L963: the characters that belong to a match of ['.*?'] are marked; the double quotes among them are hidden from the
    substitutions between. *)
Fixpoint mark (n : nat) (s : pystr) : list (N * bool) :=
  match n, s with
  | S m, c :: r =>
    if c =? 39 then
      match to_quote r with
      | Some (a, b) => (c, true) :: map (fun x => (x, true)) a ++ (39, true) :: mark m b
      | None => (c, false) :: mark m r
      end
    else (c, false) :: mark m r
  | _, _ => []
  end.
(** A double quote that is not hidden. *)
Definition opens (x : N * bool) : bool := (fst x =? 34) && negb (snd x).
(** The shortest [^`]* before the next double quote, and what follows, L961. *)
Fixpoint to_double (l : list (N * bool)) : option (list (N * bool) * list (N * bool)) :=
  match l with
  | [] => None
  | x :: r => if opens x then Some ([], r) else if fst x =? 96 then None
              else match to_double r with Some (a, b) => Some (x :: a, b) | None => None end
  end.
(** L961.  The substitution of L962 finds nothing after that one: its match begins with one that L961 has replaced. *)
Fixpoint requote (n : nat) (l : list (N * bool)) : pystr :=
  match n, l with
  | S m, x :: r =>
    if opens x then
      match r with
      | y :: r' =>
        match (if fst y =? 96 then None else to_double r') with
        | Some (a, b) => 96 :: fst y :: map fst a ++ 96 :: requote m b
        | None => fst x :: requote m r
        end
      | [] => [fst x]
      end
    else fst x :: requote m r
  | _, _ => []
  end.
Definition preprocess (text : pystr) : pystr := let l := mark (length text) text in requote (length l) l.

(** ** Regular expressions, as far as keywords.py L20-97 uses them *)
Inductive re :=
| Cls (f : N -> bool)
| Eps
| Sq (a b : re)
| Alt (a b : re)
| Rep (greedy : bool) (a : re)
| Look (positive : bool) (a : re)
| Behind (f : N -> bool)
| NotBehind (f : N -> bool)
| Bnd
| Eol.

(** A letter in the form in which it is compared, re.IGNORECASE, keywords.py L99. *)
Definition low (c : N) : N := if (65 <=? c) && (c <=? 90) then c + 32 else c.
(** A place in the text: the character before it and the text behind it. *)
Definition place : Type := option N * pystr.

Section Lexer.
Variables (uword uspace udigit ulet : N -> bool).
(** \w, \s, \d, [A-ZÀ-Ü], on letters in small; keywords.py L31, L40, L64. *)
Definition wordc (c : N) : bool :=
  if c <? 128 then ((48 <=? c) && (c <=? 57)) || ((97 <=? c) && (c <=? 122)) || (c =? 95) else uword c.
Definition spacec (c : N) : bool := if c <? 128 then ((9 <=? c) && (c <=? 13)) || ((28 <=? c) && (c <=? 32)) else uspace c.
Definition digitc (c : N) : bool := if c <? 128 then (48 <=? c) && (c <=? 57) else udigit c.
Definition letterc (c : N) : bool := if c <? 128 then (97 <=? c) && (c <=? 122) else ulet c.

(** The places where a match may end, the preferred first: how re.match backtracks.  The body of a repetition is never empty here,
    so the length of the text bounds it. *)
Fixpoint ms (r : re) (s : place) : list place :=
  match r with
  | Cls f => match snd s with c :: t => if f c then [(Some c, t)] else [] | [] => [] end
  | Eps => [s]
  | Sq a b => flat_map (ms b) (ms a s)
  | Alt a b => ms a s ++ ms b s
  | Rep greedy a =>
    (fix go (n : nat) (s : place) : list place :=
       match n with
       | O => [s]
       | S m => let more := flat_map (go m) (ms a s) in if greedy then more ++ [s] else s :: more
       end) (length (snd s)) s
  | Look positive a => match ms a s with [] => if positive then [] else [s] | _ => if positive then [s] else [] end
  | Behind f => match fst s with Some c => if f c then [s] else [] | None => [] end
  | NotBehind f => match fst s with Some c => if f c then [] else [s] | None => [s] end
  | Bnd => if xorb (match fst s with Some c => wordc c | None => false end) (match snd s with c :: _ => wordc c | [] => false end)
           then [s] else []
  | Eol => match snd s with [] => [s] | [c] => if c =? 10 then [s] else [] | _ => [] end
  end.

(** The pieces that the expressions are made of, keywords.py L24-96. *)
Definition chr (c : N) : re := Cls (N.eqb c).
Definition lit (w : string) : re := fold_right (fun c r => Sq (chr c) r) Eps (u w).
Definition opt (a : re) : re := Alt a Eps.
Definition plus (a : re) : re := Sq a (Rep true a).
Definition sp : re := plus (Cls spacec).
Definition words (w v : string) : re := Sq (lit w) (Sq sp (lit v)).
Definition oneof (l : list N) : re := Cls (fun c => existsb (N.eqb c) l).
Definition noneof (l : list N) : re := Cls (fun c => negb (existsb (N.eqb c) l)).
Definition line_end : re := Alt (lit (String "013" (String "010" ""))) (Alt (chr 13) (chr 10)).
Definition anychar : re := Cls (fun _ => true).
Definition name_re : re := Sq (Cls letterc) (Rep true (Cls wordc)).
Definition name_char (c : N) : bool := (c =? 95) || letterc c.
Definition digits : re := plus (Cls digitc).
Definition minus : re := opt (chr 45).
(** The beginning of a comment to the end of the line, L24 and L27. *)
Definition dashes : re := Alt (lit "--") (lit "# ").

(** L40: a dollar sign or a tag between two; the text up to the same again. *)
Definition dollar_tag : re :=
  Sq (NotBehind (fun c => negb (spacec c))) (Sq (chr 36) (Sq (opt (Sq (Cls name_char) (Rep true (Cls wordc)))) (chr 36))).
Fixpoint starts_with (a s : pystr) : bool :=
  match a, s with
  | [], _ => true
  | x :: a', c :: r => (x =? c) && starts_with a' r
  | _, [] => false
  end.
Fixpoint find_tag (tag s : pystr) : list place :=
  (if starts_with tag s then [(None, skipn (length tag) s)] else []) ++
  match s with [] => [] | _ :: r => find_tag tag r end.
Definition dollar (s : place) : list place :=
  flat_map (fun e => find_tag (firstn (length (snd s) - length (snd e)) (snd s)) (snd e)) (ms dollar_tag s).

(** The types of tokens, as far as they are told apart: tokens.Whitespace, Newline, Comment.Single, Comment.Multiline, the two
    hints, Punctuation, Keyword, Keyword.DDL; all others.  parse/tokens.py. *)
Inductive ttype := TSpace | TNewline | TSingle | TMulti | THint | TPunct | TKeyword | TDdl | TWord | TOther.

(** SQL_REGEX, keywords.py L22-97, in its order.  [TWord]: is_keyword decides, L93. *)
Definition rules : list ((place -> list place) * ttype) :=
  [(ms (Sq dashes (Sq (chr 43) (Sq (Rep false (noneof [10])) (Alt line_end Eol)))), THint);
   (ms (Sq (lit "/*+") (Sq (Rep false anychar) (lit "*/"))), THint);
   (ms (Sq dashes (Sq (Rep false (noneof [10])) (Alt line_end Eol))), TSingle);
   (ms (Sq (lit "/*") (Sq (Rep false anychar) (lit "*/"))), TMulti);
   (ms line_end, TNewline);
   (ms (Sq (Cls spacec) (Rep false (Cls spacec))), TSpace);
   (ms (lit ":="), TOther);
   (ms (lit "::"), TPunct);
   (ms (chr 42), TOther);
   (ms (Sq (chr 96) (Sq (Rep true (Alt (Sq (chr 96) (chr 96)) (noneof [96]))) (chr 96))), TOther);
   (ms (Sq (chr 180) (Sq (Rep true (Alt (Sq (chr 180) (chr 180)) (noneof [180]))) (chr 180))), TOther);
   (dollar, TOther);
   (ms (chr 63), TOther);
   (ms (Sq (chr 37) (Sq (opt (Sq (chr 40) (Sq (plus (Cls wordc)) (chr 41)))) (chr 115))), TOther);
   (ms (Sq (NotBehind wordc) (Sq (oneof [36; 58; 63]) (plus (Cls wordc)))), TOther);
   (ms (Sq (chr 92) (plus (Cls wordc))), TOther);
   (ms (Sq (opt (Sq (lit "not") sp)) (Sq (lit "in") Bnd)), TOther);
   (ms (Sq (Alt (lit "case") (Alt (lit "in") (Alt (lit "values") (Alt (lit "using") (Alt (lit "from") (lit "as")))))) Bnd), TKeyword);
   (ms (Sq (Alt (chr 64) (Alt (lit "##") (chr 35))) (Sq (Cls letterc) (plus (Cls wordc)))), TOther);
   (ms (Sq name_re (Look true (Sq (Rep true (Cls spacec)) (chr 46)))), TOther);
   (ms (Sq (Behind (N.eqb 46)) name_re), TOther);
   (ms (Sq name_re (Look true (chr 40))), TOther);
   (ms (Sq minus (Sq (lit "0x") (plus (Cls (fun c => digitc c || ((97 <=? c) && (c <=? 102))))))), TOther);
   (ms (Sq minus (Sq digits (Sq (opt (Sq (chr 46) digits)) (Sq (chr 101) (Sq minus digits))))), TOther);
   (ms (Sq (Look false (Cls name_char)) (Sq minus (Sq (Alt (Sq digits (Sq (chr 46) (Rep true (Cls digitc)))) (Sq (chr 46) digits)) (Look false (Cls name_char))))), TOther);
   (ms (Sq (Look false (Cls name_char)) (Sq minus (Sq digits (Look false (Cls name_char))))), TOther);
   (ms (Sq (chr 39) (Sq (Rep true (Alt (Sq (chr 39) (chr 39)) (Alt (Sq (chr 92) (chr 92)) (Alt (Sq (chr 92) (chr 39)) (noneof [39]))))) (chr 39))), TOther);
   (ms (Sq (chr 34) (Sq (Rep true (Alt (Sq (chr 34) (chr 34)) (Alt (Sq (chr 92) (chr 92)) (Alt (Sq (chr 92) (chr 34)) (noneof [34]))))) (chr 34))), TOther);
   (ms (Alt (Sq (chr 34) (chr 34)) (Sq (chr 34) (Sq (Rep false (noneof [10])) (Sq (noneof [92]) (chr 34))))), TOther);
   (ms (Sq (NotBehind (fun c => wordc c || (c =? 93) || (c =? 41))) (Sq (chr 91) (Sq (plus (noneof [91; 93])) (chr 93)))), TOther);
   (ms (Sq (opt (Alt (Sq (opt (Alt (Sq (lit "left") sp) (Alt (Sq (lit "right") sp) (Sq (lit "full") sp))))
                         (opt (Alt (Sq (lit "inner") sp) (Alt (Sq (lit "outer") sp) (Sq (lit "straight") sp)))))
                     (opt (Alt (Sq (lit "cross") sp) (Sq (lit "natural") sp)))))
           (Sq (lit "join") Bnd)), TKeyword);
   (ms (Sq (lit "end") (Sq (opt (Alt (Sq sp (lit "if")) (Alt (Sq sp (lit "loop")) (Sq sp (lit "while"))))) Bnd)), TKeyword);
   (ms (Sq (words "not" "null") Bnd), TKeyword);
   (ms (Sq (lit "nulls") (Sq sp (Sq (Alt (lit "first") (lit "last")) Bnd))), TKeyword);
   (ms (Sq (words "union" "all") Bnd), TKeyword);
   (ms (Sq (lit "create") (Sq (opt (Sq sp (words "or" "replace"))) Bnd)), TDdl);
   (ms (Sq (words "double" "precision") Bnd), TOther);
   (ms (Sq (words "group" "by") Bnd), TKeyword);
   (ms (Sq (words "order" "by") Bnd), TKeyword);
   (ms (Sq (words "handler" "for") Bnd), TKeyword);
   (ms (Sq (words "lateral" "view") (Sq sp (Sq (Alt (lit "explode") (Alt (lit "inline") (Alt (lit "parse_url_tuple") (Alt (lit "posexplode") (lit "stack"))))) Bnd))), TKeyword);
   (ms (Sq (Alt (lit "at") (lit "with'")) (Sq sp (Sq (words "time" "zone") (Sq sp (Sq (chr 39) (Sq (plus (noneof [39])) (chr 39))))))), TKeyword);
   (ms (Sq (opt (Sq (lit "not") sp)) (Sq (Alt (lit "like") (Alt (lit "ilike") (lit "rlike"))) Bnd)), TOther);
   (ms (Sq (Cls (fun c => ((48 <=? c) && (c <=? 57)) || name_char c)) (Rep true (Cls (fun c => (c =? 36) || (c =? 35) || wordc c)))), TWord);
   (ms (oneof [59; 58; 40; 41; 91; 93; 44; 46]), TPunct);
   (ms (plus (oneof [60; 62; 61; 126; 33])), TOther);
   (ms (plus (oneof [43; 47; 64; 35; 37; 94; 38; 124; 45])), TOther)].

(** The first rule that matches, lexer.py L60-71; else a token of one character, L72-73. *)
Fixpoint first_rule (l : list ((place -> list place) * ttype)) (s : place) : nat * ttype :=
  match l with
  | [] => (1%nat, TOther)
  | (f, t) :: r => match f s with e :: _ => ((length (snd s) - length (snd e))%nat, t) | [] => first_rule r s end
  end.

Variable uc : N -> pystr.
(** is_keyword, keywords.py L13-19: only the words that the splitter knows are told from other words. *)
Definition word_type (v : pystr) : ttype :=
  if smem (flat_map uc v) (map u ["DECLARE"; "BEGIN"; "END"; "IF"; "FOR"; "WHILE"; "CASE"]%string) then TKeyword else TOther.
(** get_tokens, lexer.py L58-73; [n]: at most so many tokens. *)
Fixpoint lex (n : nat) (prev : option N) (s : pystr) : list (ttype * pystr) :=
  match n, s with
  | S m, c :: r =>
    let '(k, t) := first_rule rules (prev, map low s) in
    let v := c :: firstn (pred k) r in
    (match t with TWord => word_type v | _ => t end, v) :: lex m (Some (low (last v c))) (skipn (pred k) r)
  | _, _ => []
  end.

(** ** The first statement, parse/engine/statement_splitter.py L28-108 *)
(** _change_splitlevel, L28-78: _is_create, _begin_depth and the change of the level; _in_declare is never read. *)
Definition change (create : bool) (depth : nat) (t : ttype) (v : pystr) : bool * nat * Z :=
  match t with
  | TPunct => (create, depth, if seqb v (u "(") then 1%Z else if seqb v (u ")") then (-1)%Z else 0%Z)
  | TKeyword | TDdl =>
    let w := flat_map uc v in
    if (match t with TDdl => true | _ => false end) && starts_with (u "CREATE") w then (true, depth, 0%Z)
    else if seqb w (u "DECLARE") && create && Nat.eqb depth 0 then (create, depth, 1%Z)
    else if seqb w (u "BEGIN") then (create, S depth, if create then 1%Z else 0%Z)
    else if seqb w (u "END") then (create, pred depth, (-1)%Z)
    else if smem w (map u ["IF"; "FOR"; "WHILE"; "CASE"]%string) && create && Nat.ltb 0 depth then (create, depth, 1%Z)
    else if smem w (map u ["END IF"; "END FOR"; "END WHILE"]%string) then (create, depth, (-1)%Z)
    else (create, depth, 0%Z)
  | _ => (create, depth, 0%Z)
  end.
(** process, L80-108, up to the first statement; [over]: consume_ws. *)
Fixpoint statement (create : bool) (depth : nat) (level : Z) (over : bool) (l : list (ttype * pystr)) : list (ttype * pystr) :=
  match l with
  | [] => []
  | (t, v) :: r =>
    if over && negb (match t with TSpace | TSingle => true | _ => false end) then []
    else
      let '(create', depth', d) := change create depth t v in
      let level' := (level + d)%Z in
      (t, v) :: statement create' depth' level'
        (over || ((level' <=? 0)%Z && (match t with TPunct => true | _ => false end) && seqb v (u ";"))) r
  end.

(** ** Parser.tokens and Parser.query_type, parser.py L87-176 *)
(** _get_sqlparse_tokens, L1012-1023, and is_comment, token.py L40. *)
Definition kept (x : ttype * pystr) : bool := match fst x with TSpace | TNewline => false | _ => true end.
Definition as_tok (x : ttype * pystr) : tok := mkTok (snd x) (match fst x with TSingle | TMulti => true | _ => false end).
(** The open parentheses, parser.py L160-165, L872, L879: [pop] from an empty list raises IndexError. *)
Fixpoint closes (n : nat) (l : list tok) : bool :=
  match l with
  | [] => true
  | t :: r =>
    if part_of_name t r then closes n r
    else if seqb (t_text t) (u "(") then closes (S n) r
    else if seqb (t_text t) (u ")") then match n with O => false | S m => closes m r end
    else closes n r
  end.
Definition parser_type (text : pystr) : res qtype :=
  let q := preprocess text in
  let l := map as_tok (filter kept (statement false 0 0 false (lex (length q) None q))) in
  if closes 0 l then query_type uc l else Err IndexError.
End Lexer.
