(** ALTER TABLE ... ADD/DROP of keys and indexes: parse_alter_key, format_alter_key, sql_parsing/__init__.py L92-228, and the branch of
    rewrite_query that uses them, scheduler/handers/rewrite_hander.py L27-28 and L75-76.

    The regular expressions are matched as Python's re.match does: from the start of the text, stars take as much as they
    can and give characters back one by one.  A run of classes such as [aA][dD][dD] is one keyword, [(`|\b)(\w* )\1] is
    one item.  Simplification: \w is str.isalnum or the underscore.  A statement that is not recognised goes to the SQL grammar,
    which is not modelled. *)
From Coq Require Import String Ascii List NArith ZArith Bool.
From Verif Require Import Base JsonModel RewriteModel.
Import ListNotations.
Open Scope N_scope.

Section Regex.
Variable alnum : N -> bool.

(** [ \t\n\r], sql_parsing/__init__.py L93-100. *)
Definition blank (c : N) : bool := (c =? 32) || (c =? 9) || (c =? 10) || (c =? 13).
(** \w, sql_parsing/__init__.py L96. *)
Definition wordc (c : N) : bool := alnum c || (c =? 95).
(** \b, sql_parsing/__init__.py L96, between the character before and the text that follows. *)
Definition boundary (prev : option N) (s : pystr) : bool :=
  xorb (match prev with Some c => wordc c | None => false end) (match s with c :: _ => wordc c | [] => false end).

(** The items of the patterns, sql_parsing/__init__.py L93-100: blanks, a keyword in any case, a name with its optional back quotes, a word,
    a character, [;?$]. *)
Inductive item := Blanks | Kw (k : string) | Name | Word | Ch (c : N) | Stop.

(** A letter class such as [aA], sql_parsing/__init__.py L94; the keyword is given in lower case. *)
Definition same_letter (k c : N) : bool := (c =? k) || (c =? k - 32).
(** A run of letter classes, sql_parsing/__init__.py L94: the last character matched and what follows. *)
Fixpoint keyword (k : pystr) (prev : option N) (s : pystr) : option (option N * pystr) :=
  match k, s with
  | [], _ => Some (prev, s)
  | x :: k', c :: r => if same_letter x c then keyword k' (Some c) r else None
  | _, [] => None
  end.
(** A star of a class, greedy, before a continuation, sql_parsing/__init__.py L93, L96: the characters taken and the result of the
    continuation. *)
Fixpoint star {A} (f : N -> bool) (k : option N -> pystr -> option A) (prev : option N) (s : pystr) : option (pystr * A) :=
  let stop := match k prev s with Some x => Some ([], x) | None => None end in
  match s with
  | c :: r => if f c then match star f k (Some c) r with Some (w, x) => Some (c :: w, x) | None => stop end else stop
  | [] => stop
  end.
(** [;?$], sql_parsing/__init__.py L100: the end, or a line feed at the end. *)
Definition at_end (s : pystr) : bool := match s with [] => true | [c] => c =? 10 | _ => false end.
Definition stop (s : pystr) : bool :=
  match s with c :: r => if (c =? 59) && at_end r then true else at_end s | [] => true end.

(** re.match of a pattern, sql_parsing/__init__.py L101 and the same calls below: the texts of the groups, without group 1. *)
Fixpoint rx (p : list item) (prev : option N) (s : pystr) : option (list pystr) :=
  match p with
  | [] => Some []
  | Blanks :: q => match star blank (rx q) prev s with Some (_, x) => Some x | None => None end
  | Kw k :: q => match keyword (u k) prev s with Some (prev', r) => rx q prev' r | None => None end
  | Word :: q => match star wordc (rx q) prev s with Some (w, x) => Some (w :: x) | None => None end
  | Ch c :: q => match s with x :: r => if x =? c then rx q (Some x) r else None | [] => None end
  | Stop :: q => if stop s then Some [] else None
  | Name :: q =>
    let quoted :=
      match s with
      | c :: r =>
        if c =? 96 then
          star wordc (fun _ s' => match s' with d :: r' => if d =? 96 then rx q (Some d) r' else None | [] => None end) (Some c) r
        else None
      | [] => None
      end in
    match quoted with
    | Some (w, x) => Some (w :: x)
    | None => if boundary prev s then match star wordc (rx q) prev s with Some (w, x) => Some (w :: x) | None => None end else None
    end
  end.

(** The beginning common to all patterns, sql_parsing/__init__.py L93-96. *)
Definition alter_table (p : list item) : list item := Blanks :: Kw "alter" :: Blanks :: Kw "table" :: Blanks :: Name :: Blanks :: p.
(** The eight patterns, sql_parsing/__init__.py L93-100, L105-111, L115-127, L134-141, L145-152, L159-166, L173-180, L187-193. *)
Definition column (p : list item) : list item := Ch 40 :: Blanks :: Word :: Blanks :: Ch 41 :: Blanks :: p.
Definition add_primary : list item := alter_table (Kw "add" :: Blanks :: Kw "primary" :: Blanks :: Kw "key" :: Blanks :: column [Stop]).
Definition drop_primary : list item := alter_table [Kw "drop"; Blanks; Kw "primary"; Blanks; Kw "key"; Blanks; Stop].
Definition add_foreign : list item :=
  alter_table (Kw "add" :: Blanks :: Kw "constraint" :: Blanks :: Word :: Blanks :: Kw "foreign" :: Blanks :: Kw "key" :: Blanks ::
               column (Kw "references" :: Blanks :: Word :: Blanks :: column [Stop])).
Definition drop_foreign : list item := alter_table [Kw "drop"; Blanks; Kw "foreign"; Blanks; Kw "key"; Blanks; Word; Blanks; Stop].
Definition add_named (k : string) : list item := alter_table (Kw "add" :: Blanks :: Kw k :: Blanks :: Word :: Blanks :: column [Stop]).
Definition drop_index : list item := alter_table [Kw "drop"; Blanks; Kw "index"; Blanks; Word; Blanks; Stop].

(** [[{'value': i} for i in g.split(',')]], sql_parsing/__init__.py L104. *)
Definition values_of (g : pystr) : json := JList (map (fun i => value_of (JStr i)) (split 44 g)).

(** [matched = re.match(...); if matched: ...; return ...], sql_parsing/__init__.py L101-104 and likewise L112-114, L128-133, L142-144, L153-158, L167-172, L181-186, L194-196;
    the groups of a pattern are always as many as it has parentheses. *)
Definition matched (r : option (list pystr)) (f : list pystr -> option (dict json)) (rest : dict json) : dict json :=
  match r with Some g => match f g with Some d => d | None => rest end | None => rest end.
(** parse_alter_key, sql_parsing/__init__.py L92-198; the patterns are tried in this order. *)
Definition parse_alter_key (sql : pystr) : dict json :=
  matched (rx add_primary None sql) (fun g => match g with
    | [t; c] => Some [(u "alter", JStr t); (u "add primary key", values_of c)] | _ => None end) (
  matched (rx drop_primary None sql) (fun g => match g with
    | [t] => Some [(u "alter", JStr t); (u "drop primary key", JBool true)] | _ => None end) (
  matched (rx add_foreign None sql) (fun g => match g with
    | [t; n; c; rt; rc] => Some [(u "alter", JStr t); (u "add constraint", JStr n); (u "add foreign key", values_of c);
                                 (u "reference_table", JStr rt); (u "reference_feature", values_of rc)] | _ => None end) (
  matched (rx drop_foreign None sql) (fun g => match g with
    | [t; n] => Some [(u "alter", JStr t); (u "drop foreign key", JStr n)] | _ => None end) (
  matched (rx (add_named "index") None sql) (fun g => match g with
    | [t; n; c] => Some [(u "alter", JStr t); (u "add index", JStr n); (u "add index feature", values_of c)] | _ => None end) (
  matched (rx (add_named "fulltext") None sql) (fun g => match g with
    | [t; n; c] => Some [(u "alter", JStr t); (u "add fulltext", JStr n); (u "add fulltext feature", values_of c)] | _ => None end) (
  matched (rx (add_named "unique") None sql) (fun g => match g with
    | [t; n; c] => Some [(u "alter", JStr t); (u "add unique", JStr n); (u "add unique feature", values_of c)] | _ => None end) (
  matched (rx drop_index None sql) (fun g => match g with
    | [t; n] => Some [(u "alter", JStr t); (u "drop index", JStr n)] | _ => None end) []))))))).
End Regex.

(** [i['value'] for i in x], sql_parsing/__init__.py L204, L210, L213: a text has no item value. *)
Definition value_item (j : json) : res pystr :=
  match j with
  | JDict d => match dget d (u "value") with Some (JStr s) => Ok s | Some _ => Err TypeError | None => Err KeyError end
  | _ => Err TypeError
  end.
(** [','.join([i['value'] for i in x])], sql_parsing/__init__.py L204: a text is iterated over its characters, and a character has no item
    value. *)
Definition join_values (j : option json) : res pystr :=
  match j with
  | Some (JList l) => do vs <- mapM value_item l; Ok (join [44] vs)
  | Some (JStr []) => Ok []
  | Some _ => Err TypeError
  | None => Err KeyError
  end.
(** [{json[k]}] in an f-string, sql_parsing/__init__.py L203: the values put there are texts. *)
Definition text_at (d : dict json) (k : string) : res pystr :=
  match dget d (u k) with Some (JStr s) => Ok s | Some _ => Err TypeError | None => Err KeyError end.
(** [json.get(k)] as a condition, sql_parsing/__init__.py L202. *)
Definition given (d : dict json) (k : string) : bool := match dget d (u k) with Some x => truthy x | None => false end.

(** format_alter_key, sql_parsing/__init__.py L201-228; None when no branch is taken. *)
Definition format_alter_key (d : dict json) : res (option pystr) :=
  let table := do t <- text_at d "alter"; Ok (u "alter table " ++ t ++ u " ") in
  let named (k f : string) :=
    do a <- table; do n <- text_at d k; do c <- join_values (dget d (u f));
    Ok (Some (a ++ u k ++ u " " ++ n ++ u "(" ++ c ++ u ");")) in
  if given d "add primary key" then
    do a <- table; do c <- join_values (dget d (u "add primary key")); Ok (Some (a ++ u "add primary key(" ++ c ++ u ");"))
  else if given d "drop primary key" then do a <- table; Ok (Some (a ++ u "drop primary key;"))
  else if given d "add foreign key" then
    do a <- table; do n <- text_at d "add constraint"; do c <- join_values (dget d (u "add foreign key"));
    do rt <- text_at d "reference_table"; do rc <- join_values (dget d (u "reference_feature"));
    Ok (Some (a ++ u "add constraint " ++ n ++ u " foreign key(" ++ c ++ u ") REFERENCES " ++ rt ++ u "(" ++ rc ++ u ");"))
  else if given d "drop foreign key" then do a <- table; do n <- text_at d "drop foreign key"; Ok (Some (a ++ u "drop foreign key " ++ n ++ u ";"))
  else if given d "add index" then named "add index"%string "add index feature"%string
  else if given d "add unique" then named "add unique"%string "add unique feature"%string
  else if given d "add fulltext" then named "add fulltext"%string "add fulltext feature"%string
  else if given d "drop index" then do a <- table; do n <- text_at d "drop index"; Ok (Some (a ++ u "drop index " ++ n ++ u ";"))
  else Ok None.

(** rewrite_query of the dict of such a statement, rewrite_hander.py L27-28, L75-76: the text that is sent, if any. *)
Definition rewrite_alter (E : env) (M : dbmeta) (d : dict json) : res (option pystr) :=
  do '(j, _, _) <- rewrite_query E M (JDict d);
  match j with JDict d' => format_alter_key d' | _ => Err TypeError end.
