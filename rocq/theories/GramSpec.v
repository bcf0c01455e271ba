(** Vocabulary for the statements about the texts that the parser reads: the words, names, constants and symbols of a text,
    how each may be written, and those of a statement. *)
From Coq Require Import String Ascii List Arith NArith ZArith Bool.
From Verif Require Import Base JsonModel SqlRead ScrubModel OperModel OperSpec TextSpec LitModel LitSpec GramModel.
Import ListNotations.

(** ** The parts of a text *)
(** A word of the language (in small letters), a name, the name of a function (as written), a number, a string, a symbol. *)
Inductive lexeme := LKw (w : pystr) | LName (v : pystr) | LFun (w : pystr) | LNum (z : Z) | LStr (v : pystr) | LSym (s : pystr).

(** Small letters for capitals of ASCII; the characters of words. *)
Definition low_char (c : N) : N := if ((65 <=? c) && (c <=? 90))%N then (c + 32)%N else c.
Definition keyword_char (c : N) : bool :=
  (is_digit c || ((65 <=? c) && (c <=? 90)) || ((97 <=? c) && (c <=? 122)) || (c =? 95) || (c =? 36))%N.
(** The words that have a meaning for the parser, apart from the types, times and options of statements that are not
    considered here. *)
Definition language : list pystr := map u
  ["all"; "and"; "as"; "asc"; "between"; "by"; "case"; "collate"; "constraint"; "create"; "cross"; "desc"; "distinct"; "except";
   "else"; "end"; "false"; "fetch"; "foreign"; "from"; "full"; "group"; "having"; "in"; "index"; "inner"; "intersect"; "interval";
   "is"; "join"; "key"; "lateral"; "left"; "like"; "limit"; "minus"; "nocase"; "not"; "null"; "offset"; "on"; "or"; "order";
   "outer"; "over"; "partition"; "primary"; "references"; "right"; "rlike"; "select"; "then"; "true"; "union"; "unique"; "using";
   "when"; "where"; "window"; "with"; "within";
   "array"; "at"; "cache"; "cast"; "date"; "datetime"; "delete"; "drop"; "eod"; "exists"; "extract"; "filter"; "if"; "ignore";
   "insert"; "into"; "map"; "now"; "nulls"; "overwrite"; "respect"; "row"; "rows"; "set"; "similar"; "stack"; "struct"; "table";
   "tablesample"; "time"; "timestamp"; "timestamptz"; "timetz"; "to"; "today"; "tomorrow"; "top"; "trim"; "update"; "values"; "view"]%string.
(** The symbols of the statements considered, and all symbols of the language with the beginnings of comments. *)
Definition symbols : list pystr := map u
  ["("; ")"; ","; "*"; "/"; "%"; "+"; "-"; "~"; "&"; "|"; "||"; "<"; "<="; ">"; ">="; "="; "=="; "<>"; "!="]%string.
Definition all_symbols : list pystr := symbols ++ map u ["<=>"; "->"; "["; "."; "::"; ".*"; "--"; "/*"]%string.
(** Names that need no quotes: letters, digits, _ and $, the first no digit, and not a word of the language. *)
Definition plain_name (v : pystr) : Prop :=
  v <> [] /\ forallb keyword_char v = true /\ is_digit (hd 0%N v) = false /\ ~ In (map low_char v) language.
(** Names in back quotes: no backslash, line end or NUL, and here no dot. *)
Definition quoted_name (v : pystr) : Prop := v <> [] /\ clean v /\ ~ In 46%N v.
(** Digits, and their number in base ten. *)
Fixpoint decimal (t : pystr) : Z := match t with [] => 0 | c :: r => (Z.of_N c - 48) * 10 ^ Z.of_nat (length r) + decimal r end%Z.
Definition numeral (t : pystr) (z : Z) : Prop := t <> [] /\ Forall (fun c => 48 <= c <= 57)%N t /\ z = decimal t.
(** The characters of white space in Unicode that may stand at the end of a text. *)
Definition white (c : N) : bool :=
  (((9 <=? c) && (c <=? 13)) || ((28 <=? c) && (c <=? 32)) || (c =? 133) || (c =? 160) || (c =? 5760) ||
   ((8192 <=? c) && (c <=? 8202)) || (c =? 8232) || (c =? 8233) || (c =? 8239) || (c =? 8287) || (c =? 12288))%N.
Definition is_prefix (a b : pystr) : Prop := exists c, b = a ++ c.

(** [writes x t next]: [t] is a text for [x] when the text goes on with [next]. *)
Inductive writes : lexeme -> pystr -> pystr -> Prop :=
| w_kw w t next : In w language -> map low_char t = w -> (forall c r, next = c :: r -> keyword_char c = false) ->
    writes (LKw w) t next
| w_name v next : plain_name v -> (forall c r, next = c :: r -> ident_char c = false /\ ~ In c [45; 46; 93; 96]%N) ->
    writes (LName v) v next
| w_quoted v next : quoted_name v -> (forall c r, next = c :: r -> ~ In c [46; 96]%N) ->
    writes (LName v) (96 :: doubled 96 v ++ [96])%N next
| w_fun v next : plain_name v -> (forall c r, next = c :: r -> ident_char c = false /\ ~ In c [45; 46; 93; 96]%N) ->
    writes (LFun v) v next
| w_num z t next : numeral t z -> (forall c r, next = c :: r -> ident_char c = false /\ ~ In c [46; 91; 96]%N) ->
    writes (LNum z) t next
| w_str l next : Forall piece_ok l -> (forall c r, next = c :: r -> c <> 39%N) ->
    writes (LStr (LitSpec.val l)) (39 :: src l ++ [39])%N next
| w_double v next : clean v -> ~ In 39%N v -> ~ In 34%N v -> (forall c r, next = c :: r -> c <> 34%N) ->
    writes (LStr v) (34 :: v ++ [34])%N next
| w_sym s next : In s symbols -> (forall l, In l all_symbols -> is_prefix l (s ++ next) -> is_prefix l s) ->
    writes (LSym s) s next.

(** What may stand after the last part: blanks, or blanks and a comment to the end of the text. *)
Definition trail (w : pystr) : Prop :=
  exists b c, w = b ++ c /\ blanks b /\ (c = [] \/ (exists m d, c = m ++ d /\ (m = u "--" \/ m = u "#") /\ ~ In 10%N d)).
(** A text that consists of the given parts with blanks between them. *)
Inductive spelled : pystr -> list lexeme -> Prop :=
| sp_nil : spelled [] []
| sp_last x t w : writes x t w -> trail w -> spelled (t ++ w) [x]
| sp_cons x t w rest ls : writes x t (w ++ rest) -> blanks w -> ls <> [] -> spelled rest ls -> spelled (t ++ w ++ rest) (x :: ls).
(** ... with blanks before it, semicolons and white space behind it. *)
Definition spells (ls : list lexeme) (text : pystr) : Prop :=
  exists lead s semis spaces, text = lead ++ s ++ semis ++ spaces /\ blanks lead /\ spelled s ls /\
    Forall (fun c => c = 59%N) semis /\ forallb white spaces = true.

(** ** The parts of a statement *)
Definition K (w : string) : lexeme := LKw (u w).
Definition Y (s : string) : lexeme := LSym (u s).
Definition op_lex (o : binop) (alt : bool) : list lexeme :=
  match o with
  | OConcat => [Y "||"] | OMul => [Y "*"] | ODiv => [Y "/"] | OMod => [Y "%"] | OAdd => [Y "+"] | OSub => [Y "-"]
  | OBand => [Y "&"] | OBor => [Y "|"] | OLt => [Y "<"] | OLte => [Y "<="] | OGt => [Y ">"] | OGte => [Y ">="]
  | OEq => [Y (if alt then "==" else "=")] | ONeq => [Y (if alt then "<>" else "!=")]
  | OLike => [K "like"] | ONotLike => [K "not"; K "like"] | ORlike => [K "rlike"] | ONotRlike => [K "not"; K "rlike"]
  | OAnd => [K "and"] | OOr => [K "or"]
  end%string.
(** Operands: a name, a number, a text, NULL. *)
Inductive operand : pv -> lexeme -> Prop :=
| o_name v : operand (PText v) (LName v)
| o_num z : (0 <= z)%Z -> operand (PNum z) (LNum z)
| o_text s : operand (PDict [(u "literal", PText s)]) (LStr s)
| o_null : operand PNull (K "null").
Fixpoint separated (l : list (list lexeme)) : list lexeme :=
  match l with [] => [] | [x] => x | x :: r => x ++ Y "," :: separated r end.
Inductive cond_lex : sx -> list lexeme -> Prop :=
| c_atom x t l : operand x l -> cond_lex (XAtom x t) [l]
| c_null : cond_lex XNull [K "null"]
| c_par s ls : cond_lex s ls -> cond_lex (XPar s) (Y "(" :: ls ++ [Y ")"])
| c_minus z : (0 <= z)%Z -> cond_lex (XMinus z) [Y "-"; LNum z]
| c_bnot s ls : cond_lex s ls -> cond_lex (XBnot s) (Y "~" :: ls)
| c_not s ls : cond_lex s ls -> cond_lex (XNot s) (K "not" :: ls)
| c_bin o alt a b la lb : cond_lex a la -> cond_lex b lb -> cond_lex (XBin o alt a b) (la ++ op_lex o alt ++ lb)
| c_in (n : bool) m l lm ll : cond_lex m lm -> Forall2 (fun p x => operand (fst p) x) l ll ->
    cond_lex (XIn n m l) (lm ++ (if n then [K "not"; K "in"] else [K "in"]) ++ Y "(" :: separated (map (fun x => [x]) ll) ++ [Y ")"])
| c_between (n : bool) a b c la lb lc : cond_lex a la -> cond_lex b lb -> cond_lex c lc ->
    cond_lex (XBetween n a b c) (la ++ (if n then [K "not"; K "between"] else [K "between"]) ++ lb ++ K "and" :: lc)
| c_is (n : bool) s ls : cond_lex s ls -> cond_lex (XIs n s) (ls ++ (if n then [K "is"; K "not"; K "null"] else [K "is"; K "null"])).

Definition const_lex (k : const) : list lexeme :=
  match k with
  | KInt z => if (z <? 0)%Z then [Y "-"; LNum (- z)] else [LNum z]
  | KText s => [LStr s]
  end.
(** Functions may be written in capitals or small letters. *)
Inductive items_lex : items -> list lexeme -> Prop :=
| i_all : items_lex IAll [Y "*"]
| i_cols l : l <> [] -> ~ In (u "*") l -> items_lex (ICols l) (separated (map (fun c => [LName c]) l))
| i_count f : map low_char f = u "count" -> items_lex ICount [LFun f; Y "("; Y "*"; Y ")"]
| i_extreme f (largest : bool) c : map low_char f = u (if largest then "max" else "min") ->
    items_lex (IExtreme largest c) [LFun f; Y "("; LName c; Y ")"].
Definition where_lex (w : option sx) (ls : list lexeme) : Prop :=
  match w with None => ls = [] | Some s => exists l, cond_lex s l /\ ls = K "where" :: l end.
Definition order_lex (o : option (pystr * bool)) : list lexeme :=
  match o with None => [] | Some (c, desc) => K "order" :: K "by" :: LName c :: if desc then [K "desc"] else [] end.
Definition limit_lex (lim : option (N * option N)) : list lexeme :=
  match lim with
  | None => []
  | Some (n, k) => K "limit" :: LNum (Z.of_N n) :: match k with Some k => [K "offset"; LNum (Z.of_N k)] | None => [] end
  end.
Inductive cmd_lex : cmd sx -> list lexeme -> Prop :=
| l_select i t w o lim li lw : items_lex i li -> where_lex w lw ->
    cmd_lex (Select i t w o lim) (K "select" :: li ++ K "from" :: LName t :: lw ++ order_lex o ++ limit_lex lim)
| l_insert (tab : bool) t cs vs :
    cmd_lex (Insert t cs vs)
      (K "insert" :: K "into" :: (if tab then [K "table"] else []) ++ LName t ::
       Y "(" :: separated (map (fun c => [LName c]) cs) ++ Y ")" :: K "values" ::
       Y "(" :: separated (map const_lex vs) ++ [Y ")"])
| l_update t sets w lw : where_lex w lw ->
    cmd_lex (Update t sets w)
      (K "update" :: LName t :: K "set" :: separated (map (fun p => LName (fst p) :: Y "=" :: const_lex (snd p)) sets) ++ lw)
| l_delete t w lw : where_lex w lw -> cmd_lex (Delete t w) (K "delete" :: K "from" :: LName t :: lw).

(** The statements: conditions that group by the levels of the operators, rows of two values or more, no column set twice. *)
Definition where_good (ft : pystr -> bool) (w : option sx) : Prop := match w with None => True | Some s => grouped ft s end.
Definition good_cmd (ft : pystr -> bool) (c : cmd sx) : Prop :=
  match c with
  | Select _ _ w _ _ => where_good ft w
  | Insert _ cs vs => (2 <= length cs)%nat /\ (2 <= length vs)%nat
  | Update _ sets w => sets <> [] /\ NoDup (map fst sets) /\ where_good ft w
  | Delete _ w => where_good ft w
  end.
(** A dict: no key twice. *)
Definition keys_once (j : json) : Prop := match j with JDict d => NoDup (dkeys d) | _ => True end.
