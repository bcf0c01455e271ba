(** The parsing engine: what an element of a grammar does at a place of a text, and the two rearrangements that the engine
    makes before it parses: [streamline], and the lookup of alternatives by the characters they can begin with.

    Simplifications.  One engine of white space.  The tokens of a ParseResults without a name stand in the place of it
    (results.py L155-164).  Causes of failures are left out.  do_actions is True.  Not modelled: SkipTo,
    LookBehind, SyntaxErrorGuard, Ellipsis, stop_on, the default of an Optional; all other elements, among them the regular
    expressions, sequences without white space, MatchAll and Or, are [Prim].  Duplicate alternatives are dropped by streamline when they
    are the same object (expressions.py L113-115), which the model leaves out.  NotAny tests its element, not the regular
    expression made of it.  Letters are those of ASCII.  A minimal length is never cached. *)
From Coq Require Import String Ascii List Arith NArith ZArith Bool.
From Verif Require Import Base.
Import ListNotations.

(** str.lower on ASCII; str.startswith. *)
Definition lowc (c : N) : N := if ((65 <=? c) && (c <=? 90))%N then (c + 32)%N else c.
Definition lower (s : pystr) : pystr := map lowc s.
Fixpoint startswith (s p : pystr) : bool :=
  match p, s with
  | [], _ => true
  | x :: p', y :: s' => N.eqb x y && startswith s' p'
  | _, [] => false
  end.
(** keyword_chars, parsing/whitespaces.py L24. *)
Definition word_char (c : N) : bool :=
  (((48 <=? c) && (c <=? 57)) || ((65 <=? c) && (c <=? 90)) || ((97 <=? c) && (c <=? 122)) || (c =? 95) || (c =? 36))%N.

(** ** Lookup of alternatives, parsing/expressions.py L567-702 *)
(** An alternative is known by its number. *)
Definition table := list (pystr * list nat).
Inductive alt := One (i : nat) | Tbl (t : table).
Definition LOOKUP_COST : nat := 4.  (* L29 *)

(** lookup.setdefault(k, []).extend([i]), L639. *)
Fixpoint put (d : table) (k : pystr) (i : nat) : table :=
  match d with
  | [] => [(k, [i])]
  | (k', l) :: r => if seqb k k' then (k', l ++ [i]) :: r else (k', l) :: put r k i
  end.
(** L635-639; the keys of an element are those of its [expecting]. *)
Definition lookup_of (maps : list (nat * list pystr)) : table :=
  fold_left (fun d m => fold_left (fun d k => put d k (fst m)) (snd m) d) maps [].
Definition null {A} (l : list A) : bool := match l with [] => true | _ => false end.
(** L643, L661: len(maps) - max(len(v)) < LOOKUP_COST is an error; max of nothing as well. *)
Definition useful (n : nat) (t : table) : bool :=
  negb (null t) && (list_max (map (fun it => length (snd it)) t) + LOOKUP_COST <=? n).
(** L648-652: the shortest key that begins [k], among those whose alternatives are not yet collected. *)
Definition shortest (items : table) (k : pystr) : pystr :=
  fold_left (fun m it => if negb (null (snd it)) && startswith m (fst it) then fst it else m) items k.
(** L653-658: the alternatives of the keys that begin with [m], which are cleared. *)
Definition collect (m : pystr) (items : table) : list nat := flat_map (fun it => if startswith (fst it) m then snd it else []) items.
Definition clear (m : pystr) (items : table) : table := map (fun it => if startswith (fst it) m then (fst it, []) else it) items.
(** L646-660. *)
Fixpoint compact (ks : list pystr) (items : table) : table :=
  match ks with
  | [] => []
  | k :: r =>
    let m := shortest items k in
    let acc := collect m items in
    (if null acc then [] else [(m, acc)]) ++ compact r (clear m items)
  end.
(** _distinct, L615-625. *)
Fixpoint distinct (a b : pystr) : nat :=
  match a, b with
  | x :: a', y :: b' => if N.eqb x y then S (distinct a' b') else 1
  | _, _ => 1
  end.
(** L668. *)
Definition others (c : table) (k : pystr) : list pystr := filter (fun kk => negb (seqb kk k)) (map fst c).
(** Fast.__init__, L631-673; [None]: an exception.  The order of the patterns (sorted, L667) does not matter, they exclude each other. *)
Definition fast (maps : list (nat * list pystr)) : option table :=
  let items := lookup_of maps in
  if useful (length maps) items then
    let c := compact (map fst items) items in
    if useful (length maps) c then
      if existsb (fun it => null (others c (fst it))) c then None
      else Some (map (fun it => (firstn (list_max (map (distinct (fst it)) (others c (fst it)))) (fst it), snd it)) c)
    else None
  else None.
(** faster, L567-612: runs of alternatives that can be looked up become tables. *)
Definition flush (acc : list (nat * list pystr)) : list alt :=
  match fast acc with Some t => [Tbl t] | None => map (fun m => One (fst m)) acc end.
Fixpoint alternating (has : bool) (acc l : list (nat * list pystr)) : list alt :=
  match l with
  | [] => if has then flush acc else []
  | (i, p) :: r =>
    match has, p with
    | true, _ :: _ => alternating true (acc ++ [(i, p)]) r
    | true, [] => flush acc ++ One i :: alternating false [] r
    | false, _ :: _ => alternating true [(i, p)] r
    | false, [] => One i :: alternating false [] r
    end
  end.
Definition faster (exprs : list (list pystr)) : list alt :=
  if length exprs <? LOOKUP_COST then map One (seq 0 (length exprs)) else alternating true [] (combine (seq 0 (length exprs)) exprs).

Section Engine.
Context {T : Type}.                    (* tokens *)
Variable tok : pystr -> T.             (* a text as a token *)
Variable full : list T -> bool.        (* ParseResults.__bool__, results.py L136-151 *)
Variable skip : pystr -> nat -> nat.   (* Whitespace.skip, whitespaces.py L137-163 *)

(** What _parse does: a ParseException, a loop without end, any other exception, or tokens and the place after them. *)
Inductive out := Fail | Hang | Crash | Done (r : list T) (e : nat).
Definition parser := pystr -> nat -> out.

(** Elements of a grammar.  [Act true f e]: [e] with a name or a parse action [f]; [Act false f e]: another object around [e],
    Group or Suppress (enhancement.py L786-798, L849-875), which changes its tokens and always counts as one with a name. *)
Inductive pe :=
| Lit (s : pystr)                                        (* Literal, tokens.py L112-173 *)
| Kw (s : pystr)                                         (* CaselessKeyword, tokens.py L176-240 *)
| Chr (l : list N)                                       (* Char, tokens.py L415-458 *)
| Prim (f : list parser -> parser) (ks : list pystr) (m : nat) (l : list pe)
                                                         (* any other element, made of others, with the keys of its [expecting] and its min_length *)
| Ref (n : nat)                                          (* Forward, enhancement.py L567-712, by its number *)
| And (l : list pe)                                      (* expressions.py L138-321; [And []] is Empty *)
| First (l : list pe)                                    (* MatchFirst, expressions.py L473-564 *)
| Many (mn : nat) (mx : option nat) (e : pe)             (* enhancement.py L200-440 *)
| Opt (e : pe)                                           (* Optional, enhancement.py L443-471, without default *)
| Look (e : pe)                                          (* LookAhead, enhancement.py L107-133 *)
| Not (e : pe)                                           (* NotAny, enhancement.py L139-197 *)
| Act (own : bool) (f : list T -> nat -> nat -> pystr -> out) (e : pe).

(** min_length: core.py L434-443, tokens.py L139-140, L166-167, L219-220, L448-449, expressions.py L245-246,
    L491-496, enhancement.py L67-68, L188-189, L240-243; of a Forward, L661-668: the cache is -1 (core.py L313) and not None. *)
Fixpoint min_length (e : pe) : nat :=
  match e with
  | Lit s | Kw s => length s
  | Chr _ => 1
  | Prim _ _ m _ => m
  | Ref _ => 0
  | And l => list_sum (map min_length l)
  | First [] => 0
  | First (x :: l) => fold_left Nat.min (map min_length l) (min_length x)
  | Many mn _ e => if mn =? 0 then 0 else min_length e
  | Opt _ | Not _ => 0
  | Look e | Act _ _ e => min_length e
  end.
Definition add_key (ks : list pystr) (k : pystr) : list pystr := if existsb (seqb k) ks then ks else ks ++ [k].
Definition nub (ks : list pystr) : list pystr := fold_left add_key ks [].
(** The loop of And.expecting, expressions.py L230-243, over parts with keys [f] and minimal lengths [g]; [None]: return {}. *)
Section AndKeys.
Context {A : Type}.
Variables (f : A -> list pystr) (g : A -> nat).
Fixpoint and_keys (l : list A) : option (list pystr) :=
  match l with
  | [] => Some []
  | x :: r =>
    let ks := f x in
    if null ks then None else if g x =? 0 then match and_keys r with Some k => Some (ks ++ k) | None => None end else Some ks
  end.
End AndKeys.
(** The keys of [expecting]: core.py L427-432, tokens.py L136-137, L216-217, L445-446, expressions.py L54-72, L230-243,
    enhancement.py L61-65, L185-186.  The elements under the keys are the element itself, except for a MatchFirst without a
    name, which streamline merges into a surrounding MatchFirst before the elements are used. *)
Fixpoint keys (e : pe) : list pystr :=
  match e with
  | Lit s | Kw s => [lower s]
  | Chr l => nub (map (fun c => [c]) l)
  | Prim _ ks _ _ => ks
  | Ref _ | Not _ => []
  | And l => match and_keys keys min_length l with Some k => nub k | None => [] end
  | First l => let kss := map keys l in if existsb null kss then [] else nub (concat kss)
  | Many _ _ e | Opt e | Look e | Act _ _ e => keys e
  end.

(** The elements of an And, or of a MatchFirst, that is merged into a surrounding one: expressions.py L116-122, L210-219. *)
Definition and_parts (e : pe) : list pe := match e with And (x :: g) => x :: g | _ => [e] end.
Definition first_parts (e : pe) : list pe := match e with First g => g | _ => [e] end.
(** NoMatch, tokens.py L64-84. *)
Definition NoMatch : pe := Prim (fun _ _ _ => Fail) [] 0 [].
Definition is_empty (e : pe) : bool := match e with And [] => true | _ => false end.
Definition repeats (e : pe) : bool := match e with Many _ _ _ | Opt _ => true | _ => false end.
(** An element [w] around [e], whose simplified form is [e']: enhancement.py L78-93, L330-338. *)
Definition shell (e e' w : pe) : pe := if is_empty e' && negb (is_empty e) then And [] else w.
(** streamline: expressions.py L91-130, L174-228, L516-534, enhancement.py L78-93, L175-183, L314-338, tokens.py L51-52.
    [ann]: the element has a name or an action.  The tables that MatchFirst.streamline makes (L530) are in [run]. *)
Fixpoint streamline (ann : bool) (e : pe) : pe :=
  match e with
  | And l =>
    let ls := map (streamline false) l in
    match ls, ann with
    | [], _ => And []
    | [x], false => x
    | _, _ => And (concat (map and_parts ls))
    end
  | First l =>
    match concat (map first_parts (map (streamline false) l)), ann with
    | [], false => And []
    | [x], false => x
    | l', _ => First l'
    end
  | Many mn mx e =>
    match mn, mx, ann with
    | O, Some O, false => And []
    | S O, Some (S O), false => streamline false e
    | _, _, _ => let e' := streamline false e in shell e e' (Many mn mx e')
    end
  | Opt e => let e' := streamline false e in shell e e' (Opt e')
  | Look e => let e' := streamline false e in if ann then Look e' else shell e e' (Look e')
  | Not e => let e' := streamline false e in if is_empty e' then NoMatch else Not e'
  | Act true f e => let e' := streamline true e in if repeats e && is_empty e' then And [] else Act true f e'
  | Act false f e => Act false f (streamline false e)
  | Prim f ks m l => Prim f ks m (map (streamline false) l)
  | _ => e
  end.

(** ** Parsing *)
(** tokens.py L129-134, L208-214, L438-443. *)
Definition run_lit (w : pystr) : parser := fun s i =>
  if startswith (skipn i s) w then Done [tok w] (i + length w) else Fail.
Definition run_kw (w : pystr) : parser := fun s i =>
  if startswith (lower (skipn i s)) (lower w) && match skipn (i + length w) s with c :: _ => negb (word_char c) | [] => true end
  then Done [tok w] (i + length w) else Fail.
Definition run_chr (l : list N) : parser := fun s i =>
  match skipn i s with c :: _ => if existsb (N.eqb c) l then Done [tok [c]] (S i) else Fail | [] => Fail end.
(** And.parse_impl, expressions.py L252-285. *)
Fixpoint run_and (ps : list parser) (s : pystr) (idx en : nat) (acc : list T) : out :=
  match ps with
  | [] => Done acc en
  | p :: r =>
    let idx := if idx <? en then skip s en else idx in
    match p s idx with Done t e => run_and r s idx e (acc ++ t) | x => x end
  end.
(** MatchFirst.parse_impl, expressions.py L502-514, on a list without tables. *)
Fixpoint run_first (ps : list parser) (s : pystr) (i : nat) : out :=
  match ps with
  | [] => Fail
  | p :: r => match p s i with Fail => run_first r s i | x => x end
  end.
(** Many.parse_impl, enhancement.py L249-312.  The element that matches without progress matches again and again: until the
    maximal number is reached, when it counts. *)
Section Many.
Variables (mn : nat) (mx : option nat) (p : parser) (s : pystr) (start : nat).
Definition many_end (cnt last : nat) (acc : list T) : out :=
  if cnt =? 0 then (if mn =? 0 then Done [] start else Fail) else if cnt <? mn then Fail else Done acc last.
Definition under (cnt : nat) : bool := match mx with Some m => cnt <? m | None => true end.
Fixpoint many_loop (n : nat) (idx en cnt last : nat) (acc : list T) : out :=
  match n with
  | O => Hang
  | S n' =>
    if (en <? length s) && under cnt then
      let idx := if idx <? en then skip s en else idx in
      match p s idx with
      | Fail => if mn <=? cnt then many_end cnt last acc else Fail
      | Done r e =>
        if (e <=? idx) && (e <? length s) then
          if full r then match mx with Some m => many_end m e (acc ++ concat (repeat r (m - cnt))) | None => Hang end
          else Hang
        else if full r then many_loop n' idx e (S cnt) e (acc ++ r) else many_loop n' idx e cnt last acc
      | x => x
      end
    else many_end cnt last acc
  end.
End Many.
Definition run_many (mn : nat) (mx : option nat) (p : parser) : parser := fun s i =>
  many_loop mn mx p s i (S (S (length s))) i i 0 i [].
(** Optional, enhancement.py L458-471; LookAhead, L124-130; NotAny, L161-173 (the branch with a regular expression). *)
Definition run_opt (p : parser) : parser := fun s i => match p s i with Fail => Done [] i | x => x end.
Definition run_look (p : parser) : parser := fun s i => match p s i with Done _ _ => Done [] i | x => x end.
Definition run_not (p : parser) : parser := fun s i => match p s i with Done _ _ => Fail | Fail => Done [] i | x => x end.
(** core.py L452-469: an action may not roll back the end. *)
Definition run_act (f : list T -> nat -> nat -> pystr -> out) (p : parser) : parser := fun s i =>
  match p s i with
  | Done r e => match f r i e s with Done r' e' => if e' <? e then Crash else Done r' e' | x => x end
  | x => x
  end.
(** Fast.parse_impl, expressions.py L685-702. *)
Definition no_parser : parser := fun _ _ => Fail.
Definition pick (ps : list parser) (i : nat) : parser := nth i ps no_parser.
Definition run_table (ps : list parser) (t : table) (s : pystr) (i : nat) : out :=
  match find (fun it => startswith (lower (skipn i s)) (lower (fst it))) t with
  | None => Fail
  | Some (k, _) =>
    match find (fun it => seqb (fst it) (lower (firstn (length k) (skipn i s)))) t with
    | Some (_, l) => run_first (map (pick ps) l) s i
    | None => Crash
    end
  end.
Definition run_alts (ps : list parser) (al : list alt) : parser :=
  run_first (map (fun a => match a with One i => pick ps i | Tbl t => run_table ps t end) al).

(** [ref]: what the elements behind the Forwards do; [quick]: with the tables of faster. *)
Fixpoint run (ref : nat -> parser) (quick : bool) (e : pe) : parser :=
  match e with
  | Lit w => run_lit w
  | Kw w => run_kw w
  | Chr l => run_chr l
  | Prim f _ _ l => f (map (run ref quick) l)
  | Ref n => ref n
  | And l => fun s i => run_and (map (run ref quick) l) s i i []
  | First l => if quick then run_alts (map (run ref quick) l) (faster (map keys l)) else run_first (map (run ref quick) l)
  | Many mn mx e => run_many mn mx (run ref quick e)
  | Opt e => run_opt (run ref quick e)
  | Look e => run_look (run ref quick e)
  | Not e => run_not (run ref quick e)
  | Act _ f e => run_act f (run ref quick e)
  end.
End Engine.
Arguments out : clear implicits.
Arguments pe : clear implicits.
Arguments parser : clear implicits.

(** RESERVED, sql_parsing/keywords.py L159-224, with the keywords of L15-72, L114-125, L143, L152 and utils.py L37-40: a
    keyword is a sequence with a name and an action; some are hidden; GROUP_BY and IS_NOT are groups of two. *)
Section Reserved.
Context {T : Type}.
Variable tok : pystr -> T.
Definition word (w : string) : pe T := Act true (fun _ _ j _ => Done [tok (u w)] j) (And [Kw (u w)]).
Definition hidden (w : string) : pe T := Act false (fun _ _ j _ => Done [] j) (word w).
Definition group (l : list (pe T)) : pe T := Act false (fun r _ j _ => Done r j) (And l).
Definition RESERVED : pe T := First
  [word "all"; word "and"; hidden "as"; word "asc"; word "between"; hidden "by"; hidden "case"; word "collate"; hidden "constraint";
   hidden "create"; word "cross"; word "desc"; word "distinct"; word "except"; hidden "else"; word "end"; word "false"; hidden "fetch";
   hidden "foreign"; hidden "from"; word "full"; group [hidden "group"; hidden "by"]; hidden "group"; hidden "having"; word "in";
   hidden "index"; word "inner"; word "intersect"; word "interval"; group [word "is"; word "not"]; word "is"; word "join"; hidden "key";
   word "lateral"; word "left"; word "like"; hidden "limit"; word "minus"; word "nocase"; word "not"; word "null"; hidden "offset";
   hidden "on"; word "or"; hidden "order"; word "outer"; hidden "over"; hidden "partition"; hidden "primary"; hidden "references";
   word "right"; word "rlike"; hidden "select"; hidden "then"; word "true"; word "union"; hidden "unique"; hidden "using";
   hidden "when"; hidden "where"; word "window"; hidden "with"; hidden "within"]%string.
End Reserved.
