(** C85: string literals; C86: names (sql_parsing/utils.py L569-588, L611-617; sql_parser.py L33-56). *)
From Coq Require Import String Ascii List NArith ZArith Bool Lia.
From Verif Require Import Base JsonModel SqlLex DotsModel DotsSpec FmtModel LitModel LitSpec LitProof.
Import ListNotations.
Open Scope N_scope.

(** ** C85 *)
(** A literal of standard SQL without backslashes and line ends is read as SQL reads it, to the same place. *)
Theorem C85_standard : forall uname more bs dq body rest v, clean body ->
  read_token bs dq (39 :: body ++ rest) = Some (TStr v, rest) ->
  read_string uname more (39 :: body ++ rest) = Ok (v, rest).
Proof. exact read_standard. Qed.
Print Assumptions C85_standard.

Lemma double_doubled q s : double_char q s = doubled q s.
Proof. reflexivity. Qed.
(** What the writer makes of a text is read back as that text. *)
Theorem C85_written : forall uname more fstr v rest, clean v -> not_next 39 rest ->
  exists t, FmtModel.literal fstr (JStr v) = Ok t /\ read_string uname more (t ++ rest) = Ok (v, rest).
Proof.
  intros uname more fstr v rest C R. exists (quote_str v). split; [reflexivity|]. unfold quote_str. rewrite double_doubled.
  cbn [app]. rewrite <- app_assoc. now apply read_doubled.
Qed.
Print Assumptions C85_written.

(** Doubled quotes and the escapes common to both languages: MySQL and the parser read the same. *)
Theorem C85_escapes : forall uname more dq l rest, Forall piece_ok l -> not_next 39 rest ->
  read_token true dq (39 :: src l ++ 39 :: rest) = Some (TStr (val l), rest) /\
  read_string uname more (39 :: src l ++ 39 :: rest) = Ok (val l, rest).
Proof. intros. split; [now apply sql_pieces|now apply read_pieces]. Qed.
Print Assumptions C85_escapes.

(** Exactly which escapes mean the same: of all characters but the quote, after one backslash, these nine. *)
Theorem C85_escape_exact : forall uname more dq c rest, c <> 39 -> not_next 39 rest ->
  exists v, read_token true dq (39 :: 92 :: c :: 39 :: rest) = Some (TStr v, rest) /\
    (read_string uname more (39 :: 92 :: c :: 39 :: rest) = Ok (v, rest) <-> In c [48; 98; 110; 114; 116; 92; 34; 37; 95]).
Proof. intros uname more dq c rest C R. exists (unescape c). split; [now apply sql_escape|now apply read_escape_iff]. Qed.
Print Assumptions C85_escape_exact.

(** An escaped quote ends the literal for the parser: an error, whatever MySQL reads. *)
Theorem C85_escaped_quote_refuted : forall uname more dq l t v rest, Forall piece_ok l -> not_next 39 t ->
  read_quoted true 39 t = Some (v, rest) ->
  read_token true dq (39 :: src l ++ 92 :: 39 :: t) = Some (TStr (val l ++ 39 :: v), rest) /\
  read_string uname more (39 :: src l ++ 92 :: 39 :: t) = Err ValueError.
Proof. intros. split; [now apply sql_backslash_quote|now apply read_backslash_quote]. Qed.
Print Assumptions C85_escaped_quote_refuted.

(** A line end inside a literal, a line feed or a carriage return, is an error. *)
Theorem C85_line_end_refuted : forall uname more dq l e v rest, Forall piece_ok l -> e = 10 \/ e = 13 -> clean v -> not_next 39 rest ->
  read_token true dq (39 :: src l ++ e :: doubled 39 v ++ 39 :: rest) = Some (TStr (val l ++ e :: v), rest) /\
  read_string uname more (39 :: src l ++ e :: doubled 39 v ++ 39 :: rest) = Err ValueError.
Proof. intros uname more dq l e v rest F [-> | ->] C R; split; [now apply sql_line_end|now apply read_line_end|now apply sql_return|now apply read_return]. Qed.
Print Assumptions C85_line_end_refuted.

(** After a backslash the letter x is the letter for MySQL; for the parser it starts a number of exactly two hexadecimal digits, and without
    them it is an error. *)
Theorem C85_hex_refuted : forall uname more dq v rest, clean v -> ~ In 39 v -> not_next 39 rest ->
  read_token true dq (39 :: 92 :: 120 :: v ++ 39 :: rest) = Some (TStr (120 :: v), rest) /\
  (forall a b x y w, hex_digit a x -> hex_digit b y -> v = a :: b :: w ->
     read_string uname more (39 :: 92 :: 120 :: v ++ 39 :: rest) = Ok (16 * N.of_nat x + N.of_nat y :: w, rest)) /\
  ((forall a b x y w, hex_digit a x -> hex_digit b y -> v <> a :: b :: w) ->
     read_string uname more (39 :: 92 :: 120 :: v ++ 39 :: rest) = Err ValueError).
Proof.
  intros uname more dq v rest C Q R. split; [exact (sql_unescaped dq 120 v rest C Q R)|]. split.
  - intros a b x y w A B ->. apply (clean_app [a; b] w) in C. apply (read_hex uname more a b x y w rest A B); [apply C| |exact R]. intros J. apply Q. now do 2 right.
  - intros H. now apply read_hex_err.
Qed.
Print Assumptions C85_hex_refuted.

(** One to three octal digits after a backslash are a number for the parser.  For MySQL only the first is taken, as the digit itself, 0
    as the character NUL: the two agree exactly when the digit 0 stands alone. *)
Theorem C85_octal_refuted : forall uname more dq d l v rest, Forall (fun d => (d < 8)%nat) (d :: l) -> (length l <= 2)%nat ->
  ((length l < 2)%nat -> match v with c :: _ => forall d, (d < 8)%nat -> c <> octal_digit d | [] => True end) ->
  clean v -> ~ In 39 v -> not_next 39 rest ->
  let literal := 39 :: 92 :: map octal_digit (d :: l) ++ v ++ 39 :: rest in
  read_string uname more literal = Ok (octal_value (d :: l) :: v, rest) /\
  read_token true dq literal = Some (TStr (match d with O => 0 | _ => octal_digit d end :: map octal_digit l ++ v), rest) /\
  (read_token true dq literal = Some (TStr (octal_value (d :: l) :: v), rest) <-> d = O /\ l = []).
Proof.
  intros uname more dq d l v rest F L X C Q R literal. inversion F as [|? ? D FL]; subst.
  assert (OD : forall c, In c (map octal_digit l) -> c <> 39 /\ clean_char c = true).
  { intros c I. apply in_map_iff in I. destruct I as (e & <- & I). rewrite Forall_forall in FL. destruct (octal_digit_value e (FL e I)) as (_ & ? & ? & _). auto. }
  assert (T : read_token true dq literal = Some (TStr (match d with O => 0 | _ => octal_digit d end :: map octal_digit l ++ v), rest)).
  { unfold literal. cbn [map app]. rewrite app_assoc. rewrite sql_unescaped; [| | |exact R].
    - do 8 (destruct d as [|d]; [reflexivity|]). exfalso. do 8 apply PeanoNat.Nat.succ_lt_mono in D. now apply PeanoNat.Nat.nlt_0_r in D.
    - apply clean_app. split; [|exact C]. unfold clean. apply forallb_forall. intros c I. now apply OD in I.
    - rewrite in_app_iff. intros [I|I]; [now apply OD in I|contradiction]. }
  split; [now apply read_octal|]. split; [exact T|]. rewrite T. split.
  - intros E. injection E as E1 E2. assert (LN : l = []).
    { destruct l as [|e l]; [reflexivity|]. apply (f_equal (@length N)) in E2. rewrite app_length, map_length in E2. cbn [length] in E2. exfalso. revert E2. generalize (length v) (length l). intros a b H. apply (f_equal N.of_nat) in H. rewrite Nnat.Nat2N.inj_add, Nnat.Nat2N.inj_succ in H. revert H. generalize (N.of_nat a) (N.of_nat b). clear. intros. lia. }
    subst l. split; [|reflexivity]. cbn [octal_value fold_left] in E1. do 8 (destruct d as [|d]; [first [reflexivity|discriminate E1]|]). exfalso. do 8 apply PeanoNat.Nat.succ_lt_mono in D. now apply PeanoNat.Nat.nlt_0_r in D.
  - intros [-> ->]. reflexivity.
Qed.
Print Assumptions C85_octal_refuted.

(** Between double quotes, without single ones, the parser reads what MySQL reads exactly when no doubled double quote is there:
    it does not undo the doubling. *)
Theorem C85_double_quotes : forall uname more v rest, clean v -> ~ In 39 v -> not_next 34 rest ->
  read_token true true (34 :: doubled 34 v ++ 34 :: rest) = Some (TStr v, rest) /\
  read_string uname more (34 :: doubled 34 v ++ 34 :: rest) = Ok (doubled 34 v, rest) /\
  (doubled 34 v = v <-> ~ In 34 v).
Proof.
  intros uname more v rest C Q R. split; [|split].
  - cbn [read_token]. change (34 =? 39) with false. change (34 =? 34) with true. cbn match. rewrite quoted_doubled; [reflexivity|discriminate|intros _; now apply clean_no_bs|exact R].
  - now apply read_double.
  - split; [|apply doubled_none]. intros E J. pose proof (proj2 (doubled_len uname more 34 v) J) as L. rewrite E in L. exact (PeanoNat.Nat.lt_irrefl _ L).
Qed.
Print Assumptions C85_double_quotes.

(** A single quote between double quotes ends Python's literal: the text before it is the literal, the text after it is read as Python code
    ([more]). *)
Theorem C85_inner_quote_refuted : forall uname more a b rest, clean a -> clean b -> ~ In 39 a -> not_next 39 b ->
  ~ In 34 (a ++ b) -> not_next 34 rest ->
  read_token true true (34 :: a ++ 39 :: b ++ 34 :: rest) = Some (TStr (a ++ 39 :: b), rest) /\
  exists code, read_string uname more (34 :: a ++ 39 :: b ++ 34 :: rest) = (do v <- more a code; Ok (v, rest)) /\
    (~ In 39 b -> code = b ++ [39]).
Proof.
  intros uname more a b rest Ca Cb Qa Qb D R. split.
  - assert (D' : ~ In 34 (a ++ 39 :: b)). { rewrite in_app_iff in *. cbn. intros [J|[J|J]]; [tauto|discriminate|tauto]. }
    assert (B' : ~ In 92 (a ++ 39 :: b)). { rewrite in_app_iff. cbn. intros [J|[J|J]]; [now apply (clean_no_bs a)|discriminate|now apply (clean_no_bs b)]. }
    pose proof (quoted_doubled true 34 (a ++ 39 :: b) rest ltac:(discriminate) (fun _ => B') R) as E. rewrite (doubled_none 34 _ D') in E.
    rewrite <- app_assoc in E. cbn [app] in E. cbn [read_token]. change (34 =? 39) with false. change (34 =? 34) with true. cbn match. cbn [andb]. now rewrite E.
  - eexists. split; [now apply read_double_inner|]. intros J. now rewrite replace_pair_none.
Qed.
Print Assumptions C85_inner_quote_refuted.

(** Examples: [more] refuses. *)
Definition no_name (_ : pystr) : option N := None.
Definition refuse (_ _ : pystr) : res pystr := Err ValueError.
Example C85_example :
  read_string no_name refuse (u "'it''s 5%' , 2") = Ok (u "it's 5%", u " , 2") /\
  read_string no_name refuse (u "'a\tb\_c'") = Ok (97 :: 9 :: u "b\_c", []) /\
  read_token true true (u "'C:\Zoo'") = Some (TStr (67 :: 58 :: 26 :: u "oo"), []) /\
  read_string no_name refuse (u "'C:\Zoo'") = Ok (u "C:\Zoo", []) /\
  read_string no_name refuse (u "'\x41'") = Ok (u "A", []) /\
  read_token true true (u "'\x41'") = Some (TStr (u "x41"), []) /\
  read_string no_name refuse (u "'\x4'") = Err ValueError /\
  read_string no_name refuse (u "'\1015'") = Ok (u "A5", []) /\
  read_token true true (u "'\1015'") = Some (TStr (u "1015"), []) /\
  read_string no_name refuse (u "'it\'s'") = Err ValueError /\
  read_token true true (u "'it\'s'") = Some (TStr (u "it's"), []) /\
  read_token true true (34 :: u "it's" ++ [34]) = Some (TStr (u "it's"), []) /\
  read_string no_name refuse (34 :: u "it's" ++ [34]) = Err ValueError.
Proof. repeat split; reflexivity. Qed.

(** ** C86 *)
(** A name in back quotes is read as SQL reads it, its dots escaped. *)
Theorem C86_back_quotes : forall uname more bs dq v rest, clean v -> not_next 96 rest ->
  read_token bs dq (96 :: doubled 96 v ++ 96 :: rest) = Some (TQuoted v, rest) /\
  read_quoted_name uname more (96 :: doubled 96 v ++ 96 :: rest) = Ok (escape_dots v, rest).
Proof. intros. split; [now apply sql_back|now apply read_back]. Qed.
Print Assumptions C86_back_quotes.

(** Names with dots between them (and blanks around the dots), each in back quotes, brackets or plain, make the same text as join_field of the list of the names, and split_field
    gives the list back: a dot inside a name is told from a dot between names. *)
Theorem C86_path : forall uname more w l n rest, written_ok w -> Forall further_ok l -> (length l < n)%nat -> ends rest ->
  exists f, read_name uname more n (dotted w l ++ rest) = Ok (f, rest) /\
    join_field (map Name (map name_of (w :: map f_name l))) = Ok f /\ split_field f = map Name (map name_of (w :: map f_name l)).
Proof. exact read_names_path. Qed.
Print Assumptions C86_path.

(** So different lists of names give different texts. *)
Theorem C86_injective : forall uname more w l w' l' n n' rest rest' f, written_ok w -> written_ok w' -> Forall further_ok l -> Forall further_ok l' ->
  (length l < n)%nat -> (length l' < n')%nat -> ends rest -> ends rest' ->
  read_name uname more n (dotted w l ++ rest) = Ok (f, rest) ->
  read_name uname more n' (dotted w' l' ++ rest') = Ok (f, rest') ->
  map name_of (w :: map f_name l) = map name_of (w' :: map f_name l').
Proof.
  intros uname more w l w' l' n n' rest rest' f W W' F F' L L' E E' R R'.
  destruct (read_names_path uname more w l n rest W F L E) as (g & G & _ & S). destruct (read_names_path uname more w' l' n' rest' W' F' L' E') as (g' & G' & _ & S').
  rewrite R in G. rewrite R' in G'. injection G as <-. injection G' as <-. rewrite S in S'.
  revert S'. generalize (map name_of (w :: map f_name l)) as a. generalize (map name_of (w' :: map f_name l')) as b. intros b a. revert b. induction a as [|x a IH]; intros [|y b]; cbn [map]; intros H; try discriminate; [reflexivity|].
  injection H as <- H. f_equal. now apply IH.
Qed.
Print Assumptions C86_injective.

(** A backslash in back quotes is an ordinary character for MySQL; the parser reads it so exactly when Python has no escape there. *)
Theorem C86_backslash_refuted : forall uname more bs dq c rest, c <> 96 -> c <> 34 -> c <> 13 -> c <> 0 -> surrogate c = false -> not_next 96 rest ->
  read_token bs dq (96 :: 92 :: c :: 96 :: rest) = Some (TQuoted [92; c], rest) /\
  (read_quoted_name uname more (96 :: 92 :: c :: 96 :: rest) = Ok (escape_dots [92; c], rest) <-> ~ In c python_escapes).
Proof.
  intros uname more bs dq c rest B D R0 Z SU R. split; [|now apply read_back_escape].
  pose proof (sql_back bs dq [92; c] rest R) as H. cbn [doubled flat_map app] in H. change (92 =? 96) with false in H. destruct (N.eqb_spec c 96); [contradiction|]. exact H.
Qed.
Print Assumptions C86_backslash_refuted.

(** A dash after the characters of a plain name: the parser refuses the text, unless a digit stands on one side of the dash or a blank
    follows it; then the name ends before the dash. *)
Theorem C86_dash : forall uname more v d rest n, v <> [] -> forallb ident_char v = true -> is_digit (hd 0 v) = false ->
  (is_digit (last v 0) = true \/ is_digit d = true \/ d = 32 -> read_name uname more (S n) (v ++ 45 :: d :: rest) = Ok (v, 45 :: d :: rest)) /\
  (is_digit (last v 0) = false -> is_digit d = false -> d <> 32 -> read_name uname more (S n) (v ++ 45 :: d :: rest) = Err ValueError).
Proof.
  intros uname more v d rest n NE F D. rewrite (simple_dash uname more v d rest n NE F D). split.
  - try change LitModel.is_digit with is_digit in *; try change LitModel.ident_char with ident_char in *. intros [-> |[-> | ->]]; rewrite ?orb_true_r; reflexivity.
  - try change LitModel.is_digit with is_digit in *; try change LitModel.ident_char with ident_char in *. intros -> -> H. destruct (N.eqb_spec d 32); [contradiction|]. reflexivity.
Qed.
Print Assumptions C86_dash.

Example C86_example :
  read_name no_name refuse 9 (u "db.`my.table`.[a b] = 1") = Ok (u "db.my\.table.a b", u " = 1") /\
  split_field (u "db.my\.table.a b") = [Name (u "db"); Name (u "my.table"); Name (u "a b")] /\
  read_name no_name refuse 9 (u "order-date") = Err ValueError /\
  read_name no_name refuse 9 (u "price2-x") = Ok (u "price2", u "-x") /\
  read_name no_name refuse 9 (u "`new\table`") = Ok ([110; 101; 119; 9] ++ u "able", []) /\
  read_name no_name refuse 9 (u "a.1") = Ok (u "a", u ".1") /\
  read_name no_name refuse 9 (u "emp . `age` > 4") = Ok (u "emp.age", u " > 4").
Proof. repeat split; reflexivity. Qed.
