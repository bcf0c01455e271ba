(** * Properties C55-C58: the SQL writer *)
From Coq Require Import String Ascii List NArith ZArith QArith Bool Lia Permutation.
From Verif Require Import Base BaseProof JsonModel CreateModel CryptoModel CryptoSpec DotsModel DotsSpec SqlLex SqlRead FmtModel FmtSpec
  FmtLexProof FmtNameProof FmtClauseProof FmtProof.
Import ListNotations.
Open Scope Z_scope.

(** For the examples. *)
Definition ascii_alnum (c : N) : bool := (letter c || digit c)%bool.
Definition fmt (j : json) : res pystr := format_sql ascii_alnum (fun _ => []) j.
Definition op2 (k : string) (a b : json) : json := JDict [(u k, JList [a; b])].
Definition col (s : string) : json := JStr (u s).
Lemma ascii_alnum_ok : ascii_ok ascii_alnum.
Proof. intros c _. reflexivity. Qed.

(** ** C55 *)

(** A literal reads back as itself, and what follows it stays outside, in standard SQL. *)
Lemma c55_std alnum fstr ansi dq n c s : -4 <= c ->
  exists txt, dispatch alnum fstr ansi (S n) (JDict [(u "literal", JStr s)]) c = Ok txt /\
    forall rest, match rest with d :: _ => d <> 39%N | [] => True end ->
      read_token false dq (txt ++ rest) = Some (TStr s, rest).
Proof.
  intros H. exists (quote_str s). split; [now apply literal_text|]. intros rest R. rewrite quote_read.
  rewrite read_quoted_rest; [reflexivity|discriminate|discriminate|exact R].
Qed.
Theorem C55_standard : forall alnum fstr ansi dq n c s, -4 <= c ->
  exists txt, dispatch alnum fstr ansi (S n) (JDict [(u "literal", JStr s)]) c = Ok txt /\
    forall rest, match rest with d :: _ => d <> 39%N | [] => True end ->
      read_token false dq (txt ++ rest) = Some (TStr s, rest).
Proof. exact c55_std. Qed.
Print Assumptions C55_standard.

(** In MySQL's default mode exactly the texts whose backslashes all stand before [%] or [_] read back. *)
Lemma c55_mysql alnum fstr ansi dq n c s rest : -4 <= c -> match rest with d :: _ => d <> 39%N | [] => True end ->
  exists txt, dispatch alnum fstr ansi (S n) (JDict [(u "literal", JStr s)]) c = Ok txt /\
    (read_token true dq (txt ++ rest) = Some (TStr s, rest) <-> backslash_ok s = true).
Proof. intros H R. exists (quote_str s). split; [now apply literal_text|]. now apply backslash_iff. Qed.
Theorem C55_mysql_exact : forall alnum fstr ansi dq n c s rest, -4 <= c -> match rest with d :: _ => d <> 39%N | [] => True end ->
  exists txt, dispatch alnum fstr ansi (S n) (JDict [(u "literal", JStr s)]) c = Ok txt /\
    (read_token true dq (txt ++ rest) = Some (TStr s, rest) <-> backslash_ok s = true).
Proof. exact c55_mysql. Qed.
Print Assumptions C55_mysql_exact.

(** There a text that starts with a backslash and a quote ends the literal: the rest of it is read as SQL. *)
Lemma c55_injection alnum fstr ansi dq n c d p rest : -4 <= c -> d <> 39%N ->
  exists txt, dispatch alnum fstr ansi (S n) (JDict [(u "literal", JStr (92%N :: 39%N :: d :: p))]) c = Ok txt /\
    read_token true dq (txt ++ rest) = Some (TStr [39%N], d :: double_char 39 p ++ 39%N :: rest).
Proof.
  intros H D. eexists. split; [now apply literal_text|]. rewrite quote_read.
  rewrite !double_cons. change (39 =? 39)%N with true. change (92 =? 39)%N with false. destruct (N.eqb_spec d 39) as [|_]; [contradiction|].
  cbn [app]. rewrite rq_bs. change (unescape 39) with [39%N]. rewrite rq_end by exact D. reflexivity.
Qed.
Theorem C55_mysql_injection : forall alnum fstr ansi dq n c d p rest, -4 <= c -> d <> 39%N ->
  exists txt, dispatch alnum fstr ansi (S n) (JDict [(u "literal", JStr (92%N :: 39%N :: d :: p))]) c = Ok txt /\
    read_token true dq (txt ++ rest) = Some (TStr [39%N], d :: double_char 39 p ++ 39%N :: rest).
Proof. exact c55_injection. Qed.
Print Assumptions C55_mysql_injection.

(** [it's] is safe in both modes; [\' OR 1=1 #] leaves the literal in MySQL's default mode. *)
Example C55_example :
  fmt (op2 "eq" (col "a") (JDict [(u "literal", JStr (u "it's"))])) = Ok (u "a = 'it''s'") /\
  lex true true (u "a = 'it''s'") = Some [TWord (u "a"); TSym (u "="); TStr (u "it's")] /\
  fmt (op2 "eq" (col "a") (JDict [(u "literal", JStr (u "\' OR 1=1 OR a='"))])) = Ok (u "a = '\'' OR 1=1 OR a='''") /\
  lex false true (u "a = '\'' OR 1=1 OR a='''") = Some [TWord (u "a"); TSym (u "="); TStr (u "\' OR 1=1 OR a='")] /\
  lex true true (u "a = '\'' OR 1=1 OR a=''") = Some [TWord (u "a"); TSym (u "="); TStr (u "'"); TWord (u "OR"); TNum (u "1"); TSym (u "=");
    TNum (u "1"); TWord (u "OR"); TWord (u "a"); TSym (u "="); TStr []].
Proof. repeat split; reflexivity. Qed.

(** ** C56 *)

(** A name without dots is written as a quoted identifier that reads back as it, or unchanged when it is a plain
    word and not one of the reserved words; with double quotes as in standard SQL, with backticks in every mode. *)
Theorem C56_identifiers : forall alnum fstr ansi bs dq n s c, ascii_ok alnum -> (ansi = true -> dq = false) ->
  ~ In DOT s -> ~ In BS s -> name_ok s ->
  exists txt, dispatch alnum fstr ansi (S n) (JStr s) c = Ok txt /\ forall rest, sep rest = true ->
    (txt <> s /\ read_token bs dq (txt ++ rest) = Some (TQuoted s, rest)) \/
    (txt = s /\ plain_word alnum s = true /\ ~ In (map low s) reserved_names /\
     read_token bs dq (txt ++ rest) = Some (TWord s, rest)).
Proof. exact name_reads. Qed.
Print Assumptions C56_identifiers.

(** A plain word of ASCII that is not reserved is written as it is (what MySQL needs in its default mode, where double
    quotes are for strings), and a reserved one is not. *)
Theorem C56_plain_words : forall alnum fstr ansi n s c, ascii_ok alnum -> ascii_word s = true ->
  dispatch alnum fstr ansi (S n) (JStr s) c = Ok s <-> ~ In (map low s) reserved_names.
Proof. exact plain_written. Qed.
Print Assumptions C56_plain_words.

(** Names over the alphabet of base64 that hold +, / or = are quoted (text and quotes only); in MySQL's default mode
    that is a string. *)
Lemma c56_b64 alnum fstr bs n s c : ascii_ok alnum -> (forall x, In x s -> b64_alphabet x) -> In 43%N s \/ In 47%N s \/ In 61%N s ->
  exists txt, dispatch alnum fstr true (S n) (JStr s) c = Ok txt /\ txt = u """" ++ s ++ u """" /\
    forall rest, sep rest = true ->
      read_token bs false (txt ++ rest) = Some (TQuoted s, rest) /\ read_token bs true (txt ++ rest) = Some (TStr s, rest).
Proof.
  intros HA B X.
  assert (ND : ~ In DOT s /\ ~ In BS s /\ ~ In 34%N s /\ ~ In 92%N s).
  { repeat split; intros I; apply B in I; unfold b64_alphabet, DOT, BS in I; lia. }
  destruct ND as (N1 & N2 & N3 & N4).
  exists (esc alnum true s). split; [now apply name_written|].
  assert (E : esc alnum true s = (34%N :: double_char 34 s ++ [34%N])%N) by (unfold esc; now rewrite (b64_quoted alnum s HA B X)).
  split; [rewrite E, double_none by exact N3; reflexivity|]. intros rest S. rewrite E.
  split; [rewrite (read_dquoted bs false)|rewrite (read_dquoted bs true)]; try reflexivity; try (now apply sep_not; [|left]).
  - destruct bs; discriminate.
  - intros _. exact N4.
Qed.
Theorem C56_base64_quoted : forall alnum fstr bs n s c, ascii_ok alnum -> (forall x, In x s -> b64_alphabet x) -> In 43%N s \/ In 47%N s \/ In 61%N s ->
  exists txt, dispatch alnum fstr true (S n) (JStr s) c = Ok txt /\ txt = u """" ++ s ++ u """" /\
    forall rest, sep rest = true ->
      read_token bs false (txt ++ rest) = Some (TQuoted s, rest) /\ read_token bs true (txt ++ rest) = Some (TStr s, rest).
Proof. exact c56_b64. Qed.
Print Assumptions C56_base64_quoted.

(** The ciphertext of an integer of at most 32 characters is always quoted. *)
Lemma c56_int P alnum fstr n c key z ct : prim_ok P -> ascii_ok alnum -> aes_encrypt P key (str_int z) = Ok ct -> (length (str_int z) <= 32)%nat ->
  dispatch alnum fstr true (S n) (JStr ct) c = Ok (u """" ++ ct ++ u """").
Proof.
  intros HP HA E L. destruct (int_comparand P HP alnum key z ct HA E L) as (B & Q & D).
  rewrite name_written; [|intros X; apply B in X; unfold b64_alphabet, DOT, BS in X; lia..].
  unfold esc. rewrite Q. change (quote_char true) with 34%N. now rewrite D.
Qed.
Theorem C56_integer_ciphertext : forall P alnum fstr n c key z ct, prim_ok P -> ascii_ok alnum ->
  aes_encrypt P key (str_int z) = Ok ct -> (length (str_int z) <= 32)%nat ->
  dispatch alnum fstr true (S n) (JStr ct) c = Ok (u """" ++ ct ++ u """").
Proof. exact c56_int. Qed.
Print Assumptions C56_integer_ciphertext.

(** Refuted without the side conditions: in MySQL's default mode a name that is quoted is read as a string, or not at all, never as
    an identifier; a plain word followed by a newline is written without quotes and loses the newline; the name [*] is
    written as the symbol. *)
Lemma c56_refuted alnum fstr : ascii_ok alnum ->
  (forall bs n s c rest, name_ok s -> ~ In DOT s -> ~ In BS s -> plain_word alnum s = false ->
    exists txt, dispatch alnum fstr true (S n) (JStr s) c = Ok txt /\
      forall t r, read_token bs true (txt ++ rest) = Some (t, r) -> exists x, t = TStr x) /\
  (forall bs dq ansi n s c rest, ascii_word s = true -> ~ In (map low s) reserved_names ->
    exists txt, dispatch alnum fstr ansi (S n) (JStr (s ++ [10%N])) c = Ok txt /\
      read_token bs dq (txt ++ rest) = Some (TWord s, 10%N :: rest)) /\
  (forall ansi n c, dispatch alnum fstr ansi (S n) (JStr (u "*")) c = Ok (u "*")).
Proof.
  intros HA. split; [|split].
  - intros bs n s c rest OK D B P. exists (esc alnum true s). split; [now apply name_written|].
    intros t r H. unfold esc in H. rewrite quote_true in H; [|exact (proj1 OK)|exact (proj2 OK)|exact P]. now apply dq_string in H.
  - intros bs dq ansi n s c rest A R. destruct (ascii_plain alnum s HA A) as (P & K & L & NS).
    assert (C : forall x, In x s -> kw_char x = true) by now apply forallb_forall.
    exists (esc alnum ansi (s ++ [10%N])). split.
    + apply name_written; intros X; apply in_app_iff in X as [X|[X|[]]]; try discriminate X; apply C in X; discriminate X.
    + unfold esc. rewrite (newline_word alnum s HA A R). rewrite <- app_assoc. cbn [app].
      apply plain_shape in P as (x & w & -> & C1 & W).
      assert (C' : word_start x = true) by (unfold word_start; now rewrite C1).
      cbn [app]. unfold read_token. destruct (word_start_not _ C') as [-> [-> ->]]. rewrite C'.
      change (x :: w ++ 10%N :: rest) with ((x :: w) ++ 10%N :: rest). rewrite span_all; [reflexivity| |reflexivity].
      cbn [forallb]. unfold word_char at 1. rewrite C'. cbn [orb andb]. apply forallb_forall. intros y I.
      apply (wordc_word alnum HA). unfold wordc. rewrite forallb_forall in W. now apply W.
  - reflexivity.
Qed.
Theorem C56_refuted : forall alnum fstr, ascii_ok alnum ->
  (forall bs n s c rest, name_ok s -> ~ In DOT s -> ~ In BS s -> plain_word alnum s = false ->
    exists txt, dispatch alnum fstr true (S n) (JStr s) c = Ok txt /\
      forall t r, read_token bs true (txt ++ rest) = Some (t, r) -> exists x, t = TStr x) /\
  (forall bs dq ansi n s c rest, ascii_word s = true -> ~ In (map low s) reserved_names ->
    exists txt, dispatch alnum fstr ansi (S n) (JStr (s ++ [10%N])) c = Ok txt /\
      read_token bs dq (txt ++ rest) = Some (TWord s, 10%N :: rest)) /\
  (forall ansi n c, dispatch alnum fstr ansi (S n) (JStr (u "*")) c = Ok (u "*")).
Proof. exact c56_refuted. Qed.
Print Assumptions C56_refuted.

(** The reserved word of MySQL [table] is not among RESERVED: written without quotes. *)
Example C56_example :
  fmt (col "Order") = Ok (u """Order""") /\ fmt (col "my col") = Ok (u """my col""") /\ fmt (col "a_1") = Ok (u "a_1") /\
  fmt (col "t.from") = Ok (u "t.""from""") /\ fmt (col "say ""x""") = Ok (u """say """"x""""""") /\
  fmt (col "table") = Ok (u "table") /\ fmt (col "aGVsbG8=") = Ok (u """aGVsbG8=""") /\
  fmt (JStr (u "id" ++ [10%N])) = Ok (u "id" ++ [10%N]) /\
  (exists ct, aes_encrypt prim_rot (u "k") (str_int 42) = Ok ct /\ fmt (JStr ct) = Ok (u """" ++ ct ++ u """")).
Proof. repeat split; try reflexivity. eexists. split; vm_compute; reflexivity. Qed.

(** ** C57 *)

(** An expression is written and read back as the same expression under any operator levels that agree with the ranks
    the writer uses; [well_ranked] says where it writes parentheses and where the levels allow none. *)
Theorem C57_structure : forall alnum fstr ansi bs dq lev top n j t,
  ascii_ok alnum -> (ansi = true -> dq = false) -> lev_ok lev top -> (jdepth j < n)%nat ->
  tree_of j = Some t -> well_ranked lev t -> good_leaves bs t ->
  exists s, dispatch alnum fstr ansi n j max_prec = Ok s /\ reads bs dq lev top s t.
Proof. exact format_reads. Qed.
Print Assumptions C57_structure.

(** Search conditions (comparisons of columns and constants under NOT, AND and OR): always, with the levels of MySQL and with those
    of the grammar in /repo. *)
Lemma c57_conditions alnum fstr bs j t : ascii_ok alnum -> tree_of j = Some t -> condition t -> good_leaves bs t ->
  exists s, format_sql alnum fstr j = Ok s /\ reads bs false mysql_lev 14 s t /\ reads bs false repo_lev 26 s t.
Proof.
  intros HA T C G. unfold format_sql.
  destruct (format_reads alnum fstr true bs false mysql_lev 14 (jdepth j * 2 + 3) j t) as (s & E & R); try assumption;
    [reflexivity|apply mysql_std|lia|apply condition_ranked; [apply mysql_std|exact C]|].
  destruct (format_reads alnum fstr true bs false repo_lev 26 (jdepth j * 2 + 3) j t) as (s' & E' & R'); try assumption;
    [reflexivity|apply repo_std|lia|apply condition_ranked; [apply repo_std|exact C]|].
  exists s. rewrite E in E'. injection E' as <-. auto.
Qed.
Theorem C57_conditions : forall alnum fstr bs j t, ascii_ok alnum -> tree_of j = Some t -> condition t -> good_leaves bs t ->
  exists s, format_sql alnum fstr j = Ok s /\ reads bs false mysql_lev 14 s t /\ reads bs false repo_lev 26 s t.
Proof. exact c57_conditions. Qed.
Print Assumptions C57_conditions.

(** With two operators the condition is exact. *)
Theorem C57_two_operators : forall alnum fstr ansi bs dq lev top n j t o1 o2 a b c,
  ascii_ok alnum -> (ansi = true -> dq = false) -> lev_ok lev top -> (jdepth j < n)%nat ->
  tree_of j = Some t -> t = EBin o1 a (EBin o2 b c) \/ t = EBin o2 (EBin o1 a b) c ->
  leaf a -> leaf b -> leaf c -> good_leaves bs t ->
  exists s, dispatch alnum fstr ansi n j max_prec = Ok s /\ (reads bs dq lev top s t <-> well_ranked lev t).
Proof. exact two_exact. Qed.
Print Assumptions C57_two_operators.

(** The text of a tree reads as at most one tree. *)
Theorem C57_reading_unique : forall bs dq lev top s t t', reads bs dq lev top s t -> reads bs dq lev top s t' -> t = t'.
Proof. exact reads_unique. Qed.
Print Assumptions C57_reading_unique.

(** Refuted in general: the first of each pair is not read back (its text is that of the second). *)
Definition confused : list (json * json) :=
  [(op2 "sub" (col "a") (op2 "sub" (col "b") (col "c")), op2 "sub" (op2 "sub" (col "a") (col "b")) (col "c"));
   (op2 "div" (col "a") (op2 "div" (col "b") (col "c")), op2 "div" (op2 "div" (col "a") (col "b")) (col "c"));
   (op2 "mul" (col "a") (op2 "div" (col "b") (col "c")), op2 "div" (op2 "mul" (col "a") (col "b")) (col "c"));
   (op2 "mod" (col "a") (op2 "mul" (col "b") (col "c")), op2 "mul" (op2 "mod" (col "a") (col "b")) (col "c"));
   (op2 "binary_and" (op2 "binary_or" (col "a") (col "b")) (col "c"), op2 "binary_or" (col "a") (op2 "binary_and" (col "b") (col "c")))].
Lemma c57_refuted : forall p, In p confused ->
  tree_of (fst p) <> None /\ tree_of (snd p) <> None /\ tree_of (fst p) <> tree_of (snd p) /\
  exists s, fmt (fst p) = Ok s /\ (forall t, reads false false repo_lev 26 s t -> Some t <> tree_of (fst p)) /\
            (forall t, reads false false mysql_lev 14 s t -> Some t <> tree_of (fst p)).
Proof.
  intros p H.
  assert (G : forall j t o1 o2 a b c, tree_of j = Some t -> t = EBin o1 a (EBin o2 b c) \/ t = EBin o2 (EBin o1 a b) c ->
    leaf a -> leaf b -> leaf c -> good_leaves false t -> ~ well_ranked repo_lev t -> ~ well_ranked mysql_lev t ->
    exists s, fmt j = Ok s /\ (forall t', reads false false repo_lev 26 s t' -> Some t' <> tree_of j) /\
              (forall t', reads false false mysql_lev 14 s t' -> Some t' <> tree_of j)).
  { intros j t o1 o2 a b c T S La Lb Lc GL W1 W2. unfold fmt, format_sql.
    destruct (two_exact ascii_alnum (fun _ => []) true false false repo_lev 26 (jdepth j * 2 + 3) j t o1 o2 a b c) as (s & E & R);
      try assumption; [exact ascii_alnum_ok|reflexivity|apply repo_std|lia|].
    destruct (two_exact ascii_alnum (fun _ => []) true false false mysql_lev 14 (jdepth j * 2 + 3) j t o1 o2 a b c) as (s' & E' & R');
      try assumption; [exact ascii_alnum_ok|reflexivity|apply mysql_std|lia|].
    rewrite E in E'. injection E' as <-. exists s. split; [exact E|].
    split; intros t' X Y; rewrite T in Y; injection Y as ->; [apply W1, R, X|apply W2, R', X]. }
  cbn [confused In] in H.
  repeat (destruct H as [<-|H]; [split; [discriminate|]; split; [discriminate|]; split; [discriminate|];
    eapply G; [reflexivity|first [left; reflexivity|right; reflexivity]|exact I|exact I|exact I|
    cbn; repeat split; try constructor; try constructor; discriminate|
    cbn; intros W; decompose [and] W; repeat match goal with X : true = true -> _ |- _ => specialize (X eq_refl) end; lia|
    cbn; intros W; decompose [and] W; repeat match goal with X : true = true -> _ |- _ => specialize (X eq_refl) end; lia]|]).
  destruct H.
Qed.
Theorem C57_unrestricted_refuted : forall p, In p confused ->
  tree_of (fst p) <> None /\ tree_of (snd p) <> None /\ tree_of (fst p) <> tree_of (snd p) /\
  exists s, fmt (fst p) = Ok s /\ (forall t, reads false false repo_lev 26 s t -> Some t <> tree_of (fst p)) /\
            (forall t, reads false false mysql_lev 14 s t -> Some t <> tree_of (fst p)).
Proof. exact c57_refuted. Qed.
Print Assumptions C57_unrestricted_refuted.

Example C57_example :
  fmt (op2 "and" (op2 "or" (op2 "eq" (col "a") (JInt 1)) (op2 "gt" (col "t.b") (JInt (-2)))) (JDict [(u "not", op2 "in" (col "c") (JDict [(u "literal", JList [JStr (u "x"); JStr (u "y")])]))]))
    = Ok (u "(a = 1 OR t.b > -2) AND NOT(c IN ('x', 'y'))") /\
  fmt (op2 "sub" (col "a") (op2 "sub" (col "b") (col "c"))) = Ok (u "a - b - c") /\
  fmt (op2 "mul" (op2 "add" (col "a") (col "b")) (col "c")) = Ok (u "(a + b) * c") /\
  fmt (op2 "binary_and" (op2 "binary_or" (col "a") (col "b")) (col "c")) = Ok (u "a | b & c") /\
  fmt (op2 "eq" (JDict [(u "not", col "a")]) (col "b")) = Ok (u "NOT(a) = b") /\
  fmt (JDict [(u "neg", col "a")]) = Ok (u "NEG(a)").
Proof. repeat split; reflexivity. Qed.

(** ** C58 *)

(** The order of the keys does not matter. *)
Theorem C58_key_order : forall alnum fstr ansi n d d' prec, statement d -> NoDup (dkeys d) -> Permutation d d' ->
  dispatch alnum fstr ansi (S n) (JDict d') prec = dispatch alnum fstr ansi (S n) (JDict d) prec.
Proof. intros. now apply key_order. Qed.
Print Assumptions C58_key_order.

(** The text is the clauses that are present, each once, in the order of SQL, separated by blanks; each starts with its keyword, and WHERE,
    HAVING, SELECT, GROUP BY, LIMIT and SET hold their own values. *)
Theorem C58_clause_order : forall alnum fstr ansi n d s, statement d -> dispatch alnum fstr ansi (S n) (JDict d) max_prec = Ok s ->
  exists parts, s = join (u " ") (map snd parts) /\ map fst parts = filter (fun k => dmem d k) clause_names /\
    Forall (fun p => clause_content (fun j => dispatch alnum fstr ansi n j max_prec) d (fst p) (snd p)) parts.
Proof. intros alnum fstr ansi n d s. apply clause_order_content. Qed.
Print Assumptions C58_clause_order.

Example C58_example :
  fmt (JDict [(u "limit", JInt 3); (u "where", op2 "gt" (col "a") (JInt 1)); (u "orderby", JDict [(u "value", col "b"); (u "sort", JStr (u "desc"))]);
              (u "from", col "t"); (u "having", op2 "lt" (col "c") (JInt 9)); (u "select", JList [JDict [(u "value", col "a")]; JDict [(u "value", col "b")]]);
              (u "groupby", JDict [(u "value", col "a")])])
  = Ok (u "SELECT a, b FROM t WHERE a > 1 GROUP BY a HAVING c < 9 ORDER BY b DESC LIMIT 3") /\
  fmt (JDict [(u "where", op2 "eq" (col "a") (JInt 1)); (u "set", JDict [(u "b", JInt 2)]); (u "update", JStr (u "t"))]) = Ok (u "UPDATE t SET b = 2 WHERE a = 1") /\
  statement [(u "where", op2 "eq" (col "a") (JInt 1)); (u "set", JDict [(u "b", JInt 2)]); (u "update", JStr (u "t"))].
Proof.
  split; [reflexivity|]. split; [reflexivity|]. split.
  - exists (u "set"). split; [reflexivity|]. cbn. auto 10.
  - repeat constructor.
Qed.
