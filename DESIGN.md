# Formal model of EulerDB

EulerDB is a proxy that encrypts columns of a MySQL database.  It parses an SQL
statement, rewrites it so that it works on encrypted physical columns, sends it
to the database, and decrypts the result.  This directory holds a Rocq (Coq
8.16.1) model of that code and theorems about it.  The properties are listed in
`properties.jsonl`, the theorems that settle them in `MANIFEST.json`.

## Layout and method

* `rocq/theories/*Model.v`: Gallina functions that mirror the Python functions
  branch by branch.  Each definition cites the file and lines it models.
  Exceptions are values of a result type.  No proofs live there.
* `rocq/theories/*Spec.v`: small, independent specifications (what a plaintext
  database does, what an SQL lexer does, what a pool may do).
* `rocq/theories/*Proof.v`: lemmas.
* `rocq/theories/*Props.v`: the property theorems, with `Print Assumptions`
  beneath and an `Example` showing that the hypotheses are satisfiable.
* `seeded/LOG.jsonl`: wrong variants of the model that were tried against the
  theorems, with the theorems that failed.

Where an ideal property is false of the code as it is, the theorem
`..._refuted` exhibits the witness, and a `..._partial` theorem states the
largest part found to hold.

## Trusted base

* Coq's kernel (8.16.1), including its virtual machine (`vm_compute` closes
  examples and a few exhaustive table checks).
* What `Print Assumptions` lists: **nothing**.  Each theorem named in
  `MANIFEST.json` has a `Print Assumptions` beneath it and each answers "Closed
  under the global context".  No axiom of the standard library is used: floats
  are rationals (`Q`) or integers with an explicit rounding function, and no
  theorem uses functional extensionality or classical logic.
* The reading of the code: the code is not run here; the tie is the citation
  on each definition.
* The English-to-Coq step: the statements of `*Props.v` and the definitions of
  `*Spec.v` they mention.
* External components are parameters, so every theorem is universally
  quantified over them.  The behaviour assumed of them is an explicit hypothesis:
  * AES and SM4 block functions: a keyed permutation of 16-byte blocks with its
    inverse (`prim_ok`).  No secrecy is assumed.
  * HMAC/AES-CTR coin generator of the order-preserving cipher: an arbitrary
    function to bit tapes.
  * Hypergeometric sampler: in the theorems about OPE an arbitrary function; the
    sampler of `hgd.py` is also modelled.
  * `phe` (Paillier): modelled by its published source over Z; the homomorphism
    is proved, not assumed.
  * MySQL: an evaluator for the fragment of conditions and statements that is
    needed, in `*Spec.v` files (comparison of integers and of strings, AND, OR,
    LIKE, IN, BETWEEN and their negations, ORDER BY, joins, ...), a lexer for its texts (`SqlLex`), and a reader of conditions and of
    statements on one table from tokens (`SqlRead`, `TextSpec`).  The reader takes
    every word that is neither an operator nor a word of these statements for a
    name: reserved words of MySQL beyond these are not modelled.  Texts with
    comments are refused by the lexer; that is why C96 excludes them.
  * The database driver: a function from the number of a call to its outcome.
  * MD5 in the keyword search, `repr`, `str` of a float, `str.upper`,
    `str.isalnum`, `eval`: arbitrary functions.
* Python strings are lists of code points; Python integers are Z.  Python floats
  are modelled by rationals in `EncodeModel.v` (rounding ignored) unless the
  comment says otherwise.

## What is modelled

| Files of the model | Code |
|---|---|
| Base, JsonModel, JsonText | Python values; the JSON texts of `json.dumps` / `json.loads` |
| CryptoModel, FuzzyModel, EncodeModel, PaillierModel | `scheduler/crypto/encrypt.py` |
| OpeModel | `scheduler/crypto/ope/{ope,stat,util,hgd}.py` |
| WidthModel, MetaModel | `scheduler/schema/metadata.py` (column types, `Delta`, stored procedures) |
| RewriteModel | `scheduler/handers/clause/*.py`, `rewrite_hander.py`, `decrypt_handler.py` |
| CreateModel | `scheduler/handers/table.py` |
| ExecModel | `scheduler/backend/**`, statement path of `controller/rewriter.py` |
| SteadyModel, PoolModel | `dbutils/steady_db.py`, `dbutils/pooled_db.py` |
| OxtModel | `sql_research/pysse/oxt.py` |
| DotsModel | `split_field`, `join_field` and the related functions of `dots/__init__.py` |
| FmtModel | `sql_parsing/formatting.py` |
| FrontModel | `handler.py`, the rest of `controller/rewriter.py` |
| ClassifyModel | `Parser.tokens`, `Parser.query_type` (`scheduler/compile/parser.py`, `token.py`) |
| TypeModel | `Parser._preprocess_query`, `parse/lexer.py`, `SQL_REGEX` (`parse/keywords.py`), `parse/engine/statement_splitter.py` |
| ScrubModel | `scrub` of `sql_parsing/utils.py`, the parts of `parsing/results.py` it uses |
| InfixModel, OperModel | `make_tree` of `parsing/infix.py` with the operator table; `to_json_operator`, `to_tuple_call` of `sql_parsing/utils.py` |
| LitModel | string literals, quoted and dotted names: `to_string`, `unquote` of `sql_parsing/utils.py`, `mysql_parser` of `sql_parser.py`; Python's string literals |
| GramModel | the grammar of SELECT, INSERT, UPDATE, DELETE, CREATE TABLE and DROP TABLE of `sql_parsing/sql_parser.py`, `types.py`, `keywords.py`; `parse_mysql` |
| EngineModel | the engine `parsing/`: `core.py`, `expressions.py` (And, MatchFirst, `faster`, `Fast`), `enhancement.py` (Many, Optional, LookAhead, NotAny), `tokens.py` (Literal, CaselessKeyword, Char); RESERVED of `keywords.py` |
| EngineSqlModel | the whole grammar of `mysql_parser` (`sql_parsing/sql_parser.py`, `types.py`, `windows.py`, `keywords.py`) as elements of EngineModel; `infix_notation`, `Or`, `MatchAll`, the regular expressions of numbers, names and strings |
| WhiteModel | `Whitespace` of `parsing/whitespaces.py` with what it remembers; `parse_string` of `core.py`, `StringEnd` |
| RegexModel | the regular expressions of `sql_parsing/utils.py` L593-617, of `simple_ident` and of white space, with the order in which Python's re tries matches |
| PatModel | `__regex__` of the elements of `parsing`, `regex_iso` of `parsing/utils.py`, and how Python's re reads the patterns |
| RangeModel | `regex_range` of `parsing/utils.py` |
| OneOfModel | `one_of` of `parsing/infix.py`, without as_keyword |
| ErrPosModel | `col`, `lineno`, `line` of `parsing/utils.py`; `loc`, `best_cause`, `sort_causes` of `parsing/exceptions.py` |
| GeneralModel | `Generalizator.generalize` of `scheduler/compile/generalizator.py`, without `_normalize_likes` and `sqlparse.format` |
| CloseModel | `CloseMatch.parse_impl` of `parsing/tokens.py` |
| NotInModel | `CharsNotIn.__init__` of `parsing/tokens.py` (a maximum equal to MAX_INT is not taken for none) |
| WhiteTokenModel | `White.__init__`, `White.parse_impl` of `parsing/tokens.py` (of the table only the keys) |
| LineTokenModel | `LineStart`, `LineEnd` of `parsing/tokens.py` (their patterns as Python's re runs them) |
| SkipToModel | `SkipTo.parse_impl` of `parsing/enhancement.py` (without expressions to ignore) |
| BehindModel | `PrecededBy` of `parsing/enhancement.py`, with `StringEnd` |
| MatchAllModel | `MatchAll.parse_impl` of `parsing/expressions.py` (not that it parses again what it found) |
| NumModel | `parse_int` of `sql_parsing/utils.py` on what `int_num` takes |
| ValuesModel | `to_row`, `get_literal`, `to_values`, `to_insert_call` of `sql_parsing/utils.py` |
| AlterModel | `parse_alter_key`, `format_alter_key` of `sql_parsing/__init__.py`, with the regular expressions |
| FullModel | `Rewriter.rewrite_query` from text to text (`rewrite_hander.py` L19-77) |
| OfflineModel, RotateModel | `scheduler/utils/decrypt_support.py`, `key_rotation_support.py` |

## What is not modelled

* Of the text parser: the parts of the grammar `sql_parsing/sql_parser.py` that `GramModel.v` marks as not modelled
  (joins, aliases, subqueries, UNION, GROUP BY, HAVING, WITH, CASE, CAST, windows, CREATE VIEW, CREATE INDEX and others: the model answers
  NotImplementedErr there), and of `parsing/` what `EngineModel.v` lists as left out
  (SkipTo, which is in SkipToModel; the regular expressions that elements are turned into are in PatModel).  EngineSqlModel has the whole grammar, its actions are
  arbitrary functions that take no characters; `Or` is run without a table and in the order of KNOWN_OPS (the code orders a set),
  `MatchAll` declares no keys, one kind of white space is skipped everywhere, digits are ASCII.  GramModel does not go through
  EngineModel: it models the combinators by ordered choice, sequence and repetition.  In the properties before C94 a statement enters the
  model as the parsed JSON; in C95 to C99 it enters as text.  Of `scheduler/compile` only what `Parser.query_type`
  runs and `Generalizator.generalize` are modelled: not the grouping and the formatting in `scheduler/compile/parse` (a copy of sqlparse), nor the
  other properties of `Parser`.
* `scheduler/lex_module` (an unused second parser, with copies of PLY and lacquer),
  `parsing_future`, `imports`, `demo`, `test`, `eulerdb_c`, `euler_db`.
* The HTTP layer (tornado), threads of the web server other than those that
  share the pool, processes that die.
* Floating point rounding in `encode` / `decode`; NumPy and pandas conversions.
* Secrecy: nothing is claimed about what an attacker learns, other than that
  equal plaintexts have equal ciphertexts and the exact content of statements.

Each model file lists its own simplifications at the top or at the definition.

## Where the code and the ideal disagree

The theorems with `_refuted` in the name state most of these exactly; those without
a property number were found while reading and are part of the model's behaviour
without a theorem of their own.  In short:

* **Ciphers.** Trailing NULs are lost by zero padding (C02).  The OPE cipher with the
  ranges that the code configures is the identity map (C09).  A width computed
  for one-byte characters is too small for others (C04).
* **Rewriting.** `WHERE a = b` encrypts a column name as if it were a text;
  `GROUP BY` and `HAVING` are not rewritten; a list in `ORDER BY` raises
  TypeError; `SELECT a+b` raises IndexError; a qualified column in WHERE raises
  KeyError; INSERT of NULL, of one column or without a column list raises
  KeyError; `WHERE` does not encode floats although INSERT does.
* **CREATE TABLE.** UNIQUE/INDEX/CHECK are rejected, inline constraints and ON
  DELETE are dropped, defaults are lost, rejected or encrypted as text, table
  options are dropped (C32, C70).  An unsigned column is declared twice,
  `DECIMAL(10,2)` is sent as `decimal([10, 2])`, `INT(11)` cannot be encrypted (C97).
* **Types.** An empty string in double quotes before a string with a closing parenthesis makes
  `query_type` raise IndexError (C99).
* **Parsing engine.** An optional alternative in a choice that is looked up by first characters is not
  tried at other characters; alternatives of one key are tried together although another stands
  between them; a capital letter as a `Char` raises KeyError there (C100).  An empty choice is
  simplified to one that always matches; a repetition of an element that matches the empty text
  does not end (C101).  Therefore CREATE TABLE ... AS accepts several queries in a row (C102), and `make_tree` keeps the first.
  `add_ignore` with several arguments sets the first only (C103).
  `1e-5` is read as the number 1, the name `e`, and minus 5 (C104); whole numbers with an
  exponent are rounded to doubles, `1e23` is sent as 99999999999999991611392 (C105).
  A repetition of a repetition has a regular expression that does not compile, an empty choice one that always matches (C106);
  a class of characters whose greatest is character 6 loses its last range (C107);
  of a choice that has the empty text, no single character is ever taken (C108);
  an exception of another class among the causes of a parse error hides how far the parser came (C109);
  a generalized statement keeps texts in double quotes (C110);
  the end of a close match does not count its start (C111);
  the bounds of `CharsNotIn` are written with a colon and are read as a text (C112);
  `White` raises an IndexError at the end of the text, and its table names no space beyond ASCII (C113);
  the pattern of `LineStart` finds no line but the first (C114);
  an expression that `SkipTo` should fail on only ends it (C115);
  the parameter `retreat` of `PrecededBy` is not used (C116);
  `MatchAll` refuses elements that must be repeated (C117).
  By reading only: names that begin with U+0130 raise KeyError in a lookup, since its small letter is two characters; digits that
  are not ASCII match `\d` and are no keys; `MatchAll` and `Or` without a name lose their meaning
  when they stand in a choice that is looked up; `NotAny` of an element without a regular
  expression always matches.
* **ALTER TABLE.** Keys of several columns and quoted columns are not recognised, words may touch
  (C89); adding a key always raises, an index on an encrypted column is sent with its clear
  name (C90).
* **Metadata.** A second CREATE of a table mixes columns of both (C36); tables
  created before the first restart are unknown to the SUM/AVG procedures (C39);
  metadata and database diverge when the database rejects a CREATE or a DROP
  (C41).
* **Execution.** A failure of `execute` is reported only for SELECT (C40); the
  pool key omits the password and has no separators (C42); two results in the
  same millisecond share an id (C43); a rewriting error is answered with
  success (C44).
* **Connections.** A failed open loses a wake-up (C46); shared connections can
  exceed the limit (C48); a batch insert loses rows after a reconnect (C75).
* **SQL writer.** MySQL's default mode reads a backslash in a literal as an escape,
  which allows injection (C55); MySQL reserved words missing from the list stay
  unquoted (C56), among them words of statements such as `set` (C91); precedence of `||`, `NOT` and negation differs (C57).
* **SQL parser.** After an operator that binds tighter a prefix operator loses its
  operand without an error: `a * - b`, `a = NOT b` (C83).  `x = NULL` is read as
  `x IS NULL`, IS DISTINCT FROM is read as its opposite, `x IN (5)` cannot be
  written again (C84).  AT TIME ZONE is filed under the empty name.
  String literals and quoted names are evaluated as Python literals: an escaped quote and a line
  end are errors, most escapes mean something else than in MySQL (C85, C86).
  INSERT of several rows is sent in clear or fails, depending on whether some value is 0, empty
  or NULL; values beyond the last column are dropped (C87).
  Two minus signs begin a comment whatever follows: `WHERE a = 1--1 AND b = 2` loses its second
  condition (C94).  `==` is taken for `=`; MySQL refuses it (C96).
* **Keyword search.** Soundness fails on tag collisions, keywords with leading
  NULs are confused (C54, C77).
* **Front end.** URL parameters become part of the database name (C63), the row
  limit has no effect, both branches of one handler raise KeyError (C80).
* **Offline tools.** `pool_decrypt` cannot pickle its function; distributed mode
  without Spark does not decode (C66).  Key rotation never succeeds: its UPDATE
  has no value, its result is never committed, its metadata are never written (C64).
* **Classification.** A comment before a parenthesis shifts the index (C65);
  `scrub` confuses some values (C68).

## Property by property

| Property | Model | Proof |
|---|---|---|
| C01-C03 | UTF-8, zero padding, ECB over a block permutation, base64 | induction on blocks of 16 and of 3; base64 table checked by exhaustive computation lifted to all bytes |
| C04, C05 | `get_type_and_len`, `element_type` | arithmetic, `lia` with div/mod; witnesses for the multi-byte case |
| C06-C09 | `OPE` with the float mid point as round-to-53-bits, samplers as oracles | strong induction on the size of the output range; invariants `in_size <= out_size` |
| C10, C11 | `sample_uniform`, `str_to_bitstring` | induction on range size / on bytes |
| C12-C14 | `encode`, `decode`, `stretch` over Q | case analysis on the pieces, `nra`/`lra` style arithmetic on Q |
| C15, C16 | Paillier over Z modulo n^2 | number theory: binomial modulo n^2, order of r^(n lambda) |
| C17, C18 | `FuzzyCipher`, LIKE rewriting | windows of length 3; block-aligned matching; positions of the parts |
| C19 | `AESCipherBytes`, SM4 with PKCS7 | as C01 |
| C20, C21 | `SQLWhere.rewrite` on parsed JSON | structural induction on conditions |
| C22-C26 | `SQLColumns`, `SQLValues`, `SQLSet`, `SQLSelect`, `DecryptHandler` | induction on column lists |
| C27-C30 | `OrderBy`, aggregate functions, joins | order isomorphism from C07, C02 |
| C31, C32 | `rewrite_table`, constraints | induction on columns with a name stream |
| C33 | `to_insert_call` and dispatch of `rewrite_query` | computation on the clause table |
| C34 | `get_table`, `get_nest_table`, `get_origin_table` | structural induction |
| C35-C39 | `Delta` as memory map plus row store | invariant over histories |
| C40-C45 | `RemoteExecutor`, controllers, `execution_context` | state machine with a failing oracle |
| C46-C49 | `PooledDB` | invariant over operation sequences |
| C50-C52 | `SteadyDBConnection`, `SteadyDBCursor` | case analysis on all driver outcomes |
| C53, C54 | OXT search | set reasoning, modular inverse |
| C55-C58 | `Formatter` | lexer specification, induction on trees |
| C59 | `split_field`, `join_field` | induction on strings |
| C60-C63 | HTTP handlers | induction on strings / rows |
| C64 | key rotation | crash points of a list of effects |
| C65 | statement classification | case analysis |
| C66 | offline decryption pool | chunking lemma |
| C67 | everything of C20-C29 composed | simulation over histories |
| C68 | `scrub` | structural induction |
| C69, C70 | metadata backends, defaults | computation for all states |
| C71-C74 | console, decryption answers, batches, statements sent | traces of `call` |
| C75 | batch insert over `SteadyDBCursor` | log of driver calls |
| C76, C77 | keyword index | exact domain, injectivity |
| C78 | JSON texts | reader after writer |
| C79, C80 | schema and component endpoints | computation for all requests |
| C81 | the whole statement path with CREATE, DROP and restarts | simulation of plaintext databases; reader of CREATE texts |
| C82 | usage limit of `SteadyDBConnection` | Hoare triples over the log of driver calls |
| C83 | operator precedence of the SQL parser | trees over a table of levels; reading the yield of a tree gives its value |
| C84 | meaning of parsed operator expressions, and round trip through the writer | source expressions with parentheses; `tree_of` of the writer's properties |
| C85 | string literals of the SQL parser | the SQL lexer `read_token`; sequences of characters, doubled quotes and escapes |
| C86 | quoted and dotted names of the SQL parser | lists of names with their quoting; join_field and split_field |
| C87 | parse actions of INSERT ... VALUES | rows as lists of cells (number, text, NULL, column, expression); the statement of StmtSpec |
| C88 | parser, rewriter and writer of conditions composed | three-valued truth of expression trees (`EndSpec.truth`); `SqlSpec.cond` shown to agree with it |
| C89 | AlterModel | AlterProof, AlterProps |
| C90 | AlterModel, RewriteModel | AlterRewriteProof, AlterProps |
| C91 | parser, rewriter, writer and decryption of whole statements composed | reader of statements from SQL tokens and engine for them (`TextSpec.read_text`, `TextSpec.obey`) |
| C92 | the same, for histories | `TextSpec.answers` |
| C93 | the whole statement path with SQL texts, CREATE, DROP and restarts | `SysTextSpec.text_server` |
| C94 | the grammar as ordered choice over terminals; one grammar run on characters and on the parts of a statement | simulation of the two runs; induction over conditions; parts of a statement and their spellings (`GramSpec.cmd_lex`, `GramSpec.spells`) |
| C95 | `FullModel.rewrite_text`: ALTER patterns, parser, rewriter, writer in sequence | the order of the keys of the parsed statement is irrelevant to the rewriter and the writer; then C91 and C94 |
| C96 | the reader `read_app` of a plaintext MySQL database (SqlLex, SqlRead, TextSpec) beside `FullModel.rewrite_text` | the tokens of a spelled text; the parser's and MySQL's precedences group supported conditions alike; then C95 |
| C97 | the grammar of CREATE TABLE (GramModel) with `CreateModel.rewrite_table` | the grammar on the parts of a text; the JSON of the results; success of `rewrite_table` on it |
| C98 | `AppSysSpec.asys_step`: ExecModel, MetaModel, CreateModel, the grammar, the rewriting and the formatter, from text to text | each step is the step of C93 (`step_same`); the plaintext side by C96 and the reading of CREATE and DROP texts |
| C99 | TypeModel: `_preprocess_query`, the regular expressions of the lexer with backtracking, the splitter, the stack of parentheses | each rule on texts of words, blanks, symbols and quoted parts; the parentheses outside quotes are balanced; then C65 and C98 |
| C100 | EngineModel: `Fast`, `faster`, `expecting`, `min_length`, `parse_impl` of the elements of `parsing/` | invariant of the table while it is built: keys are apart, each alternative stands under each of its keys, in order; then the group found contains every alternative that can match |
| C101 | EngineModel: `streamline` of the elements of `parsing/` | induction over grammars; a run of a sequence of sequences is a run of the flat sequence, skipping white space twice is skipping once |
| C102 | EngineSqlModel: the grammar of `mysql_parser` with `types.py`, `windows.py`, `keywords.py` | each leaf begins with its keys and each element keeps results, by rules for the combinators; the condition on each choice is computed; induction over the depth of references |
| C103 | WhiteModel: `Whitespace` of `parsing/whitespaces.py`, `parse_string` | invariant: what is remembered is what would be found; the match is described by an inductive relation that determines it |
| C104 | RegexModel: the regular expressions of `sql_parsing/utils.py` L593-617, `sql_parser.py` L33-37 and of white space | order of tries as a list; what follows as a function of places; greedy repetition needs no going back where what follows cannot begin inside it |
| C105 | NumModel: `parse_int` of `sql_parsing/utils.py` | rounding to 53 bits: error bound and monotonicity from quotient and remainder; numerals by places |
| C106 | PatModel: `__regex__` of `parsing`, `regex_iso`, reading of patterns by a stack | induction on elements with one invariant for each precedence; the same matches in the same order as an equivalence |
| C107 | RangeModel: `regex_range` of `parsing/utils.py` | invariant of the loop: the range not yet written; escapes never begin with a bracket, a minus sign or a caret |
| C108 | OneOfModel: `one_of` of `parsing/infix.py` | the loop: later symbols that are longer than the current one get fewer; no symbol masks a later one; pattern read left to right |
| C109 | ErrPosModel: `col`, `lineno`, `line`, `ParseException.loc`, `best_cause`, `sort_causes` | text cut at the place, each part read as lines; induction on nested failures, the first of a sorted list is the furthest |
| C110 | GeneralModel: `Generalizator.generalize` | numbers of characters through each substitution; each substitution as a scan with a state, cut at the value |
| C111 | CloseModel: `CloseMatch.parse_impl` of `parsing/tokens.py` | the loop gives the places read so far; positions of slices |
| C112 | NotInModel: `CharsNotIn.__init__` of `parsing/tokens.py` | the class through C107; the suffix reader of NotInSpec |
| C113 | WhiteTokenModel: `White.__init__`, `White.parse_impl` of `parsing/tokens.py` | the loop run over a text cut where the longest one ends; both sides of the equivalence by the existence of the cut |
| C114 | LineTokenModel: `LineStart`, `LineEnd` of `parsing/tokens.py` | the last line feed of a text that grows at its end; the pattern read case by case |
| C115 | SkipToModel: `SkipTo.parse_impl` of `parsing/enhancement.py` | invariant of the loop: every place before was blank or did not match; fuel from the length of the text suffices |
| C116 | BehindModel: `PrecededBy`, `StringEnd` of `parsing/enhancement.py`, `parsing/tokens.py` | the loop over offsets finds the first of them; line ends without their first character are line ends |
| C117 | MatchAllModel: `MatchAll.parse_impl` of `parsing/expressions.py` | invariant: each element is still to do with its count, or has been found as often as it may; each pass takes one entry |
