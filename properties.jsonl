{"id": "C01", "title": "Symmetric encryption round trip", "statement": "Decrypting the symmetric ciphertext of a text value with the same column key returns the value with its trailing NUL characters removed; in particular every value that does not end in NUL is returned unchanged.", "quantifier": "every key, every block permutation with inverse, every UTF-8 byte string", "why_tests_cant": "The set of values is infinite and the padding boundary recurs at every multiple of 16; a test fixes a handful of lengths.", "anchors": ["scheduler/crypto/encrypt.py:AESCipher.encrypt", "scheduler/crypto/encrypt.py:AESCipher.decrypt"]}
{"id": "C02", "title": "Equality on symmetric ciphertexts is equality on values", "statement": "Two values encrypted for the same column have the same ciphertext exactly when they have the same padded form (equal up to NUL padding of the same block count); so for values that do not end in NUL, ciphertext equality is value equality, which is what WHERE col = v relies on.", "quantifier": "every key, every pair of byte strings", "why_tests_cant": "A statement about all pairs of values; tests compare a few pairs.", "anchors": ["scheduler/crypto/encrypt.py:AESCipher", "scheduler/handers/clause/sql_where.py:SQLWhere.rewrite"]}
{"id": "C03", "title": "Symmetric ciphertext is a safe SQL literal of known size", "statement": "A symmetric ciphertext uses only the characters A-Z a-z 0-9 + / =, so it contains no quote, backslash, comma, percent sign or NUL, and its length is 4*ceil(16*ceil(n/16)/3) for an n-byte value.", "quantifier": "every key and every byte string", "why_tests_cant": "The ciphertext bytes are unpredictable; absence of a bad character in samples says nothing about other values.", "anchors": ["scheduler/crypto/encrypt.py:AESCipher.encrypt"]}
{"id": "C04", "title": "Encrypted VARCHAR/CHAR column is wide enough", "statement": "For a column declared VARCHAR(n) or CHAR(n), the width the proxy declares for the symmetric column is at least the ciphertext length of every value of at most n bytes, so the database never truncates or rejects it. (The same claim counted in characters instead of bytes is the ideal; it is refuted for multi-byte text.)", "quantifier": "every declared width n, every value", "why_tests_cant": "The inequality must hold at every n; tests use one or two widths.", "anchors": ["scheduler/schema/metadata.py:get_type_and_len", "scheduler/schema/metadata.py:element_type"]}
{"id": "C05", "title": "Fuzzy and numeric column capacities", "statement": "The fixed width given to the LIKE column holds every alphanumeric value up to an exact length bound and no value beyond it, and the fixed width of the symmetric column of INT/FLOAT/DOUBLE columns holds every printable number up to an exact digit bound.", "quantifier": "every value length", "why_tests_cant": "The capacity is a boundary over all lengths and nothing in the code checks it.", "anchors": ["scheduler/schema/metadata.py:element_type", "scheduler/crypto/encrypt.py:FuzzyCipher.encrypt"]}
{"id": "C06", "title": "Order-preserving encryption round trip", "statement": "For every key, every configuration of ranges that the constructor accepts and every sampler within its contract, decrypting the order-preserving ciphertext of a value returns the value.", "quantifier": "every range pair, every coin source, every value in range", "why_tests_cant": "The recursion consults pseudo-random coins at every level; no test covers all coin outcomes.", "anchors": ["scheduler/crypto/ope/ope.py:OPE.encrypt", "scheduler/crypto/ope/ope.py:OPE.decrypt"]}
{"id": "C07", "title": "Order-preserving encryption preserves order strictly", "statement": "Whenever x < y are in range, the ciphertext of x is strictly smaller than the ciphertext of y.", "quantifier": "every range pair, every coin source, every pair of values", "why_tests_cant": "All pairs and all coin outcomes.", "anchors": ["scheduler/crypto/ope/ope.py:OPE.encrypt_recursive", "scheduler/crypto/ope/stat.py:sample_hgd"]}
{"id": "C08", "title": "Order-preserving encryption always answers and stays in range", "statement": "For every value in the input range, encryption terminates without assertion failure and the result lies in the output range; values outside the input range are rejected with OutOfRangeError. Decryption of any number terminates: with a plaintext in range that encrypts to it, or, exactly when the number is not a ciphertext, with an exception. The stronger claim that this exception is always InvalidCiphertextError is refuted (InvalidRangeLimitsError can escape).", "quantifier": "every range pair of size up to 2^64, every coin source within the sampler contract, every value", "why_tests_cant": "Termination and assertion-freedom over the recursion tree, including the floating point mid point.", "anchors": ["scheduler/crypto/ope/ope.py:OPE", "scheduler/crypto/ope/stat.py"]}
{"id": "C09", "title": "What the order-preserving column reveals under the shipped configuration", "statement": "With the default ranges, which are what the proxy uses for every column, the order-preserving ciphertext of every 64-bit integer is the integer itself whatever the key is. Hence two different keys produce identical columns and the stored column is the plaintext; the confidentiality ideal is refuted.", "quantifier": "every key, every 64-bit integer", "why_tests_cant": "A test with one key sees a number and cannot tell that all keys give the same one.", "anchors": ["scheduler/crypto/ope/ope.py:DEFAULT_IN_RANGE", "scheduler/crypto/encrypt.py:OPECipher"]}
{"id": "C10", "title": "Coin-driven uniform choice", "statement": "The uniform sampler returns a value inside the requested range for every sufficiently long bit tape, fails with NotEnoughCoins exactly when the tape is too short, consumes at most ceil(log2 size) bits, and every element of the range is reachable from some tape.", "quantifier": "every range, every bit tape", "why_tests_cant": "All tapes and all ranges.", "anchors": ["scheduler/crypto/ope/stat.py:sample_uniform"]}
{"id": "C11", "title": "Byte to bit expansion", "statement": "Expanding a byte string into bits yields exactly eight bits per byte, most significant first, and is reversible.", "quantifier": "every byte string", "why_tests_cant": "All byte strings.", "anchors": ["scheduler/crypto/ope/util.py"]}
{"id": "C12", "title": "FLOAT values survive encode/decode up to the documented precision and keep their order", "statement": "For a FLOAT column, decoding the encoded value differs from the original by less than 1e-12 and the encoding is monotone, so ordering through the encoded value never inverts two values. Distinct values of one sign at least 1e-12 apart, and any two values at least 2e-12 apart, stay distinct; across zero a gap of 1.9e-12 can vanish (refuted).", "quantifier": "every real (rational) value; floating point rounding is abstracted", "why_tests_cant": "An uncountable input space; boundaries at every multiple of 1e-12.", "anchors": ["scheduler/crypto/encrypt.py:encode", "scheduler/crypto/encrypt.py:decode"]}
{"id": "C13", "title": "DOUBLE values survive encode/decode", "statement": "The range compression used for DOUBLE columns is strictly increasing and has the stated inverse on non-negative values up to 1e65, but the decode function applies the inverse before undoing the 1e12 scaling, and its negative branch compresses again; decode(encode(v)) is within 1e-12 of v for |v| <= 1000, and from 1001 on it always raises or is off by more than one half. The full round trip is refuted.", "quantifier": "every rational value", "why_tests_cant": "A test with small values passes; the failing region is only visible when quantifying over all magnitudes.", "anchors": ["scheduler/crypto/encrypt.py:stretch", "scheduler/crypto/encrypt.py:inverse_stretch", "scheduler/crypto/encrypt.py:encode", "scheduler/crypto/encrypt.py:decode"]}
{"id": "C14", "title": "Encoded DOUBLE ordering", "statement": "For DOUBLE columns v <= w implies encode(v) <= encode(w) for all v, w with absolute value at most 1e65, and values beyond 1e65 are rejected by an exception rather than stored wrongly.", "quantifier": "every pair of rationals", "why_tests_cant": "All pairs, across five piecewise branches and sign changes.", "anchors": ["scheduler/crypto/encrypt.py:stretch", "scheduler/crypto/encrypt.py:encode"]}
{"id": "C15", "title": "Homomorphic SUM and AVG", "statement": "Decrypting the product modulo n^2 of the stored homomorphic ciphertexts of any list of integers gives the true sum exactly when the sum lies in the signed plaintext range; AVG gives the true sum divided by the number of rows. The aggregate loop the proxy runs inside the database gives the same answers when n^4 <= 10^65; otherwise DECIMAL overflow makes it fail (already for the project's test key), a NULL makes it None, and the GROUP_CONCAT variant is silently wrong once the list exceeds group_concat_max_len.", "quantifier": "every pair of distinct primes, every list of integers in range, every unit randomness, every row order", "why_tests_cant": "All rows, all randomness.", "anchors": ["scheduler/crypto/encrypt.py:HomomorphicCipher", "scheduler/schema/metadata.py:Delta.modify_sum_query"]}
{"id": "C16", "title": "Homomorphic single value round trip", "statement": "Decrypting one homomorphic ciphertext gives the encrypted integer for every integer in the signed plaintext range and every randomness; integers outside are rejected; no ciphertext encrypts two integers; the ciphertext fits the DECIMAL(65,0) column when n < 10^32.", "quantifier": "every pair of distinct primes, every integer, every unit r", "why_tests_cant": "All randomness.", "anchors": ["scheduler/crypto/encrypt.py:HomomorphicCipher.encrypt", "scheduler/crypto/encrypt.py:HomomorphicCipher.decrypt"]}
{"id": "C17", "title": "LIKE on the fuzzy column finds exactly the matching rows", "statement": "For values and search strings consisting only of ASCII letters and digits with at least three characters in the search string, the encrypted LIKE '%s%' pattern matches the stored fuzzy ciphertext at a block boundary exactly when s occurs in the value.", "quantifier": "every key, every value, every search string of the class", "why_tests_cant": "All substrings of all values.", "anchors": ["scheduler/crypto/encrypt.py:FuzzyCipher.encrypt", "scheduler/handers/clause/sql_where.py"]}
{"id": "C18", "title": "LIKE completeness for patterns with several parts", "statement": "If a value matches a pattern of %-separated parts in the plaintext sense and each part and the value fall in the same character class, the encrypted pattern matches the stored ciphertext, so no matching row is lost; overlapping parts may produce false positives (refuted soundness), and values whose class differs from that of the search string are missed (refuted completeness).", "quantifier": "every key, every value, every list of parts", "why_tests_cant": "All ways in which parts can be placed.", "anchors": ["scheduler/crypto/encrypt.py:FuzzyCipher.encrypt", "scheduler/handers/clause/sql_where.py"]}
{"id": "C19", "title": "Byte and SM4 ciphers round trip", "statement": "The two alternative symmetric ciphers (byte-string AES and SM4) return the original value on decryption for every value for which their padding is defined, and the exact failing cases are characterised.", "quantifier": "every key, every byte string", "why_tests_cant": "All lengths and all contents.", "anchors": ["scheduler/crypto/encrypt.py:AESCipherBytes", "scheduler/crypto/encrypt.py:SM4CipherBytes"]}
{"id": "C20", "title": "WHERE keeps the selected rows", "statement": "For conditions built with AND/OR from equality with a literal on any column, ordering comparisons with an integer on integer columns, LIKE on encrypted text columns with a pattern each of whose parts has at least three characters, one of them no letter or digit, and arbitrary conditions on plaintext columns, the rewritten condition evaluated on the encrypted row has the same truth value as the original condition on the plaintext row. A LIKE pattern of letters and digits has the same truth value on rows whose text is made of letters and digits.", "quantifier": "every table metadata, every key assignment, every condition in the fragment, every row", "why_tests_cant": "All condition trees and all rows.", "anchors": ["scheduler/handers/clause/sql_where.py:SQLWhere.rewrite"]}
{"id": "C21", "title": "Rewritten WHERE does not carry the plaintext of an encrypted column", "statement": "In the supported fragment every constant compared with an encrypted column appears in the rewritten condition only as a ciphertext. Outside the fragment (<>, IN, BETWEEN, ordering on non-integers, float constants) the constant is sent in clear: these cases are exhibited as refutations of the ideal.", "quantifier": "every condition", "why_tests_cant": "A property of every constant in every tree.", "anchors": ["scheduler/handers/clause/sql_where.py:SQLWhere.rewrite"]}
{"id": "C22", "title": "INSERT keeps columns and values aligned", "statement": "When an INSERT with an explicit column list is rewritten, the rewritten column list and value list have the same length and position by position the value is the one produced for that encrypted column from the value given for its source column, for any order of columns.", "quantifier": "every table metadata, every column list, every value list", "why_tests_cant": "All permutations and all numbers of physical columns per logical column.", "anchors": ["scheduler/handers/clause/sql_columns.py:SQLColumns.rewrite", "scheduler/handers/clause/sql_values.py:SQLValues.rewrite"]}
{"id": "C23", "title": "Insert then select returns the inserted row", "statement": "Inserting a row through the proxy and selecting it back through the proxy yields the inserted values for all column kinds in the supported fragment.", "quantifier": "every table, every row, every key assignment", "why_tests_cant": "All rows and schemas.", "anchors": ["scheduler/handers/rewrite_hander.py:Rewriter", "scheduler/handers/decrypt_handler.py:DecryptHandler"]}
{"id": "C24", "title": "UPDATE keeps the physical columns of a logical column consistent", "statement": "After UPDATE t SET c = v the physical columns of c hold the same ciphertexts INSERT would have stored for v. Proved for integer and string values on columns with symmetric and order-preserving parts; refuted for homomorphic, SM4 and floating point columns, which receive plaintext.", "quantifier": "every table, every value", "why_tests_cant": "All column kinds and values.", "anchors": ["scheduler/handers/clause/sql_set.py:SQLSet.rewrite"]}
{"id": "C25", "title": "SELECT * expands to one physical column per logical column in declaration order", "statement": "The rewritten select list of SELECT * has exactly one decryptable physical column per logical column, in the order of the metadata, and the reported column names and types line up with it.", "quantifier": "every table metadata", "why_tests_cant": "All schemas.", "anchors": ["scheduler/handers/clause/sql_select.py:SQLSelect.rewrite"]}
{"id": "C26", "title": "Result decryption is positionally correct", "statement": "Every cell of the result is decrypted with the key and cipher of the column it was selected from; plaintext columns and NULLs are returned unchanged; the shape of the result (row and column counts, order) is preserved.", "quantifier": "every result set, every metadata", "why_tests_cant": "All result shapes.", "anchors": ["scheduler/handers/decrypt_handler.py:DecryptHandler.decrypt"]}
{"id": "C27", "title": "ORDER BY an encrypted integer column", "statement": "Sorting by the rewritten ORDER BY column sorts the rows by the plaintext integer. The sort direction is lost: ORDER BY c DESC is rewritten to ascending order, which refutes the ideal.", "quantifier": "every table, every set of rows", "why_tests_cant": "All permutations of rows.", "anchors": ["scheduler/handers/clause/function.py:OrderBy", "scheduler/handers/clause/sql_select.py"]}
{"id": "C28", "title": "MIN and MAX on encrypted integer columns", "statement": "Decrypting the MIN/MAX of the order-preserving column yields the MIN/MAX of the plaintext values.", "quantifier": "every non-empty list of rows", "why_tests_cant": "All lists.", "anchors": ["scheduler/handers/clause/sql_select.py", "scheduler/schema/metadata.py:FUNC_CIPHERS"]}
{"id": "C29", "title": "COUNT and row identity", "statement": "The rewriting of a SELECT changes neither the number of rows selected nor their order: COUNT(*), LIMIT and OFFSET give the same answer on the encrypted table.", "quantifier": "every table, every condition in the fragment", "why_tests_cant": "All tables.", "anchors": ["scheduler/handers/clause/sql_select.py", "scheduler/handers/rewrite_hander.py"]}
{"id": "C30", "title": "Joins on encrypted columns", "statement": "A join condition a.x = b.y between encrypted columns selects the same row pairs as on plaintext when both columns use the same key; with different keys the ideal is refuted.", "quantifier": "every pair of tables, every pair of keys", "why_tests_cant": "All row pairs and keys.", "anchors": ["scheduler/handers/clause/sql_where.py:SQLWhere.rewrite"]}
{"id": "C31", "title": "CREATE TABLE produces a schema that the metadata describes", "statement": "After CREATE TABLE, the physical columns in the rewritten statement are exactly the physical columns recorded in the metadata, each logical column is either plaintext with its own name or has the physical columns its options ask for, and two logical columns never share a physical name as long as the random name source does not repeat.", "quantifier": "every create statement, every encryption option map, every stream of names", "why_tests_cant": "All option combinations.", "anchors": ["scheduler/handers/table.py:rewrite_table"]}
{"id": "C32", "title": "Constraints in CREATE TABLE", "statement": "In a successful CREATE TABLE every primary key and foreign key constraint is moved to the symmetric physical columns of its columns, and a foreign key refers to the physical table and columns recorded in the metadata for the referenced table. Other table constraints (unique, index, check) are rejected, and so is a reference to an unknown table, including a self reference on first creation. Constraints written inside a column definition (unique, check, references) and ON DELETE are silently dropped.", "quantifier": "every constraint list", "why_tests_cant": "All constraints.", "anchors": ["scheduler/handers/table.py:get_constraint_key", "scheduler/handers/table.py:get_reference_phrase", "scheduler/handers/clause/anonymous_table.py"]}
{"id": "C33", "title": "Multi-row INSERT of literals", "statement": "INSERT with several literal rows is not passed through value encryption: every literal of every row occurs unchanged in the rewritten statement. This refutes the claim that values of encrypted columns never reach the database in clear.", "quantifier": "every table and every list of at least two rows", "why_tests_cant": "All rows; a test with a single row takes another path.", "anchors": ["sql_parsing/utils.py:to_insert_call", "scheduler/handers/rewrite_hander.py:Rewriter.rewrite_clause"]}
{"id": "C34", "title": "Table name resolution", "statement": "Resolving an alias or a table name in FROM returns the table it was bound to, for any list of FROM items with distinct aliases; unknown names are reported.", "quantifier": "every FROM list", "why_tests_cant": "All alias assignments.", "anchors": ["scheduler/handers/utils.py:get_table", "scheduler/handers/utils.py:get_origin_table", "scheduler/handers/utils.py:get_nest_table"]}
{"id": "C35", "title": "Metadata survives a restart", "statement": "After any sequence of table creations, drops and restarts in which a table is created only when absent and has at least one column, reloading the metadata from the metadata database gives for every database and table the same physical name and columns as the running process has; only the table comment is lost.", "quantifier": "every history of creations and drops followed by a restart", "why_tests_cant": "All histories.", "anchors": ["scheduler/schema/metadata.py:Delta.update_delta", "scheduler/schema/metadata.py:Delta.load_delta", "scheduler/schema/metadata.py:Delta.delete_delta"]}
{"id": "C36", "title": "Re-creating a table without dropping it", "statement": "If a table is created twice without a drop, the running process and the persisted state disagree after a restart: the first physical name wins on reload although the last one is used while running. This refutes restart safety without the precondition of C35.", "quantifier": "every pair of creations", "why_tests_cant": "Only visible across a restart.", "anchors": ["scheduler/schema/metadata.py:Delta.update_delta", "scheduler/schema/metadata.py:Delta.load_delta"]}
{"id": "C37", "title": "Databases do not interfere in the metadata", "statement": "Creating or dropping a table in one database never changes the metadata of any other database or of any other table.", "quantifier": "every history, every pair of database names", "why_tests_cant": "All histories.", "anchors": ["scheduler/schema/metadata.py:Delta.update_delta", "scheduler/schema/metadata.py:Delta.delete_delta"]}
{"id": "C38", "title": "Drop removes a table", "statement": "After a table is dropped its metadata is absent both in memory and after reload, and a query on it is rejected.", "quantifier": "every history", "why_tests_cant": "All histories.", "anchors": ["scheduler/schema/metadata.py:Delta.delete_delta", "scheduler/backend/executors/remote_executor.py:RemoteExecutor.call"]}
{"id": "C39", "title": "First table on an empty installation", "statement": "When the metadata starts empty, the tables created are visible to the rewriting of every statement of the process, but not to the procedures for SUM and AVG, which read the class attribute: their lookup raises KeyError for every table until the process is restarted, and works afterwards.", "quantifier": "every first creation", "why_tests_cant": "Depends on the history of the process.", "anchors": ["scheduler/schema/metadata.py:Delta.update_delta", "scheduler/schema/metadata.py:Delta.get_paillier_procedure_info"]}
{"id": "C40", "title": "A failing statement is visible to the caller", "statement": "The ideal (a statement the database rejects is reported as an error) is refuted: for INSERT, UPDATE, DELETE, CREATE, DROP and ALTER the executor returns success whatever the database answered; for SELECT the failure surfaces when fetching. The exact outcome of a call is characterised for every statement type and every database answer.", "quantifier": "every statement type, every database response, every connection state", "why_tests_cant": "Requires injecting a failure at every point.", "anchors": ["scheduler/backend/executors/remote_executor.py:RemoteExecutor.call"]}
{"id": "C41", "title": "Metadata and database agree", "statement": "After every history of CREATE and DROP calls in which the database accepts every statement, the set of tables in the metadata equals the set of physical tables in the database; with rejected statements the two can diverge, characterised exactly.", "quantifier": "every history, every pattern of database failures", "why_tests_cant": "All interleavings of failures.", "anchors": ["scheduler/backend/executors/remote_executor.py:RemoteExecutor.call"]}
{"id": "C42", "title": "Connection sharing key", "statement": "Two connection requests share a pool exactly when the concatenation of host, port, database and user agree. Different targets may therefore collide and a request with a wrong password is served from an existing pool; both are exhibited.", "quantifier": "every pair of connection requests", "why_tests_cant": "All pairs of strings.", "anchors": ["scheduler/backend/executors/remote_executor.py:RemoteExecutor.connect_db"]}
{"id": "C43", "title": "Decryption request uses the matching query", "statement": "A decrypt_data request with an id returned by encrypt_sql2 uses the column state of that query as long as no later encrypt_sql2 call falls in the same millisecond; with a collision the earlier query is lost.", "quantifier": "every history of requests and clock values", "why_tests_cant": "Timing dependent.", "anchors": ["scheduler/backend/execution_context.py:encrypt_sql2", "scheduler/backend/execution_context.py:decrypt_data"]}
{"id": "C44", "title": "Rewriting failures in the encrypt endpoints", "statement": "The encrypt_sql1 and encrypt_sql2 endpoints return the original plaintext statement whenever rewriting raises; the answer contains only encrypted text exactly when rewriting succeeded. The fail-closed ideal is refuted.", "quantifier": "every statement, every rewriting outcome", "why_tests_cant": "Needs all failure causes.", "anchors": ["controller/rewriter.py:ControllerEncryptSql1", "controller/rewriter.py:ControllerEncryptSql2"]}
{"id": "C45", "title": "Batch insert agrees with INSERT", "statement": "For columns with symmetric, order-preserving and fuzzy parts holding integers and strings, batch insert stores the same physical row as an INSERT of the same values. For tables with homomorphic or SM4 parts the number of placeholders and values differ; for FLOAT/DOUBLE columns the scaling is omitted: both refute the general claim.", "quantifier": "every table metadata, every row", "why_tests_cant": "All schemas.", "anchors": ["scheduler/backend/executors/remote_executor.py:RemoteExecutor.batch_insert"]}
{"id": "C46", "title": "Connection pool never exceeds its limits", "statement": "With a positive connection limit and dedicated connections, at every point of every interleaving of connection requests and closings the number of checked-out connections never exceeds the limit, the number of idle connections never exceeds maxcached (when set), and a request is either served, blocked (blocking=True) or refused with TooManyConnections.", "quantifier": "every configuration, every sequence of operations", "why_tests_cant": "All schedules.", "anchors": ["dbutils/pooled_db.py:PooledDB.connection", "dbutils/pooled_db.py:PooledDB.cache"]}
{"id": "C47", "title": "A pooled connection is owned by one client at a time", "statement": "In dedicated mode no connection is handed to a second client before the first one has returned it, and a returned connection has been rolled back before reuse when reset is on.", "quantifier": "every sequence of operations", "why_tests_cant": "All schedules.", "anchors": ["dbutils/pooled_db.py:PooledDB", "dbutils/pooled_db.py:PooledDedicatedDBConnection"]}
{"id": "C48", "title": "Shared connections are counted correctly", "statement": "In shared mode the share count of every connection equals the number of clients holding it, and it returns to the idle cache exactly when the last client releases it; the total can exceed maxconnections in a characterised case.", "quantifier": "every sequence of operations", "why_tests_cant": "All schedules.", "anchors": ["dbutils/pooled_db.py:PooledDB.connection", "dbutils/pooled_db.py:PooledDB.unshare", "dbutils/pooled_db.py:SharedDBConnection"]}
{"id": "C49", "title": "Closing a pool", "statement": "After close() no idle connection remains open and further cache operations close the returned connection when the pool accounting says so; in shared mode closing the pool and then releasing a connection makes the counter negative.", "quantifier": "every state and every later sequence", "why_tests_cant": "All schedules.", "anchors": ["dbutils/pooled_db.py:PooledDB.close"]}
{"id": "C50", "title": "No silent retry inside a transaction", "statement": "While a transaction is open a cursor operation reaches the database at most once per call and any connection error is re-raised to the caller, so a partially executed transaction is never silently continued on a new connection.", "quantifier": "every failure pattern of the database driver", "why_tests_cant": "All failure points.", "anchors": ["dbutils/steady_db.py:SteadyDBCursor._get_tough_method"]}
{"id": "C51", "title": "Bounded retry outside a transaction", "statement": "Outside a transaction an operation is attempted at most three times, a result is returned only if some attempt succeeded, and otherwise an error is raised.", "quantifier": "every failure pattern", "why_tests_cant": "All failure points.", "anchors": ["dbutils/steady_db.py:SteadyDBCursor._get_tough_method"]}
{"id": "C52", "title": "Transaction flag", "statement": "After commit, rollback or cancel the connection is no longer marked as in a transaction, also when the driver raised; after begin it is.", "quantifier": "every sequence of calls and failures", "why_tests_cant": "All sequences.", "anchors": ["dbutils/steady_db.py:SteadyDBConnection"]}
{"id": "C53", "title": "Encrypted keyword search is complete", "statement": "A conjunctive keyword search over the encrypted index returns every document that contains all the keywords, for every document collection and key, when the pseudo-random exponents are invertible.", "quantifier": "every document collection, every conjunction, every key", "why_tests_cant": "All collections.", "anchors": ["sql_research/pysse/oxt.py"]}
{"id": "C54", "title": "Encrypted keyword search is sound up to collisions", "statement": "A document returned by the search contains the first keyword; it contains the other keywords unless two tags collide modulo the small prime used. Unconditional soundness is refuted.", "quantifier": "every document collection, every conjunction, every key", "why_tests_cant": "Collision cases are rare in tests.", "anchors": ["sql_research/pysse/oxt.py"]}
{"id": "C55", "title": "String literals are quoted safely", "statement": "The text emitted for a string literal is read back by a standard SQL lexer as exactly the same string and ends where the emitted literal ends, whatever the content; under MySQL default mode, where backslash escapes, the claim is refuted for content containing a backslash.", "quantifier": "every string, every following text", "why_tests_cant": "All strings.", "anchors": ["sql_parsing/formatting.py:Formatter._literal"]}
{"id": "C56", "title": "Identifiers are quoted safely", "statement": "The text emitted for an identifier part is either an unreserved plain identifier or a quoted identifier that a standard lexer reads back as the same part; a symmetric ciphertext used as a bare comparand is quoted whenever it contains + / or =.", "quantifier": "every string", "why_tests_cant": "All strings.", "anchors": ["sql_parsing/formatting.py:escape", "sql_parsing/formatting.py:should_quote"]}
{"id": "C57", "title": "Formatting keeps the expression structure", "statement": "Formatting an expression tree and re-reading it with the same operator precedence gives the same tree for trees in which no right operand has the operator's own precedence level or a wrongly ranked one; the unrestricted claim is refuted (a - (b - c) prints as a - b - c).", "quantifier": "every expression tree", "why_tests_cant": "All trees.", "anchors": ["sql_parsing/formatting.py:Operator", "sql_parsing/formatting.py:Formatter.op"]}
{"id": "C58", "title": "Clause order of formatted statements", "statement": "A formatted SELECT/UPDATE/DELETE emits each clause that is present exactly once and in the SQL order whatever the order of the keys in the parsed statement.", "quantifier": "every statement", "why_tests_cant": "All key orders and subsets.", "anchors": ["sql_parsing/formatting.py:Formatter.ordered_query", "sql_parsing/formatting.py:Formatter.unordered_query"]}
{"id": "C59", "title": "Column path splitting", "statement": "Joining and splitting dotted names are inverse to each other on names whose parts contain no unescaped dot problem, characterised exactly.", "quantifier": "every list of name parts", "why_tests_cant": "All strings.", "anchors": ["sql_parsing/dots/__init__.py:split_field", "sql_parsing/dots/__init__.py:join_field"]}
{"id": "C60", "title": "Trailing semicolons", "statement": "The front end removes all trailing semicolons and nothing else; an empty or all-semicolon query raises instead of returning.", "quantifier": "every query text", "why_tests_cant": "All strings.", "anchors": ["handler.py:QueryHandler._post"]}
{"id": "C61", "title": "Result formatting keeps every cell", "statement": "The formatted JSON result has one object per row, in order, and every cell appears under its column name when the names are distinct and their number matches the width; with duplicate names earlier cells are lost.", "quantifier": "every result set", "why_tests_cant": "All shapes.", "anchors": ["handler.py:QueryHandler.format_result"]}
{"id": "C62", "title": "Schema listing groups columns by table", "statement": "The schema listing, for rows sorted by table, has each table once with all its columns in order; for an empty input it lists one empty object.", "quantifier": "every sorted row list", "why_tests_cant": "All lists.", "anchors": ["handler.py:SchemaHandler.format_result"]}
{"id": "C63", "title": "JDBC URL parsing", "statement": "For a data source URL jdbc:mysql://host:port/db the endpoint connects to exactly host, port and db for every host and db free of ':' and '/'; parameters after the database name stay part of the database name.", "quantifier": "every host, port, db string", "why_tests_cant": "All strings.", "anchors": ["handler.py:QueryHandler._post"]}
{"id": "C64", "title": "Key rotation", "statement": "The key rotation helper removes the stored ciphertexts of a column before the re-encrypted data is uploaded, so an interruption between the two steps loses data; the sequence of effects is characterised at every crash point.", "quantifier": "every crash point", "why_tests_cant": "All crash points.", "anchors": ["scheduler/utils/key_rotation_support.py"]}
{"id": "C65", "title": "Statement classification", "statement": "The query type is decided by the first keyword that is not a comment, independent of letter case, and statements of unsupported type are rejected before anything reaches the database.", "quantifier": "every token list", "why_tests_cant": "All statements.", "anchors": ["scheduler/compile/parser.py:Parser.query_type", "scheduler/backend/executors/remote_executor.py:RemoteExecutor.call"]}
{"id": "C66", "title": "Offline decryption keeps order and content", "statement": "Decrypting a column offline with a worker pool returns the values in input order and equal to single-threaded decryption for every number of workers.", "quantifier": "every column, every number of workers, every schedule", "why_tests_cant": "All schedules.", "anchors": ["scheduler/utils/decrypt_support.py"]}
{"id": "C67", "title": "End-to-end transparency", "statement": "For every table with encrypted columns and every history of INSERT, UPDATE, DELETE and SELECT in the supported fragment, the answers obtained through the proxy (rewrite, execute on the encrypted database, decrypt) are those of the same history on an ordinary plaintext database.", "quantifier": "every table, every key assignment, every history of statements", "why_tests_cant": "The central promise of the product, over all histories.", "anchors": ["scheduler/handers/rewrite_hander.py:Rewriter.rewrite_query", "scheduler/handers/decrypt_handler.py:DecryptHandler.decrypt", "scheduler/backend/executors/remote_executor.py:RemoteExecutor.call"]}
{"id": "C68", "title": "Parser result normalisation", "statement": "The normalisation of parse results (empty lists dropped, singleton lists replaced by their element) is idempotent and never turns a non-empty value list into nothing, and its confusion of a singleton list with its element is characterised.", "quantifier": "every parse tree", "why_tests_cant": "All trees.", "anchors": ["sql_parsing/utils.py:scrub"]}
{"id": "C69", "title": "SQLite metadata is never persisted", "statement": "With the SQLite metadata backend, creating or dropping a table never changes the stored metadata: the SQLite connection has no ping method, so every write goes to a newly opened MySQL connection. A table created so is unknown after a restart.", "quantifier": "every state, table and metadata, every outcome of the MySQL connection", "why_tests_cant": "Only visible across a restart and with the other backend.", "anchors": ["scheduler/schema/metadata.py:test_connection", "scheduler/schema/metadata.py:Delta.update_db_meta"]}
{"id": "C70", "title": "Column defaults in CREATE TABLE", "statement": "A default value that Python takes for false (0, empty string, FALSE) is silently dropped; any other number or string literal makes CREATE TABLE fail; DEFAULT NULL on an encrypted column becomes the unquoted ciphertext of the text 'NULL '.", "quantifier": "every column definition, default value and encryption option", "why_tests_cant": "All values and option combinations.", "anchors": ["scheduler/handers/table.py:rewrite_table"]}
{"id": "C71", "title": "The web console runs only CREATE TABLE", "statement": "The ideal (the query console runs any supported statement) is refuted: the console passes an empty dict of encrypted columns, which selects the CREATE TABLE rewriter, so that every other statement is rejected, with the metadata unchanged and nothing sent to the database.", "quantifier": "every statement without a create table clause, every metadata, every database behaviour", "why_tests_cant": "All statements and states.", "anchors": ["handler.py:QueryHandler._post", "controller/rewriter.py:ControllerDatabase.do_query", "scheduler/handers/rewrite_hander.py:Rewriter.rewrite_query"]}
{"id": "C72", "title": "One cell decides a whole decryption answer", "statement": "The decrypt endpoint answers the empty result whenever any cell of any row, within the selected columns, is NULL or a number; when all cells are texts it decrypts exactly as the main query path does.", "quantifier": "every recorded query, every list of rows", "why_tests_cant": "All rows and positions.", "anchors": ["scheduler/handers/decrypt_handler.py:DecryptHandler.decrypt1", "controller/rewriter.py:ControllerDecrypt"]}
{"id": "C73", "title": "Batch insert commits whole chunks", "statement": "The rows a batch insert leaves in the database are exactly those of the first k chunks of 20000 rows of the file, in order; it ends without an error exactly when that is the whole file, and otherwise the next chunk contains a row that fails.", "quantifier": "every file length, every pattern of failing rows", "why_tests_cant": "Needs files longer than several chunks and all failure positions.", "anchors": ["scheduler/backend/executors/remote_executor.py:RemoteExecutor.batch_insert"]}
{"id": "C74", "title": "Only rewritten statements reach the database", "statement": "Every statement executed on the client's database connection is the outcome of rewriting the request (for SELECT possibly changed by the procedure injection); when rewriting fails nothing is executed and the call reports an error.", "quantifier": "every request, every metadata, every database behaviour", "why_tests_cant": "All requests and failures.", "anchors": ["scheduler/backend/executors/remote_executor.py:RemoteExecutor.call"]}
{"id": "C75", "title": "Batch insert survives a reconnect", "statement": "A batch of INSERT statements sent on a pooled connection with one commit at the end and no begin(), as batch_insert does, makes every row durable if all calls return; this is refuted for a connection lost in the middle (earlier rows are silently gone), and proved when no driver call fails and, for explicit transactions, for every failure pattern.", "quantifier": "every batch, every failure pattern of the driver", "why_tests_cant": "All failure points.", "anchors": ["scheduler/backend/executors/remote_executor.py:batch_insert", "dbutils/steady_db.py:SteadyDBCursor._get_tough_method"]}
{"id": "C76", "title": "Which collections the keyword index accepts", "statement": "The keyword index can be built exactly for the collections in which no text is empty, starts with a separator (blank, comma, full stop) or contains a lone surrogate; other texts raise ValueError (a lone surrogate its subclass UnicodeEncodeError). When it is built from distinct document numbers, a document is found under exactly the words of its text.", "quantifier": "every collection of texts and document numbers", "why_tests_cant": "Texts starting with a separator are rare in fixtures; the claim is about all of them.", "anchors": ["sql_research/pysse/oxt.py:97-119"]}
{"id": "C77", "title": "Keyword numbers are injective up to leading NULs", "statement": "Two keywords are given the same number exactly when they differ only in leading NUL characters; every non-empty encodable keyword has a number. Distinguishing all keywords is refuted.", "quantifier": "every pair of words", "why_tests_cant": "All pairs of words; NUL-prefixed words are not in fixtures.", "anchors": ["sql_research/pysse/oxt.py:91-95"]}
{"id": "C78", "title": "JSON texts lose nothing", "statement": "Every value that json.dumps writes (distinct keys, finite numbers, text of Unicode scalars) is read back unchanged by json.loads and its text is printable ASCII, so column records in the metadata table, rows sent to the console and request bodies keep every value; two lone surrogates come back as one character.", "quantifier": "every JSON value", "why_tests_cant": "All nestings, all characters, including the surrogate pairs above U+FFFF.", "anchors": ["scheduler/schema/metadata.py:141", "scheduler/schema/metadata.py:167", "handler.py:QueryHandler.format_result", "handler.py:SchemaHandler.format_result"]}
{"id": "C79", "title": "The schema endpoint lists no table", "statement": "The schema endpoint looks tables up under host:port/db while the proxy stores them under db, so for every usable data source and every set of tables created through data sources the listing is one empty object.", "quantifier": "every data source URL, every metadata table", "why_tests_cant": "All URLs and metadata contents.", "anchors": ["handler.py:SchemaHandler.get", "scheduler/backend/executors/remote_executor.py:str_db"]}
{"id": "C80", "title": "The component endpoint runs nothing", "statement": "The endpoint /jdbc_query/component never runs a statement: its answer is independent of the execution layer and is the empty object or an error, and for every MySQL data source it is a KeyError because the connection data carry no query.", "quantifier": "every request, every data source, every execution layer", "why_tests_cant": "All request bodies and back ends.", "anchors": ["handler.py:QueryComponentHandler._post", "controller/rewriter.py:ControllerDatabase"]}
{"id": "C81", "title": "The whole system is transparent", "statement": "Starting from a fresh installation and empty databases, for every history of requests of the supported kinds - CREATE TABLE with any choice of encrypted columns, DROP TABLE, INSERT, UPDATE, DELETE, SELECT, over any number of databases - interleaved with restarts of the proxy, the client gets the answers that plaintext databases would give. The server reads the CREATE TABLE from its SQL text. Afterwards the tables known to the proxy are exactly the plaintext tables, each stored under its own physical name with rows that encrypt the plaintext rows in order. A SELECT that asks for ciphertext is answered with the rows as the server holds them.", "quantifier": "every history of supported requests and restarts, every key, every drawn name, every random number of the homomorphic cipher", "why_tests_cant": "Unbounded histories that mix definition, data and restarts.", "anchors": ["scheduler/backend/execution_context.py:invoke", "scheduler/backend/executors/remote_executor.py:RemoteExecutor.call", "scheduler/handers/table.py:rewrite_table", "scheduler/schema/metadata.py:Delta"]}
{"id": "C82", "title": "A connection is not used more often than allowed", "statement": "With maxusage > 0, whatever the client calls outside transactions and whatever the driver answers, no raw connection answers more than maxusage statements, provided closed connections answer none; if nothing fails, n statements open exactly (n-1)/maxusage further connections. Inside a transaction there is no limit.", "quantifier": "every sequence of client calls, every pattern of driver failures, every limit", "why_tests_cant": "Failures at every call and unbounded sequences.", "anchors": ["dbutils/steady_db.py:SteadyDBConnection._cursor", "dbutils/steady_db.py:SteadyDBCursor._get_tough_method"]}
{"id": "C83", "title": "Operators are grouped by the precedence levels of the grammar", "statement": "For every expression grouped by the levels (earlier levels bind tighter, one level groups to the left), reading its tokens returns that expression; the grouping of a token sequence is unique, and exists for every sequence without BETWEEN in which no prefix operator follows a tighter operator. Reading never fails. After a tighter operator a prefix operator is taken as the operand, and its own operand is lost without an error (a * - b).", "quantifier": "every token sequence, every table of levels, every meaning of the operators", "why_tests_cant": "Expressions of unbounded length with every mixture of operators.", "anchors": ["parsing/infix.py:make_tree", "sql_parsing/keywords.py:KNOWN_OPS"]}
{"id": "C84", "title": "Parsed operator expressions mean what was written", "statement": "Reading the tokens of an operator expression gives a JSON value that stands for it, up to the grouping of +, *, AND and OR. A search condition that is parsed and written by the SQL writer is read by MySQL, and by this parser, as a condition with the same meaning. Comparisons with NULL become IS NULL and IS NOT NULL (also IS DISTINCT FROM, inverted), an IN list of one number makes the writer fail, a minus before a column named like a float fails.", "quantifier": "every expression over the operators, every operand, every text", "why_tests_cant": "Nesting and operands are unbounded.", "anchors": ["sql_parsing/utils.py:to_json_operator", "sql_parsing/utils.py:to_tuple_call", "parsing/infix.py:make_tree", "sql_parsing/formatting.py"]}
{"id": "C85", "title": "String literals are read as SQL reads them", "statement": "A string literal of standard SQL without backslash and line end is read by the parser as the same text, ending at the same place, and what the SQL writer makes of a text is read back as that text. With backslashes it agrees with MySQL for \\b \\n \\r \\t \\\\ \\\" \\% \\_ \\0 and for no other character after the backslash, because the text is evaluated as a Python literal: \\' and a line end (line feed or carriage return) are errors, \\x takes exactly two hexadecimal digits and is an error without them, and up to three octal digits are a number, which agrees with MySQL exactly for a lone 0. Between double quotes a doubled double quote is not undone, and a single quote ends the Python literal, the rest being read as Python code.", "quantifier": "every text between the quotes, every text after them", "why_tests_cant": "All texts and all characters after a backslash.", "anchors": ["sql_parsing/utils.py:to_string", "sql_parsing/utils.py:ansi_string", "sql_parsing/utils.py:mysql_doublequote_string"]}
{"id": "C86", "title": "Dotted and quoted names are read as lists of names", "statement": "A name in back quotes is read as MySQL reads it, with its dots escaped. Names separated by dots, with or without blanks around the dots, each in back quotes, in brackets or plain, give the text that join_field makes of the list of names, and split_field gives the list back; so different lists of names give different texts. A backslash between back quotes is kept exactly when Python has no escape with the next character (`new\\table` becomes a name with a tab). A dash after a plain name is refused, unless a digit is next to it or a blank follows; then the name ends there.", "quantifier": "every list of names and ways of quoting them, every following text", "why_tests_cant": "Names and lists of names are unbounded.", "anchors": ["sql_parsing/utils.py:unquote", "sql_parsing/sql_parser.py:mysql_parser", "sql_parsing/sql_parser.py:no_dashes", "dots/__init__.py:split_field"]}
{"id": "C87", "title": "INSERT ... VALUES: one row is encrypted, several rows never are", "statement": "One row with at least two values for at least two columns is parsed into the statement that the rewriting encrypts. Refuted for the other forms: a row with one value cannot be rewritten (KeyError). Several rows are never encrypted: if a row has one value only, or some value is 0, the empty text, NULL, a column or an expression, the rewriting raises KeyError; otherwise the rows are kept as they are, and the SQL text sent to the database contains every text value as a literal, whatever the columns are. Values beyond the last column are dropped without an error. A column whose name contains the word literal is a TypeError in one of several rows. With one column and two or more values per row the letters of the column's name become names of columns.", "quantifier": "every table, every list of columns, all rows of numbers, texts, NULL, columns and expressions, every metadata and key", "why_tests_cant": "The number of rows and columns and their values are unbounded; that no multi-row statement is encrypted is a statement about all of them.", "anchors": ["sql_parsing/utils.py:to_row", "sql_parsing/utils.py:get_literal", "sql_parsing/utils.py:to_values", "sql_parsing/utils.py:to_insert_call", "sql_parsing/formatting.py:insert", "scheduler/compile/parser.py:rewrite_query"]}
{"id": "C88", "title": "A supported condition selects the same rows, from the tokens of the statement to the SQL text that is sent", "statement": "Take a condition of comparisons of columns, integers and texts with =, <, <=, >, >=, LIKE, IN, BETWEEN, IS NULL and NOT over plaintext columns, comparisons of encrypted columns with constants that their ciphers allow, and AND and OR of these, with any parentheses. Its tokens are parsed without an error, the parsed value is rewritten without an error, and the SQL text written for the result is read by MySQL in its default mode as a condition whose truth value (true, false or unknown) in every row of the encrypted table is that of the original condition in the row that it encrypts. Refuted for the ANSI mode, in which double quotes delimit names: the comparison of an encrypted integer column with an integer is then an error in every row.", "quantifier": "every supported condition of any size and grouping, every table metadata with ordinary column names, every key and cipher with the stated properties, every pair of a plaintext row and a row that encrypts it, with and without backslash escapes", "why_tests_cant": "Conditions nest without bound and the three stages (parser, rewriter, writer) group and quote them differently; the agreement is about all conditions and all rows.", "anchors": ["sql_parsing/utils.py:to_json_operator", "sql_parsing/utils.py:scrub", "scheduler/handers/clause/sql_where.py:SQLWhere.rewrite", "sql_parsing/__init__.py:format", "sql_parsing/formatting.py:Formatter.op", "sql_parsing/formatting.py:escape"]}
{"id": "C89", "title": "ALTER TABLE statements that add or drop a key or an index of one column are recognised exactly as written", "statement": "parse_alter_key recognises ALTER TABLE t ADD PRIMARY KEY (c), DROP PRIMARY KEY, ADD CONSTRAINT n FOREIGN KEY (c) REFERENCES r (d), DROP FOREIGN KEY n, ADD INDEX/FULLTEXT/UNIQUE n (c) and DROP INDEX n in any letter case, with any blanks, the table in back quotes or not, a semicolon and a line feed at the end or not, and returns the table, names and columns that are written, whatever words they are. Whatever the text, the result is empty or one of these changes, and all names in it are words. format_alter_key writes a change as a text that is recognised as the same change. Refuted: a statement with any other character (a comma for a key of two columns, a dot, a quote), with quoted columns, or with a blank after the semicolon is not recognised; words may touch, so 'alter table xdrop primary key' is taken for dropping the key of x; an index without a name is recognised but nothing is written for it.", "quantifier": "every table, constraint, index and column name, every spelling of the keywords, every run of blanks; for the refutations every text", "why_tests_cant": "Eight regular expressions with starred classes that may give characters back are tried one after the other; that none of the earlier ones takes part of a name for a keyword is a statement about all names and all blanks.", "anchors": ["sql_parsing/__init__.py:parse_alter_key", "sql_parsing/__init__.py:format_alter_key"]}
{"id": "C90", "title": "Dropping a key or an index reaches the anonymous table; adding a key always raises, and an index on an encrypted column is sent with the clear name", "statement": "For a known table, the text sent for dropping a primary key, a foreign key or an index says the same of the anonymous table, and the text sent for adding an index says the same of the anonymous table with the column as the client named it. An unknown table raises KeyError. Refuted: an index on an encrypted column is sent with the clear name, which is not a column of the anonymous table; adding a primary or a foreign key raises for every table and every column, TypeError when they are known; the column that a foreign key refers to is looked for in the table that has the key, so that KeyError is raised when it is not a column of that table.", "quantifier": "every table metadata, every name, every way the statement is written (C89)", "why_tests_cant": "The claim covers all table metadata and all names; that adding a key can never succeed is a statement about every input.", "anchors": ["scheduler/handers/rewrite_hander.py:Rewriter.rewrite_query", "scheduler/handers/clause/sql_select.py:SQLSelect.rewrite", "scheduler/handers/clause/anonymous_table.py:AnonymousTable.rewrite", "sql_parsing/__init__.py:format_alter_key"]}
{"id": "C91", "title": "The SQL text sent for a supported statement does to the encrypted tables what the statement does to plaintext tables", "statement": "Take a SELECT (all columns, a list of columns, COUNT(*), MAX or MIN of a column; with any of WHERE, ORDER BY, LIMIT and OFFSET), an INSERT of one row with at least two columns (for a single one see C87), an UPDATE or a DELETE on one table, whose condition is supported in the sense of C88 and whose constants fit the ciphers of their columns, and an encrypted database that encrypts a plaintext database. The statement is parsed, rewritten and written as a text without an error. MySQL in its default mode reads in that text one statement, on the anonymised table. Its effect on the encrypted database and its answer after decryption are the effect and the answer of the original statement on the plaintext database: either both succeed with equal results and the databases correspond again, or both fail with the same error. Refuted for a plaintext column named set, values, insert, into, update or delete: such a name is written without quotes and the text sent is no statement.", "quantifier": "every supported statement with conditions of any size, every table metadata whose names are ordinary identifiers that are no words of statements, every key and cipher with the stated properties, every pair of a plaintext database and a database that encrypts it, with and without backslash escapes", "why_tests_cant": "The claim is about the meaning of the text that is sent, for all statements, all contents of the tables and all texts stored in them (quotes, percent signs, base64 padding); a test compares a few texts.", "anchors": ["scheduler/handers/rewrite_hander.py:Rewriter.rewrite_query", "scheduler/handers/clause/sql_where.py:SQLWhere.rewrite", "scheduler/handers/clause/sql_select.py:SQLSelect.rewrite", "scheduler/handers/clause/sql_values.py:SQLValues.rewrite", "scheduler/handers/decrypt_handler.py:DecryptHandler.decrypt", "sql_parsing/__init__.py:format", "sql_parsing/formatting.py:Formatter.dispatch", "sql_parsing/formatting.py:Formatter.unordered_query", "sql_parsing/formatting.py:Formatter.ordered_query"]}
{"id": "C92", "title": "A history of statements, sent as SQL texts, is answered as plaintext tables answer it", "statement": "Start from empty tables and run any sequence of supported statements (C91) through the proxy: each is parsed, rewritten, written as SQL text, read and run by the database, and its result is decrypted. Every answer, including every error, equals the answer that a database with the plaintext tables gives to the same sequence of original statements.", "quantifier": "every finite sequence of supported statements on any number of tables, every choice of the random numbers of the homomorphic cipher in each statement, every key and cipher with the stated properties", "why_tests_cant": "Sequences and table contents are unbounded, and an error of one statement could show only in the answer to a much later one.", "anchors": ["scheduler/handers/rewrite_hander.py:Rewriter.rewrite_query", "scheduler/handers/clause/sql_where.py:SQLWhere.rewrite", "scheduler/handers/clause/sql_select.py:SQLSelect.rewrite", "scheduler/handers/clause/sql_values.py:SQLValues.rewrite", "scheduler/handers/decrypt_handler.py:DecryptHandler.decrypt", "sql_parsing/__init__.py:format", "sql_parsing/formatting.py:Formatter.dispatch", "sql_parsing/formatting.py:Formatter.unordered_query", "sql_parsing/formatting.py:Formatter.ordered_query"]}
{"id": "C93", "title": "The whole system answers like plaintext databases when only SQL text reaches the database", "statement": "Start from a fresh installation and let clients send any history of CREATE TABLE, DROP TABLE, SELECT, INSERT, UPDATE and DELETE requests about any number of databases, with restarts of the proxy anywhere in between. The proxy parses, rewrites and formats every statement, and the database server sees nothing but the resulting SQL texts, which it reads and executes. Then every answer that the clients see is the answer that plaintext databases would give to the statements as they were written, and afterwards the server holds, for each table that the proxy knows, one table under its own anonymised name whose rows are encryptions of the plaintext rows in order.", "quantifier": "For every history of supported requests and restarts (CREATE TABLE as in C81 with physical names that may stand unquoted, DROP TABLE of an existing table, the statements of C91 with no SUM( or AVG( in the text of a SELECT), all ciphers whose decryption inverts encryption, all random numbers, both readings of backslashes by the database.", "why_tests_cant": "The state after a history decides what the next statement is rewritten to, and a text that is misread after a particular sequence of CREATE, DROP and restart would only show there; no finite set of histories covers this.", "anchors": ["scheduler/backend/execution_context.py:invoke", "scheduler/backend/executors/remote_executor.py:RemoteExecutor.call", "scheduler/handers/table.py:rewrite_table", "scheduler/handers/rewrite_hander.py:Rewriter.rewrite_query", "scheduler/schema/metadata.py:Delta", "sql_parsing/__init__.py:format", "sql_parsing/formatting.py:Formatter.dispatch", "sql_parsing/formatting.py:Formatter.drop"]}
{"id": "C94", "title": "The parser gives every spelling of a statement the same parsed statement", "statement": "parse_mysql, applied to the text of a SELECT, INSERT, UPDATE or DELETE statement, returns the parsed statement: the selected columns or count, max, min, the table, the condition grouped by the precedence of the operators, the order, the limits, the columns and values of a row, the assignments. The letters of keywords and functions may be large or small, blanks may stand between the parts wherever they do not join or split words or symbols, names may be quoted with back quotes, strings with either quote, and blanks, semicolons and a comment may follow. Two texts with the same parts are parsed alike. This fails for two minus signs in a row, which begin a comment whatever follows, so that the rest of the condition is dropped silently.", "quantifier": "For all statements with conditions of any size over names, numbers, texts, NULL, the operators of C84, IN lists, BETWEEN and IS NULL, all lists of columns, values (two or more in a row of INSERT) and assignments, all texts that spell them as described, all string literals and quoted names of C85 and C86.", "why_tests_cant": "The grammar backtracks over ordered alternatives and every terminal skips white space and comments; whether an earlier alternative takes a part of some text depends on arbitrary names, constants, blanks and nesting, which examples cannot cover.", "anchors": ["sql_parsing/__init__.py:parse_mysql", "sql_parsing/__init__.py:_parse", "sql_parsing/sql_parser.py:parser", "sql_parsing/sql_parser.py:mysql_parser", "sql_parsing/utils.py:to_select_call", "sql_parsing/utils.py:to_union_call", "sql_parsing/utils.py:to_json_call", "sql_parsing/utils.py:keyword", "parsing/infix.py:infix_notation", "parsing/infix.py:delimited_list", "parsing/whitespaces.py:Whitespace.skip", "parsing/tokens.py:Keyword", "parsing/tokens.py:Literal", "parsing/expressions.py:MatchFirst"]}
{"id": "C95", "title": "An application's SQL text goes through the whole proxy and is answered as a plaintext database answers the statement it writes", "statement": "rewrite_query, given the text of a supported SELECT, INSERT, UPDATE or DELETE statement in any of the spellings of C94, returns an SQL text for the anonymous table. The database reads this text as one statement whose effect on the encrypted tables corresponds to the effect of the application's statement on plaintext tables, and whose decrypted answer is the answer of the plaintext tables; errors are the same. No such text is taken for an ALTER TABLE statement. A history of such texts, from empty tables, gets the answers that plaintext tables give to the statements they write.", "quantifier": "For all statements supported as in C91, all texts that spell them as in C94, all keys and random values, all metadata and contents of the tables, all histories of texts of any length, both escape modes of the database.", "why_tests_cant": "The path has a parser, a rewriter, a writer, the reader of the database, its engine and the decryption; the parser returns the keys of a statement in another order than the rewriter was proved for, and the texts, constants, conditions and table contents are unbounded.", "anchors": ["scheduler/handers/rewrite_hander.py:Rewriter.rewrite_query", "sql_parsing/__init__.py:parse_alter_key", "sql_parsing/__init__.py:parse_mysql", "sql_parsing/__init__.py:format", "sql_parsing/formatting.py:Formatter.dispatch", "scheduler/backend/execution_context.py:invoke"]}
{"id": "C96", "title": "The proxy in front of encrypted tables answers the same SQL texts as a plaintext MySQL database does", "statement": "The parser of the proxy and MySQL read the texts of supported statements alike: a text that is spelled as both allow (no comments, no ==, no INSERT INTO TABLE, function names directly before their parenthesis, no backslash in strings if the database takes backslashes literally) is read by MySQL, with MySQL's lexical rules and operator precedences, as the statement that the parser reads. Therefore a history of such texts, from empty tables, gets from the proxy in front of the encrypted tables the answers, and the errors, that it gets from a MySQL database with plaintext tables to which the very same texts are sent. A text with == is answered by the proxy and refused by MySQL.", "quantifier": "For all histories of any length of texts each of which writes some supported statement (C91) in a way both allow, all keys and random values, all metadata, both escape modes of the database.", "why_tests_cant": "The two sides share no code: one side is the parser, rewriter, writer, the encrypted database and decryption, the other is MySQL's own reading of the application's text with its own precedence table; agreement for all nestings of operators, all spellings and all histories is an infinite statement.", "anchors": ["scheduler/handers/rewrite_hander.py:Rewriter.rewrite_query", "sql_parsing/__init__.py:parse_mysql", "sql_parsing/sql_parser.py:parser", "sql_parsing/utils.py:to_json_operator", "sql_parsing/formatting.py:Formatter.dispatch", "scheduler/backend/execution_context.py:invoke"]}
{"id": "C97", "title": "The text of a CREATE TABLE statement becomes exactly the physical table and the metadata that it asks for", "statement": "Every spelling of a table definition - column names with types, NULL/NOT NULL, UNIQUE, AUTO_INCREMENT, PRIMARY KEY, COMMENT, COLLATE, DEFAULT; named or unnamed PRIMARY KEY, FOREIGN KEY and KEY/INDEX constraints; ENGINE, COLLATE, AUTO_INCREMENT, COMMENT and CHARSET options - is parsed to the JSON of that definition. If columns are distinct and without defaults, encrypted columns are int, float, double, char(n) or varchar(n) with complete options, the others signed with at most one size, and constraints name known columns, then CREATE TABLE is accepted: the statement sent declares for each column, in order, its physical columns with their types, repeats NOT NULL on all and PRIMARY KEY only on the symmetric part, rewrites the constraints to physical names and has nothing else (UNIQUE, COLLATE, COMMENT and all table options are lost), and the metadata has exactly the columns of the text. An encrypted column of any other type is never accepted. A constant default other than 0 and an index are always rejected; an unsigned plaintext column is declared twice in the statement sent; a type with two sizes, DECIMAL(10,2), is sent as Python's text of a list.", "quantifier": "For all table definitions with any number of columns, options and constraints, all spellings of them (letter case, blanks, comments, quotes), all encryption options, metadata, drawn names and keys.", "why_tests_cant": "The definitions and their spellings are unbounded and the claim covers each combination of types, options, constraints and encryption choices; a test shows a few CREATE TABLE texts.", "anchors": ["scheduler/handers/table.py:rewrite_table", "scheduler/handers/table.py:get_constraint_key", "scheduler/handers/table.py:get_reference_phrase", "sql_parsing/__init__.py:parse_mysql", "sql_parsing/sql_parser.py:parser", "sql_parsing/types.py:get_column_type", "sql_parsing/utils.py:scrub", "sql_parsing/utils.py:to_json_call", "scheduler/schema/metadata.py:get_type_and_len"]}
{"id": "C98", "title": "An application that only sends SQL texts gets from a freshly installed proxy what it gets from plaintext databases", "statement": "Start with a fresh installation. The application sends SQL texts for databases of its choice: CREATE TABLE texts with encryption options, INSERT, UPDATE, DELETE and SELECT texts on one table, DROP TABLE texts; the proxy may be restarted in between. Each text is parsed by the proxy, rewritten with the metadata that the earlier texts created, formatted to a new SQL text, which the database server lexes, reads and executes on the tables that earlier texts created; the rows are decrypted and returned. If the texts are supported (the statements that they write are those of C93, the type that Parser.query_type gives a text is that of its statement, and the text has no spelling that MySQL reads differently), then all answers, rows, errors and their order, equal those of databases with plaintext tables that read the same texts. A database reads a CREATE TABLE text as the table, the column names in their order and the IF NOT EXISTS that the proxy's parser finds in it.", "quantifier": "For all histories of texts and restarts, all spellings of each text, all databases, keys, random numbers, drawn names and both modes of MySQL for backslashes.", "why_tests_cant": "Histories, tables and spellings are unbounded, and the claim is an equality of the answers of two different systems on all of them; a test compares a few sessions.", "anchors": ["scheduler/backend/execution_context.py:invoke", "scheduler/backend/executors/remote_executor.py:RemoteExecutor.call", "scheduler/handers/table.py:rewrite_table", "scheduler/handers/rewrite_hander.py:Rewriter.rewrite_query", "scheduler/schema/metadata.py:Delta", "sql_parsing/__init__.py:parse_mysql", "sql_parsing/__init__.py:parse_alter_key", "sql_parsing/__init__.py:format", "sql_parsing/sql_parser.py:parser"]}
{"id": "C99", "title": "The type of a statement is read correctly from its text by the tokenizer of the proxy", "statement": "Parser(text).query_type is the type of the statement that the text writes for the parser of the proxy: CREATE TABLE, DROP TABLE, SELECT, INSERT, UPDATE or DELETE, in any spelling, with parentheses inside strings and quoted names not counted. The text has bare names of letters, digits and _ other than ZONE, no % operator, no empty string in double quotes, no back quotes in such strings, and not both double quotes and backslashes. So C98 holds with the tokenizer of the proxy in place of a type that is right by hypothesis: the application sends texts to a fresh installation and gets the answers of plaintext databases. Without the condition on strings it fails: an INSERT with \"\" followed by a string with a closing parenthesis is answered with IndexError.", "quantifier": "For all texts of supported statements, all spellings of each, all behaviours of str.upper and of the classes of regular expressions outside ASCII, and for the whole system all histories.", "why_tests_cant": "Texts are unbounded and 47 regular expressions compete at each position; a test tries a few texts, and the failing ones need two strings of particular content.", "anchors": ["scheduler/compile/parser.py:Parser.query_type", "scheduler/compile/parser.py:Parser.tokens", "scheduler/compile/parser.py:Parser._preprocess_query", "scheduler/compile/parse/lexer.py:Lexer.get_tokens", "scheduler/compile/parse/keywords.py:SQL_REGEX", "scheduler/compile/parse/engine/statement_splitter.py:StatementSplitter.process", "scheduler/backend/execution_context.py:invoke"]}
{"id": "C100", "title": "Looking up the alternatives of a choice by their first characters finds what trying them in order finds", "statement": "The parsing engine groups the alternatives of a choice by the characters they may begin with and tries only those of the group found in the text. An element that takes characters begins with one of the keys that it declares, in any case of letters. When each alternative that declares keys needs at least one character, keys are in small letters or are single letters declared in both cases, and alternatives that share a key are not separated by one with a related key, the lookup gives at each place of each text the result of trying all alternatives in order. The choice of all reserved words of the SQL grammar is such a choice, and its table finds exactly the reserved words that end where a word ends. Each condition is needed: otherwise an optional alternative is skipped, another alternative wins, KeyError is raised, or an action takes characters that no key announces.", "quantifier": "For all grammars built of literals, keywords, character sets, sequences, choices, repetitions, options, lookahead, negation, actions, forward references and other elements that begin with their keys when their parts do, all texts and all places in them.", "why_tests_cant": "Grammars, texts and places are unbounded; a wrong table shows only for texts where two alternatives with related keys compete.", "anchors": ["parsing/core.py:ParserElement._parse", "parsing/core.py:ParserElement.parse", "parsing/expressions.py:MatchFirst.streamline", "parsing/expressions.py:MatchFirst.parse_impl", "parsing/expressions.py:Fast", "parsing/expressions.py:faster", "parsing/expressions.py:And.expecting", "parsing/tokens.py:Keyword.parse_impl", "parsing/tokens.py:Literal.parse_impl", "parsing/enhancement.py:Many.expecting"]}
{"id": "C101", "title": "Simplifying a grammar does not change what it parses", "statement": "streamline merges sequences in sequences and choices in choices and removes sequences and choices of one element. For a grammar without empty choices or sequences and without repetitions of exactly none or one, the simplified grammar gives the same result as the grammar at each place of each text, white space included, and no choice stands directly in a choice; together with C100 this holds for what the engine runs. Otherwise it fails: an empty choice becomes one that always matches, exactly one of an element matches at the end of the text only when simplified. A repetition of an element that matches the empty text never ends.", "quantifier": "For all grammars as in C100, all idempotent ways to skip white space, all texts and all places in them.", "why_tests_cant": "Nesting of grammars is unbounded, and white space between merged elements is skipped at other points than before; a test checks a few grammars on a few texts.", "anchors": ["parsing/expressions.py:And.streamline", "parsing/expressions.py:MatchFirst.streamline", "parsing/enhancement.py:ParseEnhancement.streamline", "parsing/enhancement.py:Many.streamline", "parsing/core.py:ParserElement.streamline", "parsing/expressions.py:And.parse_impl"]}
{"id": "C102", "title": "What the engine prepares of the SQL grammar parses each text as the grammar that is written", "statement": "Before the first parse the engine simplifies the SQL grammar and builds lookup tables for its choices. For each text, each place in it and each part of the grammar that is referred to (expression, type, column, query, table source, statement), the prepared grammar gives the result of the written one, tokens and place included, when the latter ends without an error; a deeper nesting of references does not change a result. Each choice of the prepared grammar fulfils the conditions of C100. A reserved word is never taken as a name. One part has to be mended for this: the query of CREATE TABLE ... AS is an infix notation without operators, whose empty choices the engine simplifies to ones that match everywhere, so that two queries in a row are accepted there.", "quantifier": "For all texts, all places, all parts of the grammar, all depths of nesting, all idempotent ways to skip white space and all parse actions that take no characters of their own.", "why_tests_cant": "The grammar has hundreds of choices with thousands of pairs of competing alternatives, and texts are unbounded; a wrong order in one table shows only for texts on which exactly these two compete.", "anchors": ["sql_parsing/sql_parser.py:parser", "sql_parsing/types.py:get_column_type", "sql_parsing/windows.py:window", "sql_parsing/keywords.py", "parsing/infix.py:infix_notation", "parsing/expressions.py:MatchFirst.streamline", "parsing/expressions.py:Fast"]}
{"id": "C103", "title": "White space and comments are found as written, whatever the engine remembers of texts", "statement": "Whitespace.skip remembers, for the text it saw last, where white space ends. After any calls that set white space, add comments, enter a copy of the engine or skip, in any order and with any texts, a call of skip gives the place after all white space and comments of this text that are set at that time. For SQL this is the one place after blanks, tabs and line ends, comments from -- or # to the end of the line and comments between /* and */; going there twice changes nothing, and the parser of texts of C94 to C99 goes there as well. With this white space the prepared SQL grammar accepts and rejects whole texts as the written one does. add_ignore with several comments keeps only the first.", "quantifier": "For all histories of calls, all texts, all places, all sets of white space and comments that begin with some character.", "why_tests_cant": "What is remembered depends on the history of calls and on which text object was seen last; tests use one text at a time.", "anchors": ["parsing/whitespaces.py:Whitespace.skip", "parsing/whitespaces.py:Whitespace.set_whitespace", "parsing/whitespaces.py:Whitespace.add_ignore", "parsing/whitespaces.py:Whitespace.copy", "parsing/whitespaces.py:Whitespace.__regex__", "sql_parsing/sql_parser.py:parser", "parsing/core.py:Parser._parseString"]}
{"id": "C104", "title": "Numbers, strings, names and white space are found in texts as Python's regular expressions find them", "statement": "The regular expressions of the SQL grammar are run by Python's re, which tries alternatives in order, repeats as often as it can and goes back when what follows fails. The places that are tried are exactly those that the expression allows. At each place of each text the first of them is the one that the functions of the model of the grammar compute in one pass, for real numbers, integers, hexadecimal numbers, strings and quoted names, names with dashes inside, and white space with comments. A text in quotes with its quotes doubled is taken as a whole, and only such texts are taken; nothing is taken only if a quote is missing. A whole number with a negative exponent, 1e-5, is not read as a number: it is read as 1, the name e, and a subtraction.", "quantifier": "For all texts, all places and all characters before them, all opening and closing characters, all sets of white space and of comments that do not begin with white space.", "why_tests_cant": "Going back happens for few of the texts, at any of their places; the property is for all texts.", "anchors": ["sql_parsing/utils.py:real_num", "sql_parsing/utils.py:int_num", "sql_parsing/utils.py:hex_num", "sql_parsing/utils.py:ansi_string", "sql_parsing/utils.py:sqlserver_ident", "sql_parsing/sql_parser.py:simple_ident", "parsing/whitespaces.py:Whitespace.__regex__"]}
{"id": "C105", "title": "Whole numbers in statements keep their value, with an exponent only as far as doubles go", "statement": "What the regular expression int_num takes is always the text of a whole number. Without an exponent parse_int gives its value, whatever its length, and the text that is sent for this value has the same value. With an exponent parse_int goes through a double: the value is kept up to 2^53, beyond it is off by at most one part in 2^53, never out of order, and it is an error exactly from 2^1024 - 2^970 on. So 1e23 is sent as 99999999999999991611392.", "quantifier": "For all texts and places, all signs, digits and exponents.", "why_tests_cant": "The value is unbounded and the rounding depends on all of its bits.", "anchors": ["sql_parsing/utils.py:parse_int", "sql_parsing/utils.py:int_num", "sql_parsing/formatting.py:Formatter.dispatch"]}
{"id": "C106", "title": "The regular expressions that elements of the grammar are turned into are read as the elements are meant", "statement": "__regex__ writes the pattern of an element from the patterns of its parts and puts parentheses where regex_iso says so. Read by Python's re, the pattern compiles and gives the same matches in the same order as the parts one after another, the first part that matches, or the part repeated, if no repetition is repeated directly and no choice is empty. So the pattern that sql_parser builds for names takes exactly the names of the grammar, and the pattern that Whitespace builds finds exactly the white space and comments. A repetition of a repetition gives a pattern that does not compile; an empty choice gives a pattern that always matches.", "quantifier": "For all elements of any depth built from characters, literals, sequences, choices, repetitions with bounds, SkipTo and Regex; all sets of white space and of comments.", "why_tests_cant": "Missing parentheses show only for some nestings, and the nestings are unbounded.", "anchors": ["parsing/utils.py:regex_iso", "parsing/expressions.py:And.__regex__", "parsing/expressions.py:MatchFirst.__regex__", "parsing/enhancement.py:Many.__regex__", "parsing/enhancement.py:SkipTo.__regex__", "parsing/whitespaces.py:Whitespace.__regex__", "sql_parsing/sql_parser.py:simple_ident"]}
{"id": "C107", "title": "A class of characters is written so that Python's re reads exactly these characters", "statement": "regex_range writes a set of characters as a pattern: a single character with its escape, or a class in brackets with ranges, negated on request. Read by the rules of Python's re, the pattern takes exactly one character, and exactly the characters of the set, or exactly the others. This holds for every nonempty set but those of several characters whose greatest is character 6: the end mark of the loop is character 7, so the last range is not written.", "quantifier": "For all texts that list the characters, in any order and with repetitions, all characters and both kinds.", "why_tests_cant": "There are as many classes as sets of characters, and escapes, ranges and brackets interact.", "anchors": ["parsing/utils.py:regex_range", "parsing/tokens.py:Char", "parsing/whitespaces.py:Whitespace.__regex__"]}
{"id": "C108", "title": "A choice of texts takes the longest that fits, in whatever order they are given", "statement": "one_of makes one parsing element from a list of texts. Its loop over the texts ends. Without caseless it gives a regular expression that Python's re can read and that takes, at the beginning of any text, the longest of the given texts that stands there, and fails if none does. With caseless the same holds, letters of ASCII in either case. If the empty text is among them, it is taken in place of any single character.", "quantifier": "For all lists of texts, in any order and with repetitions, and all texts to be parsed. Without caseless: no empty text, and character 6 only with a greater single character (C107).", "why_tests_cant": "The order of the alternatives depends on all the texts, and there are as many orders as permutations.", "anchors": ["parsing/infix.py:one_of", "parsing/utils.py:regex_range", "parsing/utils.py:regex_caseless", "parsing/tokens.py:CaselessLiteral"]}
{"id": "C109", "title": "A parse error points to the furthest place that was reached, by line and column", "statement": "The message of a parse error is made from one of the nested failures, chosen by best_cause. Its place is the furthest at which any attempt failed, and each element that it names as expected was tried in an attempt that reached this place. The line number, the column and the line of a place are right: the lines before it and the beginning of its line make up the text up to it. With an exception of another class among the causes the place is where the element began.", "quantifier": "For all texts and places in them; for all trees of nested failures, with any names, messages and starts.", "why_tests_cant": "Failures nest to any depth and their order depends on all of them.", "anchors": ["parsing/exceptions.py:ParseException", "parsing/exceptions.py:sort_causes", "parsing/utils.py:col", "parsing/utils.py:lineno", "parsing/utils.py:line"]}
{"id": "C110", "title": "A generalized statement shows no numbers and no texts in single quotes", "statement": "Generalizator.generalize replaces the values of a statement. Its result has no digit, at most one single quote and at most one double quote. Two statements that differ only in a number have the same result; so have two that differ only in a text between single quotes, if no backslash comes before or in it. A text in double quotes, which MySQL also reads as a text, stays in the result.", "quantifier": "For all texts without comments and, for what is left, all functions in the place of _normalize_likes; for the values, all numbers, all texts without quotes and backslashes, all surroundings, where _normalize_likes changes nothing.", "why_tests_cant": "The result depends on eight substitutions one after the other, each of which may join what others left.", "anchors": ["scheduler/compile/generalizator.py:Generalizator.generalize"]}
{"id": "C111", "title": "A close match is accepted exactly if it has few mismatches, and they are listed", "statement": "CloseMatch accepts a text exactly if the match text fits into what is left of it and differs from it in at most max_mismatches places, and gives these places. At the beginning of the text the end and the matched text are right. Further on they are wrong: the end does not count the start, so that the matched text is too short.", "quantifier": "For all match texts, bounds, texts and starts.", "why_tests_cant": "Texts and starts are unbounded; a test at the beginning of a text does not show the wrong end.", "anchors": ["parsing/tokens.py:CloseMatch.parse_impl"]}
{"id": "C112", "title": "A word of unlisted characters takes the longest run; its bounds are not read as bounds", "statement": "CharsNotIn without bounds builds a pattern that takes the longest run of characters that are not listed, and fails exactly if there is none. With an exact length of 1, or a minimum and a maximum of 1, it takes one such character. With any other bounds the suffix is written with a colon where Python's re expects a comma, so that it is a text: the pattern takes one character, and only if the suffix itself follows it in the text.", "quantifier": "For all lists of characters, not empty, that do not have the character 6 as their greatest, and all bounds; for all texts.", "why_tests_cant": "Lists, bounds and texts are unbounded; a wrong suffix is valid for re.compile, so that building the token does not fail.", "anchors": ["parsing/tokens.py:CharsNotIn.__init__", "parsing/utils.py:regex_range"]}
{"id": "C113", "title": "White space that counts is taken as far as its bounds allow", "statement": "White takes the longest text of its characters that its bounds allow, exact before minimum and maximum, and raises a parse error exactly if there is none, as long as it is not asked at the end of the text. There it raises an IndexError, which the engine does not take for a failed alternative. A token can be built exactly from tab, line feed, form feed, carriage return and space: the other keys of its table are written with octal escapes by mistake and are never the name of a character.", "quantifier": "For all lists of characters, bounds, texts and places.", "why_tests_cant": "Lists, bounds, texts and places are unbounded; a test with ASCII spaces inside a text shows neither the IndexError nor the keys that name nothing.", "anchors": ["parsing/tokens.py:White.__init__", "parsing/tokens.py:White.parse_impl"]}
{"id": "C114", "title": "Beginnings and ends of lines are found where the lines are cut", "statement": "LineStart matches exactly at the beginning of the text and after a line feed, and takes nothing. LineEnd matches exactly before a line feed, with or without a carriage return before it, and takes both, and at the end of the text, where it takes a carriage return that is left. So after every end of a line another line begins or the text is over, and before every beginning but the first a line ends. The pattern that LineStart gives for itself finds no beginning but the first: it is compiled without MULTILINE.", "quantifier": "For all texts and places.", "why_tests_cant": "Texts and places are unbounded; with a text of one line the pattern agrees with the token.", "anchors": ["parsing/tokens.py:LineStart.parse_impl", "parsing/tokens.py:LineEnd.parse_impl", "parsing/utils.py:col"]}
{"id": "C115", "title": "Text is skipped to the first place where the target is found", "statement": "SkipTo ends at the first place from its start on, not in white space, where the target matches, or behind the target if it is included, and gives the text before it without the white space that ends it; it fails exactly if there is no such place. An expression to fail on does not make it fail: if it is found before the target, the loop is left by a break and the text before it is given as if it were the target.", "quantifier": "For all predicates of white space, targets, expressions to fail on, texts and starts.", "why_tests_cant": "Texts and expressions are unbounded; the grammar of the project uses no expression to fail on, so that no test of it shows the wrong break.", "anchors": ["parsing/enhancement.py:SkipTo.parse_impl"]}
{"id": "C116", "title": "What must stand before a place is found at the nearest place", "statement": "PrecededBy with a literal matches exactly if the literal stands directly before the place. With an expression whose length is not fixed it finds the nearest place, at least its least length back, from which the expression matches in the text before the place with only white space and line ends behind it, and fails exactly if there is none. The parameter retreat, said to be the greatest number of characters to look back, is not used: it looks back further than any retreat.", "quantifier": "For all predicates of white space, literals, expressions, values of retreat, texts and places.", "why_tests_cant": "Texts, places and values of retreat are unbounded; a test with a text shorter than retreat does not show that it is not used.", "anchors": ["parsing/enhancement.py:PrecededBy.__init__", "parsing/enhancement.py:PrecededBy.parse_impl", "parsing/tokens.py:StringEnd.parse_impl"]}
{"id": "C117", "title": "Elements in any order are found as often as they must and may be", "statement": "What MatchAll finds are elements that follow one another, each at least min_match and at most max_match times, until none takes anything that still may. Elements that are needed once and of which no two take something at the same place are found in whatever order the text has them. The loop ends. The second check for missing elements never fails. An element that must be repeated is refused although it matches: it takes its repetitions at once and is counted once.", "quantifier": "For all lists of elements with any bounds, white space, texts and starts.", "why_tests_cant": "Lists of elements and their orders are unbounded; the grammar of the project uses elements that are optional only, so that no test of it shows the wrong count.", "anchors": ["parsing/expressions.py:MatchAll.parse_impl"]}
