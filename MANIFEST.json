{
 "claims": [
  {
   "property": "C01",
   "status": "proved",
   "theorems": [
    "C01_symmetric_roundtrip",
    "C01_symmetric_roundtrip_exact",
    "C01_symmetric_total"
   ],
   "note": "Round trip for every text UTF-8 can represent, exact condition (no trailing NUL) and totality. The AES block function and SHA-256 are parameters assumed invertible per block."
  },
  {
   "property": "C02",
   "status": "proved",
   "theorems": [
    "C02_ciphertext_equality",
    "C02_equality_is_value_equality",
    "C02_nul_refuted"
   ],
   "note": "Exact equality condition, value equality for texts not ending in NUL, and the NUL collision under every key."
  },
  {
   "property": "C03",
   "status": "proved",
   "theorems": [
    "C03_ciphertext_shape"
   ],
   "note": "Alphabet and exact length."
  },
  {
   "property": "C04",
   "status": "proved",
   "theorems": [
    "C04_width_enough",
    "C04_width_tight",
    "C04_width_characters_refuted",
    "C04_char_limit"
   ],
   "note": "Byte-counted width sufficient and tight; character-counted claim refuted for every width from 6 up; CHAR limit respected."
  },
  {
   "property": "C05",
   "status": "proved",
   "theorems": [
    "C05_fuzzy_capacity",
    "C05_numeric_capacity"
   ],
   "note": "Exact capacity of the LIKE column (85 or 84 characters) and of the numeric symmetric columns."
  },
  {
   "property": "C06",
   "status": "proved",
   "theorems": [
    "C06_ope_roundtrip",
    "C06_ope_decrypt_sound"
   ],
   "note": "For every sampler, coin tape and pair of ranges; both directions (round trip and no invented plaintext)."
  },
  {
   "property": "C07",
   "status": "proved",
   "theorems": [
    "C07_ope_strictly_monotone",
    "C07_ope_comparison"
   ],
   "note": "For every sampler and coin tape; comparisons on ciphertexts equal comparisons on plaintexts."
  },
  {
   "property": "C08",
   "status": "proved",
   "theorems": [
    "C08_ope_total",
    "C08_ope_out_of_range",
    "C08_ope_decrypt_total",
    "C08_invalid_ciphertext_error_refuted",
    "C08_sampler_contract",
    "C08_tape"
   ],
   "note": "Totality with an explicit recursion depth bound for every sampler within the support contract; the shipped sampler is shown to meet the contract up to 2^53-1 values if its rejection loop ends (its float arithmetic is a parameter); the exact exception on invalid ciphertexts is refuted."
  },
  {
   "property": "C09",
   "status": "proved",
   "theorems": [
    "C09_ope_default_is_identity",
    "C09_ope_default_confidentiality_refuted"
   ],
   "note": "With the default ranges the cipher is the identity for every key: order holds, confidentiality is refuted."
  },
  {
   "property": "C10",
   "status": "proved",
   "theorems": [
    "C10_uniform_outcomes",
    "C10_uniform_short_tape",
    "C10_uniform_reachable",
    "C10_uniform_power_of_two",
    "C10_uniformity_refuted",
    "C10_uniform_invalid_coin"
   ],
   "note": "All outcomes, number of coins needed, reachability, exact uniformity for powers of two, bias refutation for size 3."
  },
  {
   "property": "C11",
   "status": "proved",
   "theorems": [
    "C11_bits_of_bytes",
    "C11_bits_injective",
    "C11_byte_domain"
   ],
   "note": "Bit positions, length, injectivity and domain."
  },
  {
   "property": "C12",
   "status": "proved",
   "theorems": [
    "C12_float_roundtrip",
    "C12_float_order",
    "C12_float_order_reflects",
    "C12_float_distinct",
    "C12_float_distinct_any_sign",
    "C12_float_distinct_across_zero_refuted"
   ],
   "note": "Exact rational arithmetic; float rounding is not modelled. The 1e-12 separation across zero is refuted and proved at 2e-12."
  },
  {
   "property": "C13",
   "status": "proved",
   "theorems": [
    "C13_stretch_increasing",
    "C13_stretch_domain",
    "C13_stretch_inverse",
    "C13_stretch_inverse_negative_refuted",
    "C13_double_roundtrip_small",
    "C13_double_roundtrip_large_refuted",
    "C13_double_roundtrip_refuted"
   ],
   "note": "Round trip proved up to 1000 and refuted for every |v| >= 1001 in the domain."
  },
  {
   "property": "C14",
   "status": "proved",
   "theorems": [
    "C14_double_order",
    "C14_double_order_reflects",
    "C14_double_domain",
    "C14_double_rejects"
   ],
   "note": "Monotone in both directions, exact domain, TypeError beyond it."
  },
  {
   "property": "C15",
   "status": "proved",
   "theorems": [
    "C15_sum",
    "C15_avg",
    "C15_sum_range_exact",
    "C15_server_sum",
    "C15_server_sum_overflow",
    "C15_server_sum_test_key_refuted",
    "C15_server_sum_null_refuted",
    "C15_concat_sum",
    "C15_concat_sum_truncated_refuted"
   ],
   "note": "Cipher-level SUM/AVG for every key, rows and randomness, with the exact range; server-side loop and GROUP_CONCAT variants with their capacity conditions and refutations. The phe library is modelled from its published source."
  },
  {
   "property": "C16",
   "status": "proved",
   "theorems": [
    "C16_roundtrip",
    "C16_out_of_range_rejected",
    "C16_injective",
    "C16_fits_column"
   ],
   "note": "Round trip, rejection outside the range, injectivity, column capacity."
  },
  {
   "property": "C17",
   "status": "proved",
   "theorems": [
    "C17_like_exact",
    "C17_like_substring",
    "C17_short_rejected"
   ],
   "note": "Exact agreement with LIKE on plaintexts for one search text of three or more characters of the same class, in all four anchorings."
  },
  {
   "property": "C18",
   "status": "proved",
   "theorems": [
    "C18_like_complete",
    "C18_like_overlap",
    "C18_like_exact",
    "C18_overlap_refuted",
    "C18_like_symbols",
    "C18_other_class",
    "C18_class_mismatch_refuted"
   ],
   "note": "Completeness for any number of parts; the rows returned are characterised exactly (consecutive parts may overlap by two characters, one for texts that are not alphanumeric), so the answer is exact when no part begins as the part before it ends; a value of another class than some part is never found; if every part has a character that is no letter or digit the answer is exact for every text."
  },
  {
   "property": "C19",
   "status": "proved",
   "theorems": [
    "C19_bytes_roundtrip",
    "C19_bytes_str_argument",
    "C19_bytes_str_refuted",
    "C19_sm4_roundtrip",
    "C19_sm4_injective"
   ],
   "note": "Byte-string AES and SM4 round trips; the str argument case is characterised and refuted."
  },
  {
   "property": "C20",
   "status": "proved",
   "theorems": [
    "C20_where_keeps_rows",
    "C20_like_letters"
   ],
   "note": "For every condition of the fragment (LIKE included), metadata, cipher environment and row; three-valued truth. The database engine is a reference semantics written for this model."
  },
  {
   "property": "C21",
   "status": "proved",
   "theorems": [
    "C21_where_masked",
    "C21_other_operators_in_clear_refuted",
    "C21_text_order_in_clear_refuted",
    "C21_float_in_clear_refuted",
    "C21_order_constant_in_clear_refuted"
   ],
   "note": "Ciphertext-only in the fragment; general refutations for other operators, text ordering, float constants and the (identity) order-preserving ciphertexts."
  },
  {
   "property": "C22",
   "status": "proved",
   "theorems": [
    "C22_insert_aligned",
    "C22_insert_values",
    "C22_extra_values_refuted"
   ],
   "note": "Alignment for every rewritten INSERT; the values are ciphertexts in the fragment; values beyond the column list are silently dropped (refutation)."
  },
  {
   "property": "C23",
   "status": "proved",
   "theorems": [
    "C23_insert_select"
   ],
   "note": "After any history in the fragment, SELECT * returns the previous rows followed by the inserted one, omitted columns NULL."
  },
  {
   "property": "C24",
   "status": "proved",
   "theorems": [
    "C24_update_like_insert",
    "C24_homomorphic_sm4_in_clear_refuted",
    "C24_float_in_clear_refuted",
    "C24_text_in_clear_refuted"
   ],
   "note": "UPDATE stores what INSERT stores in the fragment; refuted for homomorphic, SM4, floating point and quoted values on non-text ciphers."
  },
  {
   "property": "C25",
   "status": "proved",
   "theorems": [
    "C25_star_expansion",
    "C25_no_symmetric_part"
   ],
   "note": "Exact rewritten select list, names, types and states; KeyError for a column without symmetric part."
  },
  {
   "property": "C26",
   "status": "proved",
   "theorems": [
    "C26_decryption_positions",
    "C26_shape"
   ],
   "note": "Positional decryption and shape, NULL and plaintext cells unchanged."
  },
  {
   "property": "C27",
   "status": "proved",
   "theorems": [
    "C27_order_by",
    "C27_direction_lost_refuted"
   ],
   "note": "Answer is the ascending permutation of the selected values, NULL first; the direction is dropped for every statement (refutation)."
  },
  {
   "property": "C28",
   "status": "proved",
   "theorems": [
    "C28_min_max"
   ],
   "note": "Maximum/minimum over the selected rows, NULL when there is none."
  },
  {
   "property": "C29",
   "status": "proved",
   "theorems": [
    "C29_count",
    "C29_limit_offset",
    "C29_same_rows"
   ],
   "note": "COUNT, LIMIT/OFFSET as list cuts, and row-for-row agreement with the plaintext database."
  },
  {
   "property": "C30",
   "status": "proved",
   "theorems": [
    "C30_join_same_key",
    "C30_join_different_keys_refuted"
   ],
   "note": "Join condition agrees on all row pairs when the keys agree; with different keys equal values do not join (refutation)."
  },
  {
   "property": "C31",
   "status": "proved",
   "theorems": [
    "C31_schema_described",
    "C31_names_distinct",
    "C31_supported",
    "C31_declarations"
   ],
   "note": "Schema and metadata agree for every statement that rewrites; names distinct for an injective name source that avoids the logical names; the columns meet the hypothesis of C67."
  },
  {
   "property": "C32",
   "status": "proved",
   "theorems": [
    "C32_key_constraints_moved",
    "C32_other_constraints_rejected",
    "C32_unknown_reference_rejected",
    "C32_inline_constraints_lost_refuted"
   ],
   "note": "Key constraints characterised exactly; unique/index/check rejected; inline constraints and ON DELETE dropped (refutation of 'constraints are kept')."
  },
  {
   "property": "C33",
   "status": "proved",
   "theorems": [
    "C33_multi_row_insert_in_clear_refuted"
   ],
   "note": "For any rows the values clause is passed on unchanged."
  },
  {
   "property": "C34",
   "status": "proved",
   "theorems": [
    "C34_table_resolution"
   ],
   "note": "Every FROM list with distinct binding names; unknown names give the empty name."
  },
  {
   "property": "C35",
   "status": "proved",
   "theorems": [
    "C35_metadata_survives_restart"
   ],
   "note": "MySQL backend; JSON round trip of an entry is the identity; comment not persisted."
  },
  {
   "property": "C36",
   "status": "proved",
   "theorems": [
    "C36_created_twice_refuted"
   ],
   "note": "Refutation, for every history and every second creation."
  },
  {
   "property": "C37",
   "status": "proved",
   "theorems": [
    "C37_no_interference"
   ],
   "note": "In every state."
  },
  {
   "property": "C38",
   "status": "proved",
   "theorems": [
    "C38_drop_forgets",
    "C38_absent_table_rejected",
    "C38_drop_absent_rejected"
   ],
   "note": "Histories as in C35; statements whose table is the absent one, and DROP."
  },
  {
   "property": "C39",
   "status": "proved",
   "theorems": [
    "C39_first_tables_partly_visible",
    "C39_visible_after_restart",
    "C39_visible_to_rewriting"
   ],
   "note": "First tables invisible to the SUM/AVG procedures until restart."
  },
  {
   "property": "C40",
   "status": "proved",
   "theorems": [
    "C40_failure_reported_refuted",
    "C40_create_failure_reported_refuted",
    "C40_select_failure_reported",
    "C40_outcome"
   ],
   "note": "Refuted for every type but SELECT: the whole outcome of call (result, metadata, actions including the commit) does not depend on what execute does; for CREATE TABLE result and actions do not. SELECT reports the failure at fetch. C40_outcome gives success exactly. inject_procedure is an arbitrary function, the formatter is assumed not to raise."
  },
  {
   "property": "C41",
   "status": "proved",
   "theorems": [
    "C41_metadata_agrees",
    "C41_rejected_drop_refuted",
    "C41_rejected_create_refuted",
    "C41_create_without_cursor_refuted",
    "C41_repeated_create_refuted"
   ],
   "note": "Proved for every history from a fresh install in which the database accepts everything, CREATE TABLE is for unknown tables and draws unused names; four ways to diverge as general theorems (rejected DROP, rejected CREATE, no cursor, repeated CREATE). MySQL metadata backend."
  },
  {
   "property": "C42",
   "status": "proved",
   "theorems": [
    "C42_served_by_first",
    "C42_shared_iff_same_key",
    "C42_password_checked_refuted",
    "C42_targets_distinct_refuted"
   ],
   "note": "Exact: a request is served by the first request with the same key that could connect. The two refutations are general (wrong password; database/user boundary). PooledDB construction succeeds or raises as an arbitrary function says."
  },
  {
   "property": "C43",
   "status": "proved",
   "theorems": [
    "C43_matching_query",
    "C43_same_millisecond_refuted"
   ],
   "note": "Exact in both cases. The metadata used are those at decryption time because the map stores a reference."
  },
  {
   "property": "C44",
   "status": "proved",
   "theorems": [
    "C44_fail_closed_refuted",
    "C44_encrypted_iff_rewritten"
   ],
   "note": "The answers of both endpoints characterised exactly; fail-closed refuted for every rewriting error."
  },
  {
   "property": "C45",
   "status": "proved",
   "theorems": [
    "C45_batch_is_insert",
    "C45_other_parts_refuted",
    "C45_float_scaling_refuted"
   ],
   "note": "Equality of the stored row with the one the reference engine stores for the rewritten INSERT, errors included, under the stated column and value restrictions; general refutations for other parts and FLOAT columns. NumPy's conversion of a mixed chunk to text is not modelled."
  },
  {
   "property": "C46",
   "status": "proved",
   "theorems": [
    "C46_limits",
    "C46_reply",
    "C46_no_lost_wakeup",
    "C46_lost_wakeup_refuted",
    "C46_constructor"
   ],
   "note": "Any interleaving of the steps of all threads, any driver. The limit is the one the constructor computes (it raises maxconnections to maxcached and maxshared). Lost wake-up refuted when opening a connection fails; constructor deadlock shown."
  },
  {
   "property": "C47",
   "status": "proved",
   "theorems": [
    "C47_exclusive",
    "C47_isolated",
    "C47_rolled_back",
    "C47_failed_rollback_refuted"
   ],
   "note": "Any interleaving, also with shared connections around. Rolled back means a rollback call after every statement on the raw connection; if the driver fails that call and no connection can be opened, the statement stays pending (refutation)."
  },
  {
   "property": "C48",
   "status": "proved",
   "theorems": [
    "C48_share_count",
    "C48_shared_live",
    "C48_last_release",
    "C48_total_bound",
    "C48_exceeds_only",
    "C48_limit_exceeded_refuted"
   ],
   "note": "The limit refuted with a witness; exact characterisation of when a step may exceed it, and a bound on the excess. unshare() is two steps, as in the code."
  },
  {
   "property": "C49",
   "status": "proved",
   "theorems": [
    "C49_closed",
    "C49_returned",
    "C49_counter"
   ],
   "note": "Closing, returning and the counter for every run, including runs with several close() calls."
  },
  {
   "property": "C50",
   "status": "proved",
   "theorems": [
    "C50_single_attempt",
    "C50_all_or_error"
   ],
   "note": "The driver is an arbitrary function of the call number. Also whole transactions: if every call returns, exactly the statements sent are durable."
  },
  {
   "property": "C51",
   "status": "proved",
   "theorems": [
    "C51_bounded_retry"
   ],
   "note": "Exact list of attempts for every outcome."
  },
  {
   "property": "C52",
   "status": "proved",
   "theorems": [
    "C52_commit",
    "C52_rollback",
    "C52_cancel",
    "C52_begin",
    "C52_flag_sound"
   ],
   "note": "Also: along any sequence of calls the flag is on only inside begin ... end. It can stay on after a failed reconnect (C50_flag_stuck)."
  },
  {
   "property": "C53",
   "status": "proved",
   "theorems": [
    "C53_search_complete",
    "C53_invertible_needed",
    "C53_absent_keyword"
   ],
   "note": "Any hash function, keys, collection and conjunction. 'Invertible' is stated per keyword; the first keyword's T-set label must not collide (128-bit hash, not reduced). A keyword no document has raises KeyError."
  },
  {
   "property": "C54",
   "status": "proved",
   "theorems": [
    "C54_search_exact",
    "C54_sound_up_to_collisions",
    "C54_agrees_with_plain_search",
    "C54_false_hits_refuted"
   ],
   "note": "Exact characterisation of the result, soundness up to tag collisions, agreement with the plaintext search without collisions; unconditional soundness refuted for every hash function and key by pigeonhole."
  },
  {
   "property": "C55",
   "status": "proved",
   "theorems": [
    "C55_standard",
    "C55_mysql_exact",
    "C55_mysql_injection"
   ],
   "note": "A literal through the writer's dispatch at every precedence it uses, every following text not starting with a quote. In MySQL's default mode the exact class that reads back, and the general injection."
  },
  {
   "property": "C56",
   "status": "proved",
   "theorems": [
    "C56_identifiers",
    "C56_plain_words",
    "C56_base64_quoted",
    "C56_integer_ciphertext",
    "C56_refuted"
   ],
   "note": "One name part; dotted names follow with C57 (columns of several parts). str.isalnum is arbitrary outside ASCII. Reserved words are those of the repository's RESERVED list, not MySQL's: 'table' stays unquoted (example). The lexer is specification."
  },
  {
   "property": "C57",
   "status": "proved",
   "theorems": [
    "C57_structure",
    "C57_conditions",
    "C57_two_operators",
    "C57_reading_unique",
    "C57_unrestricted_refuted"
   ],
   "note": "Any operator levels that agree with the writer's ranks; conditions under MySQL's levels and under the repository grammar's levels without side condition on shape except right-nested AND/OR; exact for two operators. CASE, CAST, INTERVAL, subqueries and window specifications are outside tree_of."
  },
  {
   "property": "C58",
   "status": "proved",
   "theorems": [
    "C58_key_order",
    "C58_clause_order"
   ],
   "note": "SELECT, UPDATE and DELETE statements without DISTINCT ON. Contents of WHERE, HAVING, SELECT, GROUP BY, LIMIT and SET included."
  },
  {
   "property": "C59",
   "status": "proved",
   "theorems": [
    "C59_split_of_join",
    "C59_join_of_split",
    "C59_join_injective",
    "C59_roundtrip_refuted"
   ],
   "note": "Both directions characterised exactly. Paths hold -1 steps and names; None entries, which join_field drops, are left out."
  },
  {
   "property": "C60",
   "status": "proved",
   "theorems": [
    "C60_console",
    "C60_create_unchanged"
   ],
   "note": "The loop raises IndexError on an empty or all-semicolon text. Table creation requests keep their semicolons."
  },
  {
   "property": "C61",
   "status": "proved",
   "theorems": [
    "C61_cells",
    "C61_last_wins",
    "C61_wide",
    "C61_refused_cell"
   ],
   "note": "Proved on the JSON text through a JSON reader. Duplicate names keep the last cell; rows wider than the names get null0, null1, ...; one cell json.dumps refuses fails the whole answer."
  },
  {
   "property": "C62",
   "status": "proved",
   "theorems": [
    "C62_runs",
    "C62_sorted",
    "C62_empty",
    "C62_collation_refuted"
   ],
   "note": "For any rows the listing is the maximal runs of equal table names; for rows sorted by an antisymmetric order each table is listed once. Under a case-insensitive collation a table can be listed twice. Columns other than varchar and int are shown as {}."
  },
  {
   "property": "C63",
   "status": "proved",
   "theorems": [
    "C63_target",
    "C63_parameters",
    "C63_incomplete"
   ],
   "note": "Host and database free of '/', host free of ':'. URL parameters become part of the database name (C63_parameters)."
  },
  {
   "property": "C64",
   "status": "proved",
   "theorems": [
    "C64_events",
    "C64_interruption_loses_refuted",
    "C64_key_never_changed",
    "C64_never_succeeds",
    "C64_nothing_uploaded",
    "C64_autocommit_loses",
    "C64_crash_points",
    "C64_refused"
   ],
   "note": "Any server, metadata, file and decryption; a crash point is a prefix of the events. 'Interruption loses data' is refuted without autocommit (no connection to the data database ever commits); with autocommit it holds at every crash point after the UPDATE, and with the code's own decryption (an unpicklable pool function) nothing is uploaded at all. The UPDATE text ends in '= ;', a server that refuses it ends the rotation. The key never changes and the call never succeeds."
  },
  {
   "property": "C65",
   "status": "proved",
   "theorems": [
    "C65_first_keyword",
    "C65_first_two_keywords",
    "C65_parenthesised",
    "C65_comment_then_parenthesis_refuted",
    "C65_case",
    "C65_no_keyword",
    "C65_lone_create",
    "C65_name_first",
    "C65_rejected"
   ],
   "note": "The parser is not modelled: the statement is given as its significant tokens, and the claims are about the classification of every token list. A comment before an opening parenthesis shifts the index (refutation)."
  },
  {
   "property": "C66",
   "status": "proved",
   "theorems": [
    "C66_pool_order",
    "C66_pool_answers",
    "C66_pool_decrypt_refuted",
    "C66_spark",
    "C66_distributed_local",
    "C66_distributed_refuted",
    "C66_as_online",
    "C66_content"
   ],
   "note": "Any interleaving of the pool's workers. pool_decrypt itself always fails on non-empty data because its function cannot be pickled (refutation); distributed mode without Spark does not decode (refutation)."
  },
  {
   "property": "C67",
   "status": "proved",
   "theorems": [
    "C67_transparency"
   ],
   "note": "Every history in the fragment, with arbitrary randomness per statement."
  },
  {
   "property": "C68",
   "status": "proved",
   "theorems": [
    "C68_idempotent",
    "C68_clean",
    "C68_list_kept",
    "C68_nothing",
    "C68_nonempty_list_refuted",
    "C68_confused",
    "C68_call",
    "C68_parse_result"
   ],
   "note": "Values are the Python values the parser's result is built of; the aliasing of Call.kwargs when it is {} is not modelled."
  },
  {
   "property": "C69",
   "status": "proved",
   "theorems": [
    "C69_sqlite_not_persisted_refuted"
   ],
   "note": "Refutation for every state."
  },
  {
   "property": "C70",
   "status": "proved",
   "theorems": [
    "C70_falsy_default_lost_refuted",
    "C70_default_rejected",
    "C70_null_default_encrypted_refuted"
   ],
   "note": "Refutation: defaults lost, rejected or encrypted as text."
  },
  {
   "property": "C71",
   "status": "proved",
   "theorems": [
    "C71_console_rejects"
   ],
   "note": "Refutation of the ideal, for every statement that is not CREATE TABLE."
  },
  {
   "property": "C72",
   "status": "proved",
   "theorems": [
    "C72_one_cell_loses_all",
    "C72_texts_decrypted"
   ],
   "note": "Both directions; the cell positions are those inside the zip of names, states and cells."
  },
  {
   "property": "C73",
   "status": "proved",
   "theorems": [
    "C73_whole_chunks"
   ],
   "note": "For every file; a chunk is committed completely or not at all (transactional tables assumed)."
  },
  {
   "property": "C74",
   "status": "proved",
   "theorems": [
    "C74_only_rewritten_sent",
    "C74_failure_sends_nothing",
    "C74_sequence"
   ],
   "note": "Every Execute action of call; the statements of the metadata database and of inject_procedure itself are outside."
  },
  {
   "property": "C75",
   "status": "proved",
   "theorems": [
    "C75_batch_loses_rows_refuted",
    "C75_batch_without_failures"
   ],
   "note": "Refutation with a witness, and the positive case. Database without autocommit."
  },
  {
   "property": "C76",
   "status": "proved",
   "theorems": [
    "C76_indexable_collections",
    "C76_error_kind",
    "C76_index_contents"
   ],
   "note": "Exact domain of the index builder and exact contents."
  },
  {
   "property": "C77",
   "status": "proved",
   "theorems": [
    "C77_keyword_numbers",
    "C77_encodable_keywords",
    "C77_nul_words_refuted"
   ],
   "note": "Distinguishing all keywords refuted (leading NULs)."
  },
  {
   "property": "C78",
   "status": "proved",
   "theorems": [
    "C78_round_trip",
    "C78_injective",
    "C78_surrogates_refuted"
   ],
   "note": "json.dumps / json.loads are modelled as functions on texts."
  },
  {
   "property": "C79",
   "status": "proved",
   "theorems": [
    "C79_never_lists"
   ],
   "note": "Hypothesis: the tables were stored for a database name taken from some data source URL, as every console endpoint does; binary comparison of names."
  },
  {
   "property": "C80",
   "status": "proved",
   "theorems": [
    "C80_never_runs",
    "C80_key_error"
   ],
   "note": "Both branches of the handler need a key that its keyword dictionary does not have."
  },
  {
   "property": "C81",
   "status": "proved",
   "theorems": [
    "C81_whole_system",
    "C81_server_state",
    "C81_ciphertext"
   ],
   "note": "Through invoke, call, dispatch, rewrite_table, rewrite_query, Delta and the restart. Hypotheses per request are in SysSpec.good: CREATE of a table that does not exist with fresh distinct names, one-word types, no defaults; DROP of an existing table; statements of the fragment of C67. MySQL is specification: it reads the CREATE text and the other statements as JSON (C55-C58 are about their text). The rest of inject_procedure, for texts with SUM or AVG, is arbitrary and excluded."
  },
  {
   "property": "C82",
   "status": "proved",
   "theorems": [
    "C82_limit",
    "C82_exact",
    "C82_transaction_refuted"
   ],
   "note": "Counted on the log of driver calls, i.e. what the database saw. The limit inside a transaction is refuted for every limit and length."
  },
  {
   "property": "C83",
   "status": "proved",
   "theorems": [
    "C83_precedence",
    "C83_unique",
    "C83_exists",
    "C83_any_table",
    "C83_total",
    "C83_prefix_refuted"
   ],
   "note": "The table of levels is the one of sql_parser.py / keywords.py; the theorem also holds for every other well-formed table. The lost operand is refuted for all pairs of levels."
  },
  {
   "property": "C84",
   "status": "proved",
   "theorems": [
    "C84_meaning",
    "C84_written",
    "C84_null_refuted",
    "C84_one_member_refuted",
    "C84_minus_refuted"
   ],
   "note": "Source expressions with their parentheses are specified independently; operands are what the grammar gives for names, numbers, literals and calls. The round trip through the writer combines this with C57."
  },
  {
   "property": "C85",
   "status": "proved",
   "theorems": [
    "C85_standard",
    "C85_written",
    "C85_escapes",
    "C85_escape_exact",
    "C85_escaped_quote_refuted",
    "C85_line_end_refuted",
    "C85_hex_refuted",
    "C85_octal_refuted",
    "C85_double_quotes",
    "C85_inner_quote_refuted"
   ],
   "note": "Python's literals are modelled from the language reference; what Python makes of code after the first literal and the names of \\N{} are parameters. The lexer SqlLex stands for MySQL. The disagreements are proved as refutations."
  },
  {
   "property": "C86",
   "status": "proved",
   "theorems": [
    "C86_back_quotes",
    "C86_path",
    "C86_injective",
    "C86_backslash_refuted",
    "C86_dash"
   ],
   "note": "Names are without line ends, NUL, surrogates, backslashes and the two marks of split_field (C59). No blanks around the dots."
  },
  {
   "property": "C87",
   "status": "proved",
   "theorems": [
    "C87_one_row",
    "C87_one_value_refuted",
    "C87_several_rows_refuted",
    "C87_clear_rows_refuted",
    "C87_extra_values_refuted",
    "C87_one_column_refuted",
    "C87_literal_name_refuted"
   ],
   "note": "Numbers are integers; INSERT ... SELECT is not modelled. The positive part is C87_one_row; the rest of the intended behaviour is refuted by the theorems with that suffix."
  },
  {
   "property": "C88",
   "status": "proved",
   "theorems": [
    "C88_condition_rows",
    "C88_ansi_quotes_refuted"
   ],
   "note": "Starts from the tokens that the grammar hands to the operator actions (C82, C84); texts and names as in C85 and C86. RLIKE over plaintext columns counts as an error on both sides."
  },
  {
   "property": "C89",
   "status": "proved",
   "theorems": [
    "C89_recognised",
    "C89_nothing_else",
    "C89_written_back",
    "C89_other_character_refuted",
    "C89_quoted_column_refuted",
    "C89_after_semicolon_refuted",
    "C89_touching_words_refuted",
    "C89_unnamed_index_refuted"
   ],
   "note": "re.match is modelled with greedy stars that give back; \\w is str.isalnum or the underscore. What is not recognised goes to the SQL grammar, which is not modelled."
  },
  {
   "property": "C90",
   "status": "proved",
   "theorems": [
    "C90_drop",
    "C90_add_index",
    "C90_encrypted_index_refuted",
    "C90_add_key_refuted",
    "C90_reference_refuted",
    "C90_unknown_table"
   ],
   "note": ""
  },
  {
   "property": "C91",
   "status": "proved",
   "theorems": [
    "C91_statement_text",
    "C91_statement_word_refuted"
   ],
   "note": "The condition starts from the tokens that the grammar hands to the operator actions (C82, C84, C88); the other parts of the statement start from the parsed JSON of the statement forms. The reader of SQL texts (`TextSpec.read_text`) and the engine (`TextSpec.obey`) do not use the JSON of the code."
  },
  {
   "property": "C92",
   "status": "proved",
   "theorems": [
    "C92_history_text"
   ],
   "note": "The fuel of the reader of SQL texts is existential: some bound exists from which every larger fuel gives these answers."
  },
  {
   "property": "C93",
   "status": "proved",
   "theorems": [
    "C93_whole_system_text",
    "C93_server_state_text"
   ],
   "note": "The histories are those whose requests are supported in the state reached; C93_server_state_text shows that this state is the one of the system with texts. CREATE TABLE enters parsed and its text is read as in C81."
  },
  {
   "property": "C94",
   "status": "proved",
   "theorems": [
    "C94_parse",
    "C94_spelling",
    "C94_minus_minus_refuted"
   ],
   "note": ""
  },
  {
   "property": "C95",
   "status": "proved",
   "theorems": [
    "C95_text_to_text",
    "C95_history_of_texts"
   ],
   "note": ""
  },
  {
   "property": "C96",
   "status": "proved",
   "theorems": [
    "C96_text_means",
    "C96_same_answers",
    "C96_double_equals_refuted"
   ],
   "note": ""
  },
  {
   "property": "C97",
   "status": "proved",
   "theorems": [
    "C97_parse",
    "C97_create",
    "C97_encrypted_types",
    "C97_default_refuted",
    "C97_index_refuted",
    "C97_unsigned_refuted",
    "C97_sizes_refuted"
   ],
   "note": ""
  },
  {
   "property": "C98",
   "status": "proved",
   "theorems": [
    "C98_whole_system_from_texts",
    "C98_table_text"
   ],
   "note": ""
  },
  {
   "property": "C99",
   "status": "proved",
   "theorems": [
    "C99_type_of_text",
    "C99_whole_system_with_types",
    "C99_empty_string_refuted"
   ],
   "note": ""
  },
  {
   "property": "C100",
   "status": "proved",
   "theorems": [
    "C100_keys",
    "C100_lookup",
    "C100_reserved_words",
    "C100_optional_refuted",
    "C100_order_refuted",
    "C100_capital_refuted",
    "C100_action_refuted"
   ],
   "note": "The theorem compares parses that end without an error when no table is used. Regular expressions, Or and MatchAll enter as elements with declared keys. Packrat caching and debug hooks are left out."
  },
  {
   "property": "C101",
   "status": "proved",
   "theorems": [
    "C101_streamline",
    "C101_prepared",
    "C101_empty_choice_refuted",
    "C101_exact_refuted",
    "C101_repetition_of_empty_refuted"
   ],
   "note": "Tokens of an element are a list; the nesting of ParseResults and names of tokens are modelled by the actions only."
  },
  {
   "property": "C102",
   "status": "proved",
   "theorems": [
    "C102_prepared",
    "C102_choices",
    "C102_reserved",
    "C102_two_queries_refuted"
   ],
   "note": "The grammar of mysql_parser with its types, windows and keywords is transcribed. Actions are arbitrary functions of the element's name that take no characters of their own. Or and MatchAll are run as in the code, without a lookup of their own; Or tries the operators in a fixed order, as the code orders a set. Digits are ASCII."
  },
  {
   "property": "C103",
   "status": "proved",
   "theorems": [
    "C103_remembered",
    "C103_place",
    "C103_texts",
    "C103_parse",
    "C103_whole",
    "C103_white_space",
    "C103_several_refuted"
   ],
   "note": "Texts are objects by a number, compared by identity as in the code. The regular expression of white space is run without going back, which C104 justifies. Backup is not used in the code and left out."
  },
  {
   "property": "C104",
   "status": "proved",
   "theorems": [
    "C104_tried",
    "C104_numbers",
    "C104_quoted",
    "C104_names",
    "C104_white",
    "C104_literal",
    "C104_taken",
    "C104_exponent_refuted",
    "C104_exponent_parse_refuted"
   ],
   "note": "Regular expressions are terms of which the places are computed in the order in which re tries them; capturing groups are left out, and a digit is an ASCII digit."
  },
  {
   "property": "C105",
   "status": "proved",
   "theorems": [
    "C105_taken",
    "C105_plain",
    "C105_sent",
    "C105_exact",
    "C105_near",
    "C105_order",
    "C105_large_refuted"
   ],
   "note": "The conversion of a whole number to a double is the one of C06 to C09 (nearest, ties to even). Digits are ASCII; the limit of 4300 digits of newer Python versions is not modelled."
  },
  {
   "property": "C106",
   "status": "proved",
   "theorems": [
    "C106_compiled",
    "C106_names",
    "C106_white",
    "C106_repeated_refuted",
    "C106_choice_refuted"
   ],
   "note": "Patterns are lists of signs: escapes and classes are pieces. Keywords, words, Empty, line ends, NotAny and stop_on are left out."
  },
  {
   "property": "C107",
   "status": "proved",
   "theorems": [
    "C107_class",
    "C107_last_refuted"
   ],
   "note": "The pattern is a text of characters, read by a model of the part of Python's syntax that it uses; set and sorted are insertion into a sorted list."
  },
  {
   "property": "C108",
   "status": "proved",
   "theorems": [
    "C108_longest",
    "C108_caseless",
    "C108_empty_refuted"
   ],
   "note": "Without as_keyword. Capitals are those of ASCII, and the classes of regex_caseless are not written as text. That Regex also parses the pattern with the engine's own grammar is not modelled. The case of the empty text is C108_empty_refuted."
  },
  {
   "property": "C109",
   "status": "proved",
   "theorems": [
    "C109_position",
    "C109_furthest",
    "C109_expected",
    "C109_foreign_refuted"
   ],
   "note": "Elements are numbers; the wording of the message is left out. An exception of another class among the causes hides the place (C109_foreign_refuted)."
  },
  {
   "property": "C110",
   "status": "proved",
   "theorems": [
    "C110_left",
    "C110_numbers",
    "C110_texts",
    "C110_double_refuted"
   ],
   "note": "The text is what sqlparse.format without comments returns; _normalize_likes is any function, or none for the two equalities; letters of IN and VALUES are those of ASCII. That texts in double quotes stay is C110_double_refuted."
  },
  {
   "property": "C111",
   "status": "proved",
   "theorems": [
    "C111_accepts",
    "C111_beginning",
    "C111_end_refuted"
   ],
   "note": "The wrong end is C111_end_refuted. The bound is a natural number."
  },
  {
   "property": "C112",
   "status": "proved",
   "theorems": [
    "C112_word",
    "C112_one",
    "C112_bounds_refuted"
   ],
   "note": "The bounds are C112_bounds_refuted. The reading of the suffix is that of Python's re, written as a specification; a maximum that equals MAX_INT is not taken for none."
  },
  {
   "property": "C113",
   "status": "proved",
   "theorems": [
    "C113_longest",
    "C113_named",
    "C113_unicode_refuted",
    "C113_end_refuted"
   ],
   "note": "The end of the text is C113_end_refuted, the table C113_unicode_refuted. The bounds are natural numbers; the names are not modelled, only that they exist."
  },
  {
   "property": "C114",
   "status": "proved",
   "theorems": [
    "C114_start",
    "C114_end",
    "C114_lines",
    "C114_regex_refuted"
   ],
   "note": "The pattern is C114_regex_refuted. The patterns are modelled as what Python's re does with them; white space before LineEnd is skipped by the engine and not part of this."
  },
  {
   "property": "C115",
   "status": "proved",
   "theorems": [
    "C115_first",
    "C115_fail_refuted"
   ],
   "note": "The break is C115_fail_refuted. Expressions to ignore are left out; an expression is a function from places to ends, the same at each call."
  },
  {
   "property": "C116",
   "status": "proved",
   "theorems": [
    "C116_nearest",
    "C116_literal",
    "C116_retreat_refuted"
   ],
   "note": "The parameter is C116_retreat_refuted. An expression is a function from texts and places to ends; what it gives as result is left out."
  },
  {
   "property": "C117",
   "status": "proved",
   "theorems": [
    "C117_found",
    "C117_second_check",
    "C117_ends",
    "C117_any_order",
    "C117_repeated_refuted"
   ],
   "note": "The wrong count is C117_repeated_refuted. An element is a function from places to ends and is known by its place in the list; that what was found is parsed again is left out."
  }
 ]
}
