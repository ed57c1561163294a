{
 "claims": [
  {
   "property": "C01",
   "status": "proved",
   "theorems": [
    "C01_word_pieces"
   ],
   "note": "for every scheme of kind word and every line"
  },
  {
   "property": "C02",
   "status": "proved",
   "theorems": [
    "C02_word_ids"
   ],
   "note": ""
  },
  {
   "property": "C03",
   "status": "proved",
   "theorems": [
    "C03_word_ids_roundtrip"
   ],
   "note": ""
  },
  {
   "property": "C04",
   "status": "proved",
   "theorems": [
    "C04_char_pieces",
    "C04_char_ids"
   ],
   "note": ""
  },
  {
   "property": "C05",
   "status": "proved",
   "theorems": [
    "C05_bpe_greedy",
    "C05_greedy_unique"
   ],
   "note": "termination: the fuel of the loop model is proved sufficient (encode_str returns Ok)"
  },
  {
   "property": "C06",
   "status": "proved",
   "theorems": [
    "C06_bpe_lossless"
   ],
   "note": ""
  },
  {
   "property": "C07",
   "status": "proved",
   "theorems": [
    "C07_bpe_total"
   ],
   "note": ""
  },
  {
   "property": "C08",
   "status": "proved",
   "theorems": [
    "C08_split_same_text"
   ],
   "note": "random outcomes are an arbitrary stream nat -> bool"
  },
  {
   "property": "C09",
   "status": "proved",
   "theorems": [
    "C09_permutations_are_splits",
    "C09_raise_alike",
    "C09_splits_spell"
   ],
   "note": ""
  },
  {
   "property": "C10",
   "status": "proved",
   "theorems": [
    "C10_class_labels",
    "C10_labels_distinct"
   ],
   "note": ""
  },
  {
   "property": "C11",
   "status": "partial",
   "theorems": [
    "C11_unknown_is_marked_partial",
    "C11_unknown_decodes_to_last",
    "C11_unknown_decodes_to_label_refuted"
   ],
   "note": "false as stated: -1 wraps to the last table entry; proved exactly what happens"
  },
  {
   "property": "C12",
   "status": "partial",
   "theorems": [
    "C12_byte_roundtrip_partial",
    "C12_byte_encode_total",
    "C12_byte_outcome",
    "C12_byte_roundtrip_refuted"
   ],
   "note": "holds exactly without characters below U+0010 (C12_byte_outcome); false otherwise because hex digits are not zero padded; decoding fails exactly when their number is odd"
  },
  {
   "property": "C13",
   "status": "partial",
   "theorems": [
    "C13_byte_decode_total_partial",
    "C13_byte_decode_markers",
    "C13_byte_decode_bytes",
    "C13_byte_scheme_is_the_default",
    "C13_byte_decode_iff",
    "C13_byte_decode_exact",
    "C13_byte_decode_refuted"
   ],
   "note": "marker behaviour proved for all valid ids; totality fails exactly when some run between markers has an odd number of byte ids below 16 (C13_byte_decode_iff)"
  },
  {
   "property": "C14",
   "status": "proved",
   "theorems": [
    "C14_trie_is_map",
    "C14_trie_accepts"
   ],
   "note": ""
  },
  {
   "property": "C15",
   "status": "proved",
   "theorems": [
    "C15_vocab_file_roundtrip",
    "C15_json_roundtrip",
    "C15_json_fuel"
   ],
   "note": "files are byte strings; header JSON text modelled character by character; non-empty tables (write_out raises ValueError on an empty one)"
  },
  {
   "property": "C16",
   "status": "proved",
   "theorems": [
    "C16_save_load"
   ],
   "note": "all five kinds; the loaded scheme is equal field by field"
  },
  {
   "property": "C17",
   "status": "partial",
   "theorems": [
    "C17_write_refuses",
    "C17_read_refuses_numbers",
    "C17_read_refuses_later_kids_partial",
    "C17_read_refuses_after_header",
    "C17_blanks_after_header",
    "C17_accepted_files",
    "C17_flat_scheme_iff",
    "C17_negative_kids_refuted"
   ],
   "note": "false only for negative kid numbers, which Python indexing lets through"
  },
  {
   "property": "C18",
   "status": "partial",
   "theorems": [
    "C18_class_reload_partial",
    "C18_class_reload_refuted",
    "C18_silent_refuted",
    "C18_empty_refuted"
   ],
   "note": "Proved for labels without tabs, CR/LF and lone surrogates and at least one line. Full claim false: a label with an inner tab is learned and saved but load_scheme raises ValueError, or loads another label without complaint (C18_silent_refuted); an empty list of lines gives a table that save() cannot write."
  },
  {
   "property": "C19",
   "status": "proved",
   "theorems": [
    "C19_exact_counts",
    "C19_tokens_exist"
   ],
   "note": "word, char and class schemes."
  },
  {
   "property": "C20",
   "status": "proved",
   "theorems": [
    "C20_layout",
    "C20_accepted",
    "C20_outcome"
   ],
   "note": "Also characterises the only failures (coverage outside (0,1]; zero total)."
  },
  {
   "property": "C21",
   "status": "proved",
   "theorems": [
    "C21_mass",
    "C21_corpus_mass"
   ],
   "note": "Frequencies and line count non-negative; a recorded -1 counts as 0. Gives the exact credit of each reserved type as well."
  },
  {
   "property": "C22",
   "status": "partial",
   "theorems": [
    "C22_size_partial",
    "C22_small",
    "C22_size_refuted"
   ],
   "note": "Proved for vocab_size >= 6. False for 1..5: negative slice bound keeps all but the last 6 - vocab_size types (C22_small)."
  },
  {
   "property": "C23",
   "status": "proved",
   "theorems": [
    "C23_ranking"
   ],
   "note": ""
  },
  {
   "property": "C24",
   "status": "proved",
   "theorems": [
    "C24_coverage",
    "C24_outcome",
    "C24_exact_share",
    "C24_binary64",
    "C24_as_exact",
    "C24_tie_refuted"
   ],
   "note": "For any arithmetic of shares (so also binary64); the rational instance is spelled out. For binary64 the accumulated share is proved within 2^-52 per type of the true share, and the filter equals the exact one unless a share comes that close to the coverage; C24_tie_refuted shows that such ties do come out differently (0.6 + 0.3 misses 0.9), which the claim, stated about the share the code accumulates, allows."
  },
  {
   "property": "C25",
   "status": "proved",
   "theorems": [
    "C25_class_order"
   ],
   "note": ""
  },
  {
   "property": "C26",
   "status": "proved",
   "theorems": [
    "C26_tf_file_roundtrip",
    "C26_header"
   ],
   "note": "Terms free of white space, line_count an integer."
  },
  {
   "property": "C27",
   "status": "proved",
   "theorems": [
    "C27_textbook",
    "C27_merge_is_replacement",
    "C27_from_text"
   ],
   "note": "Refinement of the linked-list/heap learner to textbook BPE for every set iteration order; also end to end from text."
  },
  {
   "property": "C28",
   "status": "proved",
   "theorems": [
    "C28_structure"
   ],
   "note": ""
  },
  {
   "property": "C29",
   "status": "proved",
   "theorems": [
    "C29_no_assertion",
    "C29_outcome_from_text"
   ],
   "note": ""
  },
  {
   "property": "C30",
   "status": "partial",
   "theorems": [
    "C30_stopping_partial",
    "C30_exhaustion_refuted"
   ],
   "note": "Finding: when pairs run out before n_merges, learn_codes raises IndexError and the learned table is lost. Proved: the exact stopping condition and that otherwise the table is returned."
  },
  {
   "property": "C31",
   "status": "partial",
   "theorems": [
    "C31_determinism_partial",
    "C31_first_difference",
    "C31_one_order",
    "C31_text",
    "C31_cube_free",
    "C31_determinism_refuted"
   ],
   "note": "Finding: with a pair (a,a) such as in \"aaaa aaa aa\" the result depends on set iteration order. Proved: results agree unless a pair (a,a) is merged while a occurs three times in a row, and agree up to and including the first such merge; so always for words without a part three times in a row, and whenever the table learned with one order shows that no doubled subword occurs three times in a row."
  },
  {
   "property": "C32",
   "status": "proved",
   "theorems": [
    "C32_index"
   ],
   "note": ""
  },
  {
   "property": "C33",
   "status": "proved",
   "theorems": [
    "C33_maxheap",
    "C33_answers_unique"
   ],
   "note": "heapq sift-up/down modelled on arrays."
  },
  {
   "property": "C34",
   "status": "proved",
   "theorems": [
    "C34_shrink_kept",
    "C34_no_tokens",
    "C34_shrunk_storable"
   ],
   "note": "any scheme kind; data without tokens raises ValueError (max of an empty sequence)"
  },
  {
   "property": "C35",
   "status": "proved",
   "theorems": [
    "C35_shrink_same_encoding",
    "C35_kept_ids_same_encoding"
   ],
   "note": ""
  },
  {
   "property": "C36",
   "status": "partial",
   "theorems": [
    "C36_shrink_loads_by_level",
    "C36_shrink_kind_partial",
    "C36_shrink_kind_refuted"
   ],
   "note": "The full statement is false: the file names no scheme. Class and byte vocabularies cannot be loaded, BPE without merges loads as char, only-reserved loads as class."
  },
  {
   "property": "C37",
   "status": "proved",
   "theorems": [
    "C37_best_dtype_minimal",
    "C37_best_dtype_fails",
    "C37_best_dtype_only_failure"
   ],
   "note": ""
  },
  {
   "property": "C38",
   "status": "proved",
   "theorems": [
    "C38_field_reads_back"
   ],
   "note": "Values below 2^32, or within +-2^53; the latter may come back as float64 with the same numeric value."
  },
  {
   "property": "C39",
   "status": "partial",
   "theorems": [
    "C39_large_values_partial",
    "C39_rounding_exact",
    "C39_large_values_refuted"
   ],
   "note": "False as stated: the store starts as int8, so concatenating a uint64 chunk promotes the whole field to float64 and values above 2^53 come back rounded (witness 2^53+1). Proved instead: each field reads back exactly, or rounded to 53 bits throughout."
  },
  {
   "property": "C40",
   "status": "proved",
   "theorems": [
    "C40_offsets_never_wrap"
   ],
   "note": ""
  },
  {
   "property": "C41",
   "status": "proved",
   "theorems": [
    "C41_field_refused",
    "C41_db_refused"
   ],
   "note": ""
  },
  {
   "property": "C42",
   "status": "proved",
   "theorems": [
    "C42_db_round_trip",
    "C42_auto_ids"
   ],
   "note": "Field names distinct and different from \"id\" (namedtuple refuses others)."
  },
  {
   "property": "C43",
   "status": "partial",
   "theorems": [
    "C43_shuffle_partial",
    "C43_shuffle_refuted",
    "C43_multipart_refuted"
   ],
   "note": "False: random.shuffle on a set raises TypeError for every Db of two or more records; proved exactly when it works."
  },
  {
   "property": "C44",
   "status": "proved",
   "theorems": [
    "C44_eq_len_batches",
    "C44_token_budget",
    "C44_packing_unique",
    "C44_eq_len_examples",
    "C44_bad_batch",
    "C44_some_batch"
   ],
   "note": "Also: all records skipped gives IndexError instead of the intended message."
  },
  {
   "property": "C45",
   "status": "partial",
   "theorems": [
    "C45_max_sents_partial",
    "C45_max_sents_refuted"
   ],
   "note": "False: the test is len(batch) > max_sents before adding, so a batch can hold max_sents+1 records; the bound max_sents+1 is proved."
  },
  {
   "property": "C46",
   "status": "proved",
   "theorems": [
    "C46_sequential_batches",
    "C46_limits",
    "C46_db_examples",
    "C46_example_of_record",
    "C46_bad_batch"
   ],
   "note": "Also describes what is yielded before the exception for a record that is too long: the batch being filled is lost."
  },
  {
   "property": "C47",
   "status": "proved",
   "theorems": [
    "C47_batch_padding",
    "C47_batch_without_y",
    "C47_batch_accepts"
   ],
   "note": "Values are taken in the range where int32 and float64 conversions are exact."
  },
  {
   "property": "C48",
   "status": "proved",
   "theorems": [
    "C48_markers_added",
    "C48_marked_means",
    "C48_idempotent",
    "C48_refuses_marker",
    "C48_empty_sequence"
   ],
   "note": ""
  },
  {
   "property": "C49",
   "status": "partial",
   "theorems": [
    "C49_budget_partial",
    "C49_budget_refuted"
   ],
   "note": "False: BOS/EOS are inserted after the budget was checked; the exact excess (one cell per record and marker) is bounded."
  },
  {
   "property": "C50",
   "status": "proved",
   "theorems": [
    "C50_slices",
    "C50_unique",
    "C50_failing_stream"
   ],
   "note": "Any stream; a stream that raises passes its exception to the consumer of the last, incomplete slice. size < 1 is shown in C50_ex (0 yields nothing, negative raises ValueError)."
  },
  {
   "property": "C51",
   "status": "proved",
   "theorems": [
    "C51_create_round_trip",
    "C51_numbered"
   ],
   "note": "For absent, empty or overwritten directories, every part size >= 1, padding, listing order, order of parts and ids, keep_in_mem and shuffle (shuffle needs keep_in_mem, see C43_multipart_refuted). Pickle is assumed to give back what was pickled."
  },
  {
   "property": "C52",
   "status": "proved",
   "theorems": [
    "C52_interrupted_create",
    "C52_interrupted_writer",
    "C52_exception_in_block",
    "C52_failing_stream"
   ],
   "note": "Every intermediate state of every file write, including each prefix of the flag file."
  },
  {
   "property": "C53",
   "status": "partial",
   "theorems": [
    "C53_interrupted_overwrite_partial",
    "C53_leftover_partial",
    "C53_flag_first_partial",
    "C53_interrupted_overwrite_refuted"
   ],
   "note": "False: shutil.rmtree may remove a part before the _SUCCESS flag; the directory then loads and iteration fails with FileNotFoundError. Proved: every crash state refuses to load, is the new database, or is the old one with files removed, which never loses records silently; with the flag removed first the property holds."
  },
  {
   "property": "C54",
   "status": "proved",
   "theorems": [
    "C54_no_overwrite"
   ],
   "note": ""
  },
  {
   "property": "C55",
   "status": "proved",
   "theorems": [
    "C55_distinct_names",
    "C55_recovered",
    "C55_separate_files",
    "C55_glob"
   ],
   "note": ""
  },
  {
   "property": "C56",
   "status": "proved",
   "theorems": [
    "C56_tree_reduce_is_fold",
    "C56_empty",
    "C56_failing_input",
    "C56_pairs"
   ],
   "note": "The lazy generator chain is modelled pull by pull; also what happens when the input raises."
  },
  {
   "property": "C57",
   "status": "proved",
   "theorems": [
    "C57_word_counts",
    "C57_merge_adds",
    "C57_processes",
    "C57_printed",
    "C57_no_lines"
   ],
   "note": "Dicts are heap objects (merge_freqs updates one in place), and by value for worker processes."
  },
  {
   "property": "C58",
   "status": "proved",
   "theorems": [
    "C58_parallel_is_sequential",
    "C58_general",
    "C58_fewer_cpus",
    "C58_prefix",
    "C58_progress",
    "C58_bounded",
    "C58_exact",
    "C58_fewer_exact"
   ],
   "note": "Every interleaving of workers, pool threads and consumer. When a line fails, the earlier lines of its chunk of 1000 are lost (C58_general says exactly which)."
  },
  {
   "property": "C59",
   "status": "partial",
   "theorems": [
    "C59_char_no_control_partial",
    "C59_word_control_spelled_partial",
    "C59_bpe_control_spelled_partial",
    "C59_control_injection_refuted"
   ],
   "note": "true for char; for word and bpe the control ids appear only if the text spells the token, and then they do"
  },
  {
   "property": "C60",
   "status": "proved",
   "theorems": [
    "C60_word_pieces",
    "C60_word_ids",
    "C60_char_pieces",
    "C60_char_ids",
    "C60_bpe",
    "C60_every_text_has_lines"
   ],
   "note": "From the bytes of the model file and the text of the input (LF, CR LF or CR line ends, unfinished last line) to the text of the output. A marker character U+2581 in the text comes back as a space."
  },
  {
   "property": "C61",
   "status": "partial",
   "theorems": [
    "C61_class_ids_partial",
    "C61_class_pieces_partial",
    "C61_class_pieces_exact",
    "C61_byte_one_line_partial",
    "C61_byte_newline_fails",
    "C61_byte_exact",
    "C61_every_text_has_raw_lines",
    "C61_class_and_byte_refuted"
   ],
   "note": "False: a label with inner white space comes back with commas when pieces are piped (\"very bad\" -> \"very,bad\"); the byte model also encodes the newline of the line, as one hex digit, so decode raises ValueError on the first line that ends in a newline. Proved: class ids, one-word labels, byte text without newlines; and, for every text, exactly what each command prints (C61_class_pieces_exact, C61_byte_exact)."
  },
  {
   "property": "C62",
   "status": "proved",
   "theorems": [
    "C62_ngrams",
    "C62_tables",
    "C62_bounds_any_rounding",
    "C62_f1_any_rounding",
    "C62_f1_between",
    "C62_f1_refuses"
   ],
   "note": "Bounds hold for every monotone rounding that is exact on integers up to 2^53; exact values and the F1 sandwich in exact arithmetic."
  },
  {
   "property": "C63",
   "status": "proved",
   "theorems": [
    "C63_emd_value",
    "C63_emd_bounds",
    "C63_emd_order"
   ],
   "note": "Exact arithmetic. Also: the upper bound is reached exactly when one type has all tokens."
  },
  {
   "property": "C64",
   "status": "partial",
   "theorems": [
    "C64_estimate_partial",
    "C64_class_counts_last_label",
    "C64_no_lines",
    "C64_estimate_refuted"
   ],
   "note": "Proved for word, character and BPE vocabularies. False for class (unk_idx is -1, so lines with the last label count as unknown) and byte (no unk_idx: AttributeError). No lines: ZeroDivisionError."
  },
  {
   "property": "C65",
   "status": "partial",
   "theorems": [
    "C65_counts_exact_partial",
    "C65_error",
    "C65_when_exact",
    "C65_counts_exact_refuted"
   ],
   "note": "False: for a merge of a type with itself the skip branch subtracts from uni[b] instead of adding, so counts drift by 2 per unmerged overlap, can be negative, and the reported imbalance can exceed 1. Proved: the exact error in general; a count is never too large, and it is right if and only if the type was not merged with itself while occurring three times in a row."
  },
  {
   "property": "C66",
   "status": "proved",
   "theorems": [
    "C66_bitext_truncated",
    "C66_bitext_succeeds",
    "C66_unequal_texts"
   ],
   "note": "Lines as spark.read.text gives them; tokenizers are arbitrary functions that may raise."
  },
  {
   "property": "C67",
   "status": "partial",
   "theorems": [
    "C67_bitext_filtered_partial",
    "C67_bitext_filtered_refuted"
   ],
   "note": "False: the comparison is strict, a pair exactly at a limit is dropped. Proved: exactly the pairs strictly below both limits are kept."
  },
  {
   "property": "C68",
   "status": "proved",
   "theorems": [
    "C68_accepted",
    "C68_lossless"
   ],
   "note": ""
  },
  {
   "property": "C69",
   "status": "partial",
   "theorems": [
    "C69_real_characters_partial",
    "C69_placeholder_refuted"
   ],
   "note": "Finding: when coverage drops characters, <unk> is merged with neighbours into subwords. Proved for full coverage."
  },
  {
   "property": "C70",
   "status": "proved",
   "theorems": [
    "C70_size",
    "C70_too_small"
   ],
   "note": "Size counted after the code turns vocab_size <= 1 with min_co_evidence > 1 into sys.maxsize."
  },
  {
   "property": "C71",
   "status": "partial",
   "theorems": [
    "C71_truncation_detected_refuted",
    "C71_vocab_text_is_written",
    "C71_failed_save_refuted"
   ],
   "note": "false for every table: every non-empty row prefix under the full header is accepted; a failed save leaves such a file"
  },
  {
   "property": "C72",
   "status": "partial",
   "theorems": [
    "C72_full_coverage_partial",
    "C72_full_coverage_float_partial",
    "C72_full_coverage_refuted"
   ],
   "note": "True for exact shares, and for the binary64 shares the code computes whenever types x tokens <= 2^52; refuted for larger corpora (2^54 against 1)."
  },
  {
   "property": "C73",
   "status": "proved",
   "theorems": [
    "C73_learned_reload"
   ],
   "note": ""
  },
  {
   "property": "C74",
   "status": "proved",
   "theorems": [
    "C74_learned_splits"
   ],
   "note": ""
  },
  {
   "property": "C75",
   "status": "partial",
   "theorems": [
    "C75_num_batches_partial",
    "C75_num_batches_refuted"
   ],
   "note": "False: the code divides the number of records by max_toks; proved to be a lower bound when no record is skipped."
  },
  {
   "property": "C76",
   "status": "partial",
   "theorems": [
    "C76_multipart_eq_len_partial",
    "C76_outcome",
    "C76_multipart_eq_len_refuted"
   ],
   "note": "False when a part has no record without empty columns: that part raises IndexError and ends the iteration. Proved when every part has a usable record and none exceeds max_toks; in general (C76_outcome) all parts visited before the first such part are served in full and within the limits, then the exception comes."
  },
  {
   "property": "C77",
   "status": "partial",
   "theorems": [
    "C77_report_partial",
    "C77_report_exact_partial",
    "C77_line_counts_differ",
    "C77_n_is_ignored_refuted"
   ],
   "note": "False: main does not pass n to count_gram_recall, so --n 2 still reports single tokens. Proved for n = 1."
  },
  {
   "property": "C78",
   "status": "proved",
   "theorems": [
    "C78_oov_report",
    "C78_partition"
   ],
   "note": "Includes the ZeroDivisionError on input without tokens."
  },
  {
   "property": "C79",
   "status": "proved",
   "theorems": [
    "C79_termfreq"
   ],
   "note": ""
  },
  {
   "property": "C80",
   "status": "partial",
   "theorems": [
    "C80_nothing_left_partial",
    "C80_nothing_left_refuted",
    "C80_all_too_long_refuted"
   ],
   "note": "False: take(1)[0] raises IndexError whenever no pair is left. Proved: a returned result is never empty."
  },
  {
   "property": "C81",
   "status": "partial",
   "theorems": [
    "C81_rdd_as_db_partial",
    "C81_iff",
    "C81_too_many_parts_refuted",
    "C81_empty_partition_refuted"
   ],
   "note": "False: an empty partition makes Writer.__call__ raise AssertionError; with more parts than records this always happens. Proved: it succeeds, with a complete database, exactly when no partition is empty."
  },
  {
   "property": "C82",
   "status": "proved",
   "theorems": [
    "C82_bitextdb",
    "C82_bitextdb_filtered"
   ],
   "note": "If the tool finishes; see C80, C81 for when it does not. The ids must be storable (C40)."
  },
  {
   "property": "C83",
   "status": "partial",
   "theorems": [
    "C83_column_names_partial",
    "C83_column_names_refuted"
   ],
   "note": "False: the options are parsed and not used. Proved: the names are x and y."
  },
  {
   "property": "C84",
   "status": "proved",
   "theorems": [
    "C84_lengths_exact",
    "C84_whole_tool"
   ],
   "note": ""
  },
  {
   "property": "C85",
   "status": "proved",
   "theorems": [
    "C85_mean_never_grows"
   ],
   "note": ""
  },
  {
   "property": "C86",
   "status": "partial",
   "theorems": [
    "C86_mean_is_of_encoding_partial",
    "C86_mean_is_of_encoding_refuted"
   ],
   "note": "False beyond the first row: the tracker applies merges in learned order, encoding is longest match. Proved: the first row."
  },
  {
   "property": "C87",
   "status": "partial",
   "theorems": [
    "C87_deterministic_partial",
    "C87_unambiguous",
    "C87_cube_free",
    "C87_deterministic_refuted"
   ],
   "note": "False for merges of a type with itself: which overlapping occurrences are merged depends on set order. Proved: deterministic when no type is merged with itself while occurring three times in a row, in particular when no line has a part three times in a row."
  },
  {
   "property": "C88",
   "status": "partial",
   "theorems": [
    "C88_counts_partial",
    "C88_outcome",
    "C88_counts_refuted",
    "C88_empty_refuted"
   ],
   "note": "False: lines are counted with an in-band word '<!S!>', which is lost from a text that has it and inflates the line count; files without lines raise KeyError. Proved for all other texts, and the exact outcome for all."
  },
  {
   "property": "C89",
   "status": "partial",
   "theorems": [
    "C89_as_text_partial",
    "C89_as_text_refuted"
   ],
   "note": "False for ties: Spark chooses the order of equally frequent words, hence which are kept. Proved: the result is that of learn_vocab on a text with the same words and number of lines."
  },
  {
   "property": "C90",
   "status": "partial",
   "theorems": [
    "C90_alike_partial",
    "C90_alike_refuted"
   ],
   "note": "False at level char for the frequency of the word mark, which lacks the gaps between words, and for ties. Proved: everything else agrees, and the exact difference."
  },
  {
   "property": "C91",
   "status": "partial",
   "theorems": [
    "C91_reload_partial",
    "C91_reload_refuted",
    "C91_unknown_level",
    "C91_subword_threshold"
   ],
   "note": "False for class labels with an inner tab. Proved for every level; class labels must be plain text and there must be one."
  },
  {
   "property": "C92",
   "status": "partial",
   "theorems": [
    "C92_min_freq_partial",
    "C92_ignored",
    "C92_min_freq_refuted"
   ],
   "note": "False at level bpe although its help says otherwise: the value is not used. Proved at the levels word and char."
  },
  {
   "property": "C93",
   "status": "partial",
   "theorems": [
    "C93_rerun_partial",
    "C93_rerun_refuted",
    "C93_no_lines"
   ],
   "note": "False: the second run always ends with TypeError (inp is passed twice), at every level. Proved: it changes no file."
  },
  {
   "property": "C94",
   "status": "partial",
   "theorems": [
    "C94_labels_partial",
    "C94_labels_refuted"
   ],
   "note": "False for labels of several words: the statistics hold words. Proved when every label is a single word."
  },
  {
   "property": "C95",
   "status": "partial",
   "theorems": [
    "C95_text_partial",
    "C95_lines_exist",
    "C95_plain",
    "C95_gz",
    "C95_append",
    "C95_text_refuted",
    "C95_modes"
   ],
   "note": "False for .gz paths with carriage returns: gzip.open is not given newline, so CR and CR LF are read as LF, unlike plain files; lone surrogates become question marks in both. The exact lines are given for all texts."
  },
  {
   "property": "C96",
   "status": "partial",
   "theorems": [
    "C96_bytes_partial",
    "C96_bytes_refuted",
    "C96_append",
    "C96_missing_file"
   ],
   "note": "False for .gz paths: errors='replace' is passed to gzip.open in binary mode, which always raises ValueError."
  },
  {
   "property": "C97",
   "status": "proved",
   "theorems": [
    "C97_as_readers",
    "C97_stream",
    "C97_missing_file"
   ],
   "note": ""
  },
  {
   "property": "C98",
   "status": "proved",
   "theorems": [
    "C98_each_record_once",
    "C98_used_means",
    "C98_one_db",
    "C98_strategies"
   ],
   "note": ""
  },
  {
   "property": "C99",
   "status": "partial",
   "theorems": [
    "C99_eq_len_partial",
    "C99_outcome",
    "C99_eq_len_refuted"
   ],
   "note": "False: a part without any record that has two non-empty sides ends the iteration with an exception although other parts have some; a batch may hold max_sents + 1 sentences. Proved when every part has a usable record, with the limit max_sents + 1; in general (C99_outcome) every part visited before the first such part is served in full."
  },
  {
   "property": "C100",
   "status": "partial",
   "theorems": [
    "C100_open_partial",
    "C100_open_refuted",
    "C100_refused",
    "C100_damaged"
   ],
   "note": "False for a directory given as str: is_dir is called on the str (AttributeError). Everything else opens."
  },
  {
   "property": "C101",
   "status": "partial",
   "theorems": [
    "C101_random_partial",
    "C101_random_refuted"
   ],
   "note": "False for all data: 'random' is accepted and does exactly what None does. Proved: every record is served once."
  },
  {
   "property": "C102",
   "status": "proved",
   "theorems": [
    "C102_lost_part"
   ],
   "note": ""
  },
  {
   "property": "C103",
   "status": "partial",
   "theorems": [
    "C103_by_name",
    "C103_unknown_name",
    "C103_by_level_partial",
    "C103_no_header",
    "C103_outcome",
    "C103_old_files",
    "C103_reserved_only_refuted"
   ],
   "note": "False for negative levels: the check is only max_level < 4, so a file without a scheme name whose entries are all reserved (max_level -1) is taken for a class vocabulary. C103_outcome gives the outcome for every header."
  },
  {
   "property": "C104",
   "status": "proved",
   "theorems": [
    "C104_word",
    "C104_char",
    "C104_bpe"
   ],
   "note": ""
  },
  {
   "property": "C105",
   "status": "proved",
   "theorems": [
    "C105_word_estimate"
   ],
   "note": ""
  },
  {
   "property": "C106",
   "status": "partial",
   "theorems": [
    "C106_failed_learn_partial",
    "C106_failed_learn_refuted",
    "C106_other_tasks"
   ],
   "note": "False at level class: an input without lines empties the old model file and then fails (ValueError), after which the file cannot be loaded. Proved at every other level and for the other tasks."
  },
  {
   "property": "C107",
   "status": "partial",
   "theorems": [
    "C107_distance_partial",
    "C107_refused",
    "C107_imbalance",
    "C107_new_numpy_refuted"
   ],
   "note": "False from numpy 1.24 on (setup.py does not pin numpy): validate_distribution uses np.float, which is gone (AttributeError). Proved for older versions, in exact arithmetic."
  },
  {
   "property": "C108",
   "status": "proved",
   "theorems": [
    "C108_value",
    "C108_gibbs",
    "C108_lengths"
   ],
   "note": "Exact arithmetic: the values are rationals, the logarithm is real. Uses the axioms of the standard library of reals."
  },
  {
   "property": "C109",
   "status": "partial",
   "theorems": [
    "C109_js_partial",
    "C109_refused",
    "C109_new_numpy_refuted"
   ],
   "note": "False from numpy 1.24 on: every call raises AttributeError (np.float). Proved for older versions, in exact arithmetic; with floats the mean of 5e-324 and 0 rounds to 0, which kl_div refuses. Uses the axioms of the standard library of reals."
  },
  {
   "property": "C110",
   "status": "partial",
   "theorems": [
    "C110_as_text_partial",
    "C110_as_learn",
    "C110_as_text_refuted"
   ],
   "note": "C110_as_learn holds at every level and for every input. Learning directly from the text differs when the word <!S!> occurs, which nlcodec-freq uses to count lines and drops."
  },
  {
   "property": "C111",
   "status": "partial",
   "theorems": [
    "C111_again_partial",
    "C111_gzip_refuted",
    "C111_bad_bytes"
   ],
   "note": "False: the files are gzip, nlcodec learn reads plain utf-8 text and raises UnicodeDecodeError for every gzip file at the levels word, char, bpe (with -mce > 1) and class. Proved for the decompressed text."
  },
  {
   "property": "C112",
   "status": "partial",
   "theorems": [
    "C112_complete_partial",
    "C112_failed_refuted",
    "C112_failures"
   ],
   "note": "False: argparse opens (and empties) the outputs before anything is counted, so every run that fails leaves the named outputs empty. Proved: the runs that fail are exactly those without outputs, without -i or without any line; all others write exact counts (but for the word <!S!>)."
  },
  {
   "property": "C113",
   "status": "partial",
   "theorems": [
    "C113_line_partial",
    "C113_line_exact",
    "C113_line_refuted",
    "C113_text_partial",
    "C113_expanded",
    "C113_contracted",
    "C113_consonants"
   ],
   "note": "False exactly for lines that contain the mark U+22EE already (C113_line_exact); the rest is proved in full."
  },
  {
   "property": "C114",
   "status": "partial",
   "theorems": [
    "C114_line_partial",
    "C114_line_exact",
    "C114_line_refuted",
    "C114_text_partial",
    "C114_other_names",
    "C114_constructor"
   ],
   "note": "False: C114_line_exact gives the exact set of lines that are restored: no U+E000, every virama stands after a consonant and before a consonant, a blank or the end, no word begins with a vowel sign. The known issue described in the header of the file does not occur."
  },
  {
   "property": "C115",
   "status": "partial",
   "theorems": [
    "C115_line_partial",
    "C115_line_exact",
    "C115_line_refuted"
   ],
   "note": "False: C115_line_exact gives the exact set of lines that are restored."
  },
  {
   "property": "C116",
   "status": "proved",
   "theorems": [
    "C116_reuse",
    "C116_what_is_left",
    "C116_others_untouched",
    "C116_after_success"
   ],
   "note": "Values within +-2^53 that fit their dtype, bos and eos in int32."
  },
  {
   "property": "C117",
   "status": "partial",
   "theorems": [
    "C117_other_settings_partial",
    "C117_other_settings_refuted"
   ],
   "note": "False: the markers added for one BatchMeta stay in the examples, so a later batch with add_eos_x=False over the same examples fails its assertion although fresh copies would succeed. Holds for batches with one setting."
  },
  {
   "property": "C118",
   "status": "proved",
   "theorems": [
    "C118_marker_added",
    "C118_marker_added_once",
    "C118_unwanted_marker_stays",
    "C118_errors",
    "C118_refused"
   ],
   "note": ""
  },
  {
   "property": "C119",
   "status": "partial",
   "theorems": [
    "C119_device_refuted",
    "C119_mask_refuted"
   ],
   "note": "False for every batch and array: to() looks for a method `to` on numpy arrays (AttributeError) or, without y, adds a list to a tuple (TypeError); subsequent_mask calls unsqueeze on a numpy array."
  },
  {
   "property": "C120",
   "status": "partial",
   "theorems": [
    "C120_compare_exact_partial",
    "C120_compare_refuted"
   ],
   "note": "False: for every node of a sequence of two or more nodes, == with itself recurses without end (RecursionError for every recursion limit), because __eq__ compares both neighbours, each of which compares back. The exact outcome (False, True, AttributeError, RecursionError) is proved for every pair of nodes."
  },
  {
   "property": "C121",
   "status": "proved",
   "theorems": [
    "C121_from_seq",
    "C121_delete",
    "C121_repr"
   ],
   "note": "Values are integers, as in the learner."
  },
  {
   "property": "C122",
   "status": "proved",
   "theorems": [
    "C122_as_learn",
    "C122_initial",
    "C122_no_factory"
   ],
   "note": "Where BPEScheme.learn replaces the size by sys.maxsize (vocab_size <= 1 with a threshold) the sizes differ, so these are excluded from C122_as_learn."
  },
  {
   "property": "C123",
   "status": "proved",
   "theorems": [
    "C123_ids",
    "C123_pieces",
    "C123_same_as_encode"
   ],
   "note": ""
  },
  {
   "property": "C124",
   "status": "proved",
   "theorems": [
    "C124_map_reduce",
    "C124_failures",
    "C124_pools_required"
   ],
   "note": "Callbacks without side effects; the word counter with its shared dicts is C57."
  },
  {
   "property": "C125",
   "status": "proved",
   "theorems": [
    "C125_printed",
    "C125_readable"
   ],
   "note": "Every string is assumed to be printable on standard output."
  },
  {
   "property": "C126",
   "status": "proved",
   "theorems": [
    "C126_bpe",
    "C126_bpe_runs",
    "C126_flat",
    "C126_ids"
   ],
   "note": "C126_bpe: two runs that iterate over sets in the same way. For runs that iterate differently C126_bpe_runs allows a difference after the first type that joins a type with itself (C31). Sizes of the word and char schemes from 1 to 5 are excluded: they cut with a negative bound (C22)."
  },
  {
   "property": "C127",
   "status": "proved",
   "theorems": [
    "C127_bpe",
    "C127_flat"
   ],
   "note": "Thresholds for which the size asked for means the same (vocab_size <= 1 means no limit only with a threshold above 1)."
  },
  {
   "property": "C128",
   "status": "partial",
   "theorems": [
    "C128_spacing",
    "C128_word",
    "C128_char",
    "C128_byte",
    "C128_bpe_partial",
    "C128_learned",
    "C128_mark_in_word_refuted"
   ],
   "note": "False for a BPE vocabulary learned from words that contain U+2581 themselves: a subword can cross the border between words. Proved for every table in whose names the mark is last, and for every vocabulary learned from words without U+2581."
  },
  {
   "property": "C129",
   "status": "proved",
   "theorems": [
    "C129_origin",
    "C129_all_characters"
   ],
   "note": ""
  },
  {
   "property": "C130",
   "status": "partial",
   "theorems": [
    "C130_word",
    "C130_bpe_partial",
    "C130_bpe_covered",
    "C130_char_covered",
    "C130_char_partial",
    "C130_byte",
    "C130_class",
    "C130_char_refuted",
    "C130_class_refuted",
    "C130_bpe_mark_refuted",
    "C130_bpe_names_refuted"
   ],
   "note": "False for char with unknown characters (each comes back as the five characters of <unk>; exact outcome proved), for class with an unknown label, and for bpe when the line contains U+2581 or a name other than the reserved ones contains \"<\". Proved for word always, for bpe otherwise (unknown characters included), and for covered text."
  },
  {
   "property": "C131",
   "status": "partial",
   "theorems": [
    "C131_flat",
    "C131_bpe_partial",
    "C131_bpe_words",
    "C131_bpe_refuted"
   ],
   "note": "False for BPE: encoding is greedy longest match, so one more subword can make an encoding longer (\"abcd\" after learning from \"bcd bcd bcd abe abf\" with sizes 15 and 16). Proved: word and char lengths do not depend on the vocabulary, BPE needs at least one id per word and at most one per character and word end."
  },
  {
   "property": "C132",
   "status": "proved",
   "theorems": [
    "C132_codec",
    "C132_unreadable",
    "C132_other_vocabularies",
    "C132_failing_lines",
    "C132_one_process",
    "C132_some_result",
    "C132_no_lines"
   ],
   "note": "Exact outcome for every readable file; a run of the tool exists for all arguments."
  },
  {
   "property": "C133",
   "status": "proved",
   "theorems": [
    "C133_word_boundary",
    "C133_white_space",
    "C133_numbers",
    "C133_not_a_number",
    "C133_decode_ids",
    "C133_encode_ids",
    "C133_printed_once",
    "C133_printed_is_read",
    "C133_levels"
   ],
   "note": "White space is listed character by character and numbers are described by grammars, so that the statements of other properties which mention white space are grounded. Non-ASCII decimal digits, which int() also accepts, are not modelled."
  },
  {
   "property": "C134",
   "status": "proved",
   "theorems": [
    "C134_text_to_batches"
   ],
   "note": "Both with and without truncation; the ids must be exact in float64 and a column must have fewer than 2^64 values."
  },
  {
   "property": "C135",
   "status": "proved",
   "theorems": [
    "C135_builds",
    "C135_encode",
    "C135_pieces",
    "C135_lossless",
    "C135_agrees_with_nlcodec",
    "C135_repeated_name"
   ],
   "note": "A repeated name is the one difference to nlcodec: bpepp numbers its last entry, nlcodec the first."
  },
  {
   "property": "C136",
   "status": "partial",
   "theorems": [
    "C136_encode",
    "C136_encode_pieces",
    "C136_decode_partial",
    "C136_refused",
    "C136_refuted"
   ],
   "note": "encode is as stated. decode_all returns inside its loop: only the first line is decoded and its characters are printed one to a line, and without input lines None is iterated (TypeError). C136_decode_partial gives the exact outcome."
  },
  {
   "property": "C137",
   "status": "proved",
   "theorems": [
    "C137_round_trip",
    "C137_reads_nlcodec",
    "C137_refuses",
    "C137_empty_file"
   ],
   "note": "The header is dropped unread. Nothing is claimed about nlcodec reading files of bpepp (their version is a JSON float)."
  },
  {
   "property": "C138",
   "status": "proved",
   "theorems": [
    "C138_trouble",
    "C138_replace"
   ],
   "note": ""
  },
  {
   "property": "C139",
   "status": "proved",
   "theorems": [
    "C139_accepts",
    "C139_cleaning"
   ],
   "note": "Frequencies and symbols must not be negative."
  },
  {
   "property": "C140",
   "status": "partial",
   "theorems": [
    "C140_level1",
    "C140_level2",
    "C140_learn1",
    "C140_learn2",
    "C140_learn2_prepared",
    "C140_files_learn1",
    "C140_files_learn2",
    "C140_no_level1_file",
    "C140_size_refuted"
   ],
   "note": "--vocab-size-l2 is documented as a vocabulary size but counts merges on top of level 1 (C140_size_refuted); everything else as stated. For prepared input every line must consist of integers."
  },
  {
   "property": "C141",
   "status": "partial",
   "theorems": [
    "C141_learner_partial",
    "C141_structure",
    "C141_grown",
    "C141_refuted"
   ],
   "note": "Proved as long as no pair (a,a) is merged while a stands three times in a row; long runs are cut in the input but arise again from merges (\"ababab\"), and then an internal assertion can fail. When no pair is left, max() of an empty index may raise ValueError instead of returning the table."
  },
  {
   "property": "C142",
   "status": "proved",
   "theorems": [
    "C142_listing",
    "C142_as_read"
   ],
   "note": "values and items yield the sequences only; with values above 2^53 the listing equals what field[id] gives (C39)"
  },
  {
   "property": "C143",
   "status": "partial",
   "theorems": [
    "C143_spellings_partial",
    "C143_names_partial",
    "C143_cube_free",
    "C143_bpepp",
    "C143_refuted"
   ],
   "note": "false: with some set iteration orders \"aaa\" is learned twice, as aa+a and a+aa, and a corpus containing \"<s>\" teaches a second \"<s>\" (then learn of bpepp fails with AssertionError at its second level). Proved: names are distinct when no doubled subword occurs three times in a row in a word and no word contains the name of a placeholder"
  },
  {
   "property": "C144",
   "status": "partial",
   "theorems": [
    "C144_merge_partial",
    "C144_ids",
    "C144_file",
    "C144_refused",
    "C144_peek",
    "C144_tracker",
    "C144_refuted"
   ],
   "note": "False for ids when a name occurs twice: a codec built at once maps a name to its first entry, merge() to its last. Proved: pieces, decoding and sampled segmentations always agree, ids always have the same names and decode to the same text, and the two codecs are equal when the names are distinct."
  },
  {
   "property": "C145",
   "status": "proved",
   "theorems": [
    "C145_nlcodec",
    "C145_any_parser"
   ],
   "note": ""
  },
  {
   "property": "C146",
   "status": "partial",
   "theorems": [
    "C146_accepted_partial",
    "C146_ends_partial",
    "C146_unknown_option",
    "C146_missing",
    "C146_documented_refuted"
   ],
   "note": "False: argparse takes abbreviations and run-together options (-out is read as -o ut and writes a file ut), and a refused line has already emptied the file given as --out before it. Proved of every line: parsing ends, with status 0 or 2 if it stops; an accepted line gives a known task, a model and a known level; unknown long options and missing required arguments are refused."
  },
  {
   "property": "C147",
   "status": "partial",
   "theorems": [
    "C147_ends_partial",
    "C147_changes_partial",
    "C147_refused_only_empties",
    "C147_only_refuted"
   ],
   "note": "False: --out is opened, and so emptied, while the line is parsed: also by estimate and learn, also when it is the input or the model, also when the line is refused. Proved: a documented line changes at most the model (when learning) and the --out files; any line at all changes only paths that end one of its words, and a refused one can only empty them."
  },
  {
   "property": "C148",
   "status": "proved",
   "theorems": [
    "C148_word",
    "C148_char",
    "C148_bpe"
   ],
   "note": ""
  },
  {
   "property": "C149",
   "status": "proved",
   "theorems": [
    "C149_abbreviation",
    "C149_ambiguous"
   ],
   "note": ""
  },
  {
   "property": "C150",
   "status": "proved",
   "theorems": [
    "C150_learn",
    "C150_freq",
    "C150_bitext",
    "C150_names",
    "C150_changes"
   ],
   "note": ""
  },
  {
   "property": "C151",
   "status": "partial",
   "theorems": [
    "C151_independent_partial",
    "C151_depends",
    "C151_independent_refuted"
   ],
   "note": "False: the statistics files are named after the model without its extension, so models m.a and m.b share them, and a run that finds its statistics file ends in TypeError (the words of --inp are handed on twice): the second model is not made. Proved: when none of the files left by the first run is the model, a statistics file or an input of the second."
  },
  {
   "property": "C152",
   "status": "partial",
   "theorems": [
    "C152_two_steps_partial",
    "C152_two_steps_refuted"
   ],
   "note": "False: nlcodec-freq drops repeated lines unless told not to, nlcodec-learn keeps them unless told to. Proved: the models are equal when both are given the same choice (and the counts survive being written and read)."
  },
  {
   "property": "C153",
   "status": "proved",
   "theorems": [
    "C153_any_spelling"
   ],
   "note": ""
  },
  {
   "property": "C154",
   "status": "proved",
   "theorems": [
    "C154_termfreq",
    "C154_pr_measure",
    "C154_oov_count",
    "C154_qestim",
    "C154_bpe_len"
   ],
   "note": ""
  },
  {
   "property": "C155",
   "status": "proved",
   "theorems": [
    "C155_file",
    "C155_report",
    "C155_ranks",
    "C155_no_grams",
    "C155_bad_lines",
    "C155_shell"
   ],
   "note": ""
  },
  {
   "property": "C156",
   "status": "proved",
   "theorems": [
    "C156_learn",
    "C156_freq",
    "C156_bitextdb",
    "C156_termfreq",
    "C156_pr_measure",
    "C156_oov_count",
    "C156_qestim",
    "C156_bpe_len"
   ],
   "note": ""
  },
  {
   "property": "C157",
   "status": "proved",
   "theorems": [
    "C157_uxdx",
    "C157_unicode_fix",
    "C157_there_and_back",
    "C157_any_words"
   ],
   "note": ""
  },
  {
   "property": "C158",
   "status": "proved",
   "theorems": [
    "C158_level_by_level",
    "C158_brackets",
    "C158_exceptions",
    "C158_broken_input",
    "C158_map_reduce",
    "C158_first_call"
   ],
   "note": "functions without side effects"
  },
  {
   "property": "C159",
   "status": "proved",
   "theorems": [
    "C159_encode",
    "C159_decode",
    "C159_learn",
    "C159_missing",
    "C159_missing_level2",
    "C159_learn_then_encode",
    "C159_refused",
    "C159_any_words"
   ],
   "note": "For learn, which reads its inputs a second time after the level 1 vocabulary is written, the vocabulary file must not be one of the inputs."
  },
  {
   "property": "C160",
   "status": "proved",
   "theorems": [
    "C160_totals",
    "C160_any_order",
    "C160_left_to_right",
    "C160_word_counts",
    "C160_only_these"
   ],
   "note": ""
  },
  {
   "property": "C161",
   "status": "proved",
   "theorems": [
    "C161_flat",
    "C161_codes",
    "C161_text",
    "C161_text_small_refuted"
   ],
   "note": "C161_text_small_refuted shows why the condition on the sizes is needed."
  },
  {
   "property": "C162",
   "status": "partial",
   "theorems": [
    "C162_twice_partial",
    "C162_twice_refuted"
   ],
   "note": "Proved for min_freq up to 1. False above: removing a rare subword changes the segmentation, so that another one becomes rare (C162_twice_refuted)."
  },
  {
   "property": "C163",
   "status": "partial",
   "theorems": [
    "C163_same_words_partial",
    "C163_no_fault_partial",
    "C163_exchange",
    "C163_no_fault_refuted"
   ],
   "note": "False in one direction: words of the candidates that no reference has are not in the report, so it is without a fault though the candidates say more (C163_no_fault_refuted). Proved: same words give a report without a fault; a report without a fault (exact arithmetic, no --freqs) means same words when every word of the candidates occurs in the references; exchanging the sides exchanges the scores."
  },
  {
   "property": "C164",
   "status": "partial",
   "theorems": [
    "C164_counts_partial",
    "C164_agree_partial",
    "C164_agree_refuted"
   ],
   "note": "False for texts with the word \"<unk>\", which estimate counts as unknown and oov_count as known, and for texts without words, for which oov_count ends in ZeroDivisionError (C164_agree_refuted). Proved: the exact relation for every text with a word (the unknown tokens of estimate are the out-of-vocabulary tokens plus the occurrences of \"<unk>\"), so they agree when \"<unk>\" does not occur."
  },
  {
   "property": "C165",
   "status": "proved",
   "theorems": [
    "C165_agree"
   ],
   "note": ""
  },
  {
   "property": "C166",
   "status": "proved",
   "theorems": [
    "C166_shrink_estimate"
   ],
   "note": ""
  },
  {
   "property": "C167",
   "status": "proved",
   "theorems": [
    "C167_order",
    "C167_together"
   ],
   "note": ""
  },
  {
   "property": "C168",
   "status": "proved",
   "theorems": [
    "C168_cut",
    "C168_learned"
   ],
   "note": ""
  }
 ]
}