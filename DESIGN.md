# Formal model of isi-nlp/nlcodec in Rocq (Coq 8.16.1)

Build: in `rocq/`, `coq_makefile -f _CoqProject -o Makefile && make -j4` (some minutes on four cores). Only the standard library is used.

## Conventions

* Python `str` = `list N` of code points; `int` = `Z`; lengths and positions = `nat`.
* Exceptions are values: `res A := Ok a | Raise e`, `e` naming the Python exception class.
* Generators are `stream A := list A * option exn`: what is yielded, and the exception that ends it.
* Python `dict` = association list in insertion order (`dget`, `dset`, `ddel`). Where the code relies on identity or in-place
  update of dicts (map-reduce), dicts are objects in a heap.
* `sorted(..., reverse=True)` is a stable descending sort. `heapq` is modelled on arrays, operation by operation.
* Iteration order of sets, directory listing order, `random` outcomes, completion order of workers, and placement and ordering
  choices of Spark are universally quantified oracles, restricted only by what the library promises.
* The file system is a map from paths to bytes; a writer is a run that records every intermediate state (`seen`), so a crash
  may happen between any two operations and inside a write.
* Loops that Python runs with `while` have fuel; running out of fuel is an error value that is proved never to be returned.
* Floats: learning uses an abstract arithmetic `arith` with an exact instance (`arithQ`) and a binary64 instance (`arith64`);
  the evaluation tools use rationals with an abstract rounding function.
* Logging, tqdm, timing and memory reporting are not modelled.
* `*Model.v` files contain only definitions, each citing the lines of /repo it models, with simplifications stated in that
  comment; `*Spec.v` small independent specifications; `*Proofs.v`, `*End.v` etc. lemmas; `Props*.v` the property theorems,
  a concrete case for the hypotheses of each, and `Print Assumptions`.


## Properties

Each row: what is modelled, how it is proved, the theorems. A status of *partial* with a theorem `…_refuted` means that
the property as stated is false of the code; the note says what is wrong and what was proved instead.

| property | status | model and proof | theorems | finding or restriction |
|---|---|---|---|---|
| C01 Word pieces round-trip to the normalised line | proved | PyStr (split, strip, join), CodecModel word scheme; induction on strings, `words_of` is an inductive description of the words of a line | `C01_word_pieces` | for every scheme of kind word and every line |
| C02 Word ids: exact encoding, UNK only for out-of-vocabulary words | proved | PyStr (split, strip, join), CodecModel word scheme; induction on strings, `words_of` is an inductive description of the words of a line | `C02_word_ids` |  |
| C03 Ids round-trip through text for the word scheme | proved | PyStr (split, strip, join), CodecModel word scheme; induction on strings, `words_of` is an inductive description of the words of a line | `C03_word_ids_roundtrip` |  |
| C04 Character scheme round-trip | proved | CodecModel char scheme; induction on strings | `C04_char_pieces`, `C04_char_ids` |  |
| C05 BPE encoding is greedy longest match and always terminates | proved | trie and the while loop of encode_str as a fuelled state machine (CodecModel); loop invariant, refinement to longest prefix match, fuel proved sufficient | `C05_bpe_greedy`, `C05_greedy_unique` | termination: the fuel of the loop model is proved sufficient (encode_str returns Ok) |
| C06 BPE round-trip is lossless on covered text | proved | same loop; the pieces of a run of the specification concatenate to the text | `C06_bpe_lossless` |  |
| C07 BPE ids are always valid and pieces concatenate to the text | proved | same loop; the pieces of a run of the specification concatenate to the text | `C07_bpe_total` |  |
| C08 Stochastic splitting never changes the text | proved | type trees, random draws as an arbitrary stream; induction on trees | `C08_split_same_text` | random outcomes are an arbitrary stream nat -> bool |
| C09 get_permutations is exactly the set of possible splits | proved | type trees, random draws as an arbitrary stream; induction on trees | `C09_permutations_are_splits`, `C09_raise_alike`, `C09_splits_spell` |  |
| C10 Class scheme maps labels one-to-one | proved | class scheme with Python negative indexing; direct | `C10_class_labels`, `C10_labels_distinct` |  |
| C11 Unknown class labels do not silently decode to another label | partial | class scheme with Python negative indexing; direct | `C11_unknown_is_marked_partial`, `C11_unknown_decodes_to_last`, `C11_unknown_decodes_to_label_refuted` | false as stated: -1 wraps to the last table entry; proved exactly what happens |
| C12 Byte scheme round-trip | partial | UTF-8 encoder and decoder (Utf8Model), hex printing, bytes.fromhex; induction on bytes | `C12_byte_roundtrip_partial`, `C12_byte_encode_total`, `C12_byte_outcome`, `C12_byte_roundtrip_refuted` | holds exactly without characters below U+0010 (C12_byte_outcome); false otherwise because hex digits are not zero padded; decoding fails exactly when their number is odd |
| C13 Byte decoding is total on valid ids and keeps sentence markers | partial | UTF-8 encoder and decoder (Utf8Model), hex printing, bytes.fromhex; induction on bytes | `C13_byte_decode_total_partial`, `C13_byte_decode_markers`, `C13_byte_decode_bytes`, `C13_byte_scheme_is_the_default`, `C13_byte_decode_iff`, `C13_byte_decode_exact`, `C13_byte_decode_refuted` | marker behaviour proved for all valid ids; totality fails exactly when some run between markers has an odd number of byte ids below 16 (C13_byte_decode_iff) |
| C14 Prefix trie behaves like a map from names | proved | trie as nested association lists; induction on insertions | `C14_trie_is_map`, `C14_trie_accepts` |  |
| C15 Vocabulary files round-trip | proved | bytes of the vocabulary file: header JSON printed and parsed character by character, int printing and parsing, universal newlines, utf-8 with errors=ignore; round-trip lemmas column by column and row by row | `C15_vocab_file_roundtrip`, `C15_json_roundtrip`, `C15_json_fuel` | files are byte strings; header JSON text modelled character by character; non-empty tables (write_out raises ValueError on an empty one) |
| C16 Saving and loading preserves the codec | proved | bytes of the vocabulary file: header JSON printed and parsed character by character, int printing and parsing, universal newlines, utf-8 with errors=ignore; round-trip lemmas column by column and row by row | `C16_save_load` | all five kinds; the loaded scheme is equal field by field |
| C17 Corrupt vocabularies are rejected, not misread | partial | bytes of the vocabulary file: header JSON printed and parsed character by character, int printing and parsing, universal newlines, utf-8 with errors=ignore; round-trip lemmas column by column and row by row | `C17_write_refuses`, `C17_read_refuses_numbers`, `C17_read_refuses_later_kids_partial`, `C17_read_refuses_after_header`, `C17_blanks_after_header`, `C17_accepted_files`, `C17_flat_scheme_iff`, `C17_negative_kids_refuted` | false only for negative kid numbers, which Python indexing lets through |
| C18 Every saved class label can be reloaded | partial | learning of classes composed with the file model | `C18_class_reload_partial`, `C18_class_reload_refuted`, `C18_silent_refuted`, `C18_empty_refuted` | Proved for labels without tabs, CR/LF and lone surrogates and at least one line. Full claim false: a label with an inner tab is learned and saved but load_scheme raises ValueError, or loads another label without complaint (C18_silent_refuted); an empty list of lines gives a table that save() cannot write. |
| C19 Term counting is exact | proved | Counter, stable sort, get_init_vocab, coverage filter over an abstract arithmetic of shares (exact and binary64 instances); permutation and sortedness lemmas | `C19_exact_counts`, `C19_tokens_exist` | word, char and class schemes. |
| C20 Layout of a learned flat vocabulary | proved | Counter, stable sort, get_init_vocab, coverage filter over an abstract arithmetic of shares (exact and binary64 instances); permutation and sortedness lemmas | `C20_layout`, `C20_accepted`, `C20_outcome` | Also characterises the only failures (coverage outside (0,1]; zero total). |
| C21 Frequency mass is conserved | proved | Counter, stable sort, get_init_vocab, coverage filter over an abstract arithmetic of shares (exact and binary64 instances); permutation and sortedness lemmas | `C21_mass`, `C21_corpus_mass` | Frequencies and line count non-negative; a recorded -1 counts as 0. Gives the exact credit of each reserved type as well. |
| C22 Requested vocabulary size is an upper bound | partial | Counter, stable sort, get_init_vocab, coverage filter over an abstract arithmetic of shares (exact and binary64 instances); permutation and sortedness lemmas | `C22_size_partial`, `C22_small`, `C22_size_refuted` | Proved for vocab_size >= 6. False for 1..5: negative slice bound keeps all but the last 6 - vocab_size types (C22_small). |
| C23 Which types are kept, and in which order | proved | Counter, stable sort, get_init_vocab, coverage filter over an abstract arithmetic of shares (exact and binary64 instances); permutation and sortedness lemmas | `C23_ranking` |  |
| C24 Coverage filter keeps a minimal most-frequent prefix | proved | Counter, stable sort, get_init_vocab, coverage filter over an abstract arithmetic of shares (exact and binary64 instances); permutation and sortedness lemmas | `C24_coverage`, `C24_outcome`, `C24_exact_share`, `C24_binary64`, `C24_as_exact`, `C24_tie_refuted` | For any arithmetic of shares (so also binary64); the rational instance is spelled out. For binary64 the accumulated share is proved within 2^-52 per type of the true share, and the filter equals the exact one unless a share comes that close to the coverage; C24_tie_refuted shows that such ties do come out differently (0.6 + 0.3 misses 0.9), which the claim, stated about the share the code accumulates, allows. |
| C25 Class vocabularies do not depend on input order | proved | Counter, stable sort, get_init_vocab, coverage filter over an abstract arithmetic of shares (exact and binary64 instances); permutation and sortedness lemmas | `C25_class_order` |  |
| C26 Term-frequency files round-trip | proved | text of term-frequency files; round trip | `C26_tf_file_roundtrip`, `C26_header` | Terms free of white space, line_count an integer. |
| C27 The optimised BPE learner computes textbook BPE | proved | BPELearn with its node store, bigram index, heapq heap, lazy corrections; set orders are oracles; refinement to textbook BPE that recounts all pairs after each merge | `C27_textbook`, `C27_merge_is_replacement`, `C27_from_text` | Refinement of the linked-list/heap learner to textbook BPE for every set iteration order; also end to end from text. |
| C28 Structure of a learned BPE table | proved | BPELearn with its node store, bigram index, heapq heap, lazy corrections; set orders are oracles; refinement to textbook BPE that recounts all pairs after each merge | `C28_structure` |  |
| C29 BPE learning never trips its internal assertions | proved | BPELearn with its node store, bigram index, heapq heap, lazy corrections; set orders are oracles; refinement to textbook BPE that recounts all pairs after each merge | `C29_no_assertion`, `C29_outcome_from_text` |  |
| C30 BPE learning returns a vocabulary when the corpus runs out of pairs | partial | BPELearn with its node store, bigram index, heapq heap, lazy corrections; set orders are oracles; refinement to textbook BPE that recounts all pairs after each merge | `C30_stopping_partial`, `C30_exhaustion_refuted` | Finding: when pairs run out before n_merges, learn_codes raises IndexError and the learned table is lost. Proved: the exact stopping condition and that otherwise the table is returned. |
| C31 BPE learning is deterministic | partial | BPELearn with its node store, bigram index, heapq heap, lazy corrections; set orders are oracles; refinement to textbook BPE that recounts all pairs after each merge | `C31_determinism_partial`, `C31_first_difference`, `C31_one_order`, `C31_text`, `C31_cube_free`, `C31_determinism_refuted` | Finding: with a pair (a,a) such as in "aaaa aaa aa" the result depends on set iteration order. Proved: results agree unless a pair (a,a) is merged while a occurs three times in a row, and agree up to and including the first such merge; so always for words without a part three times in a row, and whenever the table learned with one order shows that no doubled subword occurs three times in a row. |
| C32 The initial bigram index is consistent | proved | BPELearn with its node store, bigram index, heapq heap, lazy corrections; set orders are oracles; refinement to textbook BPE that recounts all pairs after each merge | `C32_index` |  |
| C33 MaxHeap returns items in decreasing priority | proved | heapq on arrays (siftup, siftdown, heapify); heap order invariant and permutation | `C33_maxheap`, `C33_answers_unique` | heapq sift-up/down modelled on arrays. |
| C34 shrink_vocab keeps a closed, correctly renumbered sub-table | proved | shrink_vocab; downward closure by reverse induction over the table, simulation of greedy matching | `C34_shrink_kept`, `C34_no_tokens`, `C34_shrunk_storable` | any scheme kind; data without tokens raises ValueError (max of an empty sequence) |
| C35 Shrinking does not change how the given data is encoded | proved | shrink_vocab; downward closure by reverse induction over the table, simulation of greedy matching | `C35_shrink_same_encoding`, `C35_kept_ids_same_encoding` |  |
| C36 A shrunk vocabulary loads as the same kind of scheme | partial | shrink_vocab; downward closure by reverse induction over the table, simulation of greedy matching | `C36_shrink_loads_by_level`, `C36_shrink_kind_partial`, `C36_shrink_kind_refuted` | The full statement is false: the file names no scheme. Class and byte vocabularies cannot be loaded, BPE without merges loads as char, only-reserved loads as class. |
| C37 best_dtype is sound and minimal | proved | numpy integer dtypes; case analysis | `C37_best_dtype_minimal`, `C37_best_dtype_fails`, `C37_best_dtype_only_failure` |  |
| C38 Stored sequences read back exactly | proved | SeqField.Builder with dtype promotion, concatenation and rounding to 53 bits; invariant over appends | `C38_field_reads_back` | Values below 2^32, or within +-2^53; the latter may come back as float64 with the same numeric value. |
| C39 Large 64-bit values survive storage | partial | SeqField.Builder with dtype promotion, concatenation and rounding to 53 bits; invariant over appends | `C39_large_values_partial`, `C39_rounding_exact`, `C39_large_values_refuted` | False as stated: the store starts as int8, so concatenating a uint64 chunk promotes the whole field to float64 and values above 2^53 come back rounded (witness 2^53+1). Proved instead: each field reads back exactly, or rounded to 53 bits throughout. |
| C40 Offset arithmetic never wraps | proved | SeqField.Builder with dtype promotion, concatenation and rounding to 53 bits; invariant over appends | `C40_offsets_never_wrap` |  |
| C41 Duplicate ids and empty databases are refused | proved | Db.create, lookups; invariant over appends | `C41_field_refused`, `C41_db_refused` |  |
| C42 Db lookups return the created record | proved | Db.create, lookups; invariant over appends | `C42_db_round_trip`, `C42_auto_ids` | Field names distinct and different from "id" (namedtuple refuses others). |
| C43 Shuffled iteration over a Db visits every record once | partial | Db iteration with shuffle; the exception of random.shuffle on a set | `C43_shuffle_partial`, `C43_shuffle_refuted`, `C43_multipart_refuted` | False: random.shuffle on a set raises TypeError for every Db of two or more records; proved exactly when it works. |
| C44 Equal-length batching loses and duplicates nothing | proved | equal-length batching over arbitrary shuffles; invariants over folds | `C44_eq_len_batches`, `C44_token_budget`, `C44_packing_unique`, `C44_eq_len_examples`, `C44_bad_batch`, `C44_some_batch` | Also: all records skipped gives IndexError instead of the intended message. |
| C45 max_sents bounds the batch size | partial | equal-length batching over arbitrary shuffles; invariants over folds | `C45_max_sents_partial`, `C45_max_sents_refuted` | False: the test is len(batch) > max_sents before adding, so a batch can hold max_sents+1 records; the bound max_sents+1 is proved. |
| C46 Sequential batching preserves order and limits | proved | read_all, Batch construction on dtype-tagged arrays, BOS/EOS; invariants | `C46_sequential_batches`, `C46_limits`, `C46_db_examples`, `C46_example_of_record`, `C46_bad_batch` | Also describes what is yielded before the exception for a record that is too long: the batch being filled is lost. |
| C47 Batches pad without losing or mixing tokens | proved | read_all, Batch construction on dtype-tagged arrays, BOS/EOS; invariants | `C47_batch_padding`, `C47_batch_without_y`, `C47_batch_accepts` | Values are taken in the range where int32 and float64 conversions are exact. |
| C48 BOS/EOS insertion is exact and idempotent | proved | read_all, Batch construction on dtype-tagged arrays, BOS/EOS; invariants | `C48_markers_added`, `C48_marked_means`, `C48_idempotent`, `C48_refuses_marker`, `C48_empty_sequence` |  |
| C49 The token budget holds for the padded batch | partial | read_all, Batch construction on dtype-tagged arrays, BOS/EOS; invariants | `C49_budget_partial`, `C49_budget_refuted` | False: BOS/EOS are inserted after the budget was checked; the exact excess (one cell per record and marker) is bounded. |
| C50 Slicing a stream loses nothing | proved | slices of a generator that may raise; induction on the stream | `C50_slices`, `C50_unique`, `C50_failing_stream` | Any stream; a stream that raises passes its exception to the consumer of the last, incomplete slice. size < 1 is shown in C50_ex (0 yields nothing, negative raises ValueError). |
| C51 Multipart create/load round-trip | proved | multipart writer as a run of file system operations; every prefix of the run, also inside one file write, is a crash state | `C51_create_round_trip`, `C51_numbered` | For absent, empty or overwritten directories, every part size >= 1, padding, listing order, order of parts and ids, keep_in_mem and shuffle (shuffle needs keep_in_mem, see C43_multipart_refuted). Pickle is assumed to give back what was pickled. |
| C52 An interrupted write is never read as complete | proved | multipart writer as a run of file system operations; every prefix of the run, also inside one file write, is a crash state | `C52_interrupted_create`, `C52_interrupted_writer`, `C52_exception_in_block`, `C52_failing_stream` | Every intermediate state of every file write, including each prefix of the flag file. |
| C53 An interrupted overwrite is never read as complete | partial | multipart writer as a run of file system operations; every prefix of the run, also inside one file write, is a crash state | `C53_interrupted_overwrite_partial`, `C53_leftover_partial`, `C53_flag_first_partial`, `C53_interrupted_overwrite_refuted` | False: shutil.rmtree may remove a part before the _SUCCESS flag; the directory then loads and iteration fails with FileNotFoundError. Proved: every crash state refuses to load, is the new database, or is the old one with files removed, which never loses records silently; with the flag removed first the property holds. |
| C54 Existing data is not overwritten without permission | proved | multipart writer as a run of file system operations; every prefix of the run, also inside one file write, is a crash state | `C54_no_overwrite` |  |
| C55 Part file names are unambiguous | proved | multipart writer as a run of file system operations; every prefix of the run, also inside one file write, is a crash state | `C55_distinct_names`, `C55_recovered`, `C55_separate_files`, `C55_glob` |  |
| C56 Tree reduction equals a left fold | proved | ireduce rounds as lazily pulled generators; induction on rounds | `C56_tree_reduce_is_fold`, `C56_empty`, `C56_failing_input`, `C56_pairs` | The lazy generator chain is modelled pull by pull; also what happens when the input raises. |
| C57 Map-reduce word counts are exact and the shared default stays empty | proved | dicts as heap objects with identity; invariant on the heap | `C57_word_counts`, `C57_merge_adds`, `C57_processes`, `C57_printed`, `C57_no_lines` | Dicts are heap objects (merge_freqs updates one in place), and by value for worker processes. |
| C58 Parallel encoding equals sequential encoding | proved | worker processes, pool threads and consumer as a transition system; invariant over all interleavings | `C58_parallel_is_sequential`, `C58_general`, `C58_fewer_cpus`, `C58_prefix`, `C58_progress`, `C58_bounded`, `C58_exact`, `C58_fewer_exact` | Every interleaving of workers, pool threads and consumer. When a line fails, the earlier lines of its chunk of 1000 are lost (C58_general says exactly which). |
| C59 Plain text cannot inject control ids | partial | schemes; induction on pieces | `C59_char_no_control_partial`, `C59_word_control_spelled_partial`, `C59_bpe_control_spelled_partial`, `C59_control_injection_refuted` | true for char; for word and bpe the control ids appear only if the text spells the token, and then they do |
| C60 Command line encode then decode restores the text | proved | command line encode and decode from bytes to bytes; composition | `C60_word_pieces`, `C60_word_ids`, `C60_char_pieces`, `C60_char_ids`, `C60_bpe`, `C60_every_text_has_lines` | From the bytes of the model file and the text of the input (LF, CR LF or CR line ends, unfinished last line) to the text of the output. A marker character U+2581 in the text comes back as a space. |
| C61 Command line round-trip for class and byte models | partial | command line encode and decode from bytes to bytes; composition | `C61_class_ids_partial`, `C61_class_pieces_partial`, `C61_class_pieces_exact`, `C61_byte_one_line_partial`, `C61_byte_newline_fails`, `C61_byte_exact`, `C61_every_text_has_raw_lines`, `C61_class_and_byte_refuted` | False: a label with inner white space comes back with commas when pieces are piped ("very bad" -> "very,bad"); the byte model also encodes the newline of the line, as one hex digit, so decode raises ValueError on the first line that ends in a newline. Proved: class ids, one-word labels, byte text without newlines; and, for every text, exactly what each command prints (C61_class_pieces_exact, C61_byte_exact). |
| C62 n-grams and precision/recall are exact and bounded | proved | evaluation tools over rationals with an abstract rounding; arithmetic | `C62_ngrams`, `C62_tables`, `C62_bounds_any_rounding`, `C62_f1_any_rounding`, `C62_f1_between`, `C62_f1_refuses` | Bounds hold for every monotone rounding that is exact on integers up to 2^53; exact values and the F1 sandwich in exact arithmetic. |
| C63 Imbalance measure is a bounded distance | proved | evaluation tools over rationals with an abstract rounding; arithmetic | `C63_emd_value`, `C63_emd_bounds`, `C63_emd_order` | Exact arithmetic. Also: the upper bound is reached exactly when one type has all tokens. |
| C64 Quality estimation counts tokens and unknowns exactly | partial | evaluation tools over rationals with an abstract rounding; arithmetic | `C64_estimate_partial`, `C64_class_counts_last_label`, `C64_no_lines`, `C64_estimate_refuted` | Proved for word, character and BPE vocabularies. False for class (unk_idx is -1, so lines with the last label count as unknown) and byte (no unk_idx: AttributeError). No lines: ZeroDivisionError. |
| C65 Merge tracking keeps exact unigram counts | partial | BpeTracker with its linked lists; simulation with an exact count and a ghost error term | `C65_counts_exact_partial`, `C65_error`, `C65_when_exact`, `C65_counts_exact_refuted` | False: for a merge of a type with itself the skip branch subtracts from uni[b] instead of adding, so counts drift by 2 per unmerged overlap, can be negative, and the reported imbalance can exceed 1. Proved: the exact error in general; a count is never too large, and it is right if and only if the type was not merged with itself while occurring three times in a row. |
| C66 Bitext records stay aligned and within limits | proved | the Spark pipeline as list functions, tokenizers may raise; list lemmas | `C66_bitext_truncated`, `C66_bitext_succeeds`, `C66_unequal_texts` | Lines as spark.read.text gives them; tokenizers are arbitrary functions that may raise. |
| C67 Without truncation only longer pairs are dropped | partial | the Spark pipeline as list functions, tokenizers may raise; list lemmas | `C67_bitext_filtered_partial`, `C67_bitext_filtered_refuted` | False: the comparison is strict, a pair exactly at a limit is dropped. Proved: exactly the pairs strictly below both limits are kept. |
| C68 Learned BPE vocabulary encodes its own corpus losslessly | proved | learning BPE end to end, composed with C27 and C05 | `C68_accepted`, `C68_lossless` |  |
| C69 Learned subwords are made of real characters | partial | learning BPE end to end, composed with C27 and C05 | `C69_real_characters_partial`, `C69_placeholder_refuted` | Finding: when coverage drops characters, <unk> is merged with neighbours into subwords. Proved for full coverage. |
| C70 Requested BPE vocabulary size is respected | proved | learning BPE end to end, composed with C27 and C05 | `C70_size`, `C70_too_small` | Size counted after the code turns vocab_size <= 1 with min_co_evidence > 1 into sys.maxsize. |
| C71 Truncated vocabulary files are detected | partial | file model, prefix of rows | `C71_truncation_detected_refuted`, `C71_vocab_text_is_written`, `C71_failed_save_refuted` | false for every table: every non-empty row prefix under the full header is accepted; a failed save leaves such a file |
| C72 Coverage 1 keeps every type | partial | coverage arithmetic; exact shares, error analysis of binary64 addition and division on SpecFloat (FloatProofs.v), and a binary64 witness | `C72_full_coverage_partial`, `C72_full_coverage_float_partial`, `C72_full_coverage_refuted` | True for exact shares, and for the binary64 shares the code computes whenever types x tokens <= 2^52; refuted for larger corpora (2^54 against 1). |
| C73 A learned BPE vocabulary survives saving and loading | proved | learning composed with saving, and with stochastic splitting | `C73_learned_reload` |  |
| C74 Stochastic splitting with a learned vocabulary keeps the text | proved | learning composed with saving, and with stochastic splitting | `C74_learned_splits` |  |
| C75 num_batches tells how many batches will come | partial | num_batches, batching over parts | `C75_num_batches_partial`, `C75_num_batches_refuted` | False: the code divides the number of records by max_toks; proved to be a lower bound when no record is skipped. |
| C76 Equal-length batches over all parts | partial | num_batches, batching over parts | `C76_multipart_eq_len_partial`, `C76_outcome`, `C76_multipart_eq_len_refuted` | False when a part has no record without empty columns: that part raises IndexError and ends the iteration. Proved when every part has a usable record and none exceeds max_toks; in general (C76_outcome) all parts visited before the first such part are served in full and within the limits, then the exception comes. |
| C77 pr_measure reports the grams of the requested size | partial | main functions of the evaluation tools; list lemmas | `C77_report_partial`, `C77_report_exact_partial`, `C77_line_counts_differ`, `C77_n_is_ignored_refuted` | False: main does not pass n to count_gram_recall, so --n 2 still reports single tokens. Proved for n = 1. |
| C78 oov_count partitions the tokens exactly | proved | main functions of the evaluation tools; list lemmas | `C78_oov_report`, `C78_partition` | Includes the ZeroDivisionError on input without tokens. |
| C79 termfreq lists exact gram frequencies | proved | main functions of the evaluation tools; list lemmas | `C79_termfreq` |  |
| C80 Parallel text in which no pair is usable gives an empty result | partial | bitextdb: joining, filtering, partitions, writer per partition | `C80_nothing_left_partial`, `C80_nothing_left_refuted`, `C80_all_too_long_refuted` | False: take(1)[0] raises IndexError whenever no pair is left. Proved: a returned result is never empty. |
| C81 rdd_as_db stores every record whatever the partitions | partial | bitextdb: joining, filtering, partitions, writer per partition | `C81_rdd_as_db_partial`, `C81_iff`, `C81_too_many_parts_refuted`, `C81_empty_partition_refuted` | False: an empty partition makes Writer.__call__ raise AssertionError; with more parts than records this always happens. Proved: it succeeds, with a complete database, exactly when no partition is empty. |
| C82 bitextdb stores the encoded pairs under their line numbers | proved | bitextdb: joining, filtering, partitions, writer per partition | `C82_bitextdb`, `C82_bitextdb_filtered` | If the tool finishes; see C80, C81 for when it does not. The ids must be storable (C40). |
| C83 bitextdb names the columns as asked | partial | bitextdb: joining, filtering, partitions, writer per partition | `C83_column_names_partial`, `C83_column_names_refuted` | False: the options are parsed and not used. Proved: the names are x and y. |
| C84 Merge tracking gives the exact length of every line at every size | proved | BpeTracker; simulation of linked lists by token lists, every set order | `C84_lengths_exact`, `C84_whole_tool` |  |
| C85 Tracked mean length never grows with the vocabulary | proved | BpeTracker; simulation of linked lists by token lists, every set order | `C85_mean_never_grows` |  |
| C86 Tracked length is the length after encoding with that many types | partial | BpeTracker; simulation of linked lists by token lists, every set order | `C86_mean_is_of_encoding_partial`, `C86_mean_is_of_encoding_refuted` | False beyond the first row: the tracker applies merges in learned order, encoding is longest match. Proved: the first row. |
| C87 Merge tracking is deterministic | partial | BpeTracker; simulation of linked lists by token lists, every set order | `C87_deterministic_partial`, `C87_unambiguous`, `C87_cube_free`, `C87_deterministic_refuted` | False for merges of a type with itself: which overlapping occurrences are merged depends on set order. Proved: deterministic when no type is merged with itself while occurring three times in a row, in particular when no line has a part three times in a row. |
| C88 word_counts counts words, characters and lines exactly | partial | word_counts with Spark choices as oracles; counting lemmas | `C88_counts_partial`, `C88_outcome`, `C88_counts_refuted`, `C88_empty_refuted` | False: lines are counted with an in-band word '<!S!>', which is lost from a text that has it and inflates the line count; files without lines raise KeyError. Proved for all other texts, and the exact outcome for all. |
| C89 nlcodec-learn learns what learn_vocab learns from the same lines | partial | learn_main through the text of the statistics file; a table is a prefix of the ranking cut at a place that depends on the frequencies only | `C89_as_text_partial`, `C89_as_text_refuted` | False for ties: Spark chooses the order of equally frequent words, hence which are kept. Proved: the result is that of learn_vocab on a text with the same words and number of lines. |
| C90 The vocabulary of nlcodec-learn is that of direct learning | partial | learn_main through the text of the statistics file; a table is a prefix of the ranking cut at a place that depends on the frequencies only | `C90_alike_partial`, `C90_alike_refuted` | False at level char for the frequency of the word mark, which lacks the gaps between words, and for ties. Proved: everything else agrees, and the exact difference. |
| C91 A model written by learn_vocab loads as the scheme that was learned | partial | learn_vocab with a model path, composed with the file model | `C91_reload_partial`, `C91_reload_refuted`, `C91_unknown_level`, `C91_subword_threshold` | False for class labels with an inner tab. Proved for every level; class labels must be plain text and there must be one. |
| C92 Types below the least frequency are left out | partial | min_freq handling of learn_vocab; cut of the ranking | `C92_min_freq_partial`, `C92_ignored`, `C92_min_freq_refuted` | False at level bpe although its help says otherwise: the value is not used. Proved at the levels word and char. |
| C93 A second run of nlcodec-learn reuses the statistics | partial | learn_main over the three files it keeps | `C93_rerun_partial`, `C93_rerun_refuted`, `C93_no_lines` | False: the second run always ends with TypeError (inp is passed twice), at every level. Proved: it changes no file. |
| C94 nlcodec-learn at level class learns the labels of the lines | partial | learn_main over the three files it keeps | `C94_labels_partial`, `C94_labels_refuted` | False for labels of several words: the statistics hold words. Proved when every label is a single word. |
| C95 Text written with IO.writer is read back by IO.reader | partial | utils.IO over a map from paths to bytes, text layers with and without universal newlines; UTF-8 round trip, lines by induction | `C95_text_partial`, `C95_lines_exist`, `C95_plain`, `C95_gz`, `C95_append`, `C95_text_refuted`, `C95_modes` | False for .gz paths with carriage returns: gzip.open is not given newline, so CR and CR LF are read as LF, unlike plain files; lone surrogates become question marks in both. The exact lines are given for all texts. |
| C96 Binary files round-trip through IO | partial | utils.IO over a map from paths to bytes, text layers with and without universal newlines; UTF-8 round trip, lines by induction | `C96_bytes_partial`, `C96_bytes_refuted`, `C96_append`, `C96_missing_file` | False for .gz paths: errors='replace' is passed to gzip.open in binary mode, which always raises ValueError. |
| C97 read_as_stream yields the lines of all files in order | proved | utils.IO over a map from paths to bytes, text layers with and without universal newlines; UTF-8 round trip, lines by induction | `C97_as_readers`, `C97_stream`, `C97_missing_file` |  |
| C98 Iterating over stored data serves every record once | proved | BatchIterModel: BatchIterable from what is found at the path to the batches, with every order chance can choose. Composes the theorems on creating, loading and iterating a MultipartDb (C51), on batching (C46) and on padding (C47); the arrays read back are shown to hold their values so that no conversion changes them. | `C98_each_record_once`, `C98_used_means`, `C98_one_db`, `C98_strategies` |  |
| C99 Equal-length batches serve every record once within the limits | partial | BatchIterModel: BatchIterable from what is found at the path to the batches, with every order chance can choose. Composes the theorems on creating, loading and iterating a MultipartDb (C51), on batching (C46) and on padding (C47); the arrays read back are shown to hold their values so that no conversion changes them. | `C99_eq_len_partial`, `C99_outcome`, `C99_eq_len_refuted` | False: a part without any record that has two non-empty sides ends the iteration with an exception although other parts have some; a batch may hold max_sents + 1 sentences. Proved when every part has a usable record, with the limit max_sents + 1; in general (C99_outcome) every part visited before the first such part is served in full. |
| C100 Stored data can be opened by its path | partial | BatchIterModel: BatchIterable from what is found at the path to the batches, with every order chance can choose. Composes the theorems on creating, loading and iterating a MultipartDb (C51), on batching (C46) and on padding (C47); the arrays read back are shown to hold their values so that no conversion changes them. | `C100_open_partial`, `C100_open_refuted`, `C100_refused`, `C100_damaged` | False for a directory given as str: is_dir is called on the str (AttributeError). Everything else opens. |
| C101 sort_by='random' serves the records in random order | partial | BatchIterModel: BatchIterable from what is found at the path to the batches, with every order chance can choose. Composes the theorems on creating, loading and iterating a MultipartDb (C51), on batching (C46) and on padding (C47); the arrays read back are shown to hold their values so that no conversion changes them. | `C101_random_partial`, `C101_random_refuted` | False for all data: 'random' is accepted and does exactly what None does. Proved: every record is served once. |
| C102 A lost part is never skipped silently | proved | BatchIterModel: BatchIterable from what is found at the path to the batches, with every order chance can choose. Composes the theorems on creating, loading and iterating a MultipartDb (C51), on batching (C46) and on padding (C47); the arrays read back are shown to hold their values so that no conversion changes them. | `C102_lost_part` |  |
| C103 A file is loaded as the scheme it was written for | partial | case split of load_scheme against the published names and the list of schemes by level; the header is the one written by write_out | `C103_by_name`, `C103_unknown_name`, `C103_by_level_partial`, `C103_no_header`, `C103_outcome`, `C103_old_files`, `C103_reserved_only_refuted` | False for negative levels: the check is only max_level < 4, so a file without a scheme name whose entries are all reserved (max_level -1) is taken for a class vocabulary. C103_outcome gives the outcome for every header. |
| C104 Learn, encode and decode on the command line restore text made of what was learned | proved | MainModel: main of __main__.py for its four tasks over learn_vocab (C88-C94), the model file (C15-C17) and the coding tasks (C60, C61). Composes: learning gives an entry for each seen word/character (C18-C26, C27), the file reads back the same table, and coding restores what the table covers; C106 by cases on the point where learn_vocab stops | `C104_word`, `C104_char`, `C104_bpe` |  |
| C105 estimate describes the text exactly under a word model | proved | MainModel: main of __main__.py for its four tasks over learn_vocab (C88-C94), the model file (C15-C17) and the coding tasks (C60, C61). Composes: learning gives an entry for each seen word/character (C18-C26, C27), the file reads back the same table, and coding restores what the table covers; C106 by cases on the point where learn_vocab stops | `C105_word_estimate` |  |
| C106 A learn that fails leaves the model file as it was | partial | MainModel: main of __main__.py for its four tasks over learn_vocab (C88-C94), the model file (C15-C17) and the coding tasks (C60, C61). Composes: learning gives an entry for each seen word/character (C18-C26, C27), the file reads back the same table, and coding restores what the table covers; C106 by cases on the point where learn_vocab stops | `C106_failed_learn_partial`, `C106_failed_learn_refuted`, `C106_other_tasks` | False at level class: an input without lines empties the old model file and then fails (ValueError), after which the file cannot be loaded. Proved at every other level and for the other tasks. |
| C107 earth_mov_dist is a distance between distributions | partial | DivergModel: arrays of rationals, logarithms in R. Inequality p log(p/q) >= p - q from 1 + x <= exp x, summed by induction; the entropy form by induction over the outcomes | `C107_distance_partial`, `C107_refused`, `C107_imbalance`, `C107_new_numpy_refuted` | False from numpy 1.24 on (setup.py does not pin numpy): validate_distribution uses np.float, which is gone (AttributeError). Proved for older versions, in exact arithmetic. |
| C108 kl_div is the Kullback-Leibler divergence | proved | DivergModel: arrays of rationals, logarithms in R. Inequality p log(p/q) >= p - q from 1 + x <= exp x, summed by induction; the entropy form by induction over the outcomes | `C108_value`, `C108_gibbs`, `C108_lengths` | Exact arithmetic: the values are rationals, the logarithm is real. Uses the axioms of the standard library of reals. |
| C109 js_div is the Jensen-Shannon divergence | partial | DivergModel: arrays of rationals, logarithms in R. Inequality p log(p/q) >= p - q from 1 + x <= exp x, summed by induction; the entropy form by induction over the outcomes | `C109_js_partial`, `C109_refused`, `C109_new_numpy_refuted` | False from numpy 1.24 on: every call raises AttributeError (np.float). Proved for older versions, in exact arithmetic; with floats the mean of 5e-324 and 0 rounds to 0, which kl_div refuses. Uses the axioms of the standard library of reals. |
| C110 Computing frequencies first and learning from them is learning | partial | FreqModel: main of term_freq.py over word_counts (C88) and write_stats (C26), a strict utf-8 reader for the input of nlcodec learn. The statistics are text (printable header, words of the input, digits), so they are read back as written; then both tools call learn_vocab with the same lines | `C110_as_text_partial`, `C110_as_learn`, `C110_as_text_refuted` | C110_as_learn holds at every level and for every input. Learning directly from the text differs when the word <!S!> occurs, which nlcodec-freq uses to count lines and drops. |
| C111 The statistics nlcodec-learn keeps can be used again | partial | FreqModel: main of term_freq.py over word_counts (C88) and write_stats (C26), a strict utf-8 reader for the input of nlcodec learn. The statistics are text (printable header, words of the input, digits), so they are read back as written; then both tools call learn_vocab with the same lines | `C111_again_partial`, `C111_gzip_refuted`, `C111_bad_bytes` | False: the files are gzip, nlcodec learn reads plain utf-8 text and raises UnicodeDecodeError for every gzip file at the levels word, char, bpe (with -mce > 1) and class. Proved for the decompressed text. |
| C112 nlcodec-freq writes complete statistics or leaves the outputs alone | partial | FreqModel: main of term_freq.py over word_counts (C88) and write_stats (C26), a strict utf-8 reader for the input of nlcodec learn. The statistics are text (printable header, words of the input, digits), so they are read back as written; then both tools call learn_vocab with the same lines | `C112_complete_partial`, `C112_failed_refuted`, `C112_failures` | False: argparse opens (and empties) the outputs before anything is counted, so every run that fails leaves the named outputs empty. Proved: the runs that fail are exactly those without outputs, without -i or without any line; all others write exact counts (but for the word <!S!>). |
| C113 The Devanagari expander can be undone | partial | ScriptModel: encoders and decoders as recursions over the code points with the previous character as state. Exact characterisation by induction over the line, generalised over the previous character; necessity by exhibiting the first place where the outputs differ | `C113_line_partial`, `C113_line_exact`, `C113_line_refuted`, `C113_text_partial`, `C113_expanded`, `C113_contracted`, `C113_consonants` | False exactly for lines that contain the mark U+22EE already (C113_line_exact); the rest is proved in full. |
| C114 Re-spelled Indic text can be spelled back | partial | ScriptModel: encoders and decoders as recursions over the code points with the previous character as state. Exact characterisation by induction over the line, generalised over the previous character; necessity by exhibiting the first place where the outputs differ | `C114_line_partial`, `C114_line_exact`, `C114_line_refuted`, `C114_text_partial`, `C114_other_names`, `C114_constructor` | False: C114_line_exact gives the exact set of lines that are restored: no U+E000, every virama stands after a consonant and before a consonant, a blank or the end, no word begins with a vowel sign. The known issue described in the header of the file does not occur. |
| C115 The lite spelling can be spelled back | partial | ScriptModel: encoders and decoders as recursions over the code points with the previous character as state. Exact characterisation by induction over the line, generalised over the previous character; necessity by exhibiting the first place where the outputs differ | `C115_line_partial`, `C115_line_exact`, `C115_line_refuted` | False: C115_line_exact gives the exact set of lines that are restored. |
| C116 Examples can be put in batches again and again | proved | ReuseModel: examples live in a memory and are referred to by number, the checks update it and stop where an exception arises. Simulation between the memory and fresh copies (equal results of the two checks), preserved by every pass; refinement to make_batch with aliasing by the idempotence of the checks. The tensor helpers: which objects have which methods | `C116_reuse`, `C116_what_is_left`, `C116_others_untouched`, `C116_after_success` | Values within +-2^53 that fit their dtype, bos and eos in int32. |
| C117 Batches with different settings do not influence each other | partial | ReuseModel: examples live in a memory and are referred to by number, the checks update it and stop where an exception arises. Simulation between the memory and fresh copies (equal results of the two checks), preserved by every pass; refinement to make_batch with aliasing by the idempotence of the checks. The tensor helpers: which objects have which methods | `C117_other_settings_partial`, `C117_other_settings_refuted` | False: the markers added for one BatchMeta stay in the examples, so a later batch with add_eos_x=False over the same examples fails its assertion although fresh copies would succeed. Holds for batches with one setting. |
| C118 val_exists_at adds a marker once, at the asked end, on the asked side | proved | ReuseModel: examples live in a memory and are referred to by number, the checks update it and stop where an exception arises. Simulation between the memory and fresh copies (equal results of the two checks), preserved by every pass; refinement to make_batch with aliasing by the idempotence of the checks. The tensor helpers: which objects have which methods | `C118_marker_added`, `C118_marker_added_once`, `C118_unwanted_marker_stays`, `C118_errors`, `C118_refused` |  |
| C119 A batch can be moved to a device and masked | partial | ReuseModel: examples live in a memory and are referred to by number, the checks update it and stop where an exception arises. Simulation between the memory and fresh copies (equal results of the two checks), preserved by every pass; refinement to make_batch with aliasing by the idempotence of the checks. The tensor helpers: which objects have which methods | `C119_device_refuted`, `C119_mask_refuted` | False for every batch and array: to() looks for a method `to` on numpy arrays (AttributeError) or, without y, adds a list to a tuple (TypeError); subsequent_mask calls unsqueeze on a numpy array. |
| C120 Nodes of the learner's linked lists can be compared | partial | NodeModel: nodes in a memory addressed by number, __eq__ with the recursion limit as fuel (running out is the RecursionError of Python). NodeSpec: `linked st ids` says that ids are the nodes of one doubly linked list. The outcome of == by induction on the distance to the nearer front; RecursionError by induction on the limit, as each comparison of equal neighbours calls back. | `C120_compare_exact_partial`, `C120_compare_refuted` | False: for every node of a sequence of two or more nodes, == with itself recurses without end (RecursionError for every recursion limit), because __eq__ compares both neighbours, each of which compares back. The exact outcome (False, True, AttributeError, RecursionError) is proved for every pair of nodes. |
| C121 Linked sequences are built, cut and printed faithfully | proved | NodeModel: nodes in a memory addressed by number, __eq__ with the recursion limit as fuel (running out is the RecursionError of Python). NodeSpec: `linked st ids` says that ids are the nodes of one doubly linked list. The outcome of == by induction on the distance to the nearer front; RecursionError by induction on the limit, as each comparison of equal neighbours calls back. | `C121_from_seq`, `C121_delete`, `C121_repr` | Values are integers, as in the learner. |
| C122 Subwords learned directly from lines are those of BPEScheme.learn | proved | RestModel over the models of the learner, the codec and the tree reduction. Exact character counts: the keys of the aggregated dict are those of a counter over all characters (first-seen order is preserved by expanding words), the values by summing over the words. Printed counts: induction over groups of three digits, and uniqueness of cutting at tab and newline. | `C122_as_learn`, `C122_initial`, `C122_no_factory` | Where BPEScheme.learn replaces the size by sys.maxsize (vocab_size <= 1 with a threshold) the sizes differ, so these are excluded from C122_as_learn. |
| C123 encode_all encodes every line in order | proved | RestModel over the models of the learner, the codec and the tree reduction. Exact character counts: the keys of the aggregated dict are those of a counter over all characters (first-seen order is preserved by expanding words), the values by summing over the words. Printed counts: induction over groups of three digits, and uniqueness of cutting at tab and newline. | `C123_ids`, `C123_pieces`, `C123_same_as_encode` |  |
| C124 MapReduce folds the mapped items | proved | RestModel over the models of the learner, the codec and the tree reduction. Exact character counts: the keys of the aggregated dict are those of a counter over all characters (first-seen order is preserved by expanding words), the values by summing over the words. Printed counts: induction over groups of three digits, and uniqueness of cutting at tab and newline. | `C124_map_reduce`, `C124_failures`, `C124_pools_required` | Callbacks without side effects; the word counter with its shared dicts is C57. |
| C125 The printed word counts are exact and readable | proved | RestModel over the models of the learner, the codec and the tree reduction. Exact character counts: the keys of the aggregated dict are those of a counter over all characters (first-seen order is preserved by expanding words), the values by summing over the words. Printed counts: induction over groups of three digits, and uniqueness of cutting at tab and newline. | `C125_printed`, `C125_readable` | Every string is assumed to be printable on standard output. |
| C126 A smaller vocabulary is the beginning of a larger one | proved | GrowProofs: the learning loop for n merges is a prefix of the loop for n + k merges (induction on the fuel), and a threshold stops it exactly where recorded frequencies, which never increase (C28), fall below it. Flat schemes: sorting is stable, so filtering and cutting commute with it. Ids of a cut vocabulary: positions in a prefix of a duplicate-free list. | `C126_bpe`, `C126_bpe_runs`, `C126_flat`, `C126_ids` | C126_bpe: two runs that iterate over sets in the same way. For runs that iterate differently C126_bpe_runs allows a difference after the first type that joins a type with itself (C31). Sizes of the word and char schemes from 1 to 5 are excluded: they cut with a negative bound (C22). |
| C127 A higher frequency threshold only removes rarer types | proved | GrowProofs: the learning loop for n merges is a prefix of the loop for n + k merges (induction on the fuel), and a threshold stops it exactly where recorded frequencies, which never increase (C28), fall below it. Flat schemes: sorting is stable, so filtering and cutting commute with it. Ids of a cut vocabulary: positions in a prefix of a duplicate-free list. | `C127_bpe`, `C127_flat` | Thresholds for which the size asked for means the same (vocab_size <= 1 means no limit only with a threshold above 1). |
| C128 A text can be encoded in parts | partial | PartsProofs over GrowSpec. Parts: longest matches cannot cross a mark that is last in every name (induction on the greedy segmentation and its uniqueness). Origin: the text spelled by every sequence of the corpus is invariant under merges, so adjacent pairs are places of the word. Encoding again: the greedy segmentation of the decoded text is the old one with known placeholders, because "<" begins only reserved names. Lengths: counting marks and characters. | `C128_spacing`, `C128_word`, `C128_char`, `C128_byte`, `C128_bpe_partial`, `C128_learned`, `C128_mark_in_word_refuted` | False for a BPE vocabulary learned from words that contain U+2581 themselves: a subword can cross the border between words. Proved for every table in whose names the mark is last, and for every vocabulary learned from words without U+2581. |
| C129 Every learned subword occurs in the corpus | proved | PartsProofs over GrowSpec. Parts: longest matches cannot cross a mark that is last in every name (induction on the greedy segmentation and its uniqueness). Origin: the text spelled by every sequence of the corpus is invariant under merges, so adjacent pairs are places of the word. Encoding again: the greedy segmentation of the decoded text is the old one with known placeholders, because "<" begins only reserved names. Lengths: counting marks and characters. | `C129_origin`, `C129_all_characters` |  |
| C130 Encoding decoded text gives the same ids | partial | PartsProofs over GrowSpec. Parts: longest matches cannot cross a mark that is last in every name (induction on the greedy segmentation and its uniqueness). Origin: the text spelled by every sequence of the corpus is invariant under merges, so adjacent pairs are places of the word. Encoding again: the greedy segmentation of the decoded text is the old one with known placeholders, because "<" begins only reserved names. Lengths: counting marks and characters. | `C130_word`, `C130_bpe_partial`, `C130_bpe_covered`, `C130_char_covered`, `C130_char_partial`, `C130_byte`, `C130_class`, `C130_char_refuted`, `C130_class_refuted`, `C130_bpe_mark_refuted`, `C130_bpe_names_refuted` | False for char with unknown characters (each comes back as the five characters of <unk>; exact outcome proved), for class with an unknown label, and for bpe when the line contains U+2581 or a name other than the reserved ones contains "<". Proved for word always, for bpe otherwise (unknown characters included), and for covered text. |
| C131 A larger BPE vocabulary never makes encodings longer | partial | PartsProofs over GrowSpec. Parts: longest matches cannot cross a mark that is last in every name (induction on the greedy segmentation and its uniqueness). Origin: the text spelled by every sequence of the corpus is invariant under merges, so adjacent pairs are places of the word. Encoding again: the greedy segmentation of the decoded text is the old one with known placeholders, because "<" begins only reserved names. Lengths: counting marks and characters. | `C131_flat`, `C131_bpe_partial`, `C131_bpe_words`, `C131_bpe_refuted` | False for BPE: encoding is greedy longest match, so one more subword can make an encoding longer ("abcd" after learning from "bcd bcd bcd abe abf" with sizes 15 and 16). Proved: word and char lengths do not depend on the vocabulary, BPE needs at least one id per word and at most one per character and word end. |
| C132 The length tracker refuses what is not a BPE vocabulary | proved | by cases over what the file reader returns (OutcomeProofs.v); saved vocabularies through the round trip of C15; existence of a run of parallel_map from progress and the bound on its steps (C58) | `C132_codec`, `C132_unreadable`, `C132_other_vocabularies`, `C132_failing_lines`, `C132_one_process`, `C132_some_result`, `C132_no_lines` | Exact outcome for every readable file; a run of the tool exists for all arguments. |
| C133 What separates words, what is a number, what level is learned | proved | the string functions of PyStr against a list of 29 code points and grammars of numbers (TextSpec); induction on digits from both ends | `C133_word_boundary`, `C133_white_space`, `C133_numbers`, `C133_not_a_number`, `C133_decode_ids`, `C133_encode_ids`, `C133_printed_once`, `C133_printed_is_read`, `C133_levels` | White space is listed character by character and numbers are described by grammars, so that the statements of other properties which mention white space are grounded. Non-ASCII decimal digits, which int() also accepts, are not modelled. |
| C134 From parallel text to batches | proved | C82 and C98/C99 composed (TrainProofs.v): the directory bitextdb leaves is a finished multipart directory whose parts are all non-empty, so every part has a usable record and the failure cases of C99 cannot occur | `C134_text_to_batches` | Both with and without truncation; the ids must be exact in float64 and a column must have fewer than 2^64 values. |
| C135 The codec of bpepp encodes like nlcodec's BPE scheme | proved | the segmentation loop is the one of C05 with unk 1, so the invariant of BpeProofs is reused; agreement with nlcodec by uniqueness of greedy segmentation | `C135_builds`, `C135_encode`, `C135_pieces`, `C135_lossless`, `C135_agrees_with_nlcodec`, `C135_repeated_name` | A repeated name is the one difference to nlcodec: bpepp numbers its last entry, nlcodec the first. |
| C136 bpepp encode prints a line per line and decode restores the text | partial | exact outcome of both commands over the lines of the input; refuted by a two-line text | `C136_encode`, `C136_encode_pieces`, `C136_decode_partial`, `C136_refused`, `C136_refuted` | encode is as stated. decode_all returns inside its loop: only the first line is decoded and its characters are printed one to a line, and without input lines None is iterated (TypeError). C136_decode_partial gives the exact outcome. |
| C137 Vocabulary files of bpepp round-trip | proved | as C15; the header of bpepp is printable ASCII from # to a closing brace, whatever the time | `C137_round_trip`, `C137_reads_nlcodec`, `C137_refuses`, `C137_empty_file` | The header is dropped unread. Nothing is claimed about nlcodec reading files of bpepp (their version is a JSON float). |
| C138 Runs of three equal symbols are found and cut | proved | the buffer of run lengths by induction from the left; maximal runs are unique | `C138_trouble`, `C138_replace` |  |
| C139 Which corpora and vocabularies the bpepp learner accepts | proved | case by case: the assertions, the first sequence, the cleaned corpus, the largest symbol | `C139_accepts`, `C139_cleaning` | Frequencies and symbols must not be negative. |
| C140 bpepp learns in two levels and keeps both vocabularies | partial | character counts as weights of the words; level 1 and 2 instantiate C141; the file effects are stated for every name in the directory | `C140_level1`, `C140_level2`, `C140_learn1`, `C140_learn2`, `C140_learn2_prepared`, `C140_files_learn1`, `C140_files_learn2`, `C140_no_level1_file`, `C140_size_refuted` | --vocab-size-l2 is documented as a vocabulary size but counts merges on top of level 1 (C140_size_refuted); everything else as stated. For prepared input every line must consist of integers. |
| C141 The bpepp learner merges most frequent pairs | partial | refinement in BpeppLearn.v: the linked nodes spell the corpus, the pair index holds exact counts and every position of a pair, the iteration order of a set does not matter as long as occurrences do not overlap | `C141_learner_partial`, `C141_structure`, `C141_grown`, `C141_refuted` | Proved as long as no pair (a,a) is merged while a stands three times in a row; long runs are cut in the input but arise again from merges ("ababab"), and then an internal assertion can fail. When no pair is left, max() of an empty index may raise ValueError instead of returning the table. |
| C142 A field lists its records in the order given | proved | From the invariant of the builder (the field for a list of records): the id dict lists the rows in order, the row table holds start and length of each record; keys, values, items and lengths then follow by induction over the rows. | `C142_listing`, `C142_as_read` | values and items yield the sequences only; with values above 2^53 the listing equals what field[id] gives (C39) |
| C143 Learned subwords have distinct names | partial | An invariant over textbook merges, whatever the choice of pairs: two parts of the current corpus with the same spelling in initial symbols are equal, and a part spelled like an entry is that entry alone. A merge keeps it when the replacement inside a part is determined, which holds for different symbols, and for equal ones if they do not occur three times in a row. Names follow because the characters of the words are single-character entries. The counterexamples are computed. | `C143_spellings_partial`, `C143_names_partial`, `C143_cube_free`, `C143_bpepp`, `C143_refuted` | false: with some set iteration orders "aaa" is learned twice, as aa+a and a+aa, and a corpus containing "<s>" teaches a second "<s>" (then learn of bpepp fails with AssertionError at its second level). Proved: names are distinct when no doubled subword occurs three times in a row in a word and no word contains the name of a placeholder |
| C144 A codec grown merge by merge is the codec of its table | partial | Induction over the merges: table, list of names and prefix tree are those of the longer table; the dict of names is the first-occurrence dict overwritten by the new entries, which is the same dict when names are distinct. The tracker with the codec is compared round by round with the one of C65/C84. | `C144_merge_partial`, `C144_ids`, `C144_file`, `C144_refused`, `C144_peek`, `C144_tracker`, `C144_refuted` | False for ids when a name occurs twice: a codec built at once maps a name to its first entry, merge() to its last. Proved: pieces, decoding and sampled segmentations always agree, ids always have the same names and decode to the same text, and the two codecs are equal when the names are distinct. |
| C145 A documented command line does what it says | proved | ArgModel.v follows argparse (Python 3.11) step by step. A documented line is classified word by word as written, so reading it is running its actions in order (parse_said); the namespace is then the last assignment or the default. | `C145_nlcodec`, `C145_any_parser` |  |
| C146 Only documented command lines are accepted | partial | Every step of the parser is an action of a declared option on words of the line, so invariants over steps give the shape of the namespace and the files; an unknown option adds to the words left over, which are never removed. Counterexamples computed. | `C146_accepted_partial`, `C146_ends_partial`, `C146_unknown_option`, `C146_missing`, `C146_documented_refuted` | False: argparse takes abbreviations and run-together options (-out is read as -o ut and writes a file ut), and a refused line has already emptied the file given as --out before it. Proved of every line: parsing ends, with status 0 or 2 if it stops; an accepted line gives a known task, a model and a known level; unknown long options and missing required arguments are refused. |
| C147 nlcodec changes only the files it is meant to | partial | The parser part from C146, the task part from MainModel; for documented lines from C145. | `C147_ends_partial`, `C147_changes_partial`, `C147_refused_only_empties`, `C147_only_refuted` | False: --out is opened, and so emptied, while the line is parsed: also by estimate and learn, also when it is the input or the model, also when the line is refused. Proved: a documented line changes at most the model (when learning) and the --out files; any line at all changes only paths that end one of its words, and a refused one can only empty them. |
| C148 From the shell, a text comes back | proved | C145 for each of the three lines (the files left by one are those the next starts from) and C104 for the runs themselves. | `C148_word`, `C148_char`, `C148_bpe` |  |
| C149 Abbreviated option names | proved | The two lines give the same tokens but for the spelling of known options, which the parser never looks at again: a simulation over its rounds. | `C149_abbreviation`, `C149_ambiguous` |  |
| C150 nlcodec-learn, nlcodec-freq and nlcodec-bitextdb do what their command lines say | proved | The command lines through the same parser lemmas as C145 (tool_understood, generic in the option table), then the main function of each tool on the file map; the suffix of a path by its last dot and last slash. | `C150_learn`, `C150_freq`, `C150_bitext`, `C150_names`, `C150_changes` |  |
| C151 Models with different names are learned independently | partial | What a run leaves depends on its inputs and on whether the statistics files exist (C151_depends); frame argument over C150_changes. The witness for the failure is computed. | `C151_independent_partial`, `C151_depends`, `C151_independent_refuted` | False: the statistics files are named after the model without its extension, so models m.a and m.b share them, and a run that finds its statistics file ends in TypeError (the words of --inp are handed on twice): the second model is not made. Proved: when none of the files left by the first run is the model, a statistics file or an input of the second. |
| C152 Counting first, learning later | partial | C150 for both tools, C145 for nlcodec, and the round trip of the statistics file; the witness for the failure is computed. | `C152_two_steps_partial`, `C152_two_steps_refuted` | False: nlcodec-freq drops repeated lines unless told not to, nlcodec-learn keeps them unless told to. Proved: the models are equal when both are given the same choice (and the counts survive being written and read). |
| C153 Any spelling of a byte sequence decodes alike | proved | bytes.fromhex accepts exactly the spellings (induction); the reserved pieces are compared by name before. | `C153_any_spelling` |  |
| C154 The evaluation tools do what their command lines say | proved | The parser lemmas of C150 for the three option tables, then the main functions on the file map; what the options ask for is a fold over the settings, independent of parsing. | `C154_termfreq`, `C154_pr_measure`, `C154_oov_count`, `C154_qestim`, `C154_bpe_len` |  |
| C155 The gram file of termfreq can be given to pr_measure | proved | The text of a gram row is parsed back (JSON printing and reading of numbers and strings, C17); the counts are the occurrences in the encoded sentences (C79); the two programs are composed through the file map. | `C155_file`, `C155_report`, `C155_ranks`, `C155_no_grams`, `C155_bad_lines`, `C155_shell` |  |
| C156 Any command line of the other tools ends in a defined way | proved | Totality and soundness of parsing (C146) for every option table of the package, then case analysis of each main function on namespaces of the declared kinds. | `C156_learn`, `C156_freq`, `C156_bitextdb`, `C156_termfreq`, `C156_pr_measure`, `C156_oov_count`, `C156_qestim`, `C156_bpe_len` |  |
| C157 The Devanagari tools do what their command lines say, and one run undoes the other | proved | The two option tables are added to the parsers of C145 and C146; the main functions on the file map; every text decoded from UTF-8 consists of scalar values, re-spelling keeps that, so the intermediate file is read as it was written; C113 and C114 for the lines. | `C157_uxdx`, `C157_unicode_fix`, `C157_there_and_back`, `C157_any_words` |  |
| C158 Reduction with any function | proved | Model as for C56 (MapredModel.v, RestModel.v). ReduceSpec.v says what one level and the whole reduction are as relations; ReduceEnd.v gives every half-consumed level a stream (what it still yields, and the exception it ends in) and shows that next() at any depth agrees with it, then that the loop follows the levels. | `C158_level_by_level`, `C158_brackets`, `C158_exceptions`, `C158_broken_input`, `C158_map_reduce`, `C158_first_call` | functions without side effects |
| C159 bpepp does what its command lines say | proved | PpArgModel.v adds to the parser of C145 the sub-commands, the positional arguments with ? and +, and the program on a file map; lines of documented options are shown to be parsed to the last value of each, by induction on the words; C139 and C140 for what coding and learning do; every parse of any words ends by a measure on them. | `C159_encode`, `C159_decode`, `C159_learn`, `C159_missing`, `C159_missing_level2`, `C159_learn_then_encode`, `C159_refused`, `C159_any_words` | For learn, which reads its inputs a second time after the level 1 vocabulary is written, the vocabulary file must not be one of the inputs. |
| C160 The counts do not depend on how the cluster adds them up | proved | GroupSpec.v: a relation that replaces any two pairs of one key by their sum, anywhere. The total of each key and the set of keys are invariants; lists with distinct keys and equal totals are permutations of each other; the fold of DriverModel.v is one such run. word_counts is then shown to have the outcomes of these runs and no others. | `C160_totals`, `C160_any_order`, `C160_left_to_right`, `C160_word_counts`, `C160_only_these` |  |
| C161 Only relative frequencies matter | proved | ScaleSpec.v says what a table with k times the frequencies is. Counting, sorting, filtering, cutting and the reserved rows are shown to commute with it; for BPE every textbook run (BpeSpec.v) on the corpus is one on the weighted corpus with the scaled table, and C27 and the determinism of C31 carry this to the learner; the spelled corpus is unique as names are distinct. | `C161_flat`, `C161_codes`, `C161_text`, `C161_text_small_refuted` | C161_text_small_refuted shows why the condition on the sizes is needed. |
| C162 Shrinking twice is shrinking once | partial | From C34 and C35: counts at the new places are the old ones as the mapping is injective; by induction on why a type stays, every place of the new table stays again; a table renumbered by the identity is itself, by induction on the place. | `C162_twice_partial`, `C162_twice_refuted` | Proved for min_freq up to 1. False above: removing a rare subword changes the segmentation, so that another one becomes rare (C162_twice_refuted). |
| C163 A report of pr_measure without a fault means the same words | partial | The rows of C77 and the tables of C62: with equal counts every share is 1 and sums of ones are exact below 2^53; a mean of shares is 1 only if each is. The exchange is a simulation of the loop over the pairs with the two halves of its state exchanged. | `C163_same_words_partial`, `C163_no_fault_partial`, `C163_exchange`, `C163_no_fault_refuted` | False in one direction: words of the candidates that no reference has are not in the report, so it is without a fault though the candidates say more (C163_no_fault_refuted). Proved: same words give a report without a fault; a report without a fault (exact arithmetic, no --freqs) means same words when every word of the candidates occurs in the references; exchanging the sides exchanges the scores. |
| C164 estimate and oov_count agree | partial | From C64, C78 and C02: number 1 is given exactly to words without an entry and to the name of entry 1, as names are distinct; the sum of the occurrences of distinct words of one kind is the number of words of that kind (induction on the list of words, taking one out of the text). | `C164_counts_partial`, `C164_agree_partial`, `C164_agree_refuted` | False for texts with the word "<unk>", which estimate counts as unknown and oov_count as known, and for texts without words, for which oov_count ends in ZeroDivisionError (C164_agree_refuted). Proved: the exact relation for every text with a word (the unknown tokens of estimate are the out-of-vocabulary tokens plus the occurrences of "<unk>"), so they agree when "<unk>" does not occur. |
| C165 termfreq and estimate agree | proved | From C64 and C79: a gram of one number occurs as often as the number; distinct numbers with their counts sum up to the length of the text (induction, taking one number out of the text); distinct valid numbers are at most as many as the types. | `C165_agree` |  |
| C166 Shrinking a vocabulary to a text does not change what estimate says about that text | proved | From C35 and C64: the numbers after are those before, translated, so number 1 occurs as often; the counts before are, up to order, the counts after and zeros for what was removed (nothing removed occurs in the text); zeros only add to the distance from the uniform distribution (comparison of the positive parts term by term). | `C166_shrink_estimate` |  |
| C167 Estimates do not depend on the order of lines and add up over texts | proved | From C64: lines in another order have the same sequences in that order, so the same counts; counts of two texts add up, and the absolute deviation of a sum is at most the sum of the absolute deviations, term by term. | `C167_order`, `C167_together` |  |
| C168 A larger vocabulary never makes more of a text unknown | proved | From C126 and C64: the smaller vocabulary gives the numbers of the larger one with 1 for those cut off; induction on the numbers. That the rows of a learned table all pass its own threshold follows from C126 used with equal sizes. | `C168_cut`, `C168_learned` |  |

## Trusted base

* Coq 8.16.1's kernel (and `vm_compute`, used for concrete witnesses).
* `Print Assumptions` is run for every property theorem at the end of its `Props*.v` file. Every one of them is *Closed under
  the global context* (no axiom, neither of this development nor of the standard library), except `C108_value`, `C108_gibbs`,
  `C108_lengths`, `C109_js_partial`, `C109_refused` and `C109_new_numpy_refuted`, which speak about logarithms and list the axioms of
  the real numbers of the standard library: `ClassicalDedekindReals.sig_not_dec`, `ClassicalDedekindReals.sig_forall_dec`,
  `FunctionalExtensionality.functional_extensionality_dep` and `Classical_Prop.classic`.
* A check of the compiled files as a whole also lists seven parameters that the standard library itself declares in
  `Coq.ssr.ssrunder` and that become loaded with it: `Under_rel.Under_rel`, `Under_rel.Under_rel_from_rel`,
  `Under_rel.Under_relE`, `Under_rel.Over_rel`, `Under_rel.over_rel`, `Under_rel.over_rel_done`, `Under_rel.under_rel_done`.
  No theorem depends on them.
* That the hand-written model says what the code does. The code was only read, never run. The comments cite the lines.
* What is assumed about libraries: Python's str/int/list/dict/heapq semantics as written in `Py.v`, `PyStr.v`, `HeapModel.v`;
  the utf-8 codec, json (the subset used), numpy integer dtypes and promotion as in `Utf8Model.v`, `JsonModel.v`,
  `NumpyModel.v`; pickle gives back what was pickled; Spark's `read.text`, `zipWithIndex`, `join`, `reduceByKey`,
  `mapPartitionsWithIndex` do what their documentation says.

## What is modelled

| /repo/nlcodec | model |
|---|---|
| codec.py: Type, Reseved, all five schemes (encode, decode, encode_str, decode_str, learn, stochastic_split, get_permutations, shrink_vocab), write_out/load/read_vocab, save, load_scheme, learn_vocab, encode, decode, encode_parallel | CodecModel, VocabFileModel, LearnModel, ShrinkModel, CliModel, MapredModel, DriverModel |
| bpe.py: BPELearn (create_index, learn_codes, merge bookkeeping), learn_subwords, learn_subwords_from_corpus | LearnBpeModel, HeapModel, RestModel |
| dstruct.py: TrNode, LnNode, MaxHeap | CodecModel (trie), LearnBpeModel and NodeModel (linked nodes), HeapModel |
| utils.py: n-grams, coverage filter, IO | EvalModel, LearnModel, IoModel |
| db/core.py: best_dtype, SeqField, Db, MultipartDb and its writer | NumpyModel, DbModel, MultipartModel |
| db/batch.py: IdExample, Batch, BatchIterable | BatchModel, MultipartModel, BatchIterModel |
| para/mapred.py: ireduce, MapReduce, word count | MapredModel, RestModel |
| spark.py, bitextdb.py | BitextModel |
| term_freq.py, learn.py | LearnModel, DriverModel, FreqModel |
| learn.py, term_freq.py, bitextdb.py: main, from the command line to the files left | ToolModel |
| eval/termfreq.py, eval/pr_measure.py, eval/oov_count.py, eval/bpe_len.py, qestim.py: main, from the command line to the files and the output left; the formatting of floats (:g, :.2f) is a parameter | GramModel |
| experimental/uxdx.py, experimental/unicode_fix.py: from the command line to the files and the output left; standard input and output are texts | ScriptCmdModel |
| eval/*.py, qestim.py | EvalModel, TrackModel, XtModel, DivergModel, RestModel |
| ../experimental/bpepp.py: codec, vocabulary files, learner, both levels, all commands | BpeppModel |
| ../experimental/bpepp.py: the parsers, run and main (751-853), with argparse's sub-commands and positional arguments | PpArgModel |
| ../experimental/uxdx.py, ../experimental/unicode_fix.py | ScriptModel |
| \_\_main\_\_.py: main, all four tasks; from the command line to the files left | CliModel, MainModel, CmdModel |
| the argument parsers of \_\_main\_\_.py, learn.py, term_freq.py, bitextdb.py, qestim.py, eval/*.py, experimental/uxdx.py and experimental/unicode_fix.py | ArgModel |

## What is not modelled

* Of argparse: prefix characters other than '-', sub-parsers other than those of bpepp, files of arguments, the texts of messages and help (ArgModel.v models the rest that the parsers of the package use, as of Python 3.11; 1500 random command lines gave the same namespaces, files and exit codes as Python's own argparse with the same declarations). float(), the locale and whether a path can be written are parameters.
* Log messages, progress bars, timing, `__repr__`/`format` for display (but for LnNode).
* Starting and stopping Spark sessions and process pools.
* gzip compression itself (a gzip file stands for its decompressed bytes); paths other than as keys of the file map (but for Path.with_suffix; './m' and 'm' are different keys); permissions and disk errors other than crashes.
* The tests. Of `experimental/bpepp.py`: logging, `LnNode`/`TrNode` display, the init_list of `_learn_codes` (no caller gives one).
* The torch library: `Batch.to`, `make_autoreg_mask` and `subsequent_mask` are modelled only up to the first missing method (C119).
* The name `np.long` (eval/bpe_len.py:72) does not exist in numpy 1.24 to 1.26, where making a BpeTracker fails; the model is of the versions that have it.
* Float overflow and subnormal numbers in the evaluation tools.

## Testing the theorems

`seeded/LOG.jsonl` has one line per wrong program: an edit of a definition of the model, applied in a scratch copy which was
then rebuilt. `theorems_failed` are the property theorems whose proofs, or lemmas they depend on, no longer go through;
`method` and `fails_itself` say how this was found. A proof that fails does not by itself show that the statement is false of the
wrong program; where the edit left every proof intact the theorems were strengthened (`theorems_tightened`).
