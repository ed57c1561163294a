{"id": "C01", "title": "Word pieces round-trip to the normalised line", "statement": "For the word scheme, decode_str(encode_str(line)) is line with every maximal run of whitespace replaced by one space and no leading or trailing whitespace, and encode_str(line) is exactly the list of maximal non-whitespace runs of line in order.", "quantifier": "every string line (any Unicode whitespace, empty, all-whitespace)", "why_tests_cant": "a test samples a handful of strings; the claim ranges over all Unicode strings, including every whitespace code point and empty input", "anchors": ["nlcodec/codec.py:WordScheme.encode_str", "nlcodec/codec.py:WordScheme.decode_str"]}
{"id": "C02", "title": "Word ids: exact encoding, UNK only for out-of-vocabulary words", "statement": "encode(line) of a constructed word scheme never fails and returns, for each word of line in order, the index of the table entry of that name, or 1 (UNK) iff no table entry has that name; decode(encode(line)) is the normalised line with exactly the out-of-vocabulary words replaced by '<unk>'.", "quantifier": "every table accepted by the constructor and every line", "why_tests_cant": "tables and lines are unbounded; a test cannot show absence of an input that fails or mis-indexes", "anchors": ["nlcodec/codec.py:EncoderScheme.encode", "nlcodec/codec.py:EncoderScheme.decode", "nlcodec/codec.py:WordScheme"]}
{"id": "C03", "title": "Ids round-trip through text for the word scheme", "statement": "For a word scheme whose type names are non-empty and whitespace-free, encode(decode(ids)) == ids for every list of valid non-negative ids.", "quantifier": "every such table and every list of ids in range", "why_tests_cant": "needs injectivity of the name index for all tables", "anchors": ["nlcodec/codec.py:EncoderScheme.__init__", "nlcodec/codec.py:EncoderScheme.decode"]}
{"id": "C04", "title": "Character scheme round-trip", "statement": "For the char scheme decode_str(encode_str(line)) is the whitespace-normalised line in which U+2581 is also read as a space; with ids, decode(encode(line)) is the same text with exactly the characters missing from the table replaced by '<unk>'.", "quantifier": "every table accepted by the constructor and every line", "why_tests_cant": "a test samples a handful of strings; the claim ranges over all Unicode strings, including every whitespace code point and empty input", "anchors": ["nlcodec/codec.py:CharScheme.encode_str", "nlcodec/codec.py:CharScheme.decode_str"]}
{"id": "C05", "title": "BPE encoding is greedy longest match and always terminates", "statement": "BPE encode_str(line) terminates and equals the left-to-right segmentation of the normalised, space-marked line in which each step takes the longest table name that is a prefix of the remaining text, or '<unk>' for one character when no name is a prefix.", "quantifier": "every BPE table accepted by the constructor with entries at their own index, and every line", "why_tests_cant": "the while loop backtracks through a trie; only an invariant over all loop states rules out a wrong match, skipped character or non-termination", "anchors": ["nlcodec/codec.py:BPEScheme.encode_str", "nlcodec/codec.py:BPEScheme.make_vocab_prefix_trie", "nlcodec/dstruct.py:TrNode.get_node"]}
{"id": "C06", "title": "BPE round-trip is lossless on covered text", "statement": "If every character of the normalised line, and the space marker, is itself a table entry, then decode(encode(line)) and decode_str(encode_str(line)) are the whitespace-normalised line (U+2581 in the line reads as a space), and no UNK id is produced unless the text spells '<unk>'.", "quantifier": "every BPE table and every covered line", "why_tests_cant": "depends on the segmentation of every possible line against every possible vocabulary", "anchors": ["nlcodec/codec.py:BPEScheme.encode", "nlcodec/codec.py:BPEScheme.decode_str"]}
{"id": "C07", "title": "BPE ids are always valid and pieces concatenate to the text", "statement": "encode(line) never raises for a BPE scheme whose entries sit at their own index, every id is a valid table index, and concatenating the pieces gives the space-marked normalised line with each character at which no table name matches replaced by '<unk>' and nothing else changed.", "quantifier": "every well-indexed BPE table and every line", "why_tests_cant": "exhausts all lines and vocabularies", "anchors": ["nlcodec/codec.py:BPEScheme.encode", "nlcodec/codec.py:BPEScheme.encode_str"]}
{"id": "C08", "title": "Stochastic splitting never changes the text", "statement": "If every type's two kids spell its name, encoding with any split_ratio and any random outcomes decodes to the same text as encoding without splitting, and produces only valid ids.", "quantifier": "every table with name-concatenating kids, every line, every sequence of random draws", "why_tests_cant": "the draws are random: tests see a few of infinitely many outcomes", "anchors": ["nlcodec/codec.py:Type.get_stochastic_split", "nlcodec/codec.py:BPEScheme.stochastic_split", "nlcodec/codec.py:BPEScheme.encode"]}
{"id": "C09", "title": "get_permutations is exactly the set of possible splits", "statement": "get_permutations lists precisely the piece sequences that get_stochastic_split can return over all random outcomes, the unsplit type first; each sequence spells the type's name; both raise for a type whose kids are not a pair.", "quantifier": "every type tree and every sequence of random draws", "why_tests_cant": "set equality over all random outcomes of a recursive procedure", "anchors": ["nlcodec/codec.py:Type.get_permutations", "nlcodec/codec.py:Type.get_stochastic_split"]}
{"id": "C10", "title": "Class scheme maps labels one-to-one", "statement": "A class scheme encodes a label (surrounding whitespace stripped) to the unique index of that label, decode([i]) is the label at i, a known label round-trips, and an unknown label encodes to [-1].", "quantifier": "every table without duplicate labels and every line", "why_tests_cant": "all labels, including ones with commas, inner whitespace or the empty label", "anchors": ["nlcodec/codec.py:ClassScheme", "nlcodec/codec.py:EncoderScheme.__init__"]}
{"id": "C11", "title": "Unknown class labels do not silently decode to another label", "statement": "decode(encode(label)) for a label that is not in a class scheme's table does not return a (different) label of the table.", "quantifier": "every class table and every unknown label", "why_tests_cant": "requires reasoning about Python negative indexing for every table", "anchors": ["nlcodec/codec.py:ClassScheme.unk_idx", "nlcodec/codec.py:EncoderScheme.decode"]}
{"id": "C12", "title": "Byte scheme round-trip", "statement": "ByteScheme decode(encode(s)) == s and decode_str(encode_str(s)) == s for every text s without lone surrogates.", "quantifier": "every string of Unicode scalar values", "why_tests_cant": "a test tries a few strings; correctness depends on every byte value and adjacent pair", "anchors": ["nlcodec/codec.py:ByteScheme.encode_str", "nlcodec/codec.py:ByteScheme.decode_str", "nlcodec/codec.py:ByteScheme.compose_str", "nlcodec/codec.py:ByteScheme.code_to_str"]}
{"id": "C13", "title": "Byte decoding is total on valid ids and keeps sentence markers", "statement": "ByteScheme.decode returns text for every list of valid ids; BOS/EOS ids appear literally as '<s>' and '</s>' and the bytes between them decode independently.", "quantifier": "every list of ids in [0,258)", "why_tests_cant": "ids come from a model's free generation, any sequence can occur", "anchors": ["nlcodec/codec.py:ByteScheme.decode_str", "nlcodec/codec.py:ByteScheme.decode"]}
{"id": "C14", "title": "Prefix trie behaves like a map from names", "statement": "After building the trie from any list of types, looking up a name yields the last type inserted under that name and nothing for any other string; data_node_count is the number of distinct names and size the number of distinct prefixes (including the empty one).", "quantifier": "every list of types with non-empty names and every query string", "why_tests_cant": "every insertion order and every overlap of prefixes", "anchors": ["nlcodec/dstruct.py:TrNode.get_node", "nlcodec/dstruct.py:TrNode.size", "nlcodec/dstruct.py:TrNode.data_node_count", "nlcodec/codec.py:BPEScheme.make_vocab_prefix_trie"]}
{"id": "C15", "title": "Vocabulary files round-trip", "statement": "For a table whose entries sit at their own index, whose kids are earlier entries and whose names contain no tab, newline, carriage return or lone surrogate, read_vocab(write_out(table)) returns the same table (name, index, level, frequency, kids) and the metadata, and the header tells the number of entries, the largest level and the number of entries of each level.", "quantifier": "every such table of any length", "why_tests_cant": "all tables, names with any other characters (leading/trailing spaces, '#', empty names), any frequencies", "anchors": ["nlcodec/codec.py:Type.format", "nlcodec/codec.py:Type.parse", "nlcodec/codec.py:Type.write_out", "nlcodec/codec.py:Type.read_vocab"]}
{"id": "C16", "title": "Saving and loading preserves the codec", "statement": "load_scheme of the file saved by a scheme's save() gives a scheme of the same kind, and encode, encode_str, decode and decode_str agree with the original on every input.", "quantifier": "every constructed scheme of every kind with file-safe names, every line and id list", "why_tests_cant": "behavioural equality over all inputs", "anchors": ["nlcodec/codec.py:EncoderScheme.save", "nlcodec/codec.py:load_scheme", "nlcodec/codec.py:REGISTRY"]}
{"id": "C17", "title": "Corrupt vocabularies are rejected, not misread", "statement": "write_out refuses a table with an entry away from its own index; read_vocab refuses a file whose row numbers are not 0,1,2,... or whose kids refer to the same or a later row; a word or char scheme is constructed iff the six reserved names are at indices 0-5 and all names are distinct.", "quantifier": "every table and every file", "why_tests_cant": "all malformed inputs", "anchors": ["nlcodec/codec.py:Type.write_out", "nlcodec/codec.py:Type.parse", "nlcodec/codec.py:Type.read_vocab", "nlcodec/codec.py:Reseved.validate", "nlcodec/codec.py:EncoderScheme.__init__"]}
{"id": "C18", "title": "Every saved class label can be reloaded", "statement": "A class vocabulary learned from any list of labels and saved can be loaded back.", "quantifier": "every list of label lines", "why_tests_cant": "labels are arbitrary text; only inner tabs or line breaks break it", "anchors": ["nlcodec/codec.py:ClassScheme.get_init_vocab", "nlcodec/codec.py:Type.format", "nlcodec/codec.py:Type.parse"]}
{"id": "C19", "title": "Term counting is exact", "statement": "term_frequencies(data) returns for each word (or, for the char scheme, character of the marked text) the exact number of its occurrences over all lines, keys in order of first occurrence, and the number of lines.", "quantifier": "every list of lines", "why_tests_cant": "all corpora", "anchors": ["nlcodec/codec.py:WordScheme.term_frequencies"]}
{"id": "C20", "title": "Layout of a learned flat vocabulary", "statement": "get_init_vocab returns a table that starts with the six reserved types at 0-5, has every entry at its own index, has pairwise distinct names, and is accepted by the scheme constructor.", "quantifier": "every term-frequency dict, coverage, min_freq, line count and vocab_size", "why_tests_cant": "all combinations of corpora containing reserved tokens and trimming options", "anchors": ["nlcodec/codec.py:EncoderScheme.get_init_vocab", "nlcodec/codec.py:Reseved.with_reserved_types"]}
{"id": "C21", "title": "Frequency mass is conserved", "statement": "The frequencies in a learned word vocabulary add up to the number of tokens in the corpus plus the line count once for each of BOS, EOS and CLS: everything trimmed by coverage, min_freq or size is credited to UNK, and reserved names found in the corpus keep their counts.", "quantifier": "every corpus and every trimming setting", "why_tests_cant": "conservation must hold for every combination of the three trimming stages", "anchors": ["nlcodec/codec.py:EncoderScheme.get_init_vocab", "nlcodec/utils.py:filter_types_coverage"]}
{"id": "C22", "title": "Requested vocabulary size is an upper bound", "statement": "When vocab_size > 0 the learned flat vocabulary has at most vocab_size entries (never counting fewer than the six reserved ones).", "quantifier": "every corpus and every positive vocab_size", "why_tests_cant": "boundary values of the slice arithmetic", "anchors": ["nlcodec/codec.py:EncoderScheme.get_init_vocab"]}
{"id": "C23", "title": "Which types are kept, and in which order", "statement": "Without coverage trimming, the non-reserved entries are exactly the most frequent non-reserved types with frequency >= min_freq, in order of decreasing frequency, ties in order of first occurrence, cut at vocab_size.", "quantifier": "every corpus, min_freq and vocab_size >= 6", "why_tests_cant": "stability and boundary behaviour of the sort for all multisets", "anchors": ["nlcodec/codec.py:EncoderScheme.get_init_vocab"]}
{"id": "C24", "title": "Coverage filter keeps a minimal most-frequent prefix", "statement": "filter_types_coverage keeps a prefix of the types in decreasing frequency order that ends at the first type where the accumulated share reaches the coverage (all types if never reached) and reports exactly the total frequency of the rest.", "quantifier": "every frequency dict and coverage in (0,1]", "why_tests_cant": "float accumulation and all frequency profiles", "anchors": ["nlcodec/utils.py:filter_types_coverage"]}
{"id": "C25", "title": "Class vocabularies do not depend on input order", "statement": "learning a class vocabulary gives the same table for any permutation of the label lines: distinct stripped labels in increasing code-point order with their exact counts.", "quantifier": "every list of lines and every permutation of it", "why_tests_cant": "all permutations", "anchors": ["nlcodec/codec.py:ClassScheme.get_init_vocab", "nlcodec/codec.py:ClassScheme.encode_str"]}
{"id": "C26", "title": "Term-frequency files round-trip", "statement": "read_term_freqs applied to the output of write_stats returns the same term-to-frequency map and line_count (-1 when none was given), for terms produced by whitespace splitting. The first line of the file is a comment holding a JSON object with the number of types, the number of tokens and every keyword given.", "quantifier": "every frequency dict over whitespace-free terms (including terms starting with '#')", "why_tests_cant": "all terms, including those that look like the header", "anchors": ["nlcodec/term_freq.py:write_stats", "nlcodec/codec.py:WordScheme.read_term_freqs"]}
{"id": "C27", "title": "The optimised BPE learner computes textbook BPE", "statement": "learn_codes with its linked lists, bigram index and lazily corrected heap produces the same merge sequence as the textbook algorithm that recounts all adjacent pairs after each merge, merges the most frequent pair (ties: smallest index pair), and records its frequency; it stops after n_merges merges or when the best pair is below min_co_evidence.", "quantifier": "every corpus of index sequences with positive frequencies, every initial table, every n_merges and min_co_evidence, every iteration order of the node sets", "why_tests_cant": "incremental index maintenance must be right in every reachable state and for every set iteration order (hash = memory address)", "anchors": ["nlcodec/bpe.py:BPELearn.learn_codes", "nlcodec/bpe.py:BPELearn.create_index", "nlcodec/dstruct.py:LnNode", "nlcodec/dstruct.py:MaxHeap"]}
{"id": "C28", "title": "Structure of a learned BPE table", "statement": "Each learned subword has exactly two kids at smaller indices, its name is the concatenation of theirs, its recorded frequency is at least min_co_evidence, and recorded frequencies never increase with the index; existing entries are unchanged and the table has at most n_merges new entries.", "quantifier": "every corpus, table, parameters and set iteration order", "why_tests_cant": "holds for every run", "anchors": ["nlcodec/bpe.py:BPELearn.learn_codes"]}
{"id": "C29", "title": "BPE learning never trips its internal assertions", "statement": "For positive frequencies, learn_codes fails no assertion and raises no KeyError; the only failure is running out of pairs.", "quantifier": "every corpus and every set iteration order", "why_tests_cant": "the code comments say 'not sure why if is needed here': only an invariant settles it", "anchors": ["nlcodec/bpe.py:BPELearn.learn_codes"]}
{"id": "C30", "title": "BPE learning returns a vocabulary when the corpus runs out of pairs", "statement": "learn_codes returns the table learned so far when no pair is left to merge before n_merges merges were made.", "quantifier": "every corpus, n_merges and min_co_evidence", "why_tests_cant": "the exhausted-heap path depends on all lazy corrections", "anchors": ["nlcodec/bpe.py:BPELearn.learn_codes", "nlcodec/dstruct.py:MaxHeap.pop"]}
{"id": "C31", "title": "BPE learning is deterministic", "statement": "Two runs of learn_codes on the same corpus and parameters return the same table, whatever the iteration order of the node sets.", "quantifier": "every corpus and every pair of iteration orders", "why_tests_cant": "set order depends on memory addresses, tests see one order per run", "anchors": ["nlcodec/bpe.py:BPELearn.learn_codes", "nlcodec/dstruct.py:LnNode.__hash__"]}
{"id": "C32", "title": "The initial bigram index is consistent", "statement": "create_index counts every adjacent pair and every unigram exactly (weighted by frequency) and validate_index accepts the result for every non-empty corpus of in-range indices with non-negative frequencies whose first sequence is not empty.", "quantifier": "every such corpus", "why_tests_cant": "all corpora", "anchors": ["nlcodec/bpe.py:BPELearn.create_index", "nlcodec/bpe.py:BPELearn.validate_index"]}
{"id": "C33", "title": "MaxHeap returns items in decreasing priority", "statement": "After any sequence of pushes, pops and peeks starting from any dict, pop returns an item of maximal value (ties: the smallest item) and removes exactly that entry, and peek returns the same item and removes nothing; they raise IndexError iff the heap is empty.", "quantifier": "every initial dict and every history of push/pop", "why_tests_cant": "all histories", "anchors": ["nlcodec/dstruct.py:MaxHeap"]}
{"id": "C34", "title": "shrink_vocab keeps a closed, correctly renumbered sub-table", "statement": "On a well-formed table and data with at least one token, shrink_vocab never fails and returns a strictly increasing list of old indices that contains every reserved type, every type seen at least min_freq times and all (transitive) kids of kept types, and nothing else; the saved table has the kept types in that order, renumbered, with kids pointing to the renumbered kids.", "quantifier": "every well-formed table, every frequency profile and min_freq", "why_tests_cant": "closure over kids for every merge DAG", "anchors": ["nlcodec/codec.py:EncoderScheme.shrink_vocab"]}
{"id": "C35", "title": "Shrinking does not change how the given data is encoded", "statement": "With min_freq <= 1, encoding any line of the given files with the shrunk table yields the same pieces as before, and the returned mapping translates the new ids to the old ids.", "quantifier": "every well-formed table (word, char, bpe), every list of lines", "why_tests_cant": "greedy matching against a smaller vocabulary must agree for every line", "anchors": ["nlcodec/codec.py:EncoderScheme.shrink_vocab", "nlcodec/codec.py:BPEScheme.encode"]}
{"id": "C36", "title": "A shrunk vocabulary loads as the same kind of scheme", "statement": "The file saved by shrink_vocab loads as a scheme of the same kind as the original.", "quantifier": "every scheme kind and every shrink result", "why_tests_cant": "the fallback by max level is only exercised by some tables", "anchors": ["nlcodec/codec.py:EncoderScheme.shrink_vocab", "nlcodec/codec.py:load_scheme"]}
{"id": "C37", "title": "best_dtype is sound and minimal", "statement": "best_dtype(mn,mx) returns a type whose range contains [mn,mx] and no narrower option does (signed is used only when needed); it fails iff no 64-bit type fits.", "quantifier": "every pair of integers mn <= mx", "why_tests_cant": "unbounded integers and all 16 boundaries", "anchors": ["nlcodec/db/core.py:best_dtype"]}
{"id": "C38", "title": "Stored sequences read back exactly", "statement": "For any sequence of appends with distinct ids and any buffer size, field[id] of the built field equals the appended sequence and get_len its length, provided values fit below 2**32 (or lie within +-2**53, numerically).", "quantifier": "every history of appends, every buffer size", "why_tests_cant": "buffer flush points and dtype promotion interact for every history", "anchors": ["nlcodec/db/core.py:SeqField.Builder", "nlcodec/db/core.py:SeqField.__getitem__"]}
{"id": "C39", "title": "Large 64-bit values survive storage", "statement": "Any 64-bit non-negative integer value stored in a field reads back unchanged.", "quantifier": "every value below 2**64", "why_tests_cant": "needs numpy promotion rules for all type pairs", "anchors": ["nlcodec/db/core.py:SeqField.Builder.shrink", "nlcodec/db/core.py:best_dtype"]}
{"id": "C40", "title": "Offset arithmetic never wraps", "statement": "The fixed-width start+length computed on a lookup never overflows the dtype chosen for the references, so lookups never return a truncated or shifted slice.", "quantifier": "every history of appends", "why_tests_cant": "overflow only at specific total sizes", "anchors": ["nlcodec/db/core.py:SeqField.Builder.build", "nlcodec/db/core.py:SeqField.__getitem__"]}
{"id": "C41", "title": "Duplicate ids and empty databases are refused", "statement": "Building a field (or Db) raises if an id was appended twice or if nothing was appended, and succeeds otherwise for in-range values.", "quantifier": "every history of appends", "why_tests_cant": "all histories", "anchors": ["nlcodec/db/core.py:SeqField.__init__", "nlcodec/db/core.py:Db.create"]}
{"id": "C42", "title": "Db lookups return the created record", "statement": "Db.create then db[id] returns the record given for id in the field order, len(db) is the number of records, an unknown id raises KeyError, and iterating yields each record exactly once.", "quantifier": "every list of records, any number of fields, explicit or generated ids, every set iteration order", "why_tests_cant": "all record lists and orders", "anchors": ["nlcodec/db/core.py:Db.create", "nlcodec/db/core.py:Db.__getitem__", "nlcodec/db/core.py:Db.__iter__"]}
{"id": "C43", "title": "Shuffled iteration over a Db visits every record once", "statement": "Iterating a Db loaded with shuffle=True yields each record exactly once in some order.", "quantifier": "every Db and every random outcome", "why_tests_cant": "random order", "anchors": ["nlcodec/db/core.py:Db.__iter__"]}
{"id": "C44", "title": "Equal-length batching loses and duplicates nothing", "statement": "The batches of make_eq_len_ran_batches contain each record whose fields are all non-empty exactly once and no other record, in every random order; each batch has (number of records) x (longest field) <= max_toks; it raises when a record is longer than max_toks.", "quantifier": "every Db, max_toks, max_sents and every shuffle outcome", "why_tests_cant": "random shuffles and all length profiles", "anchors": ["nlcodec/db/core.py:Db._make_eq_len_batch_ids", "nlcodec/db/core.py:Db.make_eq_len_ran_batches"]}
{"id": "C45", "title": "max_sents bounds the batch size", "statement": "No batch of make_eq_len_ran_batches has more than max_sents records.", "quantifier": "every Db and max_sents >= 1", "why_tests_cant": "off-by-one only visible at specific length profiles", "anchors": ["nlcodec/db/core.py:Db._make_eq_len_batch_ids"]}
{"id": "C46", "title": "Sequential batching preserves order and limits", "statement": "BatchIterable without sorting yields the records with non-empty x and y exactly once in iteration order; each batch has at most max_sents records and (number of records) x (longest side) <= max_toks before BOS/EOS insertion; it raises iff a record is longer than max_toks.", "quantifier": "every record stream, max_toks and max_sents >= 1", "why_tests_cant": "all streams", "anchors": ["nlcodec/db/batch.py:BatchIterable.read_all"]}
{"id": "C47", "title": "Batches pad without losing or mixing tokens", "statement": "In a Batch, row i of x_seqs (y_seqs) is the i-th example's sequence followed by pad tokens up to the longest, x_len its true length, x_toks the sum; x and y rows stay aligned under sort_dec; batch_first=False gives the transpose.", "quantifier": "every non-empty list of examples and every flag combination", "why_tests_cant": "all shapes", "anchors": ["nlcodec/db/batch.py:Batch.__init__"]}
{"id": "C48", "title": "BOS/EOS insertion is exact and idempotent", "statement": "After bos_eos_check with bos and eos set, each non-empty sequence starts with BOS and ends with EOS, at most one token was added on either side and the original tokens are intact; applying it again changes nothing; with the flag unset it raises iff the marker is present.", "quantifier": "every sequence and every BOS/EOS value", "why_tests_cant": "all sequences", "anchors": ["nlcodec/db/batch.py:Batch.val_exists", "nlcodec/db/batch.py:Batch.bos_eos_check"]}
{"id": "C49", "title": "The token budget holds for the padded batch", "statement": "The padded x_seqs and y_seqs of each yielded batch have at most max_toks cells.", "quantifier": "every record stream and batch meta", "why_tests_cant": "BOS/EOS are added after batching", "anchors": ["nlcodec/db/batch.py:BatchIterable.read_all", "nlcodec/db/batch.py:Batch.__init__"]}
{"id": "C50", "title": "Slicing a stream loses nothing", "statement": "MultipartDb.slices(stream, size) with fully consumed slices yields consecutive non-empty chunks of exactly size items (the last possibly shorter) whose concatenation is the stream, for size >= 1.", "quantifier": "every stream and size", "why_tests_cant": "all lengths", "anchors": ["nlcodec/db/core.py:MultipartDb.slices"]}
{"id": "C51", "title": "Multipart create/load round-trip", "statement": "MultipartDb.create followed by iteration yields every record exactly once with its id, and len(db) is the number of records, for every part size >= 1 and every directory listing order.", "quantifier": "every non-empty record list with distinct ids, part size, listing order", "why_tests_cant": "file system order and part boundaries", "anchors": ["nlcodec/db/core.py:MultipartDb.create", "nlcodec/db/core.py:MultipartDb.Writer", "nlcodec/db/core.py:MultipartDb.load", "nlcodec/db/core.py:MultipartDb.__iter__"]}
{"id": "C52", "title": "An interrupted write is never read as complete", "statement": "If MultipartDb.create (fresh directory) is interrupted at any point, load either refuses the directory or the database is complete; an exception inside a Writer with-block leaves no success flag.", "quantifier": "every record list and every crash point", "why_tests_cant": "crash points are interleaved with file system effects", "anchors": ["nlcodec/db/core.py:MultipartDb.Writer", "nlcodec/db/core.py:MultipartDb.load"]}
{"id": "C53", "title": "An interrupted overwrite is never read as complete", "statement": "If MultipartDb.create with overwrite=True is interrupted at any point, load either refuses the directory or yields a complete database (old or new).", "quantifier": "every old and new content, every crash point and removal order", "why_tests_cant": "crash inside recursive removal", "anchors": ["nlcodec/db/core.py:MultipartDb.Writer.__init__", "nlcodec/db/core.py:MultipartDb.load"]}
{"id": "C54", "title": "Existing data is not overwritten without permission", "statement": "With overwrite=False, creating a multipart db in a non-empty directory raises and leaves every file unchanged.", "quantifier": "every directory content", "why_tests_cant": "all directory states", "anchors": ["nlcodec/db/core.py:MultipartDb.Writer.__init__"]}
{"id": "C55", "title": "Part file names are unambiguous", "statement": "Distinct part numbers get distinct part file names for any padding, and the part name recovered from the .meta file name in close() is the name of the part file.", "quantifier": "every part number and max_parts", "why_tests_cant": "rstrip('.meta') strips a character set; correctness needs every name to end in a digit", "anchors": ["nlcodec/db/core.py:MultipartDb.Writer.__call__", "nlcodec/db/core.py:MultipartDb.Writer.close", "nlcodec/db/core.py:part_path_pads"]}
{"id": "C56", "title": "Tree reduction equals a left fold", "statement": "ireduce over a non-empty stream with an associative function whose right identity is default returns the left fold of the items in order (a single item is returned unchanged); on an empty stream it raises AssertionError; it always terminates.", "quantifier": "every non-empty list, every associative function", "why_tests_cant": "all lengths, non-commutative functions", "anchors": ["nlcodec/para/mapred.py:IterativeReducer.__call__", "nlcodec/para/mapred.py:pair_subsequent", "nlcodec/para/mapred.py:ireduce"]}
{"id": "C57", "title": "Map-reduce word counts are exact and the shared default stays empty", "statement": "WordCounter over any non-empty list of lines returns the exact count of every word; merge_freqs adds counts pointwise, and the shared default dict is never modified or returned; the word count program prints the same counts with the most frequent words first.", "quantifier": "every list of lines", "why_tests_cant": "aliasing of the mutable default over every reduction tree", "anchors": ["nlcodec/para/mapred.py:merge_freqs", "nlcodec/para/mapred.py:WordCounter", "nlcodec/para/mapred.py:word_count_line"]}
{"id": "C58", "title": "Parallel encoding equals sequential encoding", "statement": "encode_parallel yields encode(line) for each line in input order, whatever order the workers finish in.", "quantifier": "every input, chunk size, number of processes above 1 (fewer are refused by an assertion) and completion order", "why_tests_cant": "scheduling", "anchors": ["nlcodec/codec.py:EncoderScheme.encode_parallel", "nlcodec/codec.py:EncoderScheme.parallel_map"]}
{"id": "C59", "title": "Plain text cannot inject control ids", "statement": "Encoding user text never produces the ids of PAD, BOS, EOS or CLS.", "quantifier": "every table and every line, for word, char and bpe schemes", "why_tests_cant": "all strings", "anchors": ["nlcodec/codec.py:EncoderScheme.encode", "nlcodec/codec.py:BPEScheme.encode"]}
{"id": "C60", "title": "Command line encode then decode restores the text", "statement": "Piping lines through 'encode' and its output through 'decode' (with or without indices) gives the whitespace-normalised lines for word, char and bpe models on covered text, one output line per input line.", "quantifier": "every list of input lines", "why_tests_cant": "all texts; the pieces are joined and re-split on spaces", "anchors": ["nlcodec/__main__.py:main", "nlcodec/codec.py:encode", "nlcodec/codec.py:decode"]}
{"id": "C61", "title": "Command line round-trip for class and byte models", "statement": "Piping lines through 'encode' and 'decode' restores each line also for class and byte models.", "quantifier": "every list of input lines", "why_tests_cant": "labels with spaces, lines with their newline", "anchors": ["nlcodec/__main__.py:main", "nlcodec/codec.py:ClassScheme", "nlcodec/codec.py:ByteScheme"]}
{"id": "C62", "title": "n-grams and precision/recall are exact and bounded", "statement": "make_n_grams lists the len-n+1 contiguous n-grams in order; gram recalls, precisions and F1 lie in [0,1], and (in exact arithmetic) F1 is the harmonic mean and lies between the smaller and the larger of precision and recall.", "quantifier": "every pair of sequences and n >= 1", "why_tests_cant": "all sequences", "anchors": ["nlcodec/utils.py:make_n_grams", "nlcodec/eval/pr_measure.py:count_gram_recall", "nlcodec/eval/pr_measure.py:f1_measure"]}
{"id": "C63", "title": "Imbalance measure is a bounded distance", "statement": "EMD_simple of non-negative counts with positive sum lies in [0, 1-1/k], is 0 iff all counts are equal, and does not depend on the order of types (exact arithmetic).", "quantifier": "every count vector", "why_tests_cant": "all vectors", "anchors": ["nlcodec/qestim.py:QualityEstimator.EMD_simple"]}
{"id": "C64", "title": "Quality estimation counts tokens and unknowns exactly", "statement": "estimate reports n_tokens as the total length of the encoded lines and unk_count as the number of UNK ids in them.", "quantifier": "every scheme and every non-empty list of lines", "why_tests_cant": "class scheme uses -1 as unk index", "anchors": ["nlcodec/qestim.py:QualityEstimator._estimate"]}
{"id": "C65", "title": "Merge tracking keeps exact unigram counts", "statement": "After each merge tracked by BpeTracker, its unigram counts equal the counts in the merged corpus.", "quantifier": "every corpus and merge list", "why_tests_cant": "repeats like 'aaa'", "anchors": ["nlcodec/eval/bpe_len.py:BpeTracker.track_merges"]}
{"id": "C66", "title": "Bitext records stay aligned and within limits", "statement": "read_raw_bitext_tok pairs line i of the source with line i of the target under id i, drops exactly the pairs with an empty side (an empty line or one with no tokens), and with truncate=True returns the first src_len/tgt_len ids of each side, if at least one pair is left; texts with different numbers of lines are refused.", "quantifier": "every pair of equally long files and every tokenizer", "why_tests_cant": "all inputs and partitionings", "anchors": ["nlcodec/spark.py:read_raw_bitext", "nlcodec/spark.py:read_raw_bitext_tok"]}
{"id": "C67", "title": "Without truncation only longer pairs are dropped", "statement": "With truncate=False a pair is dropped only if one side is longer than its limit.", "quantifier": "every pair and every limit", "why_tests_cant": "boundary length", "anchors": ["nlcodec/spark.py:read_raw_bitext_tok"]}
{"id": "C68", "title": "Learned BPE vocabulary encodes its own corpus losslessly", "statement": "A table returned by learning BPE on a corpus with full character coverage (coverage keeps all characters) is accepted by BPEScheme, and encoding then decoding any line over the corpus alphabet gives the normalised line.", "quantifier": "every corpus, vocabulary size, min_co_evidence and every later line over the corpus alphabet", "why_tests_cant": "end-to-end over all corpora", "anchors": ["nlcodec/codec.py:BPEScheme.learn", "nlcodec/bpe.py:BPELearn.learn_subwords", "nlcodec/codec.py:BPEScheme"]}
{"id": "C69", "title": "Learned subwords are made of real characters", "statement": "No subword learned by BPE contains a reserved placeholder such as '<unk>' as one of its pieces.", "quantifier": "every corpus and coverage", "why_tests_cant": "only visible when coverage trims characters that then co-occur often", "anchors": ["nlcodec/bpe.py:BPELearn._make_idxs", "nlcodec/bpe.py:BPELearn.learn_codes"]}
{"id": "C70", "title": "Requested BPE vocabulary size is respected", "statement": "learn for bpe returns at most vocab_size types, raises if vocab_size does not exceed the initial vocabulary, and keeps reserved types and characters before all merges.", "quantifier": "every corpus and vocab_size", "why_tests_cant": "all corpora", "anchors": ["nlcodec/bpe.py:BPELearn._learn_codes", "nlcodec/bpe.py:BPELearn.learn_subwords", "nlcodec/codec.py:BPEScheme.learn"]}
{"id": "C71", "title": "Truncated vocabulary files are detected", "statement": "load_scheme refuses a vocabulary file that has fewer rows than its header announces, and a save() that raised leaves no file that load_scheme accepts.", "quantifier": "every table, every truncation at a row boundary and every failed save", "why_tests_cant": "a test truncates one file; the claim ranges over all tables and cut points", "anchors": ["nlcodec/codec.py:Type.write_out", "nlcodec/codec.py:Type.read_vocab", "nlcodec/codec.py:load_scheme"]}
{"id": "C72", "title": "Coverage 1 keeps every type", "statement": "filter_types_coverage with coverage=1 keeps every type of positive frequency and reports no excluded tokens.", "quantifier": "every dict of positive frequencies", "why_tests_cant": "the failing dicts depend on floating-point rounding of shares and are never met by small fixtures", "anchors": ["nlcodec/utils.py:filter_types_coverage"]}
{"id": "C73", "title": "A learned BPE vocabulary survives saving and loading", "statement": "A table learned by BPE from text is accepted by BPEScheme, can be saved, and load_scheme of the saved file gives a scheme equal to the saved one.", "quantifier": "every corpus whose words hold no tab, line break or lone surrogate, every size, coverage and min_co_evidence, every set iteration order", "why_tests_cant": "tests save one learned model", "anchors": ["nlcodec/codec.py:BPEScheme.learn", "nlcodec/codec.py:Type.write_out", "nlcodec/codec.py:load_scheme"]}
{"id": "C74", "title": "Stochastic splitting with a learned vocabulary keeps the text", "statement": "With a table learned by BPE from text, every stochastic split of a line decodes to the same text as the deterministic encoding, and all its ids are valid.", "quantifier": "every corpus, parameters, line and sequence of random outcomes", "why_tests_cant": "random outcomes cannot be enumerated by tests", "anchors": ["nlcodec/codec.py:BPEScheme.encode", "nlcodec/codec.py:Type.get_stochastic_split", "nlcodec/codec.py:BPEScheme.learn"]}
{"id": "C75", "title": "num_batches tells how many batches will come", "statement": "BatchIterable.num_batches equals the number of batches that iterating yields.", "quantifier": "every data set and max_toks", "why_tests_cant": "tests compare one data set where records have length 1", "anchors": ["nlcodec/db/batch.py:BatchIterable.num_batches", "nlcodec/db/batch.py:BatchIterable.read_all"]}
{"id": "C76", "title": "Equal-length batches over all parts", "statement": "MultipartDb.make_eq_len_ran_batches yields every record without empty columns exactly once, in batches that stay within max_toks and do not mix parts.", "quantifier": "every record list, part size, parts order and shuffle", "why_tests_cant": "part boundaries decide which parts have no usable record", "anchors": ["nlcodec/db/core.py:MultipartDb.make_eq_len_ran_batches", "nlcodec/db/core.py:Db.make_eq_len_ran_batches"]}
{"id": "C77", "title": "pr_measure reports the grams of the requested size", "statement": "The report lists every n-gram of the references (and, with a frequency file, listed n-grams of the candidates) once, most frequent first, with exact frequencies, recall, precision and F1, where n is the value of --n.", "quantifier": "every pair of encoded files of equal length, every n >= 1, with and without a frequency file", "why_tests_cant": "option handling and defaults interact with all inputs", "anchors": ["nlcodec/eval/pr_measure.py:main", "nlcodec/eval/pr_measure.py:count_gram_recall"]}
{"id": "C78", "title": "oov_count partitions the tokens exactly", "statement": "oov_count splits the distinct tokens of its input into those in the vocabulary and those outside it, counts each exactly once, and its two percentages sum to 100; it refuses input without tokens.", "quantifier": "every input and every non-byte vocabulary", "why_tests_cant": "all inputs", "anchors": ["nlcodec/eval/oov_count.py:partition_vocab_toks", "nlcodec/eval/oov_count.py:main"]}
{"id": "C79", "title": "termfreq lists exact gram frequencies", "statement": "termfreq writes every n-gram of the encoded lines once, with its exact number of occurrences and the names of its ids, most frequent first.", "quantifier": "every text, n >= 1 and word, character or BPE vocabulary", "why_tests_cant": "all inputs", "anchors": ["nlcodec/eval/termfreq.py:main", "nlcodec/utils.py:make_n_grams_all"]}
{"id": "C80", "title": "Parallel text in which no pair is usable gives an empty result", "statement": "If every pair has an empty side, or truncate=False and every pair is too long, read_raw_bitext_tok returns no rows.", "quantifier": "every pair of equally long texts without a usable pair", "why_tests_cant": "empty inputs and filters combine", "anchors": ["nlcodec/spark.py:read_raw_bitext_tok"]}
{"id": "C81", "title": "rdd_as_db stores every record whatever the partitions", "statement": "rdd_as_db writes every record of the RDD exactly once under its id and returns the loaded database, for every partitioning of the RDD, every repartition count and every order of the tasks.", "quantifier": "every RDD with distinct ids, partitioning, repartition count, order of tasks and directory listing", "why_tests_cant": "partitioning is chosen by Spark at run time", "anchors": ["nlcodec/spark.py:rdd_as_db", "nlcodec/db/core.py:MultipartDb.Writer"]}
{"id": "C82", "title": "bitextdb stores the encoded pairs under their line numbers", "statement": "If bitextdb finishes, the database it leaves has exactly the encoded pairs of lines with non-empty sides, each once under its line number, cut to the limits (or, with --no-truncate, those below the limits); without --tgt-model both sides are encoded with the source model; with --num-parts N > 0 there are N part files.", "quantifier": "every pair of texts, model files, limits and placement of rows", "why_tests_cant": "end to end over files and partitions", "anchors": ["nlcodec/bitextdb.py:main", "nlcodec/spark.py:read_raw_bitext_tok", "nlcodec/spark.py:rdd_as_db"]}
{"id": "C83", "title": "bitextdb names the columns as asked", "statement": "The columns of the database written by bitextdb have the names given with --src-col and --tgt-col.", "quantifier": "every pair of column names", "why_tests_cant": "options that are parsed and not used", "anchors": ["nlcodec/bitextdb.py:main", "nlcodec/bitextdb.py:parse_args"]}
{"id": "C84", "title": "Merge tracking gives the exact length of every line at every size", "statement": "estimate_lens on a stored BPE vocabulary returns one row for each vocabulary size from the basic types to the whole table and never fails; the mean length in the row after j merges is the mean length of the lines, encoded with the basic types, after those j merges were applied everywhere one after the other, whatever order the sets of positions are walked in.", "quantifier": "every vocabulary file with basic types first and then two-kid merges, every corpus and every set iteration order", "why_tests_cant": "pointer surgery over all overlaps and orders", "anchors": ["nlcodec/eval/bpe_len.py:BpeTracker", "nlcodec/eval/bpe_len.py:BPECodecXt", "nlcodec/eval/bpe_len.py:estimate_lens"]}
{"id": "C85", "title": "Tracked mean length never grows with the vocabulary", "statement": "In the rows returned by track_merges the mean sequence length of a larger vocabulary is never above that of a smaller one.", "quantifier": "every corpus, merge list and set iteration order", "why_tests_cant": "all pairs of rows", "anchors": ["nlcodec/eval/bpe_len.py:BpeTracker.track_merges"]}
{"id": "C86", "title": "Tracked length is the length after encoding with that many types", "statement": "The mean length reported for k types is the mean length of the same lines encoded with the BPE codec over the first k types of the vocabulary.", "quantifier": "every vocabulary, corpus and k", "why_tests_cant": "merge order and longest match differ only on some inputs", "anchors": ["nlcodec/eval/bpe_len.py:BpeTracker.track_merges", "nlcodec/codec.py:BPEScheme.encode"]}
{"id": "C87", "title": "Merge tracking is deterministic", "statement": "Two runs of track_merges on the same vocabulary and corpus return the same rows, whatever the iteration order of the sets of positions.", "quantifier": "every corpus, merge list and pair of set iteration orders", "why_tests_cant": "set order of heap objects differs between processes", "anchors": ["nlcodec/eval/bpe_len.py:BpeTracker.track_merges"]}
{"id": "C88", "title": "word_counts counts words, characters and lines exactly", "statement": "For any text files, word_counts returns every word of the (with dedup: distinct) lines with its number of occurrences, every character of those words with its number of occurrences, and the number of lines.", "quantifier": "every set of files, dedup setting and order in which Spark returns the entries", "why_tests_cant": "in-band line marker and placement by Spark", "anchors": ["nlcodec/term_freq.py:word_counts"]}
{"id": "C89", "title": "nlcodec-learn learns what learn_vocab learns from the same lines", "statement": "At the levels word and bpe the model file written by nlcodec-learn and its outcome are those of learn_vocab on the counted lines.", "quantifier": "every set of files, option values and order in which Spark returns the entries", "why_tests_cant": "goes through a statistics file and a map without order", "anchors": ["nlcodec/learn.py:main", "nlcodec/term_freq.py:word_counts", "nlcodec/term_freq.py:write_stats", "nlcodec/codec.py:learn_vocab"]}
{"id": "C90", "title": "The vocabulary of nlcodec-learn is that of direct learning", "statement": "At the levels word and char, the model written by nlcodec-learn (without de-duplication) loads with the table that learn_vocab returns for the same lines.", "quantifier": "every text, size, least frequency and coverage", "why_tests_cant": "two separate counting paths", "anchors": ["nlcodec/learn.py:main", "nlcodec/codec.py:learn_vocab", "nlcodec/codec.py:CharScheme"]}
{"id": "C91", "title": "A model written by learn_vocab loads as the scheme that was learned", "statement": "If learn_vocab succeeds without a model path, then with a path it returns the same table, and load_scheme on the file gives a scheme of the requested level with that table.", "quantifier": "every level, input and option values", "why_tests_cant": "all levels and inputs", "anchors": ["nlcodec/codec.py:learn_vocab", "nlcodec/codec.py:load_scheme"]}
{"id": "C92", "title": "Types below the least frequency are left out", "statement": "Every learned type after the reserved ones has at least min_freq occurrences; a missing or non-positive min_freq means 1 at level word and 20 at other levels.", "quantifier": "every level, text, size, coverage and min_freq", "why_tests_cant": "option handling over all inputs", "anchors": ["nlcodec/codec.py:learn_vocab", "nlcodec/codec.py:BPEScheme.learn", "nlcodec/learn.py:parse_args"]}
{"id": "C93", "title": "A second run of nlcodec-learn reuses the statistics", "statement": "When the statistics file of an earlier run exists, nlcodec-learn learns from it instead of counting again, and leaves the statistics files as they are.", "quantifier": "every earlier run and every later option values", "why_tests_cant": "needs two runs against the same directory", "anchors": ["nlcodec/learn.py:main"]}
{"id": "C94", "title": "nlcodec-learn at level class learns the labels of the lines", "statement": "At level class the model written by nlcodec-learn is the one learn_vocab writes for the same lines: one type per distinct label.", "quantifier": "every text", "why_tests_cant": "labels with spaces", "anchors": ["nlcodec/learn.py:main", "nlcodec/codec.py:ClassScheme.learn"]}
{"id": "C95", "title": "Text written with IO.writer is read back by IO.reader", "statement": "Reading with IO.reader a file written with IO.writer gives the lines of the text that was written, line ends included, and other files are unchanged; writing with append=True continues the file.", "quantifier": "every path (plain or .gz), text and file system", "why_tests_cant": "line ends and encoding errors over all texts", "anchors": ["nlcodec/utils.py:IO"]}
{"id": "C96", "title": "Binary files round-trip through IO", "statement": "Bytes written with IO.writer(text=False) come back from IO.reader(text=False).", "quantifier": "every path (plain or .gz) and content", "why_tests_cant": "options reach two different openers", "anchors": ["nlcodec/utils.py:IO"]}
{"id": "C97", "title": "read_as_stream yields the lines of all files in order", "statement": "IO.read_as_stream yields what IO.reader yields for each path, one file after the other; lines of different files are never joined; a missing file raises when it is reached.", "quantifier": "every list of paths and contents", "why_tests_cant": "all numbers of files, unfinished last lines", "anchors": ["nlcodec/utils.py:IO.read_as_stream"]}
{"id": "C98", "title": "Iterating over stored data serves every record once", "statement": "A BatchIterable over records stored as a Db file or a MultipartDb directory, read in order, yields batches that together show every record with two non-empty sides exactly once - its sequences with the markers asked for, padded - and no other; the token and sentence limits hold for every batch, num_items is the number of records, and a record that is too long raises.", "quantifier": "every list of records, part size, limits, markers, sorting and layout option, order of directory listing and of sets", "why_tests_cant": "all part boundaries, orders and limits", "anchors": ["nlcodec/db/batch.py:BatchIterable", "nlcodec/db/core.py:MultipartDb", "nlcodec/db/core.py:Db"]}
{"id": "C99", "title": "Equal-length batches serve every record once within the limits", "statement": "A BatchIterable with sort_by='eq_len_rand_batch' yields batches that together show every record with two non-empty sides exactly once, of at most max_toks tokens and max_sents sentences, whenever every record fits.", "quantifier": "every list of records, part size, limits, and outcome of the random choices", "why_tests_cant": "random order and part boundaries", "anchors": ["nlcodec/db/batch.py:BatchIterable.make_eq_len_ran_batches", "nlcodec/db/core.py:MultipartDb.make_eq_len_ran_batches"]}
{"id": "C100", "title": "Stored data can be opened by its path", "statement": "BatchIterable opens data stored as a file or a directory, the path being given as Path or as str, and refuses a missing path or an unknown sort_by.", "quantifier": "every stored data, kind of path and options", "why_tests_cant": "combination of two path types and two layouts", "anchors": ["nlcodec/db/batch.py:BatchIterable.__init__"]}
{"id": "C101", "title": "sort_by='random' serves the records in random order", "statement": "With sort_by='random' the order of the records is drawn at random on every pass.", "quantifier": "every stored data and options", "why_tests_cant": "randomness cannot be observed in one run", "anchors": ["nlcodec/db/batch.py:BatchIterable.__iter__"]}
{"id": "C102", "title": "A lost part is never skipped silently", "statement": "When a part listed in the success flag is missing or damaged, opening or iterating a BatchIterable raises; it never ends as if all data had been served.", "quantifier": "every directory content, options and random choices", "why_tests_cant": "needs damage at every possible place", "anchors": ["nlcodec/db/batch.py:BatchIterable", "nlcodec/db/core.py:MultipartDb.load", "nlcodec/db/core.py:MultipartDb.__iter__"]}
{"id": "C103", "title": "A file is loaded as the scheme it was written for", "statement": "load_scheme builds the scheme that the header names ('subword' is 'bpe'), refuses unknown names, and takes a file without a name for the scheme of its largest level (0 char, 1 bpe, 2 word, 3 class), refusing any other level; files without a header are refused.", "quantifier": "every vocabulary file", "why_tests_cant": "needs every file, also ones from earlier versions", "anchors": ["nlcodec/codec.py:load_scheme", "nlcodec/codec.py:REGISTRY", "nlcodec/codec.py:Type.write_out"]}
{"id": "C104", "title": "Learn, encode and decode on the command line restore text made of what was learned", "statement": "After `learn` of a text, `encode` and then `decode` (both with or both without -idx) run to the end and give back each line of any text that uses only what was seen: with -l word (-mf at most 1, no size limit) the words of the line joined by spaces; with -l char (-mf 1, -cv 0) and -l bpe (-cv 0, any size or co-evidence for which learn succeeds) the line with its white space normalised (word marks in the input read as spaces).", "quantifier": "every text learned from, every text encoded, every clock, package version and iteration order of sets", "why_tests_cant": "needs the composition of learning, the model file and coding for every pair of texts", "anchors": ["nlcodec/__main__.py:main", "nlcodec/codec.py:learn_vocab", "nlcodec/codec.py:encode", "nlcodec/codec.py:decode", "nlcodec/codec.py:load_scheme"]}
{"id": "C105", "title": "estimate describes the text exactly under a word model", "statement": "After `learn -l word` of a text without limits, `estimate` of a text with at least one line succeeds and prints as number of types 6 plus the number of different unreserved words learned, as number of tokens the number of words of the text, as unknowns the words that were never seen (and literal <unk>), and a mean length that times the number of lines is the number of words.", "quantifier": "every text learned from and every text estimated", "why_tests_cant": "needs every pair of texts", "anchors": ["nlcodec/__main__.py:main", "nlcodec/qestim.py:estimate", "nlcodec/codec.py:learn_vocab"]}
{"id": "C106", "title": "A learn that fails leaves the model file as it was", "statement": "When `learn` ends with an exception the file given by --model is what it was before the run; the other tasks never change it.", "quantifier": "every input text, options and old model file", "why_tests_cant": "needs every input and failure", "anchors": ["nlcodec/__main__.py:main", "nlcodec/codec.py:learn_vocab", "nlcodec/codec.py:ClassScheme.learn"]}
{"id": "C107", "title": "earth_mov_dist is a distance between distributions", "statement": "For arrays of the same length and a positive cost, earth_mov_dist succeeds (with validate: for float arrays that are distributions up to 1e-4) and is symmetric, non-negative, zero exactly for equal arrays, satisfies the triangle inequality, is at most twice the cost (up to the tolerance) and equals twice the cost times the mass that has to move; everything else is refused with AssertionError. The imbalance of estimate is this distance from the uniform distribution.", "quantifier": "all arrays and costs", "why_tests_cant": "universally quantified metric laws", "anchors": ["nlcodec/qestim.py:QualityEstimator.earth_mov_dist", "nlcodec/qestim.py:QualityEstimator.validate_distribution", "nlcodec/qestim.py:QualityEstimator.EMD_simple"]}
{"id": "C108", "title": "kl_div is the Kullback-Leibler divergence", "statement": "kl_div(base, distr) is the sum of p log(p/q) over the outcomes with p > 0, raises AssertionError exactly when some outcome has p > 0 and q <= 0, and for non-negative arrays of the same length whose base has at least the mass of distr is >= 0 with 0 exactly for equal arrays. Of arrays of different lengths the rest of the longer one is ignored.", "quantifier": "all arrays", "why_tests_cant": "Gibbs' inequality for all distributions", "anchors": ["nlcodec/qestim.py:QualityEstimator.kl_div"]}
{"id": "C109", "title": "js_div is the Jensen-Shannon divergence", "statement": "For float arrays of the same length that are distributions up to 1e-4, js_div succeeds and is symmetric, equals the entropy of the mean minus the mean of the entropies, lies between 0 and log 2 times the mean mass, is 0 exactly for equal arrays and maximal for disjoint ones; everything else is refused with AssertionError.", "quantifier": "all pairs of arrays", "why_tests_cant": "needs all distributions", "anchors": ["nlcodec/qestim.py:QualityEstimator.js_div", "nlcodec/qestim.py:QualityEstimator.validate_distribution"]}
{"id": "C110", "title": "Computing frequencies first and learning from them is learning", "statement": "nlcodec-freq on text files followed by `nlcodec learn -tfs` on the file it wrote ends as nlcodec-learn does on the same files, and at the levels word and bpe as learning directly from a text with the same words and number of lines: same model file, same exception.", "quantifier": "every set of input files, options, Spark schedule, with and without deduplication", "why_tests_cant": "needs all inputs and all orders Spark may choose", "anchors": ["nlcodec/term_freq.py:main", "nlcodec/term_freq.py:word_counts", "nlcodec/term_freq.py:write_stats", "nlcodec/codec.py:WordScheme.read_term_freqs", "nlcodec/__main__.py:main"]}
{"id": "C111", "title": "The statistics nlcodec-learn keeps can be used again", "statement": "The documentation says that the .wordfreq.gz and .charfreq.gz files left beside the model can be reused with `nlcodec learn -tfs -i <path>`: doing so gives the model nlcodec-learn gave.", "quantifier": "every corpus and options", "why_tests_cant": "needs every file", "anchors": ["docs/intro.adoc", "nlcodec/learn.py:main", "nlcodec/__main__.py:parse_args", "nlcodec/__main__.py:main"]}
{"id": "C112", "title": "nlcodec-freq writes complete statistics or leaves the outputs alone", "statement": "A run of nlcodec-freq with an input that has a line ends normally and each output that was named holds the exact counts of the (distinct, unless -ndd) lines; a run that fails leaves the named outputs as they were; outputs that were not named are never touched.", "quantifier": "every input, option and old content of the outputs", "why_tests_cant": "needs all inputs and all failures", "anchors": ["nlcodec/term_freq.py:main", "nlcodec/term_freq.py:parse_args", "nlcodec/term_freq.py:word_counts"]}
{"id": "C113", "title": "The Devanagari expander can be undone", "statement": "Expanding a line with experimental/uxdx.py and contracting the result gives the line back; running the tool over a whole text and back gives the text (each line ended by a newline). The expanded line differs only by marks; marks stand only between two consonants and part every two neighbouring consonants; expanding twice is the same as once, and the lines that contracting and re-expanding leaves unchanged are exactly those of this form.", "quantifier": "all lines and texts", "why_tests_cant": "expansion depends on every pair of neighbouring characters of arbitrary text; the exact set of lines that survive both directions is an equivalence over all strings", "anchors": ["experimental/uxdx.py: Devanagari.encode, Devanagari.decode, main"]}
{"id": "C114", "title": "Re-spelled Indic text can be spelled back", "statement": "For every script (different characters for vowels, vowel signs, consonants, virama; an implicit vowel), AbugidaLang.decode(encode(line)) == line; the same for whole texts with the tool for hin, hindi, devanagari and sanskrit; other names are refused.", "quantifier": "all scripts, lines, texts", "why_tests_cant": "the look-ahead and look-behind of encoder and decoder must agree in every context; a handful of words does not show which contexts are lost (the file's own list of known issues is wrong)", "anchors": ["experimental/unicode_fix.py: AbugidaLang.encode, AbugidaLang.decode, Lang.codes_to_str, get_aubugida, main"]}
{"id": "C115", "title": "The lite spelling can be spelled back", "statement": "For every script, AbugidaLangLite.decode(encode(line)) == line.", "quantifier": "all scripts and lines", "why_tests_cant": "which lines are lost depends on contexts of up to three characters anywhere in the line", "anchors": ["experimental/unicode_fix.py: AbugidaLangLite.encode, AbugidaLangLite.decode"]}
{"id": "C116", "title": "Examples can be put in batches again and again", "statement": "Building a Batch changes its examples in place. Whatever batches were built before from the same examples with the same BatchMeta, also failed ones, and also when an example is given twice, a new Batch equals the one built from fresh copies; all that is left in an example is the bos and eos that are asked for, added where missing, and examples not given are untouched.", "quantifier": "all histories of batches, finished or failed, over all sets of examples, with repetitions", "why_tests_cant": "histories are unbounded, and failures stop half way through", "anchors": ["nlcodec/db/batch.py: Batch.__init__, Batch.val_exists, Batch.bos_eos_check"]}
{"id": "C117", "title": "Batches with different settings do not influence each other", "statement": "A Batch built with one BatchMeta from examples that were used in a Batch with another BatchMeta equals the one built from fresh copies.", "quantifier": "all pairs of settings, all examples", "why_tests_cant": "the effect appears only when two different settings meet the same objects", "anchors": ["nlcodec/db/batch.py: Batch.__init__, BatchMeta, IdExample"]}
{"id": "C118", "title": "val_exists_at adds a marker once, at the asked end, on the asked side", "statement": "example.val_exists_at(side, pos, exist=True, val) makes val the first (pos 0) or last (pos -1) element of that side, adding it only if it is not there already, a second call changes nothing, and the other side, the id and the raw texts stay. With exist=False nothing is changed. Sides other than 'x', 'y' and positions other than 0, -1 are AssertionErrors; an empty side is an IndexError, a missing y a TypeError.", "quantifier": "all examples, sides, positions and values", "why_tests_cant": "sequences are unbounded", "anchors": ["nlcodec/db/batch.py: IdExample.val_exists_at"]}
{"id": "C119", "title": "A batch can be moved to a device and masked", "statement": "Batch.to(device) returns the batch with its arrays on the device, and make_autoreg_mask gives the mask that hides padding and future positions.", "quantifier": "all batches, all arrays", "why_tests_cant": "the helpers are reachable only with data of one particular library", "anchors": ["nlcodec/db/batch.py: Batch.to, Batch.make_autoreg_mask, Batch.make_autogres_mask_, subsequent_mask"]}
{"id": "C120", "title": "Nodes of the learner's linked lists can be compared", "statement": "a == b for two nodes of linked sequences is True exactly when both sequences hold the same values and frequencies and the nodes are at the same place; it is False otherwise and never raises.", "quantifier": "all linked sequences, all pairs of nodes, all recursion limits", "why_tests_cant": "comparison walks both directions of lists of any length, and recursion limits differ between runs", "anchors": ["nlcodec/dstruct.py: LnNode.__eq__"]}
{"id": "C121", "title": "Linked sequences are built, cut and printed faithfully", "statement": "LnNode.from_seq makes one linked sequence with the values in order and the given frequency and leaves older sequences alone; delete() takes exactly one node out, links its neighbours, leaves all values, frequencies and all other sequences as they were; printing a node shows the values of its sequence in order with that node marked.", "quantifier": "all sequences, all memories of nodes, all places", "why_tests_cant": "sequences and the memory around them are unbounded", "anchors": ["nlcodec/dstruct.py: LnNode.from_seq, LnNode.delete, LnNode.__repr__"]}
{"id": "C122", "title": "Subwords learned directly from lines are those of BPEScheme.learn", "statement": "BPELearn.learn_subwords_from_corpus(lines, vocab_size, min_co_evidence, init_vocab_factory) with the factory BPEScheme uses returns the table BPEScheme.learn returns for the same lines; with vocab_size=-1 it returns what the factory makes of the exact counts of the characters of all words and of one end-of-word mark per word, in order of first appearance; without a factory it is a TypeError.", "quantifier": "all corpora, sizes, thresholds, factories and set iteration orders", "why_tests_cant": "corpora are unbounded and the set iteration order differs between runs", "anchors": ["nlcodec/bpe.py: BPELearn.learn_subwords_from_corpus, BPELearn.learn_subwords", "nlcodec/codec.py: BPEScheme.learn"]}
{"id": "C123", "title": "encode_all encodes every line in order", "statement": "encode_all(lines, scheme, index) yields, in order, encode (index=True) or encode_str (index=False) of each line without its surrounding white space, up to the first line or read that fails, whose exception it raises; for every scheme but byte these are the encodings of the lines themselves.", "quantifier": "all schemes, all inputs, also inputs that fail while being read", "why_tests_cant": "inputs are unbounded and may fail anywhere", "anchors": ["nlcodec/eval/termfreq.py: encode_all"]}
{"id": "C124", "title": "MapReduce folds the mapped items", "statement": "MapReduce(mapper, reducer, default)(items, map, map) is the fold of the mapped items from the left when the reducer is associative and the default neutral on the right; an exception of the mapper or of the input comes out unchanged, the first one; no items is an AssertionError, and a missing pool a TypeError.", "quantifier": "all mappers, associative reducers, inputs", "why_tests_cant": "the reduction is a lazy tree whose shape depends on the number of items", "anchors": ["nlcodec/para/mapred.py: MapReduce.__call__, ireduce"]}
{"id": "C125", "title": "The printed word counts are exact and readable", "statement": "The word count program prints one line per distinct word, most frequent first: the word, a tab, and its exact number of occurrences in digits grouped by commas in threes; two texts that print the same have the same counts.", "quantifier": "all texts with at least one line", "why_tests_cant": "texts, words and counts are unbounded", "anchors": ["nlcodec/para/mapred.py: main"]}
{"id": "C126", "title": "A smaller vocabulary is the beginning of a larger one", "statement": "Learning BPE with a smaller vocab_size from the same data gives exactly the first vocab_size types of the larger vocabulary, or the AssertionError if they do not exceed the characters; word and char vocabularies likewise (their reserved rows aside), and the ids of a text under the smaller one are those under the larger one with UNK for the types that were cut off.", "quantifier": "all corpora, coverages, pairs of sizes, texts", "why_tests_cant": "two learning runs are related for all sizes", "anchors": ["nlcodec/codec.py: BPEScheme.learn, WordScheme.learn, Reseved.with_reserved_types", "nlcodec/bpe.py: BPELearn.learn_codes"]}
{"id": "C127", "title": "A higher frequency threshold only removes rarer types", "statement": "Raising min_co_evidence (bpe) or min_freq (word, char) gives the same vocabulary without the learned types whose recorded frequency is below the new threshold; nothing is added, reordered or renamed.", "quantifier": "all corpora, sizes, pairs of thresholds", "why_tests_cant": "two learning runs are related for all thresholds", "anchors": ["nlcodec/codec.py: BPEScheme.learn, WordScheme.learn", "nlcodec/bpe.py: BPELearn.learn_codes"]}
{"id": "C128", "title": "A text can be encoded in parts", "statement": "Encoding two texts joined by white space gives the ids of the first followed by those of the second (with the space id between them for the char scheme; for the byte scheme without white space), and only the words of a line matter, not the white space between them.", "quantifier": "all tables, lines, white space characters", "why_tests_cant": "longest match could cross the border between the parts", "anchors": ["nlcodec/codec.py: WordScheme.encode_str, CharScheme.encode_str, BPEScheme.encode_str, ByteScheme.encode_str"]}
{"id": "C129", "title": "Every learned subword occurs in the corpus", "statement": "Each subword of a learned BPE vocabulary is a part of some word of the corpus followed by the end-of-word mark (with '<unk>' for characters dropped by coverage), and its recorded frequency is positive and at most the number of places where it occurs.", "quantifier": "all corpora, sizes, thresholds, coverages", "why_tests_cant": "an invariant over all merges", "anchors": ["nlcodec/codec.py: BPEScheme.learn", "nlcodec/bpe.py: BPELearn.learn_codes, BPELearn.learn_subwords"]}
{"id": "C130", "title": "Encoding decoded text gives the same ids", "statement": "encode(decode(encode(line))) == encode(line) for every scheme and line.", "quantifier": "all tables and lines", "why_tests_cant": "lines and tables are unbounded; unknown characters come back as text", "anchors": ["nlcodec/codec.py: EncoderScheme.encode, EncoderScheme.decode, BPEScheme.encode_str, BPEScheme.decode_str, CharScheme.decode_str, ClassScheme.decode_str"]}
{"id": "C131", "title": "A larger BPE vocabulary never makes encodings longer", "statement": "With two vocabularies learned by BPE from the same corpus, the larger one encodes every line in at most as many ids as the smaller one; word and char encodings have the same length under every vocabulary.", "quantifier": "all corpora, pairs of sizes, lines", "why_tests_cant": "a counterexample needs merges that compete", "anchors": ["nlcodec/codec.py: BPEScheme.encode_str, BPEScheme.learn, WordScheme.encode_str, CharScheme.encode_str"]}
{"id": "C132", "title": "The length tracker refuses what is not a BPE vocabulary", "statement": "Opening a vocabulary file for tracking (eval.bpe_len) fails with an exception unless the file has metadata whose max_level is 1 and every type of level 1 or more is made of exactly two types; otherwise the codec consists of exactly the types below level 1 and the merges to come are exactly the others, in file order. Word, character and class vocabularies that were saved are therefore refused. An exception while reading or encoding the lines is what the tool ends with, fewer than two processes are refused, and without lines no mean length is reported.", "quantifier": "for all file contents, all saved vocabularies, all line streams, all numbers of processes", "why_tests_cant": "a test tries a few files; the outcome is stated for every file that can be read and every way the metadata or a type can be wrong", "anchors": ["nlcodec/eval/bpe_len.py:BPECodecXt.__init__", "nlcodec/eval/bpe_len.py:BpeTracker.create_index", "nlcodec/eval/bpe_len.py:estimate", "nlcodec/codec.py:Type.read_vocab", "nlcodec/codec.py:EncoderScheme.parallel_map"]}
{"id": "C133", "title": "What separates words, what is a number, what level is learned", "statement": "Two words are kept apart by one character exactly when it is one of the 29 white-space characters of Unicode as Python knows them. With indices, decode reads each word of a line as an integer (optional sign, digits with single underscores between them) and refuses the line with ValueError when some word is not one; encode prints every id in decimal without leading zeros and with one space between. Learned words are at level 2, characters and classes at level 0, the reserved types at level -1.", "quantifier": "every word scheme, every two words and every character between them; every line of ids; every text as a number; every learned flat table", "why_tests_cant": "the character tables and the grammar of numbers have unbounded input; a test tries a space and a tab", "anchors": ["nlcodec/codec.py:WordScheme.encode_str", "nlcodec/codec.py:decode", "nlcodec/codec.py:Level", "nlcodec/__main__.py:main"]}
{"id": "C134", "title": "From parallel text to batches", "statement": "When bitextdb has finished, BatchIterable on the directory it wrote (in order, in random order or in batches of equal length) opens and yields, without an exception, batches that together show every pair of lines with non-empty sides exactly once, under its line number, encoded and cut to the limits (or, without truncation, those below the limits), with the padding and markers asked for; no batch exceeds max_toks, provided max_toks is at least both length limits, nor max_sents (max_sents + 1 with equal length).", "quantifier": "every pair of texts, model files, length limits >= 1, number of parts, placement of rows by Spark, directory order, order of parts and ids, batch size, meta and sort_by; ids within 2^53", "why_tests_cant": "the composition of tokenizing, distributed writing, reading back and batching has no test at all", "anchors": ["nlcodec/bitextdb.py:main", "nlcodec/spark.py:rdd_as_db", "nlcodec/db/batch.py:BatchIterable", "nlcodec/db/core.py:MultipartDb"]}
{"id": "C135", "title": "The codec of bpepp encodes like nlcodec's BPE scheme", "statement": "The BpeCodec of experimental/bpepp.py is built from exactly the tables that are not empty and have no empty name; it encodes every line by greedy longest match (a known piece gets the number of the last entry of that name, an unknown character 1), decode_as_str(encode(line)) is the line with normalised white space when every character is known, and on every table both accept it produces the pieces of nlcodec's BPEScheme (and the same ids unless a name is repeated) and decodes all ids to the same text or error.", "quantifier": "all tables, lines and id sequences", "why_tests_cant": "two implementations can only be compared on examples", "anchors": ["experimental/bpepp.py:BpeCodec", "nlcodec/codec.py:BPEScheme"]}
{"id": "C136", "title": "bpepp encode prints a line per line and decode restores the text", "statement": "The encode command prints one line of ids (or pieces) for every input line and never fails once the vocabulary is loaded; decode of its output prints the lines again.", "quantifier": "all vocabulary files and inputs", "why_tests_cant": "decode is only tried on one line and its output looks plausible on a terminal", "anchors": ["experimental/bpepp.py:run", "experimental/bpepp.py:BpeCodec.encode_all", "experimental/bpepp.py:BpeCodec.decode_all"]}
{"id": "C137", "title": "Vocabulary files of bpepp round-trip", "statement": "write_vocab followed by read_vocab of bpepp gives back the table with all kids, for every table with entries at their index, kids further up and names without tabs and line ends; bpepp also reads every file nlcodec writes; write_vocab refuses an entry away from its index.", "quantifier": "all tables, creation times and metadata", "why_tests_cant": "needs all tables with arbitrary names and kids", "anchors": ["experimental/bpepp.py:BpeCodec.write_vocab", "experimental/bpepp.py:BpeCodec.read_vocab", "experimental/bpepp.py:Type"]}
{"id": "C138", "title": "Runs of three equal symbols are found and cut", "statement": "The trouble check of the bpepp learner reports exactly the sequences in which a symbol stands three times in a row; the replacement cuts every maximal run to at most two symbols and changes nothing else.", "quantifier": "all integer sequences", "why_tests_cant": "index arithmetic at the ends and between runs is easy to get wrong", "anchors": ["experimental/bpepp.py:BPELearn._is_troublesome_seq", "experimental/bpepp.py:BPELearn._replace_trouble"]}
{"id": "C139", "title": "Which corpora and vocabularies the bpepp learner accepts", "statement": "The constructor of the bpepp learner accepts exactly the tables with entries at their index and distinct names together with corpora that keep a sequence after cleaning and have no symbol outside the table; other tables raise AssertionError, an empty first sequence IndexError, the rest ValueError.", "quantifier": "all corpora with non-negative symbols, all tables, both treatments of long runs", "why_tests_cant": "the outcome depends on what remains of the whole corpus", "anchors": ["experimental/bpepp.py:BPELearn.__init__"]}
{"id": "C140", "title": "bpepp learns in two levels and keeps both vocabularies", "statement": "learn1 counts the words, starts from the reserved types and the characters that are frequent enough, and merges up to the asked vocabulary size; learn2 encodes every line with the level 1 table and merges further, its vocabulary having the asked size; a vocabulary that is written can be read back and used; when a step fails before its write no file has changed, and the level 1 file is moved to its .l1 name instead of being overwritten.", "quantifier": "all input files, settings, iteration orders and states of the directory", "why_tests_cant": "covers failing runs and all combinations of settings", "anchors": ["experimental/bpepp.py:WordBPE.learn_subwords", "experimental/bpepp.py:WordBPE.learn_subwords_from_corpus", "experimental/bpepp.py:learn_codes"]}
{"id": "C141", "title": "The bpepp learner merges most frequent pairs", "statement": "For every corpus the learner of bpepp performs byte pair encoding: every round merges a most frequent pair that occurs often enough, everywhere, and appends its concatenation to the table, until the number of merges is reached or no such pair is left; every table it returns consists of the initial one and concatenations of two earlier entries.", "quantifier": "all corpora, tables, thresholds and iteration orders of sets", "why_tests_cant": "the indices are updated incrementally; errors show only after several interacting merges", "anchors": ["experimental/bpepp.py:BPELearn.learn_codes"]}
{"id": "C142", "title": "A field lists its records in the order given", "statement": "keys(), values(), items() and lengths() of a SeqField list the ids, the sequences, the sequences again (without ids) and the (id, length) pairs of the appended records, in the order they were appended, and agree with field[id] and get_len(id).", "quantifier": "every list of records with distinct ids, every buffer size and every choice of integer types along the way", "why_tests_cant": "offsets are stored in the smallest type, compaction happens at arbitrary points; a test sees a few small fields", "anchors": ["nlcodec/db/core.py:SeqField.keys", "nlcodec/db/core.py:SeqField.values", "nlcodec/db/core.py:SeqField.items", "nlcodec/db/core.py:SeqField.lengths"]}
{"id": "C143", "title": "Learned subwords have distinct names", "statement": "Every name in a vocabulary learned by BPE from text occurs once: no two subwords have the same name, and none has the name of a character or a reserved type.", "quantifier": "every corpus, every size and threshold and every set iteration order", "why_tests_cant": "duplicates need runs split in different ways, or reserved names in the text; a test sees a few corpora in one iteration order", "anchors": ["nlcodec/bpe.py:BPELearn.learn_codes", "nlcodec/bpe.py:BPELearn.learn_subwords", "nlcodec/codec.py:BPEScheme.learn"]}
{"id": "C144", "title": "A codec grown merge by merge is the codec of its table", "statement": "A codec that starts from the characters of a vocabulary file and takes over its merges one by one encodes and decodes, after any number of merges, exactly as a codec built at once from the same types; asking for a merge when none is left, or one with the wrong index, is refused; following a corpus through the merges leaves the codec with the whole vocabulary.", "quantifier": "every BPE vocabulary, every number of merges, every text", "why_tests_cant": "the two ways of building agree or not depending on repeated names; a test compares a few texts on one vocabulary", "anchors": ["nlcodec/eval/bpe_len.py:BPECodecXt.merge", "nlcodec/eval/bpe_len.py:BPECodecXt.__init__", "nlcodec/eval/bpe_len.py:BpeTracker.track_merges"]}
{"id": "C145", "title": "A documented command line does what it says", "statement": "Options of nlcodec may come in any order, before or after the task, under their short or long name, with the argument as the next word or after '='; a repeated option counts as last given, an option not given has its documented default, and the run is that of the task with exactly these settings. The same holds for the settings the other command line tools of the package receive.", "quantifier": "every command line in the documented form, every set of files, every task", "why_tests_cant": "orders, spellings and repetitions combine without limit; a test parses a few lines", "anchors": ["nlcodec/__main__.py:parse_args", "nlcodec/__main__.py:main", "nlcodec/learn.py:parse_args", "nlcodec/term_freq.py:parse_args", "nlcodec/bitextdb.py:parse_args"]}
{"id": "C146", "title": "Only documented command lines are accepted", "statement": "A command line that is not in the documented form (unknown option, missing task or model, bad value) is refused with status 2; an accepted line names a task, a model and one of the known levels.", "quantifier": "every list of words after the program name", "why_tests_cant": "what is accepted by accident cannot be enumerated by tests", "anchors": ["nlcodec/__main__.py:parse_args"]}
{"id": "C147", "title": "nlcodec changes only the files it is meant to", "statement": "A run changes the model file if the task is learn, the --out file if it is encode or decode, and nothing else; a refused command line changes nothing.", "quantifier": "every command line, every set of files", "why_tests_cant": "a test looks at a few files after a few runs", "anchors": ["nlcodec/__main__.py:parse_args", "nlcodec/__main__.py:main"]}
{"id": "C148", "title": "From the shell, a text comes back", "statement": "Three commands in a row, in any documented spelling: learn a word, char or bpe model from a file, encode a file made of the same words (or characters) into another, decode that. All three end with status 0, and the last file holds the lines of the one encoded with white space normalized, provided the text in between survives being written and read.", "quantifier": "every such command line, every text, with pieces or indices, every set of other files on disk", "why_tests_cant": "the property joins parsing, learning, vocabulary file, encoding and decoding; tests try each alone on a few inputs", "anchors": ["nlcodec/__main__.py:main", "nlcodec/__main__.py:parse_args", "nlcodec/codec.py:EncoderScheme"]}
{"id": "C149", "title": "Abbreviated option names", "statement": "The beginning of a long option name, with or without =value, means that option when no other name begins so: the whole command line gives exactly what it gives with the full name. If several names begin so, the line is refused before any file is touched.", "quantifier": "every command line of every tool of the package, every abbreviation", "why_tests_cant": "abbreviations and their contexts cannot be listed; a test tries one", "anchors": ["nlcodec/__main__.py:parse_args", "nlcodec/learn.py:parse_args", "nlcodec/term_freq.py:parse_args", "nlcodec/bitextdb.py:parse_args"]}
{"id": "C150", "title": "nlcodec-learn, nlcodec-freq and nlcodec-bitextdb do what their command lines say", "statement": "Options in any order, under any of their documented names and with any spelling of the argument, give the run documented for them: nlcodec-learn writes the term statistics beside the model (same name, another extension) and the model of the requested level and size, and if the statistics file is there already ends in an error and changes nothing; nlcodec-freq writes the counts of the named texts to the two named outputs; nlcodec-bitextdb starts the conversion with exactly the models, texts, columns, limits and number of parts given. Learning changes the model and the two statistics files beside it, and nothing else.", "quantifier": "every documented command line of the three tools, every set of files", "why_tests_cant": "orders, spellings, repetitions and files on disk combine without limit; the repository has no test of these command lines", "anchors": ["nlcodec/learn.py:parse_args", "nlcodec/learn.py:main", "nlcodec/term_freq.py:parse_args", "nlcodec/term_freq.py:main", "nlcodec/bitextdb.py:parse_args", "nlcodec/bitextdb.py:main"]}
{"id": "C151", "title": "Models with different names are learned independently", "statement": "After nlcodec-learn has made one model, making another under a different name ends as it would have without the first, with the same files.", "quantifier": "every pair of documented command lines, every set of files", "why_tests_cant": "a test learns one model in an empty directory", "anchors": ["nlcodec/learn.py:main"]}
{"id": "C152", "title": "Counting first, learning later", "statement": "nlcodec-freq on some texts, then nlcodec learn --term-freqs on its output, gives the same model as nlcodec-learn on the texts.", "quantifier": "every documented pair of command lines, every set of texts, every level that reads word or character counts", "why_tests_cant": "it relates three programs; each test runs one", "anchors": ["nlcodec/term_freq.py:main", "nlcodec/learn.py:main", "nlcodec/__main__.py:main"]}
{"id": "C153", "title": "Any spelling of a byte sequence decodes alike", "statement": "Decoding pieces with the byte scheme gives the text of the bytes spelled by their concatenation in hexadecimal: however it is cut into pieces, in capitals or not, with white space between bytes; pieces spelling no byte sequence raise ValueError.", "quantifier": "every list of pieces other than the two sentence markers", "why_tests_cant": "the pieces the encoder makes are only one spelling of each byte; tests decode only those", "anchors": ["nlcodec/codec.py:ByteScheme"]}
{"id": "C154", "title": "The evaluation tools do what their command lines say", "statement": "termfreq, pr_measure, oov_count, qestim and bpe_len, given their documented options in any order and spelling, read the model and the named texts (standard input if none is named or '-') and put their result where the options say: termfreq and pr_measure in the named file or on standard output, oov_count on standard output, qestim and bpe_len as the measures and rows they compute. If the computation raises, the program ends with status 1 and nothing is written; pr_measure with neither candidates nor references ends in AssertionError; oov_count on a text without tokens prints the counts and then ends in ZeroDivisionError. No other file changes.", "quantifier": "every documented command line of the five tools, every set of files, every standard input", "why_tests_cant": "option orders and spellings combine without limit; the repository tests none of these programs", "anchors": ["nlcodec/eval/termfreq.py:main", "nlcodec/eval/pr_measure.py:main", "nlcodec/eval/oov_count.py:main", "nlcodec/qestim.py:main", "nlcodec/eval/bpe_len.py:main"]}
{"id": "C155", "title": "The gram file of termfreq can be given to pr_measure", "statement": "termfreq writes one line per gram, [ids, count, pieces] as JSON, the most frequent first, each gram of the text once, and pr_measure --freqs reads back the same grams and counts. In its report every gram of the reference that occurs in the training text has its training frequency as rank, the others -1, and a gram not in the reference is listed only if it is in the candidate and the training text. A line of --freqs that is not JSON, or is no triple with a gram of numbers, ends pr_measure in an error before anything is reported. termfreq -n 0 or less ends in AssertionError unless the text is empty.", "quantifier": "every vocabulary of words, characters or BPE, every training, candidate and reference text with equally many lines", "why_tests_cant": "it relates the outputs of two programs through a file, for every text", "anchors": ["nlcodec/eval/termfreq.py:main", "nlcodec/eval/termfreq.py:encode_all", "nlcodec/eval/pr_measure.py:main", "nlcodec/eval/pr_measure.py:count_gram_recall"]}
{"id": "C156", "title": "Any command line of the other tools ends in a defined way", "statement": "nlcodec-learn, nlcodec-freq, termfreq, pr_measure, oov_count, qestim and bpe_len, given any words at all, end with status 2 or 0 where argparse refuses the words or prints the help, having at most emptied outputs named in the words, and otherwise with 0, or with 1 after an exception. The files that changed are named in the words, or are the statistics files beside a model named in them. nlcodec-bitextdb starts its conversion only if argparse accepts the words, and otherwise ends with 0 or 2.", "quantifier": "every list of words, every set of files", "why_tests_cant": "arbitrary command lines cannot be enumerated", "anchors": ["nlcodec/learn.py:main", "nlcodec/term_freq.py:main", "nlcodec/bitextdb.py:main", "nlcodec/eval/termfreq.py:main", "nlcodec/eval/pr_measure.py:main", "nlcodec/eval/oov_count.py:main", "nlcodec/qestim.py:main", "nlcodec/eval/bpe_len.py:main"]}
{"id": "C157", "title": "The Devanagari tools do what their command lines say, and one run undoes the other", "statement": "uxdx.py and unicode_fix.py, given their documented options in any order and spelling, read the named file as UTF-8 (standard input if none is named or '-'), re-spell it line by line in the direction asked for, write every line with a newline to the named file or to standard output, end with status 0 and change no other file. Running the tool on a file and then with --decode on the result gives the lines of the file back, in UTF-8, each ended by a newline, if every line is one that the spelling keeps (C113, C114). Any other words end with status 0, 1 or 2 and change only files named in them.", "quantifier": "every documented command line, every set of files, every text; for the last sentence every list of words", "why_tests_cant": "it is about all texts and the composition of two runs through a file; the repository has no test of these programs", "anchors": ["experimental/uxdx.py:main", "experimental/unicode_fix.py:main", "experimental/unicode_fix.py:get_aubugida"]}
{"id": "C158", "title": "Reduction with any function", "statement": "ireduce needs nothing of its function or default to be predictable: it returns r exactly when combining neighbours level by level (a last item without neighbour with the default) succeeds in every call and leaves r, so r is the items in order with brackets around them; an exception it raises is one of the function, the one of the input, or the AssertionError for no items; a failing input never gives a result; if the first two items cannot be combined that exception comes out. MapReduce with map as both pools is this on the mapped items.", "quantifier": "all functions that may fail, defaults, inputs, mappers", "why_tests_cant": "the levels are lazy and half-consumed when a call fails; functions and lengths are unbounded", "anchors": ["nlcodec/para/mapred.py: IterativeReducer.__call__, pair_subsequent, ireduce, MapReduce.__call__"]}
{"id": "C159", "title": "bpepp does what its command lines say", "statement": "bpepp.py encode and decode, given their options in any order and spelling before or after the input (or before '--' and an input that may be any word), empty the output file first, read the named input (standard input if none), and leave in the output (standard output if none) exactly the coding of the input under the vocabulary file named last, status 0, or 1 with what was written before the exception. learn1, learn2 and learn learn from all the named files with the last value said for each setting and the documented defaults otherwise; if a file is missing nothing is changed and the status is 1. learn1 followed by encode gives for every line the numbers of the words under the learned vocabulary. A line that lacks a setting the command needs or the files to learn from, or names two inputs to code, ends with status 2. No words at all make the program hang: it ends with 0, 1 or 2, and changes only files named in the words and the file that the level 1 vocabulary is moved to; when argparse refuses, nothing changes but that named outputs are emptied.", "quantifier": "every command line made of documented options, every set of files, every text; for the last sentence every list of words", "why_tests_cant": "option order, spelling and repetition are unbounded and the effect goes through files between runs; the repository has no test of this program", "anchors": ["experimental/bpepp.py:ArgParser", "experimental/bpepp.py:run", "experimental/bpepp.py:main", "experimental/bpepp.py:learn_codes"]}
{"id": "C160", "title": "The counts do not depend on how the cluster adds them up", "statement": "However the lines are spread over Spark workers, and in whatever order and grouping reduceByKey adds the values of a word or character, word_counts returns each word and each character once with the total of its values, so that two runs differ in the order of the entries only.", "quantifier": "every list of pairs, every sequence of additions of two values of one key, every order of the entries", "why_tests_cant": "a local test session runs one schedule on little data, a cluster another one", "anchors": ["nlcodec/term_freq.py:word_counts"]}
{"id": "C161", "title": "Only relative frequencies matter", "statement": "Learning a word, character or class vocabulary from a text repeated k times, with k times the frequency threshold, gives the same types in the same order with k times the frequencies. Learning BPE from the repeated text (with at least one word, and a size above 1 or a co-occurrence threshold above 1) with k times the co-occurrence threshold does so too, up to the first merge of a type with itself, from which on two runs may differ anyway.", "quantifier": "every text, every k above 0, every size and threshold, no coverage; for BPE every order in which sets are iterated", "why_tests_cant": "unit tests learn from one text; the relation is between two unboundedly long runs", "anchors": ["nlcodec/codec.py:EncoderScheme.get_init_vocab", "nlcodec/codec.py:WordScheme.learn", "nlcodec/codec.py:BPEScheme.learn", "nlcodec/bpe.py:BPELearn.learn_codes"]}
{"id": "C162", "title": "Shrinking twice is shrinking once", "statement": "A vocabulary that was shrunk on some files has nothing left to remove: shrink_vocab on it with the same files and min_freq returns the identity mapping and the same table.", "quantifier": "every word, character or BPE vocabulary, every text with at least one piece, every min_freq", "why_tests_cant": "that removals do not cascade depends on how every line is segmented after the first shrinking, over all tables and texts", "anchors": ["nlcodec/codec.py:EncoderScheme.shrink_vocab"]}
{"id": "C163", "title": "A report of pr_measure without a fault means the same words", "statement": "When both sides have the same words in every line, in whatever order, every row of the report has recall, precision and F1 of 1 and equal frequencies, with or without --freqs and however floats are rounded; and a report in which every row has recall and precision 1 is only given for such texts. Exchanging candidates and references exchanges recalls and precisions.", "quantifier": "every pair of encoded texts", "why_tests_cant": "a statement about all texts a report could have come from", "anchors": ["nlcodec/eval/pr_measure.py:main", "nlcodec/eval/pr_measure.py:count_gram_recall", "nlcodec/eval/pr_measure.py:f1_measure"]}
{"id": "C164", "title": "estimate and oov_count agree", "statement": "With a word model, the number of tokens nlcodec estimate (qestim) reports for a text is the sum of oov_count's tokens in and out of the vocabulary, and its number of unknown tokens is oov_count's number of tokens out of the vocabulary.", "quantifier": "every word vocabulary and every text", "why_tests_cant": "it relates two programs on all texts", "anchors": ["nlcodec/qestim.py:estimate", "nlcodec/eval/oov_count.py:main", "nlcodec/eval/oov_count.py:partition_vocab_toks"]}
{"id": "C165", "title": "termfreq and estimate agree", "statement": "The frequencies of the single tokens that termfreq lists for a text add up to the number of tokens nlcodec estimate reports for it; the frequency listed for <unk> is the number of unknown tokens of estimate, and it is not listed when there are none; no more tokens are listed than the model has types.", "quantifier": "every word, character and BPE vocabulary and every text with a line", "why_tests_cant": "it relates two programs on all texts", "anchors": ["nlcodec/qestim.py:estimate", "nlcodec/eval/termfreq.py:main", "nlcodec/utils.py:make_n_grams_all"]}
{"id": "C166", "title": "Shrinking a vocabulary to a text does not change what estimate says about that text", "statement": "Shrinking a vocabulary on a text with a min_freq of at most 1 leaves the numbers of tokens and unknown tokens and the mean length that nlcodec estimate reports for that text as they were; the number of types and the class imbalance do not go up.", "quantifier": "every word, character or BPE vocabulary, every text with at least one piece, every min_freq of at most 1", "why_tests_cant": "it relates two runs of a tool before and after a third one, over all tables and texts", "anchors": ["nlcodec/codec.py:EncoderScheme.shrink_vocab", "nlcodec/qestim.py:QualityEstimator.estimate", "nlcodec/qestim.py:QualityEstimator.EMD_simple"]}
{"id": "C167", "title": "Estimates do not depend on the order of lines and add up over texts", "statement": "nlcodec estimate reports the same for a text whatever the order of its lines. For two texts together it reports the sum of their numbers of tokens and of unknown tokens and the mean length weighted by lines; the class imbalance of both together is at most the mean of the two, weighted by tokens.", "quantifier": "every word, character and BPE vocabulary and all texts with a line; for the imbalance with a token", "why_tests_cant": "relations between the reports on unboundedly many texts", "anchors": ["nlcodec/qestim.py:QualityEstimator.estimate", "nlcodec/qestim.py:QualityEstimator._estimate", "nlcodec/qestim.py:QualityEstimator.EMD_simple"]}
{"id": "C168", "title": "A larger vocabulary never makes more of a text unknown", "statement": "With two word or character vocabularies learned from the same data with different sizes, nlcodec estimate reports the same number of tokens and the same mean length for any text, and at most as many unknown tokens with the larger one; the difference is the number of tokens whose types were cut off.", "quantifier": "every data, size, threshold and coverage, every text with a line", "why_tests_cant": "relates two learning runs and two reports on any text", "anchors": ["nlcodec/codec.py:WordScheme.learn", "nlcodec/codec.py:EncoderScheme.get_init_vocab", "nlcodec/qestim.py:QualityEstimator.estimate"]}
