{"id": "C01", "title": "Navigating a stored annotation list", "statement": "Opening the list of a feature and calling tau(k), rho(k), uat(k), ohr(k) (and the L/R shortcuts) in any order returns, every time, the first stored interval starting at or after k, the first ending at or after k, the last ending at or before k, the last starting at or before k, with the value stored for it; +infinity/-infinity when there is none. The answer depends only on k and the list, never on the calls made before.", "quantifier": "every sorted un-nested list of intervals (any length, any values), every finite sequence of tau/rho/uat/ohr/L/R calls with any keys, including the two infinities", "why_tests_cant": "the cursor keeps a mutable position, gallops and bisects from it, and each method has a one-entry memo; a wrong answer needs a particular combination of list, earlier calls and key", "anchors": ["src/array_hopper.cc: hopping, gnippoh, ArrayHopper::tau_/rho_/uat_/ohr_/L_/R_", "src/hopper.h: Hopper::tau/rho/uat/ohr", "src/hopper.cc: EmptyHopper, SingletonHopper, Hopper::L_/R_"]}
{"id": "C02", "title": "Containment operators", "statement": "(<< A B), (>> A B), (!< A B), (!> A B) return exactly the intervals of A that are contained in / contain / are not contained in / do not contain some interval of B, with A's value, in order, through all four navigation methods; the evaluation loops terminate and never overflow.", "quantifier": "every pair of operand lists, every call history on the operator and its operands, every key", "why_tests_cant": "lazy evaluation skips over operand lists by keys computed from earlier answers; missing or repeated solutions appear only for particular overlaps", "anchors": ["gcl/gcl.cc: ContainedIn, Containing, NotContainedIn, NotContaining"]}
{"id": "C03", "title": "Combination operators", "statement": "(^ A B), (+ A B), (... A B) return exactly the minimal intervals that contain an interval of both, of either, or of A followed by B, through all four navigation methods.", "quantifier": "every pair of operand lists, every call history, every key", "why_tests_cant": "minimality is a statement about all other intervals; a test only samples overlaps", "anchors": ["gcl/gcl.cc: Combinational, And, Or, FollowedBy"]}
{"id": "C04", "title": "Merging operand lists keeps values", "statement": "The binary merge and the n-ary vector merge of annotation lists return exactly the innermost intervals of the union, each with the value it has in a list that holds it (the first such list on a tie of the binary merge), through all four navigation methods.", "quantifier": "every number of operand lists, every contents, every call history, every key", "why_tests_cant": "the n-ary merge keeps two priority queues that are rebuilt or advanced depending on the direction of earlier calls", "anchors": ["gcl/gcl.cc: Merge", "gcl/vector_hopper.cc: InnerHopper, VectorHopper::make"]}
{"id": "C05", "title": "Link following", "statement": "The link operator over a list returns exactly the set of addresses stored as values of the list, as single-position intervals, no matter which navigation method is called first.", "quantifier": "every operand list, every assignment of values, every call history", "why_tests_cant": "four separate enumeration loops build the target set, one per method called first", "anchors": ["gcl/gcl.cc: Link, make_link_hopper"]}
{"id": "C06", "title": "Whole queries mean what their syntax says", "statement": "A query hopper built from any operator tree over stored lists answers every navigation call exactly as the algebraic meaning of the tree prescribes; the result list is never nested, and no navigation call loops forever or overflows.", "quantifier": "every operator tree of any depth, every index contents, every call history", "why_tests_cant": "composition: each node's mutable caches and cursors are shared by all calls made on it by its parents", "anchors": ["gcl/gcl.cc", "gcl/parse.cc: SExpression::to_hopper", "src/hopper.h"]}
{"id": "C07", "title": "Enumeration visits each solution once", "statement": "Enumerating with tau(p+1) from the left, rho(q+1), uat(q-1) or ohr(p-1) from the right, or materializing, visits every solution exactly once in increasing (decreasing) order and stops.", "quantifier": "every hopper that answers navigation correctly, every finite solution list", "why_tests_cant": "must hold for every list and end at exactly the right place", "anchors": ["gcl/gcl.cc: Link loops", "gcl/materialize.cc", "src/hopper.h"]}
{"id": "C08", "title": "Phrase queries match consecutive tokens", "statement": "A quoted phrase of n tokens returns exactly the intervals [p,p+n-1] such that each token i is indexed at position p+i.", "quantifier": "every phrase of any length, every index of single-position term lists", "why_tests_cant": "the phrase is rewritten into followed-by and a fixed-width containment; equality with adjacency needs a proof over all position sets", "anchors": ["gcl/parse.cc: SExpression::expand_phrases", "gcl/gcl.cc", "src/hopper.cc: FixedWidthHopper"]}
{"id": "C09", "title": "The query optimizer never changes an answer", "statement": "Rewriting a query before evaluation yields a query with the same solutions.", "quantifier": "every query tree, every index contents, every cost estimate", "why_tests_cant": "rewrites depend on shapes and on estimated costs; equivalence must hold for all contents", "anchors": ["gcl/optimizer.cc", "gcl/parse.cc: to_binary", "gcl/materialize.cc"]}
{"id": "C10", "title": "Printing and re-parsing a query", "statement": "Printing a parsed query and parsing the text again gives the same query, and n-ary operators mean the left-nested binary ones.", "quantifier": "every query tree the parser can produce", "why_tests_cant": "nesting, escapes and phrases combine without bound", "anchors": ["gcl/parse.cc: SExpression::from_string, to_string, to_binary"]}
{"id": "C11", "title": "Posting compression is lossless", "statement": "Compressing a non-decreasing sequence of non-negative addresses and decompressing it returns the same sequence, within the promised buffer growth; sequences the compressor cannot take are identified.", "quantifier": "every non-decreasing sequence of non-negative 64-bit integers of any length", "why_tests_cant": "the input space is unbounded and boundary cases sit at every power of 128", "anchors": ["src/post_compressor.cc: encode_1, encode_all, decode_1, decode_all"]}
{"id": "C12", "title": "Value and bit-packing compression is lossless", "statement": "Compressing the values of a posting list with the tf/df codec, or packing integers in bit fields, and decompressing them returns the same numbers.", "quantifier": "every sequence of values, every width", "why_tests_cant": "same as above, with width-dependent shifts", "anchors": ["src/tfdf_compressor.cc", "src/bits.cc"]}
{"id": "C13", "title": "A posting list survives being written and read", "statement": "Writing a posting list to its on-disk record and reading it back yields the same feature, intervals and values (a missing end array meaning single positions, a missing value array meaning zero).", "quantifier": "every posting list, every sequence of lists in a file, any lossless pair of compressors", "why_tests_cant": "optional arrays and header sizes interact for every length", "anchors": ["src/simple_posting.cc: SimplePosting::write, SimplePostingFactory::posting_from_file, posting_from_compressed_blob, get, push, append"]}
{"id": "C14", "title": "Annotations become innermost lists", "statement": "Committing a batch of annotations of a feature yields a list sorted by both ends in which an annotation that strictly contains another of the same batch is absent and every innermost annotation is present.", "quantifier": "every batch of annotations in every submission order", "why_tests_cant": "depends on the sort order and a one-pass filter over arbitrary batches", "anchors": ["src/fiver.cc: Fiver::ready_", "src/simple_posting.cc: posting_from_annotations"]}
{"id": "C15", "title": "Merging shards' lists", "statement": "Merging the lists of one feature from several shards gives exactly the innermost intervals of their union, the value coming from the latest shard holding the interval; the concatenation fast path gives the same result as the general merge.", "quantifier": "every number of lists, every contents", "why_tests_cant": "k-way merge with a priority queue and a shortcut; equality must hold for all interleavings", "anchors": ["src/simple_posting.cc: SimplePostingFactory::posting_from_merge, append"]}
{"id": "C16", "title": "Erased content disappears, nothing else does", "statement": "After erasing an address range, a query on any feature returns exactly the annotations not contained in an erased range, both while the shards are separate and after they are merged.", "quantifier": "every list, every set of erased ranges, every key and call history", "why_tests_cant": "erase is applied lazily by an operator and eagerly by merging; the two code paths must agree on all inputs", "anchors": ["src/bigwig.cc: BigwigIdx::hopper_", "src/simple_posting.cc: posting_from_merge (exclude)", "src/fiver.cc: Fiver::merge"]}
{"id": "C17", "title": "Background merging is invisible to queries", "statement": "Replacing adjacent shards by their merge does not change the answer of any query.", "quantifier": "every shard sequence, every choice of adjacent shards to merge, every feature and call history", "why_tests_cant": "merging happens at arbitrary times chosen by the scheduler", "anchors": ["src/bigwig.cc: merge_worker, raw_hopper", "src/fiver.cc: Fiver::merge", "src/hazel.cc: Hazel::merge"]}
{"id": "C18", "title": "Concurrent transactions get disjoint address ranges", "statement": "Whatever the interleaving of transactions on clones of an index, the address ranges and sequence numbers given to transactions that become ready are pairwise disjoint, in ready order and without address gaps, and every address a transaction was handed for its own text is moved by the same amount as its annotations.", "quantifier": "every number of transactions, every interleaving of begin/append/annotate/ready/commit/abort steps", "why_tests_cant": "interleavings and sizes are unbounded", "anchors": ["src/bigwig.cc: Bigwig::transaction_, ready_, commit_, abort_", "src/fiver.cc: Fiver::relocate, ready_", "src/fluffle.h"]}
{"id": "C19", "title": "Readers have stable snapshots", "statement": "Between start() and end() a reader's view of text and annotations does not change, and contains exactly the transactions committed before start() that were visible as a prefix of the sequence order.", "quantifier": "every interleaving of readers, committing transactions and background merges", "why_tests_cant": "interleavings are unbounded", "anchors": ["src/bigwig.cc: start_, end_, commit_, merge_worker"]}
{"id": "C20", "title": "Committed means durable, uncommitted means absent", "statement": "If the process stops at any instant during ready/commit/abort, reopening the index shows every transaction whose commit finished, and none whose commit had not reached its durable point; files of unfinished transactions are ignored.", "quantifier": "every crash point in every history of transactions", "why_tests_cant": "crash points cannot be enumerated by tests", "anchors": ["src/fiver.cc: Fiver::ready_, commit_, abort_, discard", "src/bigwig.cc: Bigwig::make, commit_all", "src/warren.cc: Warren::commit_all"]}
{"id": "C21", "title": "Reopening chooses a consistent set of shards", "statement": "Given the shard files left in a directory after any crash, recovery keeps a set of shards whose sequence ranges are disjoint and sorted, that covers every committed sequence number, and removes only files whose range is covered by a kept shard; otherwise it reports an error.", "quantifier": "every set of shard names and deletion orders", "why_tests_cant": "directory contents after a crash range over all subsets", "anchors": ["src/fiver.cc: normalize_shards, verify_dead_shards, Fiver::sanitize", "src/hazel.cc: normalize_hazel_shards, Hazel::sanitize", "src/bigwig.cc: combine_shards, verify_shard_order"]}
{"id": "C22", "title": "Shard merge is crash safe", "statement": "A background merge that writes a merged shard and then deletes its inputs never loses or duplicates committed content at any crash point.", "quantifier": "every shard sequence, every crash point, every number of repeated crashes", "why_tests_cant": "crash points cannot be enumerated by tests", "anchors": ["src/fiver.cc: Fiver::pickle, discard, sanitize", "src/bigwig.cc: merge_worker", "src/hazel.cc: Hazel::merge"]}
{"id": "C23", "title": "Interrupted index merges resume correctly", "statement": "A merge of on-disk index shards that is interrupted at any point and resumed (any number of times) writes the same merged index as an uninterrupted merge.", "quantifier": "every set of input indexes, every sequence of interruption points, any torn tail of the checkpoint log", "why_tests_cant": "interruption points and repetitions are unbounded", "anchors": ["src/hazel.cc: read_checkpoint_directory, repair_checkpoint, append_checkpoint_posting, checkpoint_posting, HazelIdx::merge"]}
{"id": "C24", "title": "On-disk index lookups find exactly what was written", "statement": "Looking a feature up in an on-disk index finds its posting record if it was written and nothing otherwise; its count is the stored length.", "quantifier": "every sorted feature directory, every feature", "why_tests_cant": "binary search over arbitrary directories", "anchors": ["src/hazel.cc: locate_posting, HazelIdx", "src/simple_idx.cc: locate"]}
{"id": "C25", "title": "Appended text can be read back", "statement": "After text is appended and committed, translating the address range returned for it gives the text back (up to the separator added), and translating any sub-range gives the text from the first of its tokens up to the next token.", "quantifier": "every sequence of appended texts, every address range, any chunking", "why_tests_cant": "chunk boundaries, separators and tokenisation interact for every input", "anchors": ["src/fiver.cc: FiverAppender::append_, FiverTxt::translate_", "src/hazel.cc: HazelTxt::translate_, HazelTxt::merge", "src/bigwig.cc: BigwigTxt"]}
{"id": "C26", "title": "Tokenizer operations agree", "statement": "tokenize, split and skip of a tokenizer agree for every byte string: split returns the distinct-address tokens tokenize reports, skipping n tokens lands at the start of token n, offsets and lengths are inside the text, and addresses are consecutive.", "quantifier": "every byte string (including malformed UTF-8 and unfinished tags)", "why_tests_cant": "three hand-written scanners over arbitrary bytes", "anchors": ["src/ascii_tokenizer.cc: tokenize_, skip_, split_", "src/utf8_tokenizer.cc: tokenize_, skip_, split_"]}
{"id": "C27", "title": "Chunked text store behaves like a flat file", "statement": "Any sequence of appends and reads on the compressed chunked text store returns the bytes a flat append-only file would, and reopening or aborting restores exactly the state at the last commit.", "quantifier": "every chunk size, every sequence of appends, reads and transactions, any lossless compressor", "why_tests_cant": "buffered partial last chunk, chunk map and crash recovery interact", "anchors": ["src/simple_txt_io.cc: append, read, transaction_, restore, abort_", "src/working.cc: CompressWriter, CompressReader"]}
{"id": "C28", "title": "Text translation does not depend on earlier translations", "statement": "Translating an address range of a single-file index returns the same string whatever ranges were translated before.", "quantifier": "every sequence of translate calls, every text, every tokenizer with the skip law", "why_tests_cant": "a memo of the last position is reused when it looks usable", "anchors": ["src/simple_txt.cc: SimpleTxt::translate_"]}
{"id": "C29", "title": "Feature numbers of short terms are unique", "statement": "Two different terms shorter than eight bytes never share a feature number, a short term never shares one with a long term, and every feature number is positive (so it is never taken for the erase marker); translating a short term's feature gives the term back.", "quantifier": "every pair of terms", "why_tests_cant": "the domain is all byte strings", "anchors": ["src/hashing_featurizer.cc", "src/annotator.h"]}
{"id": "C30", "title": "Configuration survives freeze and cook", "statement": "Freezing a parameter map into text and cooking the text returns the map, for nested maps as well; the texts for which this fails are identified.", "quantifier": "every parameter map, every nesting depth", "why_tests_cant": "strings are arbitrary", "anchors": ["src/recipe.cc: freeze, cook, parse, dump", "src/dna.cc"]}
{"id": "C31", "title": "Shard names order like sequence ranges", "statement": "Formatting a sequence range as a shard name and parsing it gives the range back, different ranges have different names, names sort like ranges, and no other file name of the directory parses as a shard.", "quantifier": "every pair of sequence ranges", "why_tests_cant": "all 63-bit numbers", "anchors": ["src/owsla.cc: seq2str, owsla_shard_name, owsla_parse_shard_name", "src/hazel.cc: parse_hazel_name"]}
{"id": "C32", "title": "Binary dictionaries round-trip", "statement": "Encoding the dictionary of blobs of an on-disk shard and decoding it gives the same names, offsets and lengths; truncated or foreign input is rejected.", "quantifier": "every dictionary", "why_tests_cant": "names and counts are arbitrary", "anchors": ["src/owsla.cc: hazel_blob_dictionary", "src/hazel.cc"]}
{"id": "C33", "title": "Transaction protocol", "statement": "Every component accepts transaction, ready, commit, abort only in the protocol's order, reports failure otherwise without side effects, commit happens at most once per transaction, and a multi-component transaction is ready only if all components are.", "quantifier": "every sequence of calls, every pattern of component failures", "why_tests_cant": "call sequences are unbounded", "anchors": ["src/committable.h", "src/warren.cc", "src/simple_warren.cc", "src/scribe.cc"]}
{"id": "C34", "title": "Lazily loaded lists are complete when used", "statement": "When several threads ask for the same feature's list, exactly one loads it, none uses it before it is completely loaded, and none waits forever once loading ends.", "quantifier": "every number of threads, every interleaving", "why_tests_cant": "schedules cannot be enumerated by tests", "anchors": ["src/owsla.cc: OwslaCache::get", "src/cache_gate.h", "src/read_gate.h", "src/array_hopper.h: CacheRecord"]}
{"id": "C35", "title": "Single-file index commit survives a crash", "statement": "Committing annotations to a single-file index replaces index and posting file; after a crash at any point and recovery the index is entirely the old one or entirely the new one.", "quantifier": "every crash point, every recovery repeated any number of times", "why_tests_cant": "crash points cannot be enumerated by tests", "anchors": ["src/simple_annotator.cc: ready_, commit_, abort_, recover", "src/simple_idx.cc: SimpleIdx::make"]}
{"id": "C36", "title": "JSON values read back", "statement": "JSON values scribed into a store and committed are translated back to JSON text for the same values; every value inside them can be found by its path and by its member name, and the range found translates to that value; sanitising changes only characters reserved by the store; encoding a byte string as JSON gives JSON text for that string.", "quantifier": "every list of JSON values, every string, every path", "why_tests_cant": "values nest to any depth and strings contain any bytes, including the marks the store itself uses", "anchors": ["src/json.cc: json_scribe, do_json, json_sanitize, json_translate, json_encode", "src/json_txt.cc: JsonTxt::wrap, recipe_"]}
{"id": "C37", "title": "A shard survives being pickled", "statement": "Writing an in-memory shard to its file and loading it back yields a shard with the same sequence range, text and annotation lists.", "quantifier": "every shard contents, any lossless compressors", "why_tests_cant": "all contents and sizes", "anchors": ["src/fiver.cc: Fiver::pickle, Fiver::unpickle"]}
{"id": "C38", "title": "Merge scheduling keeps the shard order", "statement": "Whatever merges the background workers choose and however they interleave with commits and aborts, the shards stay ordered by sequence number with disjoint ranges, no shard is merged by two workers at once, and no committed content is dropped.", "quantifier": "every number of workers, every interleaving", "why_tests_cant": "schedules are unbounded", "anchors": ["src/bigwig.cc: merge_worker, find_*, validate_*, try_merge"]}
{"id": "C39", "title": "Committed text and annotations are searchable at their addresses", "statement": "After a transaction is committed, searching a word finds exactly the addresses of its occurrences in the appended texts, and searching an annotated feature finds exactly its innermost annotations, at the addresses the transaction was given.", "quantifier": "every sequence of appends, annotations and erasures, every commit address, every feature and call history", "why_tests_cant": "texts, annotations and call histories are unbounded", "anchors": ["src/fiver.cc: FiverAppender::append_, FiverAnnotator, Fiver::ready_, FiverIdx", "src/simple_posting.cc"]}
{"id": "C40", "title": "Background merging comes to rest", "statement": "Left alone, an index stops merging after finitely many merges and then consists of a few shards only, whatever was committed and aborted before.", "quantifier": "every history of transactions, every size of shard, every number of workers", "why_tests_cant": "whether a schedule ends cannot be observed by a test that runs for a while", "anchors": ["src/bigwig.cc: find_*, validate_*, merge_worker, try_merge", "src/fluffle.h: max_workers"]}
{"id": "C41", "title": "Scribing files covers the files", "statement": "Indexing a list of files makes one committed transaction per readable file and indexes every line of a JSONL file; on success nothing is left uncommitted.", "quantifier": "every list of files, readable or not, every file content", "why_tests_cant": "lists of files and contents are unbounded", "anchors": ["src/scribe.cc: scribe_files, scribe_jsonl"]}
{"id": "C42", "title": "Annotations committed to a single-file index are found", "statement": "After any sequence of transactions on a single-file index, committed, aborted or ended by a crash and recovery, a search of a feature answers with exactly the innermost of the annotations it held at first and of all committed since, whatever batches they were written in.", "quantifier": "every sequence of transactions and crashes, every feature and call history, every batch size", "why_tests_cant": "histories and annotations are unbounded", "anchors": ["src/simple_annotator.cc: annotate_, maybe_flush_additions, merge_updates, ready_, commit_, abort_", "src/simple_idx.cc: hopper_, count_, vocab_"]}
{"id": "C43", "title": "Text added to a single-file index keeps its addresses", "statement": "The texts given to a builder, and then those of every committed transaction, get consecutive addresses in the order they were added; the tokens of each text are handed to the index at their addresses; translating any range of addresses gives the text back; an aborted transaction leaves nothing behind.", "quantifier": "every list of texts, every history of transactions, commits, aborts and restarts, every range", "why_tests_cant": "texts and histories are unbounded, and errors show only when blocks of 1024 tokens or chunks meet", "anchors": ["src/simple_builder.cc: add_text_, finalize_", "src/simple_appender.cc: transaction_, append_, ready_, commit_, abort_", "src/simple_txt.cc: translate_, tokens_, load_map"]}
{"id": "C44", "title": "An index built from scratch finds every word and annotation", "statement": "Whatever texts and annotations a builder is given, and in whatever batches it writes them, finalize makes an index in which every feature is found at exactly the addresses of its words and at its annotations, the text reads back, and annotations committed later are found beside them. The caller gives annotations of a feature in order of their starts and none inside another.", "quantifier": "every sequence of texts and annotations, every batch size, every feature and call history", "why_tests_cant": "batches meet only when millions of tokens are added; sequences are unbounded", "anchors": ["src/simple_builder.cc: add_text_, add_annotation_, maybe_flush_tokens, maybe_flush_annotations, build_index, finalize_", "src/simple_posting.cc: posting_from_tokens, posting_from_annotations, append"]}
{"id": "C45", "title": "Shortest substring ranking returns the best containers", "statement": "Ranking the containers of a collection by a query returns the requested number of those with the highest scores among the containers that hold a solution of the query, each once, highest first, with its score (the weights of the solutions in it) and its first shortest solution as the passage; split over any number of threads it returns containers with the same scores. Containers do not overlap.", "quantifier": "every query and container hopper, every collection, depth, range and number of threads, every order std::sort may give ties", "why_tests_cant": "collections are unbounded; errors show at the borders of batches, containers and ranges", "anchors": ["src/ranking.cc: ssr_ranking, top_results, parallel_ranking, parallel_ssr"]}
{"id": "C46", "title": "Term rankings return the best documents", "statement": "Ranking documents by the sum of what the terms of a query add to each of them (language model, dot product, BM25) returns the requested number of documents with the highest sums, each once, highest first, although BM25 skips documents it takes to be out of reach; each result is given the container that covers it.", "quantifier": "every collection, term list, weight and depth", "why_tests_cant": "skipping is wrong only for some arrangements of scores, which are unbounded", "anchors": ["src/ranking.cc: lmd_ranking, product_ranking, bm25_ranking, maybe_add_container"]}
{"id": "C47", "title": "Fused, merged and tiered rankings", "statement": "Fusing rankings lists each result once with the sum of what its places earn; merging two rankings keeps one best result of each container; ranking by tiers lists the containers of an earlier tier before those that match only later ones, no container twice.", "quantifier": "every list of rankings, every list of tiers, every depth", "why_tests_cant": "rankings are unbounded; ties may be sorted in any order", "anchors": ["src/ranking.cc: rrf_fusion, merge_results, tiered_ranking"]}
{"id": "C48", "title": "Term statistics agree with the text", "statement": "Making term statistics for a collection annotates each item with the number of occurrences of each of its stemmed words, and the collection with the number of items each word occurs in, the number of items and their total length; read back they give each term's items with its occurrences, so that rankings by terms are rankings by the words of the items. Making them for a range of addresses does so for the items in the range.", "quantifier": "every collection of items, every text, tokenizer that gives one word for each address, stemmer and term, every range", "why_tests_cant": "collections are unbounded, and items are handled in batches of a million addresses", "anchors": ["src/ranking.cc: tf_df_annotations, tf_annotations", "src/tf_hopper.h: TfHopper", "src/df_stats.cc: DfStats::make, tf_hopper_"]}
{"id": "C49", "title": "Infix queries mean what they say", "statement": "A text in the infix query language is accepted exactly when its grammar has it; the s-expression then offered reads back as the tree of the query, with defined words replaced by their definitions at that time, and given to the query engine finds what the query means; definitions last for the session and a refused text changes nothing.", "quantifier": "every session of texts, whatever they hold, every query of the grammar at any depth, every index", "why_tests_cant": "texts, nesting and sessions are unbounded", "anchors": ["gcl/mt.cc: Mt::infix_expression, parseQ, parseQTerm, scan, inhale, to_s_expression", "gcl/mt.h: Mt", "gcl/parse.cc: SExpression::from_string"]}
{"id": "C50", "title": "Words are stemmed by Porter's rules", "statement": "A word of three to thirty-two letters is answered with a mark and the stem that the rules of Porter's algorithm give its small letters, which is never empty or longer than the word, whatever was stemmed before; anything shorter, longer or not made of letters comes back as it is, and the caller is told so.", "quantifier": "every word, every history of earlier calls", "why_tests_cant": "words are too many to try, and the rules meet in combinations", "anchors": ["src/porter.cc: porter, step1ab, step1c, step2, step3, step4, step5, m, cvc, doublec, ends, setto", "src/porter.h: stem_"]}
{"id": "C51", "title": "Descriptions of foragers read back", "statement": "The description written for a forager reads back as the same name, tag and parameters, whatever bytes they hold and with white space and NULs after it; any JSON object reads as its last name, its last tag and the last value of each parameter, whatever else it holds and however it is spelled; reading ends on every text; foragers with different names or tags are kept under different labels.", "quantifier": "every name, tag and map of parameters, every text", "why_tests_cant": "names, tags, parameters and nesting are unbounded", "anchors": ["meadowlark/forager.cc: forager2json, json2forager, forager_label, append_escaped_json_string, parse_string, skip_value, parse_parameters_object"]}
{"id": "C52", "title": "Files with fields are found by record and by field", "statement": "Appending a file of lines with separated fields indexes every line once, however many threads share the work: the numbered field names find exactly the tokens of those fields, the record name exactly the tokens of each record, the header name those of the header, the path of the file each chunk of it, and the text of a chunk is its lines. Either the whole file is committed or nothing is, and a path counts as appended exactly when it was.", "quantifier": "every file, separator, tokenizer with the laws and number of threads, every address of commit, every failing step", "why_tests_cant": "files, lines and fields are unbounded; errors show where fields are empty or shares meet", "anchors": ["meadowlark/meadowlark.cc: append_tsv, append_path, path_match, normalized_path", "src/core.cc: split_lines, split_tsv"]}
{"id": "C53", "title": "A JSONL file is appended by several threads line by line", "statement": "Whatever the schedule of the threads, if the file can be read and every call succeeds then each of its lines goes to one thread, which stores its lines once each in the order of the file, and all of it is committed; if any call fails or the file cannot be read, nothing is committed and the answer is false, and otherwise it is not. The threads end on every schedule.", "quantifier": "every file, number of threads, schedule, and place where a call or a read fails", "why_tests_cant": "schedules are unbounded, and lines and threads too", "anchors": ["meadowlark/meadowlark.cc: append_jsonl"]}
{"id": "C54", "title": "Foraging leaves the term statistics of a query's items, and they are found again", "statement": "Foraging a query for tf-idf under a tag forages the results within the range of addresses; when it succeeds, whatever the number of workers and whatever calls succeed, all workers have committed and what they have committed are, under the label of the tag, the statistics of the text of the items: at each item the number of occurrences of each stemmed word, and parts that add up to the number of items with a word, of items and of words, and the label once. The description stored with them has the query and all the parameters, and asking for the statistics of the tag finds them, with the right totals; rankings with them return the best items.", "quantifier": "every collection, query result, range, tag, map of parameters, number of workers and outcome of their calls, term, stemmer and feature function without a clash", "why_tests_cant": "collections, words, workers and failures are unbounded", "anchors": ["meadowlark/meadowlark.cc: forage", "meadowlark/forager.h: Forager::forage", "meadowlark/forager.cc: Forager::label", "meadowlark/tf-idf_forager.cc: TfIdfForager", "meadowlark/tf-idf_stats.cc: TfIdfStats"]}
{"id": "C55", "title": "Fast ids do not change what is read", "statement": "Making fast ids for a query that parses succeeds, and afterwards the text of every range of addresses is what it was; the results of the query are answered from the file of ids. A warren without an id query, or with one that does not parse, is refused and nothing is written. A crash while the file is written leaves a warren that opens.", "quantifier": "every text, query result, text compressor without loss, range of addresses and length of what was written of the file", "why_tests_cant": "texts, ids and cuts are unbounded; the binary search errs at boundaries", "anchors": ["src/fastid_txt.cc: fastid, FastidTxt::make, translate_", "src/fastid_txt.h: FastidTxt"]}
{"id": "C56", "title": "Ranking pipelines do what their stages say", "statement": "A pipeline text is read as one stage for each piece between white space, and refused exactly if a piece is not the text of a stage. Ranking a query by it always ends and gives what the stages give one after the other: the query starts as its terms with the numbers of their occurrences; stemming adds up the weights of terms with one stem; stop words are left out unless nothing else is there; parameters are set; rankers rank with the query and parameters as they are; feedback adds terms. A parameter has the value set under its full name, else its short name, else its default.", "quantifier": "every pipeline, query, tokenizer, stemmer, list of stop words, ranker, statistics and set of parameters", "why_tests_cant": "pipelines and queries are unbounded and the stages keep the query in two forms", "anchors": ["src/ranker.cc: RankingContext, RankingContextTransformer::from_name, Ranker::from_pipeline, RankingPipeline::rank_", "src/parameters.cc", "src/ranking.cc: ranking_parameter"]}
{"id": "C57", "title": "Feedback adds the best terms of the best texts", "statement": "Feedback adds to a query the given number of terms that are worth most in the first texts of a ranking: by their weight in the statistics and the number of these texts that they are in, or by how much more often they are in passages about the results than expected. Other weights do not change. Each container gives one passage, which covers its result.", "quantifier": "every ranking, text, statistics, parameters and query", "why_tests_cant": "texts and rankings are unbounded; ties and cut-offs are where it goes wrong", "anchors": ["src/ranking.cc: rsj_prf, kld_prf"]}
{"id": "C58", "title": "Ranking many queries by threads gives each topic its ids", "statement": "On every schedule that ends, trec answers false exactly if some worker could not be set up; each topic in the results has the ids, in order, of the results of its query, and if the answer is true every topic is there. No schedule goes on for ever or gets stuck.", "quantifier": "every map of topics, number of threads, schedule of the workers and outcome of their setup", "why_tests_cant": "the results must not depend on the schedule", "anchors": ["src/ranker.cc: trec", "src/core.cc: allowed_threads"]}
{"id": "C59", "title": "The measures of a ranking are what they are called", "statement": "Evaluating a ranking against graded judgments gives, under their names, precision at 5, 10 and 20, average precision, reciprocal rank, precision and recall, discounted gain and its part of the largest gain possible at each depth, rank-biased precision and time-biased gain; shares are from 0 to 1.", "quantifier": "every set of judgments and every ranking, with exact arithmetic", "why_tests_cant": "rankings and judgments are unbounded; ideal gain is a maximum over all rankings", "anchors": ["src/eval.cc: eval, trec_eval, ndcg_eval, rbp_eval, tbg_eval"]}
{"id": "C60", "title": "Differences of rankings are the largest possible, and means are means", "statement": "The maximum effectiveness difference given for two rankings is reached by some judgments and exceeded by none; averaging evaluations one after the other gives the mean of each measure and the number of evaluations.", "quantifier": "every pair of rankings and all judgments of them, every sequence of evaluations", "why_tests_cant": "the maximum ranges over all judgments, which cannot be tried", "anchors": ["src/eval.cc: med, med_qrels, mean"]}
{"id": "C61", "title": "Judgments are loaded as their file says", "statement": "A file of judgments, all of whose items are in the collection, gives each item of a topic the grade of its last line as a share of the highest grade, its length and its name; other files are refused. An identifier in a text is found between its tags or quotes.", "quantifier": "every file, collection, identifier and surrounding text", "why_tests_cant": "files, topics and identifiers are unbounded", "anchors": ["src/eval.cc: load_trec_qrels, trec_docno, translate_docno"]}
{"id": "C62", "title": "Files of a working directory read back", "statement": "Whatever is appended to a file of a working directory, in any pieces, is what requests of any amounts then read, each going on where the last ended or, for files that are not compressed, from where it says; at the end there is less or nothing. Temporary names are not given twice.", "quantifier": "every sequence of texts and of requests, every recipe, every compressor without loss, every number of temporary names", "why_tests_cant": "texts and requests are unbounded and meet the buffers at every offset", "anchors": ["src/working.h: Working", "src/working.cc: reader, writer"]}
{"id": "C63", "title": "Sorting a file of records gives the same records in order", "statement": "Sorting a file of annotations or tokens that does not fit in memory ends with a new file of the same records in order, the input and all other temporary files gone; if a file cannot be created or written the answer is false and the input is as it was; other files do not change. The check accepts a file of annotations exactly if its intervals are proper, in order and not nested within a feature.", "quantifier": "every file of records, every number of records sorted at a time, every sorting of batches, every failing file", "why_tests_cant": "files are unbounded; merging errs at uneven batches and ties", "anchors": ["src/simple_builder.cc: sort_records, merge_records, sort_annotations, check_annotations"]}
{"id": "C64", "title": "A builder keeps to its protocol", "statement": "A builder is asked each call in order until it refuses one, after which every answer is false and nothing is asked, or until it is finalized, after which nothing is added and finalizing again answers true and does nothing.", "quantifier": "every sequence of calls and every builder", "why_tests_cant": "histories of calls are unbounded", "anchors": ["src/builder.h: Builder"]}
{"id": "C65", "title": "Input files are read whole", "statement": "A file given to a builder is read whole, in whatever pieces the system gives it; a zipped file goes through zcat with its name as one word, whatever characters it has. Building from files adds the text of each in order and finalizes, and answers true exactly if the builder says yes to all of it.", "quantifier": "every list of files, name, text and way of giving it in pieces", "why_tests_cant": "names and texts are unbounded; quoting must hold for every name", "anchors": ["src/builder.cc: maybe_zipped, inhale, shell_quote, build_trec"]}
{"id": "C66", "title": "A crash of a single-file index is undone or completed by recovery", "statement": "After a crash anywhere in a transaction before commit, recovery that rolls back leaves exactly the texts and the index committed before; after a crash anywhere in commit, recovery that rolls forward leaves exactly those and the transaction's. Recovery may itself be interrupted and started again. Reading then answers with these texts, an appender goes on from them, and nothing is left of the transaction.", "quantifier": "every history of texts and transactions, every crash point, every loss of what was not yet flushed, every number of interrupted recoveries, every interleaving of text and index", "why_tests_cant": "crash points and what a crash loses are unbounded, and tests do not crash", "anchors": ["src/simple_appender.cc: recover, transaction_, append_, ready_, commit_, abort_", "src/simple_annotator.cc: recover", "src/simple_txt_io.cc: recover", "src/simple_warren.cc: transaction_, ready_, commit_, abort_"]}
{"id": "C67", "title": "Statistics of fields are those of their text", "statement": "For a collection whose items have fields, the statistics made hold for each field, at each item with a term in that field, the number of its occurrences there, and over all fields the occurrences, the number of items with the term, the lengths and the totals. Read back with a weight for each field, the list of a term holds the items with the term in a field of positive weight, each with the sum of weight times occurrences, and rankings over them return the best items. Missing, bad or negative weights are errors.", "quantifier": "every collection, number of fields, text, stemmer, weights and histories of calls", "why_tests_cant": "texts, fields and histories are unbounded; keys of fields and terms must not be confused for any number of fields", "anchors": ["src/ranking.cc: tf_field_annotations", "src/field_stats.cc: FieldStats::make, TfHopper, load_df, tf_hopper_"]}
{"id": "C68", "title": "Statistics with the weights of terms are those of the collection", "statement": "The statistics made with tf-idf hold, for each term, the items that hold it with the number of its occurrences, the average length of the items, and of the weights idf and rsj those that were asked for, rsj only when positive. Words count by their stems, or, if asked, as they are and by their stems. Read back they give the average, the weights (0 when there is none) and for each term a list that answers every history of calls, and rankings over them return the best items. The statistics say which weights they have.", "quantifier": "every collection, text, stemmer, choice of weights, and history of calls on the lists of terms", "why_tests_cant": "texts, items and histories are unbounded, and the formulas for the weights are arbitrary", "anchors": ["src/ranking.cc: tf_idf_annotations", "src/idf_stats.cc: IdfStats::make, have_, avgl_, rsj_, idf_, tf_hopper_", "src/core.cc: okay"]}
{"id": "C69", "title": "Tiers built from a query hold every set of its rarest words, and rank by them", "statement": "build_tiers takes the at most 16 rarest distinct words of the query. Every set of them is in exactly one tier, heavier sets before lighter ones, and a new tier starts where the weight has dropped by delta from the first of the tier. The text of each tier is a query that parses, and that matches an item exactly if the item holds all words of one of the sets (two occurrences, for a set of one word). tiered_ranking by the text of a query takes the best items of the first tier, then the best of the next tier among those not taken yet. With room for all, the items ranked are those that hold two of the words kept or one of them twice.", "quantifier": "every query text, tokenizer, index, weights of words, delta, order of ties in sorting, containers and depth", "why_tests_cant": "queries, texts and weights are unbounded, and the subsets are exponential in the words", "anchors": ["src/ranking.cc: build_tiers, tiered_ranking"]}
{"id": "C70", "title": "Passages ranked by how many words of the query they hold are the shortest that do", "statement": "icover_ranking returns at most depth passages, best first, no container twice. Each passage is a shortest interval that holds some of the words of the query, lies in the container it is reported with (the first such), and has as score the sum of the weights of these words less n times the logarithm of its length (a single word: its weight). The container of a passage with all the words of the query and a score above zero is in the ranking with that score or a better one, unless depth others have at least that score. If a word of the query is in a container there is a result. Nothing undefined happens.", "quantifier": "every query, set of words and containers, weights, penalty, order of ties in sorting and depth", "why_tests_cant": "the passages searched depend on all positions of all words, and the words dropped between passes on the scores found so far", "anchors": ["src/ranking.cc: icover_ranking, merge_results"]}
{"id": "C71", "title": "A random ranking orders the containers by the numbers drawn for them", "statement": "random_ranking draws a number for each container in order and returns the depth containers with the highest numbers, highest first; only numbers above zero count. With room for all containers and numbers above zero the result is a permutation of the containers.", "quantifier": "every set of containers, sequence of numbers drawn, order of ties in sorting and depth", "why_tests_cant": "the result depends on all numbers drawn and on the batches in which results are merged", "anchors": ["src/ranking.cc: random_ranking, top_results"]}
{"id": "C72", "title": "Short answers are the best runs of words around the best passages", "statement": "qap returns at most depth answers, no two from the same passage, best first. Each is the text around one of the best passages (window positions on both sides, within its container) if it has at most length tokens, else a run of length of its tokens. Its score is the sum of the weights of its distinct words that are not in the query; the weight of a word is the cube of what it earns, by its rarity and distance, around all passages. A possible answer left out is not better than the one returned for its passage, or than all of depth answers. Nothing undefined happens.", "quantifier": "every query, collection, tokenizer whose tokens come in order, weights, order of ties in sorting, depth, length, number of passages and window", "why_tests_cant": "weights depend on the text around all passages together and the choice on all runs of tokens", "anchors": ["src/ranking.cc: qap, icover_ranking"]}
{"id": "C73", "title": "Feedback for question answering returns the words most typical of the text near the passages", "statement": "qa_prf looks at the tokens in and within window tokens of the first depth passages of different containers. Of the tokens near more than one of these it returns the expansions with the highest worth, highest first. The worth of a token is a function of the number of passages it is near and of the sum of what is expected for its smallest gap at each of them. The weighted query becomes these terms with what they are worth.", "quantifier": "every ranking, collection, tokenizer, parameters, weights and order of ties in sorting", "why_tests_cant": "counts, smallest gaps and expectations accumulate over all tokens of all passages", "anchors": ["src/ranking.cc: qa_prf"]}
{"id": "C74", "title": "A featurizer is restored from its name and its recipe", "statement": "Featurizer::make given the name and the recipe of a featurizer, or any recipe that says the same, makes one that gives the same feature for every text and the same text for every feature, however deep featurizers are nested. With a working directory, exactly what Featurizer::check passes can be made. A vocabulary around a featurizer changes no feature and counts each text as often as it was asked for. The JSON featurizer gives the null feature to the characters that mark structure and to no others.", "quantifier": "every featurizer of any nesting, every recipe, every text and every sequence of texts", "why_tests_cant": "recipes nest to any depth and tags are any text", "anchors": ["src/featurizer.cc: Featurizer::make, Featurizer::check", "src/tagging_featurizer.cc", "src/vocab_featurizer.cc", "src/json_featurizer.cc", "src/wrapping_featurizer.cc", "src/recipe.cc: unwrap", "src/json.h: json_internal_token"]}
{"id": "C75", "title": "A bigwig keeps its configuration through settings and reopenings", "statement": "After any history of set_parameter, set_default_container, set_stemmer, merge and reopening, a bigwig gives the same features and has the same tokenizer and compressors as when it was made, and get_parameter gives for each key the value set last. After reopening, the default container, the stemmer and whether it merges are as set last.", "quantifier": "every featurizer, tokenizer and compressors, every history of settings and reopenings", "why_tests_cant": "histories are unbounded, and every setting rewrites the whole nested configuration", "anchors": ["src/bigwig.cc: Bigwig::make, Bigwig::recipe_, Bigwig::set_parameter_, Bigwig::get_parameter_, Bigwig::merge", "src/warren.h: set_default_container, set_stemmer", "src/warren.cc: Warren::make", "src/tokenizer.cc", "src/stemmer.cc", "src/compressor.cc", "src/dna.cc"]}
{"id": "C76", "title": "A warren's ranking statistics are the ones it declares", "statement": "Stats::make gives statistics of the kind and recipe asked for, or the kind the warren declares, and gives them whenever the warren holds them; what it makes passes Stats::check. Items ranked are the solutions of the content query, else the container query, else the default container. Queries are split and stemmed with the tokenizer and stemmer of the warren, or those of the metadata of a meadow's tag.", "quantifier": "every warren, parameters, name, recipe and query, with and without assertions compiled in", "why_tests_cant": "the choice depends on all combinations of parameters, defaults, kinds of warren and build settings", "anchors": ["src/stats.cc: Stats::make, Stats::check, container_hopper_, id_hopper_, content_hopper", "meadowlark/tf-idf_stats.cc: TfIdfStats::make", "src/idf_stats.cc", "src/df_stats.cc", "src/field_stats.cc", "src/ranking.cc", "src/ranker.cc", "Makefile: fast"]}
{"id": "C77", "title": "Options change exactly the setting they name", "statement": "An option X:Z, X:name:Z, X:Y:Z or X@Y, given when a bigwig or an index is made, changes the recipe, the name or the one setting of item X, or wraps it, and leaves the rest of the configuration saying the same; one that does not apply is refused. Any number of options can follow each other, and extract_option gives back what was set.", "quantifier": "every configuration, nested to any depth, every sequence of options", "why_tests_cant": "configurations and sequences of options are unbounded, and each option rewrites the whole text", "anchors": ["src/recipe.cc: interpret_option, extract_option", "src/bigwig.cc: Bigwig::make, default_dna", "src/simple_builder.cc: SimpleBuilder::check, SimpleBuilder::make", "meadowlark/meadowlark.cc: create_meadow"]}
