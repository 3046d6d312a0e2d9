# Formal model of Cottontail in Rocq (Coq 8.16.1)

This file says what is modelled, how each property of `properties.jsonl` is stated and proved,
what is trusted, and what was found while reading and proving.

## Conventions of the model

* `addr` is `Z`, with `minf = -2^63`, `maxf = 2^63-1`. Where the C++ could overflow, the model
  uses checked arithmetic that returns `UB` outside the 64-bit range, so a theorem that the
  result is `Ok _` includes absence of overflow. Feature values (`fval`, a double) are
  64-bit patterns (`Z`); the code only copies them and compares them with `0.0`.
* Every method returns `res A := Ok a | UB | NoFuel`. `UB` is undefined behaviour of the C++
  (overflow, out-of-range index, failed `assert`); `NoFuel` is exhaustion of a loop bound.
  Theorems state `Ok`.
* Loops run through `ploop`, a combinator with a binary (`positive`) bound above 2^64, or by
  recursion on the data or on a stated number of steps; the correctness theorems show that no
  bound is reached.
* A hopper is a record of methods over an explicit state type (`hcls`): memo caches, cursor and
  operands are all part of the state that each call returns.
* Files are byte lists, directories finite maps from names to contents. A crash stops the
  program between two file-system actions; for the checkpoint files of an index merge (C23) also
  in the middle of a write, and the tail of either file may then be lost.
* Threads are interleavings of the critical sections the code delimits with its mutexes and of
  single file-system calls between them.
* Library calls whose code is not in the repository are parameters with their law as a
  hypothesis: `std::sort` (a permutation, in order), the compressors (`lossless` on the given
  bytes), and the tokenizer where a theorem holds for any tokenizer.

Files under `rocq/theories`: `*Model.v` (definitions only, each citing `/repo` lines), `*Spec.v`
(small independent specifications), `*Proofs.v` and others (lemmas), `*Witness.v` (concrete
cases), `Props*.v` (property theorems, each closed by `exact`, with `Print Assumptions` and an
`Example` showing a concrete case that meets the hypotheses).

A theorem name ending in `_partial` proves part of its property: the comment above it says what
is missing. One ending in `_refuted` shows, by a concrete run of the model, that the full
statement is false of the code; these are listed under Findings.

## Properties

Status, model and method for each property of `properties.jsonl`. The theorem names are the exact
names in the `Props*.v` files; `MANIFEST.json` has the same list.

### C01 Navigating a stored annotation list (proved)

* Model: HopperModel (hopper.h, hopper.cc, array_hopper.cc)
* Method: refinement to a declarative first/last interval for any invariant state; induction on call histories
* Theorems: `C01_stored_list`, `C01_no_interval`, `C01_one_interval`, `C01_fixed_width`
* Array, Empty, Singleton and FixedWidth hoppers, any history of calls, no overflow, loops terminate.

### C02 Containment operators (proved)

* Model: HopperModel (gcl.cc: Contained In, Containing, Not Contained In, Not Containing)
* Method: refinement over abstract operands; loop measure
* Theorems: `C02_contained_in`, `C02_containing`, `C02_not_contained_in`, `C02_not_containing`
* All four containment operators over any operands that answer correctly.

### C03 Combination operators (proved)

* Model: HopperModel (gcl.cc: And, Or, FollowedBy)
* Method: same
* Theorems: `C03_and`, `C03_or`, `C03_followed_by`
* And, Or, FollowedBy over any operands that answer correctly.

### C04 Merging operand lists keeps values (partial)

* Model: HopperModel (Merge), VectorModel (vector_hopper.cc with its two queues)
* Method: same; queue invariant
* Theorems: `C04_vector_merge`, `C04_merge_partial`, `C04_merge_forward_partial`, `C04_merge_refuted`
* The n-ary merge is proved in full. The binary Merge class is proved when no two operand intervals start together and end apart, and for tau/rho/L/R always; its uat/ohr answer is refuted otherwise (C04_merge_refuted).

### C05 Link following (proved)

* Model: UnaryModel (gcl.cc: Link, its four enumeration loops)
* Method: refinement to the set of values of the operand
* Theorems: `C05_link`
* Operand lists that fit in memory (at most 2^61-1 intervals).

### C06 Whole queries mean what their syntax says (proved)

* Model: QueryModel (parse.cc, gcl.cc: hopper)
* Method: structural induction from C01-C05
* Theorems: `C06_query_tree`, `C06_query_text`
* Any valid tree, and from query text through phrase expansion and the optimizer; terms are answered by an index object given by hypothesis; link/materialize operands fit in memory.

### C07 Enumeration visits each solution once (proved)

* Model: UnaryModel (enumeration loops, materialize.cc)
* Method: measure argument
* Theorems: `C07_enumeration`, `C07_materialize`
* All four enumeration loops and Materialize.

### C08 Phrase queries match consecutive tokens (proved)

* Model: QueryModel (phrase expansion)
* Method: semantic equality of interval sets, induction on phrase length
* Theorems: `C08_phrase`, `C08_phrases_inside`
* tokenizer->split is any function whose tokens can be written as raw query terms and are indexed as single positions (at most 2^32-1 of them).

### C09 The query optimizer never changes an answer (proved)

* Model: QueryModel (optimizer.cc)
* Method: semantic equality of trees, any cost function
* Theorems: `C09_optimizer`
* Any cost function; the intermediate lists the optimizer materializes must fit in memory.

### C10 Printing and re-parsing a query (proved)

* Model: QueryModel (parser and printer on bytes)
* Method: round trip by induction on trees; totality of the parser
* Theorems: `C10_print_parse`, `C10_parsed_is_printable`, `C10_parser_total`, `C10_parser_overflow_refuted`, `C10_nary_left_nested`
* Round trip for every writable tree and every parsed text; totality when digit runs are at most 18 long, overflow witnessed otherwise.

### C11 Posting compression is lossless (proved)

* Model: CodecModel (post_compressor.cc)
* Method: round trip by induction on the list
* Theorems: `C11_post_lossless`, `C11_post_only_ascending`
* Byte-level model of PostCompressor; lossless exactly on ascending non-negative lists, within the promised room.

### C12 Value and bit-packing compression is lossless (proved)

* Model: CodecModel (bits.h, tfdf_compressor.cc, null and test compressors)
* Method: round trip by induction on the bits
* Theorems: `C12_tfdf_lossless`, `C12_tfdf_component_lossless`, `C12_tfdf_component_refuses`, `C12_bits`, `C12_bits_buffer`, `C12_null_lossless`, `C12_bad_lossless`
* Bit buffers, tf/df codec (plain and component), null and test compressors at byte level. zlib is external.

### C13 A posting list survives being written and read (proved)

* Model: PostingModel (simple_posting.cc: write, read, push, append)
* Method: round trip over any lossless compressors
* Theorems: `C13_write_read`, `C13_file`, `C13_truncated`, `C13_default_compressors`, `C13_arrays`, `C13_push`, `C13_push_negative_zero_refuted`, `C13_append`
* Any compressors lossless on the list's arrays; the default ones are, for every list of non-negative addresses. A value pushed with the bit pattern of -0.0 may be read back as 0.0 (C13_push_negative_zero_refuted).

### C14 Annotations become innermost lists (partial)

* Model: PostingModel (Fiver::ready_: sort and one-pass filter)
* Method: exact set characterisation of the output
* Theorems: `C14_index_partial`, `C14_sort_exists`, `C14_same_start_refuted`
* Exact content of the index for every batch, any order of ties; innermost annotations when those starting together are the same. Otherwise refuted (C14_same_start_refuted): an outer annotation with the same start is kept.

### C15 Merging shards' lists (partial)

* Model: PostingModel (k-way merge with its queue, append shortcut)
* Method: set characterisation: innermost, values from the latest
* Theorems: `C15_merge_partial`, `C15_empty_list_refuted`
* Merge of any number of non-empty lists. With an empty list among them the claim is refuted (C15_empty_list_refuted).

### C16 Erased content disappears, nothing else does (partial)

* Model: PostingModel, ShardModel (BigwigIdx view; merge with exclusion)
* Method: set characterisation and equality with the operator semantics
* Theorems: `C16_merge_exclude`, `C16_view`, `C16_visible_partial`, `C16_merged_partial`, `C16_nested_erase_refuted`
* Exact view of any sound shards (C16_view); nothing erased is seen and everything else is, before and after merging, when no erased range contains another (C16_visible_partial, C16_merged_partial). With nested erased ranges the claim is refuted (C16_nested_erase_refuted).

### C17 Background merging is invisible to queries (partial)

* Model: ShardModel (Fiver::merge, BigwigIdx), TextModel, OwslaModel (views of both kinds of shards), FileModel
* Method: equality of views, induction over any number of merges and conversions
* Theorems: `C17_life_text_partial`, `C17_life_index_partial`, `C17_life_total`, `C17_merge_partial`, `C17_queries_partial`, `C17_nothing_lost`, `C17_straddle_refuted`, `C17_text_partial`, `C17_total_partial`, `C17_count_partial`, `C17_leading_refuted`
* Any number of merges of any adjacent runs leaves every feature and every query answering the same, when no annotation contains an erased one of its own feature and erased ranges do not nest; refuted otherwise (C17_straddle_refuted), but nothing seen is ever lost (C17_nothing_lost). Text and token counts also stay the same for consecutive transactions whose text starts with a token (C17_text_partial, C17_count_partial); refuted otherwise (C17_leading_refuted). Merging any run succeeds (C17_total_partial). Over the whole life of a store (merging in memory, jars, writing files, merging files after crashes, in any order) text, counts and queries stay the same with the same limits (C17_life_text_partial, C17_life_index_partial), and nothing gets stuck (C17_life_total).

### C18 Concurrent transactions get disjoint address ranges (proved)

* Model: StoreModel (bigwig.cc, fiver.cc, committable.h: interleaved state machine)
* Method: inductive invariant over all interleavings
* Theorems: `C18_disjoint`, `C18_ready_order`, `C18_no_gap`
* Any interleaving of any number of clones, readers, commit_all calls, merge workers, crashes (also while opening) and reopenings, with file-system calls as atomic steps. The move of a transaction's own annotations along with its text is part of the text model: C39_* and C25_* hold for every address the transaction is given.

### C19 Readers have stable snapshots (partial)

* Model: StoreModel
* Method: history variables and an inductive invariant
* Theorems: `C19_snapshot`, `C19_contents`, `C19_generation`, `C19_commit_shows`, `C19_prefix_refuted`, `C19_batch_refuted`
* Any interleaving of any number of clones, readers, commit_all calls, merge workers, crashes (also while opening) and reopenings, with file-system calls as atomic steps. Between start and end the content read is the content at start; it has every transaction whose commit returned and only such whose commit was called. That it is a prefix of the ready order is false (C19_prefix_refuted), and a commit_all can be seen in part (C19_batch_refuted).

### C20 Committed means durable, uncommitted means absent (partial)

* Model: StoreModel
* Method: same, crash and reopening included as steps
* Theorems: `C20_durable`, `C20_nothing_lost`, `C20_opening_interrupted`, `C20_commit_succeeds`, `C20_batch_succeeds`, `C20_batch_durable`, `C20_empty_refuted`, `C20_abort_refuted`
* Any interleaving of any number of clones, readers, commit_all calls, merge workers, crashes (also while opening) and reopenings, with file-system calls as atomic steps. Process stops, not power loss (the code has no fsync). Input/output failures are limited to those the code handles. False for transactions without annotations, whose commit stops the process (C20_empty_refuted), and for aborts before ready, which use numbers that were never initialised (C20_abort_refuted); all other histories are proved.

### C21 Reopening chooses a consistent set of shards (proved)

* Model: NameModel (owsla.cc, sanitize, combine_shards)
* Method: characterisation of the kept set; idempotence under crashes
* Theorems: `C21_open`, `C21_open_again`, `C21_restart`, `C21_opens`, `C21_refuses`, `C21_order_refuted`
* Directory contents are any list of file names; opening is Fiver::sanitize, Hazel::sanitize and combine_shards in order, after the commit scripts ran. Every shard file is within a kept one, kept ones are disjoint and in order, only files of the directory are removed and none of the kept, and stopping after any number of removals and opening again gives the same ranges. std::sort is a parameter with its law. Errors part way through combine_shards are characterised by C21_opens.

### C22 Shard merge is crash safe (partial)

* Model: StoreModel (Hazel::merge file protocol, pickle, rename)
* Method: same invariant as C20
* Theorems: `C22_invisible`, `C22_all_crashes`, `C22_unwritten_refuted`, `C22_late_refuted`
* Any interleaving of any number of clones, readers, commit_all calls, merge workers, crashes (also while opening) and reopenings, with file-system calls as atomic steps. False when writing the merged shard fails, which is not checked (C22_unwritten_refuted), and when converting a shard fails late (C22_late_refuted); proved for every history without these two failures.

### C23 Interrupted index merges resume correctly (proved)

* Model: HazelModel (HazelIdx::merge, checkpoint repair, append)
* Method: every crash leaves byte prefixes of the uninterrupted run; repair of any prefixes; induction over attempts
* Theorems: `C23_resume`
* Any number of crashed attempts, at any point of any write, with any tail of either checkpoint file lost: the next attempt ends with the same blob, and the blob is that of an index characterised by the innermost annotations of the sources. File resets and truncations are atomic; the sources are unchanged between the attempts.

### C24 On-disk index lookups find exactly what was written (proved)

* Model: HazelModel (hazel_write_idx_blob, HazelIdx load/locate/posting/count/hopper)
* Method: layout relation between rows, bytes and directory; binary search
* Theorems: `C24_lookup`, `C24_default_compressors`
* Index blob anywhere in a file; lookup, count, posting and hopper equal to those of the index in memory, for any compressors that store its lists; the default compressors store every index a commit or a merge makes.

### C25 Appended text can be read back (partial)

* Model: TextModel (FiverAppender, FiverAnnotator, ready_, FiverTxt, BigwigTxt)
* Method: induction on edits; tokenizer laws
* Theorems: `C25_text_back_partial`, `C25_append_partial`, `C25_append_exact_partial`, `C25_count_partial`, `C25_maxfinity_refuted`, `C25_open_tag_refuted`, `C25_cut_off_refuted`
* Any edits of a transaction in the in-memory shard, any tokenizer with the stated laws (the ASCII and the UTF-8 tokenizer have them: C26_ascii_laws_partial, C26_utf8_laws_partial), any history of translate calls; the range returned by append gives the text back; token count and address range. Refuted for ranges ending at maxfinity (C25_maxfinity_refuted), texts that leave a tag open (C25_open_tag_refuted) and texts that end in an unfinished UTF-8 sequence (C25_cut_off_refuted). For shards of both kinds in one view: C17_life_text_partial. Other text stores: C27, C28.

### C26 Tokenizer operations agree (partial)

* Model: TokenModel (ascii_tokenizer.cc), Utf8Table, Utf8Model (unicode.h, utf8_tokenizer.cc)
* Method: characterisation of words by longest runs (bytes, codepoints); one lexer explains tokenize, split and skip; laws used by the text store
* Theorems: `C26_ascii_agree_partial`, `C26_ascii_words_partial`, `C26_ascii_laws_partial`, `C26_utf8_agree_partial`, `C26_utf8_words`, `C26_utf8_laws_partial`, `C26_utf8_cut`, `C26_utf8_complete`, `C26_utf8_nul_refuted`
* Every byte string. ASCII tokenizer, with and without markup: proved. UTF-8 tokenizer: proved for all byte strings without NUL (split stops at a NUL, tokenize does not: C26_utf8_nul_refuted); for encoded text the tokens are characterised by codepoints (longest runs of letters, single symbols, folded by the table of unicode.h).

### C27 Chunked text store behaves like a flat file (partial)

* Model: ChunkModel (simple_txt_io.cc, committable.h): the map and contents files, the lock, the limits file, the in-memory chunk and put area, and the operations on the files of each call; ChunkSpec is a flat file with a mark, crash disks, recovery runs and interleaved readers
* Method: a refinement invariant between the store and the flat file kept by every call; for every prefix of the file operations of a call (and a cut last write) an invariant of the disk that recovery restores; readers by stability of the chunks below the limit under each file operation; witnesses for the refuted parts
* Theorems: `C27_flat_file_partial`, `C27_crash_partial`, `C27_ready`, `C27_reader_partial`, `C27_begin_empty_refuted`, `C27_unflushed_refuted`, `C27_abort_refuted`, `C27_early_reader_refuted`
* Proved for every lossless compressor, chunk size, stream buffering and history: the store answers as a flat file; a crash at any file operation of any call, plus interrupted recoveries, leaves the committed text (or, during commit, possibly the new one); a ready commit can always be completed; a reader that opens the store during a transaction reads the committed text whatever the writer does. Missing, each refuted by a witness: transactions begun on an empty store or on unflushed text, aborts of unflushed appends when a longer chunk can compress to fewer bytes, readers opened before the transaction; also closing with a transaction open and crashes outside transactions.

### C28 Text translation does not depend on earlier translations (proved)

* Model: PlainModel (simple_txt.cc): the map of block starts, blocking, the memo members and computed_tokens_, translate_ and tokens_ on the store of ChunkModel; PlainSpec.answers is the text between token starts, given by TextSpec.expected
* Method: an invariant of the memo (it points at the start of a token of its block) kept by every call; a window lemma for the tokens of the bytes between two token starts, from the tokenizer laws of C26; the text store enters through ChunkSpec.serves, which C27 gives
* Theorems: `C28_reading`, `C28_laws`
* Every text, every store that serves it (C27 gives such stores), every sequence of questions, and any tokenizer with the laws of C26, which both tokenizers have (C28_laws). Counting tokens needs a text without NUL.

### C29 Feature numbers of short terms are unique (partial)

* Model: FeatModel (hashing_featurizer.cc)
* Method: injectivity by byte arithmetic
* Theorems: `C29_short_unique_partial`, `C29_short_long_partial`, `C29_positive_partial`, `C29_translate_short_partial`, `C29_translate_long_partial`, `C29_number`, `C29_defined_partial`, `C29_nul_refuted`, `C29_number_refuted`, `C29_erase_marker_refuted`, `C29_overflow_refuted`, `C29_tags_partial`, `C29_tagged_name_partial`, `C29_tag_colon_refuted`, `C29_tag_translate_refuted`
* Proved for ordinary terms (not empty, no NUL byte, not a '#' followed by digits): terms of at most 7 bytes get distinct positive numbers that translate back, terms of 8 or more bytes never share a number with a short term, numbers written '#n' are themselves. Terms of 8 or more bytes are hashed, so two of them may collide and the property is limited to that. Refuted outside: NUL bytes, '#n' spellings, a term that gets the reserved erase number, and an 8-byte term whose hash is INT64_MIN (signed overflow). The tagging featurizer keeps tags and keys apart as long as tags have no colon (C29_tags_partial, C29_tag_colon_refuted) and translates to tag:key (C29_tag_translate_refuted).

### C30 Configuration survives freeze and cook (proved)

* Model: RecipeModel (recipe.cc, dna.cc)
* Method: round trip by induction on nested maps
* Theorems: `C30_freeze_cook`, `C30_says_exists`, `C30_says_unique`, `C30_exact`, `C30_cooked`, `C30_bounded`, `C30_parameters`, `C30_file`, `C30_quote_refuted`, `C30_backslash_refuted`, `C30_nested_escape_refuted`, `C30_newline_refuted`, `C30_freeze_text_refuted`
* Any map, any nesting depth: cook(freeze m) has the same names, equal texts and nested values with the same meaning; through the configuration file as well, for any sequence of set parameters. C30_exact identifies the surviving texts (no quotation mark, backslash or zero). The _refuted theorems exhibit what happens to the others. interpret_option and extract_option are in OptionsModel (C77).

### C31 Shard names order like sequence ranges (proved)

* Model: NameModel (owsla.cc names)
* Method: order isomorphism on fixed-width decimal numbers
* Theorems: `C31_back`, `C31_exact`, `C31_named`, `C31_unique`, `C31_one_range`, `C31_order`, `C31_hazel`, `C31_sidecar`, `C31_sidecar_back`, `C31_alias_refuted`
* Every range of sequence numbers from 0 to 2^63-1. The names read are characterised exactly. C31_alias_refuted: a name with fewer digits than the program writes is read too, so names of a directory are not unique per range.

### C32 Binary dictionaries round-trip (proved)

* Model: FileModel (blob dictionary writer and reader, single-file head)
* Method: round trip and exact inversion of the reader by induction over the entries; truncation by cases on the cut
* Theorems: `C32_dictionary`, `C32_foreign`, `C32_truncated`, `C32_dna`
* Round trip for any list of blobs and any trailing bytes, exact characterisation of what is accepted (no undefined behaviour on any byte string), every truncation rejected, configuration text read back and skipped. A name whose length exceeds the file is modelled as a failed read.

### C33 Transaction protocol (proved)

* Model: CommitModel (committable.h, simple_warren.cc, scribe.cc)
* Method: invariant over all call sequences and nestings
* Theorems: `C33_order`, `C33_all_commit`, `C33_together`, `C33_out_of_order`, `C33_commit_all`
* All nestings of two-part components (SimpleWarren, Fiver) and wrappers (WarrenScribe, Bigwig), all call sequences and failures: order kept, all components commit together and as often as the caller, out-of-order calls change nothing. commit outside a yes vote stops the process (assert). The hooks of the innermost components are oracles.

### C34 Lazily loaded lists are complete when used (proved)

* Model: CacheModel (cache_gate.h both builds, OwslaCache in owsla.h, the fill threads of hazel.cc and bigwig.cc, the waiting in array_hopper.h), CacheView (which lists of a snapshot are shared and what they are made of), GateModel (read_gate.h), ObtainModel (HazelTxt::obtain): small-step machines whose threads are interleaved by any schedule, with spurious wakings, interrupted and partial reads
* Method: an invariant of the shared state and the stacks of all threads kept by every step; race freedom and answers from it; progress by the rank of lists (no cycle of waiting) and by no lost waking; a weight that every step lowers; the snapshot's lists by C24 and C15
* Theorems: `C34_complete`, `C34_once`, `C34_no_race`, `C34_progress`, `C34_bounded`, `C34_snapshot`, `C34_snapshot_ranked`, `C34_gate_limit`, `C34_gate_reads`, `C34_gate_progress`, `C34_gate_bounded`, `C34_text_complete`, `C34_text_no_race`, `C34_text_progress`, `C34_text_bounded`
* For any number of threads, programs and schedules, both builds of the gate. Complete answers, one load per list, no race, progress, bounded steps; for the lists of a snapshot over shards in memory and on disk; the reader gate and the cache of decompressed text likewise. Threads are interleaved one access at a time.

### C35 Single-file index commit survives a crash (partial)

* Model: SingleModel (simple_idx.cc, simple_annotator.cc): the files of a burrow and the sequence of writes, renames and deletions each call makes; SingleSpec says what a crash leaves and what recovery is
* Method: every prefix of the sequence, and a cut write, keeps the old files or stays on the way to the new ones; recovery by induction over the number of crashed attempts; witnesses for the mixtures
* Theorems: `C35_recovery_partial`, `C35_open_refuted`
* Proved: a transaction on a standing index gets as far as commit; a crash anywhere before commit plus any number of crashed recoveries and one complete rollback leaves exactly the old index; a crash anywhere in commit plus rollforward leaves the same new index as an undisturbed commit. Missing: recovery takes the direction as an argument and no code calls it; opening looks for .NEW where commit writes .new, and C35_open_refuted shows the mixtures that follow.

### C36 JSON values read back (partial)

* Model: JsonModel (json.cc: scribing, sanitizing, translating, encoding), JsonTxtModel (the choice of the JSON view); JsonSpec says what JSON text spells a value and what a path names
* Method: structural induction over values for the text written and for the edits made; the text store theorem C25 for the UTF-8 tokenizer brings the text back; the sanitizer by induction over codepoints
* Theorems: `C36_values_partial`, `C36_input_partial`, `C36_prepared`, `C36_encode`, `C36_newline_refuted`, `C36_control_refuted`, `C36_reserved_refuted`, `C36_forged_refuted`, `C36_letter_refuted`, `C36_twice_refuted`, `C36_recipe_refuted`
* Proved for all values whose strings have no control characters, NUL or reserved codepoints (C36_input_partial shows which input texts give only such strings), through the UTF-8 tokenizer, commit and translate; refuted outside that. Numbers come back as the text std::to_string wrote, taken as any function.

### C37 A shard survives being pickled (proved)

* Model: FileModel (Fiver::pickle and Fiver::unpickle over the posting files of PostingModel)
* Method: induction over the rows of the std::map with the posting file round trip of C13
* Theorems: `C37_pickle`, `C37_default_compressors`, `C37_truncated_refuted`
* For any compressors that can store the lists and a lossless text compressor; instance for the default list compressors. Finding: a jar cut inside its text is not recognised (C37_truncated_refuted): the read of the text is not checked.

### C38 Merge scheduling keeps the shard order (proved)

* Model: StoreModel, SchedModel (bigwig.cc:817-1091)
* Method: invariant; the scheduler's choices are among the model's
* Theorems: `C38_choice_sound`, `C38_choice_covered`, `C38_longest_run`, `C38_smallest_pair`, `C38_ordered`, `C38_one_worker`, `C38_stays`, `C38_installed`, `C38_installs`
* Any interleaving of any number of clones, readers, commit_all calls, merge workers, crashes and reopenings. A worker may choose any run of adjacent, idle, visible shards (what validate_* demands); the choices the scheduler (find_*) makes are among these (C38_choice_covered).

### C39 Committed text and annotations are searchable at their addresses (partial)

* Model: TextModel + ShardModel + OwslaModel
* Method: composition of C14, C25, C26 with the index; invariant over the life of a store
* Theorems: `C39_life_search`, `C39_answers_partial`, `C39_search`
* Words: in full. Annotated features: when different annotations of a feature do not start together (C14_same_start_refuted shows why). Words are found through the whole life of a store, jars, files and merges of files included (C39_life_search).

### C40 Background merging comes to rest (partial)

* Model: SchedModel
* Method: decreasing measure; analysis of states in which no choice is left
* Theorems: `C40_bounded`, `C40_rest`, `C40_gives_up`, `C40_gap_refuted`
* The number of merges is bounded, and at rest at most three shards are left, if no sequence number is missing between shards. False otherwise: after an abort all merging can stop (C40_gap_refuted).

### C41 Scribing files covers the files (partial)

* Model: CommitModel, scribe.cc
* Method: induction on the list of files
* Theorems: `C41_files_partial`, `C41_unreadable_refuted`, `C41_jsonl_partial`, `C41_last_line_refuted`
* Proved: with readable files one committed transaction per file; JSONL hands on every newline-terminated line. Refuted: an unreadable file leaves its transaction open and blocks the next; a last line without newline is lost.

### C42 Annotations committed to a single-file index are found (partial)

* Model: SingleModel: batches sorted and written to temporary files, merged with pst by a k-way merge of lists, the binary search of idx and the lists read back
* Method: the file of a batch holds an index; the merge loop by induction over the rows left; the history of transactions by induction with the innermost of innermost lemma of C15
* Theorems: `C42_committed_partial`, `C42_nested_refuted`
* Proved over every history of transactions (committed, aborted before or after ready, lost in a crash, saved after a crash, reopened), for every batch size and every sort that meets std::sort's contract. Missing: transactions in which one annotation contains another of the same feature, for which C42_nested_refuted shows the claim false.

### C43 Text added to a single-file index keeps its addresses (partial)

* Model: PlainModel (simple_builder.cc add_text_, finalize_; simple_appender.cc; committable.h): builder and appender with their text store, records, lock and protocol flags; PlainSpec.burrow is the list of committed texts and of those of the open transaction
* Method: an invariant of the builder, then of the appender, kept by every call; the records are those of every 1024th token because tokenizing starts afresh after each text; reading by C28; witnesses for the refuted parts
* Theorems: `C43_life_partial`, `C43_range`, `C43_utf8`, `C43_nul_refuted`, `C43_mixed_refuted`
* Builder, then any history of transactions, aborts and restarts. Missing: texts that leave a token open, what C27 leaves out, and two refuted cases: a NUL in the text (C43_nul_refuted) and words with several features at addresses that are multiples of 1024 (C43_mixed_refuted; the UTF-8 tokenizer has none, C43_utf8).

### C44 An index built from scratch finds every word and annotation (proved)

* Model: BuildModel: SimpleBuilder: batches of tokens and annotations, their sorting and writing, build_index with its assertion, finalize; the text in PlainModel.
* Method: every batch file holds the list of its batch (write_tokens_ok, write_batch_ok); the merge of files appends lists (build_index_ok), which are in order because addresses grow from text to text; with C42 for later transactions and C43 for the text.
* Theorems: `C44_found`, `C44_life`, `C44_lost_refuted`, `C44_order_refuted`
* For all sequences of texts and annotations, batch sizes, sorts and tokenizers with the laws of C26; the caller's duties are those the code's comment names (order, no nesting) plus at least one word and no annotation with the feature of a word; both are refuted without. Threads that write batches are taken as done at once; files can be created.

### C45 Shortest substring ranking returns the best containers (proved)

* Model: RankModel (ranking.cc: ssr_ranking, top_results, parallel_ranking) over any two hoppers and any scores with an order
* Method: loop invariant: the batch and the top hold the best of the containers passed so far; ranges partition the containers
* Theorems: `C45_best`, `C45_parallel`, `C45_overlap_refuted`
* For containers that do not overlap; overlapping ones are refuted.

### C46 Term rankings return the best documents (proved)

* Model: RankModel (ranking.cc: lmd_ranking, product_ranking, bm25_ranking, maybe_add_container)
* Method: loop invariant: all documents before the frontier are collected or dominated; the weights of the terms before the pivot bound the skipped documents
* Theorems: `C46_terms`, `C46_bm25`, `C46_negative_refuted`, `C46_containers`
* BM25 for addition without rounding and weights not below zero; negative weights are refuted.

### C47 Fused, merged and tiered rankings (proved)

* Model: RankModel (ranking.cc: rrf_fusion, merge_results, tiered_ranking)
* Method: induction on the rankings and tiers
* Theorems: `C47_fusion`, `C47_merge`, `C47_tiers`
* Ties in any order.

### C48 Term statistics agree with the text (partial)

* Model: StatsModel (ranking.cc: tf_df_annotations, tf_annotations; tf_hopper.h; df_stats.cc)
* Method: loop invariant over done, batched and remaining items; counts by induction over words; the term hopper as a hopper over the items, composed with C46
* Theorems: `C48_made`, `C48_totals`, `C48_read`, `C48_ranking`, `C48_bm25`, `C48_range_partial`, `C48_range_refuted`, `C48_gap_refuted`
* C48_made, C48_read, C48_ranking and C48_bm25 prove the property for whole collections whose addresses all have text. Missing: ranges that do not end at the end of an item, where C48_range_refuted shows it false (C48_range_partial is the case that holds), and collections with unused addresses, where C48_gap_refuted shows it false.

### C49 Infix queries mean what they say (partial)

* Model: InfixModel (gcl/mt.cc: scanner, parser, to_s_expression; mt.h)
* Method: grammar and token relation in InfixSpec; the scanner reads exactly the tokens and the recursive descent exactly the grammar (mutual induction both ways); composed with C10 and C06
* Theorems: `C49_session_partial`, `C49_accepted`, `C49_total`, `C49_refused`, `C49_answers_partial`, `C49_some_refuted`, `C49_backslash_refuted`, `C49_failed_definition_refuted`
* C49_accepted (iff), C49_total, C49_refused are complete; C49_session_partial and C49_answers_partial leave out n-of-m queries, terms ending in a backslash (both refuted: C49_some_refuted, C49_backslash_refuted) and wrong texts with an equals sign (C49_failed_definition_refuted). Error texts, memory and stack depth are not modelled.

### C50 Words are stemmed by Porter's rules (partial)

* Model: PorterModel (porter.cc, porter.h): the buffer with its indices, each step as written, reads outside the buffer undefined
* Method: the rules in PorterSpec as relations (longest suffix, condition on what stands before it); each step refines its relation for every buffer that holds a word; the relations are functional; the words for which a read leaves the buffer exactly
* Theorems: `C50_stem_partial`, `C50_one`, `C50_history`, `C50_unchanged`, `C50_outside_refuted`, `C50_ion_refuted`, `C50_nul_refuted`
* For every stemmer in use and every word of letters but the exceptional ones the answer is the stem the rules give; the answer does not depend on earlier calls; other strings come back unchanged. Partial because for the exceptional words, characterised exactly by C50_outside_refuted, the code reads outside its buffer, and a NUL in a word lets earlier words show through (C50_nul_refuted).

### C51 Descriptions of foragers read back (partial)

* Model: ForagerModel (meadowlark/forager.cc): writer and reader of descriptions, labels; the position in the text is the rest of the text
* Method: a JSON grammar in ForagerSpec; the reader reads every text of the grammar by mutual induction; what is written is a text of the grammar; the text gets shorter, so reading ends; labels split at the first colon; the collision of labels by computation
* Theorems: `C51_round_trip`, `C51_reads`, `C51_ends`, `C51_labels_partial`, `C51_labels_refuted`
* Round trip, reading of every JSON object and termination proved for all bytes. Labels: proved for names that are not empty and have no colon, refuted for the empty name (C51_labels_refuted).

### C52 Files with fields are found by record and by field (partial)

* Model: TsvModel (meadowlark/meadowlark.cc: append_tsv, append_path, path_match; src/core.cc: split_lines, split_tsv): a worker as the draft of its transaction; which parts get committed
* Method: division into lines and fields given by relations with one solution; the draft of a worker is that of a list of edits, so the theorems on committed edits (C25, C39) give what is found and read back; shares by induction on the workers; empty last fields, commas, paths with spaces and the early commit of the path by computation
* Theorems: `C52_already_partial`, `C52_lines`, `C52_split`, `C52_shares`, `C52_fields`, `C52_records_partial`, `C52_path_partial`, `C52_text_partial`, `C52_next_token_refuted`, `C52_past_the_end_refuted`, `C52_comma_refuted`, `C52_commit_partial`, `C52_path_only_refuted`, `C52_same_path_partial`, `C52_longer_path_refuted`, `C52_empty_path_refuted`
* Lines, fields, shares of the workers, field names: full. Records whose last field is empty, chunks whose last line has no token, separators without white space, paths with spaces and the path committed ahead of the lines are refuted findings. C52_already_partial: which files count as appended, for paths without white space.

### C53 A JSONL file is appended by several threads line by line (partial)

* Model: JsonlModel (meadowlark/meadowlark.cc: append_jsonl): the stream, the two flags and the workers, one step at a time; a schedule says which worker steps and whether its call succeeds
* Method: an invariant over every schedule: the lines taken so far have owners, and each worker has scribed or holds exactly the lines it owns; a measure for the end; more workers than lines by counting
* Theorems: `C53_lines`, `C53_success_partial`, `C53_one_partial`, `C53_failure`, `C53_ends`, `C53_few_lines_refuted`
* Missing: that all is committed when some thread gets no line that leaves an annotation, which is false (C53_few_lines_refuted). What a line writes when scribed is not part of this model.

### C54 Foraging leaves the term statistics of a query's items, and they are found again (partial)

* Model: ForageModel (meadowlark/meadowlark.cc: forage; forager.h; tf-idf_forager.cc; tf-idf_stats.cc): collecting the results, the shares of the workers, what each gathers and commits as its calls come out, the description, and finding the statistics again
* Method: loops over the results and the items by induction; the parts of the workers joined along the list of items; the description by C51; the totals by C48_totals and the rankings by C44
* Theorems: `C54_collected`, `C54_forage_partial`, `C54_workers`, `C54_described`, `C54_read`, `C54_term`, `C54_ranking`, `C54_bm25`, `C54_few_items_refuted`, `C54_not_atomic_refuted`, `C54_refused`, `C54_unread_refuted`, `C54_unknown_refuted`
* Up to one worker for each item; with more the process stops (C54_few_items_refuted). When foraging fails, parts may have been committed (C54_not_atomic_refuted). Statistics foraged under the empty name or without a query are not found (C54_unread_refuted), and an unknown stemmer is a null pointer (C54_unknown_refuted).

### C55 Fast ids do not change what is read (partial)

* Model: FastidModel (fastid_txt.cc, fastid_txt.h): collecting the ids, laying their texts out and writing the compressed arrays, reading them back, the binary search and the answer; the text and the text compressor are arguments
* Method: the loop over the query answers its list (loop rule); each array reads back and no proper prefix of the file does; the binary search is correct on a rising list by induction on its fuel
* Theorems: `C55_same_partial`, `C55_fast`, `C55_refused`, `C55_crash_refuted`, `C55_nul_refuted`, `C55_many_refuted`, `C55_raw_refuted`
* For ids without NUL bytes and at most 2^31 of them everything reads as before. Refuted: a crash before the file is closed, NUL bytes in an id, over 2^32 ids, raw text.

### C56 Ranking pipelines do what their stages say (partial)

* Model: RankerModel (ranker.cc, parameters.cc, ranking_parameter): reading pipelines, the stages, the context with its raw and weighted query; the rankers, statistics, tokenizers and std::stof are arguments
* Method: the context is related to a view that always has the weighted query; each stage keeps the relation; texts by induction over the pieces; maps by get and put
* Theorems: `C56_text`, `C56_names`, `C56_leading_refuted`, `C56_stages`, `C56_parameter`, `C56_depth_refuted`
* Reading pipelines, the stages and parameters: full. White space before the first stage and the depth that drawing parameters sets are refuted findings.

### C57 Feedback adds the best terms of the best texts (partial)

* Model: RankerModel (rsj_prf, kld_prf of ranking.cc): texts, passages, counting, choosing, adding; logarithms and quotients are arguments
* Method: counting is one fold that adds up by key; std::sort by its specification; adding terms by keys
* Theorems: `C57_rsj`, `C57_kld`, `C57_passage_partial`, `C57_window_refuted`, `C57_depth_refuted`
* What feedback adds: full, with logarithms and quotients as arguments. The length of passages and a depth of 0 are refuted findings.

### C58 Ranking many queries by threads gives each topic its ids (partial)

* Model: TrecModel (trec of ranker.cc): each worker as a small machine with its own hopper of ids, all schedules of them
* Method: invariant over steps: what is stored is right, and each worker has stored its share up to where it is; a measure that each step lowers
* Theorems: `C58_topics`, `C58_ends`, `C58_threads`, `C58_empty_refuted`
* Every schedule: full. Without topics the results are not cleared, a refuted finding.

### C59 The measures of a ranking are what they are called (partial)

* Model: EvalModel (eval and the functions under it in eval.cc) over real numbers; formulas in EvalSpec
* Method: each loop equals the formula by induction; ideal gain by the rearrangement inequality
* Theorems: `C59_counts`, `C59_shares`, `C59_repeats_refuted`, `C59_rr_refuted`, `C59_gains`, `C59_normalised`, `C59_biased`, `C59_rbp_range`
* exact arithmetic; rr is refuted (it holds average precision), and shares above 1 with repeated items are refuted

### C60 Differences of rankings are the largest possible, and means are means (partial)

* Model: EvalModel (med, mean)
* Method: the judgments med makes are those that grade by the sign of the difference of discounts; invariant of the sequence of means
* Theorems: `C60_difference`, `C60_normalised`, `C60_empty_refuted`, `C60_repeats_refuted`, `C60_mean_partial`, `C60_missing_refuted`
* rankings without repetitions; refuted for repeated items, two empty rankings and missing measures

### C61 Judgments are loaded as their file says (partial)

* Model: EvalModel (load_trec_qrels line by line, trec_docno, translate_docno)
* Method: invariant over the lines; the last line of an item wins
* Theorems: `C61_load_partial`, `C61_range`, `C61_missing`, `C61_query`, `C61_zero_refuted`, `C61_twice_refuted`, `C61_leading_refuted`, `C61_docno`, `C61_identifier`
* one file into empty maps, lines of fields; refuted for grades all 0, a second file and lines starting with white space

### C62 Files of a working directory read back (partial)

* Model: WorkModel (readers, writers and names of working.h and working.cc, function by function)
* Method: what a writer has written is tied to its file by an invariant over appends; requests by induction, over the length of what is left for compressed files
* Theorems: `C62_same_partial`, `C62_temporary_partial`, `C62_pattern`, `C62_wrap_refuted`, `C62_recipe_refuted`, `C62_huge_refuted`
* amounts and positions below 2^63; temporary names for the first 2^32 calls; beyond that, and for mistyped recipes, refuted

### C63 Sorting a file of records gives the same records in order (partial)

* Model: SortModel (sort_records, merge_records, check_annotations over a map of files; files may fail to be created or written)
* Method: invariant of the queue of sorted files: together they hold the records; merging is a merge of sorted lists
* Theorems: `C63_sort_partial`, `C63_orders`, `C63_check`, `C63_sorted_check`, `C63_missing`, `C63_empty_refuted`, `C63_short_refuted`
* files with a record, when bytes are not lost at close; both exceptions refuted

### C64 A builder keeps to its protocol (proved)

* Model: BuilderModel (do_call); the virtual functions answer as they like
* Method: induction over the calls in three cases that are all there are
* Theorems: `C64_open`, `C64_refused`, `C64_finalized`, `C64_cases`
* for every sequence of calls and every builder

### C65 Input files are read whole (partial)

* Model: BuilderModel (maybe_zipped, inhale, shell_quote, build_trec); a small shell in BuilderSpec
* Method: the shell reads the command in one way only; induction over the pieces
* Theorems: `C65_zipped`, `C65_plain`, `C65_command`, `C65_inhale`, `C65_build_partial`, `C65_unreadable_refuted`, `C65_error_refuted`
* files that can be read; a file that cannot is undefined behavior, and an error while reading is taken for the end (refuted)

### C66 A crash of a single-file index is undone or completed by recovery (partial)

* Model: TextCrashModel (what each call of the appender does to its files, SimpleAppender::recover), on PlainModel, ChunkModel and SingleModel; crashes of both in WarrenCrashSpec
* Method: a crash of the whole projects to crashes of the text store, of the records and of the index; C27, C35 and the invariant of C43 give each part
* Theorems: `C66_rolled_back`, `C66_rolled_forward_partial`, `C66_ready_refuted`, `C66_direction_refuted`, `C66_warren_back`, `C66_warren_forward_partial`, `C66_refused`, `C66_whole`
* Rolling back is proved for every crash point and loss, for the text alone and with the index; rolling forward for crashes that lose nothing written to txt.new, without which it is refuted (ready does not flush it). That recovery finds the direction by itself is refuted. The annotations of the transaction are any, not tied to the words of its texts; those the appender makes itself are C43.

### C67 Statistics of fields are those of their text (partial)

* Model: FieldModel (ranking.cc: tf_field_annotations; field_stats.cc), on StatsModel and VectorModel
* Method: loop invariant over done and remaining items, counts by induction over words and fields; numbers of fields and terms are read off the keys; the term hopper is right for tau and rho by the hoppers of the fields and of the items; rankings need only tau
* Theorems: `C67_made_partial`, `C67_read_partial`, `C67_ranking`, `C67_bm25`, `C67_back_refuted`, `C67_second_refuted`, `C67_weights`, `C67_weights_tab`, `C67_weights_bad`, `C67_no_weights_refuted`, `C67_range_refuted`
* Proved: what is made, what is read back with weights for histories of calls that look ahead, both rankings, the choice of fields. Refuted: looking back (uat, ohr, L), several intervals of a field in an item, the fallback without weights, a weight out of range.

### C68 Statistics with the weights of terms are those of the collection (partial)

* Model: IdfModel (ranking.cc: tf_idf_annotations; idf_stats.cc; core.cc: okay), on StatsModel
* Method: loop invariant over done and remaining items; counts of words and of items by induction; entries of one map give the annotations of one term because no two keys have the same feature; rankings by the theorems for hoppers that answer
* Theorems: `C68_made`, `C68_read`, `C68_none`, `C68_ranking`, `C68_bm25`, `C68_flags`, `C68_unread`, `C68_have_refuted`, `C68_neither`, `C68_empty_refuted`
* Made and read back right, with rankings (C68_made, C68_read, C68_ranking, C68_bm25). That the statistics say which weights they have is refuted (C68_have_refuted), as is refusing a collection without items (C68_empty_refuted).

### C69 Tiers built from a query hold every set of its rarest words, and rank by them (proved)

* Model: TierModel (ranking.cc: build_tiers, tiered_ranking by text), on QueryModel and RankModel
* Method: numbers below 2^k correspond to the parts of the list of words (permutation, by induction); the map of weights keyed by texts is right because texts parse to different trees; parsing the texts of tiers; the sets that operators denote, by innermost intervals; ranking by C06 and C47
* Theorems: `C69_tiers`, `C69_matches`, `C69_ranking`, `C69_found`, `C69_one_word_refuted`
* Weights, their sum, order and the test against delta are arguments. Words must be writable in a query as they are, tokens at single positions from 0 on, containers apart. C69_one_word_refuted: an item with one word of the query, once, is not ranked.

### C70 Passages ranked by how many words of the query they hold are the shortest that do (partial)

* Model: IcoverModel (ranking.cc: icover_ranking), on RankModel.merge_results
* Method: invariant of a round by the laws of tau, uat and rho: the n-th earliest end and the latest starts before it give an innermost interval of the n words, and the next one starts later; invariant of the passes: the words left are a part of those of the query, what is placed stays placed by merging (pigeonhole on containers)
* Theorems: `C70_passages`, `C70_none_refuted`, `C70_dropped_refuted`, `C70_crowded_refuted`, `C70_nothing`
* Proved for every depth above 0: the passages are right, and passages with all words are placed. Missing, because false of the code: depth 0 (undefined behaviour), passages with some of the words left out for worse ones, containers left out although there is room (the _refuted theorems).

### C71 A random ranking orders the containers by the numbers drawn for them (proved)

* Model: RandomModel (ranking.cc: random_ranking), on RankModel.top_results
* Method: loop invariant: what is kept in top and current, merged, is the best of the numbers drawn so far
* Theorems: `C71_best`, `C71_all`
* all containers, numbers and depths; the distribution of the numbers is not modelled

### C72 Short answers are the best runs of words around the best passages (partial)

* Model: QapModel (ranking.cc: qap), on IcoverModel
* Method: induction over the tokens (the distance counter equals a function of the position), over the passages (weights) and over the sorted candidates (one per passage, nothing better left out); composed with C70
* Theorems: `C72_answers`, `C72_first`, `C72_nearest_refuted`, `C72_after_refuted`, `C72_last_refuted`, `C72_repeated_refuted`, `C72_zero_refuted`
* C72_answers holds for all inputs with length and passages above 0; the runs looked at leave out the last one (C72_last_refuted), distances are not those to the nearest occurrence (C72_nearest_refuted, C72_after_refuted; C72_first says which), equal texts repeat (C72_repeated_refuted), length 0 is undefined (C72_zero_refuted)

### C73 Feedback for question answering returns the words most typical of the text near the passages (partial)

* Model: QaModel (ranking.cc: qa_prf), on RankerModel
* Method: folds that add up in maps (smallest gap, number of passages, expectations), each read back by a lookup lemma; choosing as in C57
* Theorems: `C73_terms`, `C73_forgets_refuted`, `C73_after_refuted`, `C73_end_refuted`
* C73_terms holds for all rankings that are not empty (an empty one leaves all as it is); the gaps are those of the code, which for words after a passage are too small (C73_after_refuted, C73_end_refuted); the query is forgotten (C73_forgets_refuted)

### C74 A featurizer is restored from its name and its recipe (partial)

* Model: MakeModel (featurizer.cc, the featurizers it knows, unwrap of recipe.cc), on RecipeModel and FeatModel
* Method: induction on the featurizer: its recipe says a nested configuration (C30), and whatever says it makes the featurizer; making ends because recipes get shorter
* Theorems: `C74_restored_partial`, `C74_checked`, `C74_without`, `C74_names`, `C74_ends`, `C74_vocabulary`, `C74_counts`, `C74_lines`, `C74_structure`, `C74_text_partial`, `C74_tag_refuted`, `C74_quoted_refuted`, `C74_working_refuted`, `C74_text_refuted`
* Restoring needs tags that a configuration keeps (C74_tag_refuted, C74_quoted_refuted); check passes what make refuses without a working directory (C74_working_refuted); the JSON featurizer takes other characters for structure (C74_text_refuted). The rest is proved.

### C75 A bigwig keeps its configuration through settings and reopenings (partial)

* Model: OpenModel (Bigwig::recipe_, make, settings; makes of tokenizers, stemmers and compressors), on RecipeModel and MakeModel
* Method: invariant by induction over histories: the file holds the configuration made of the parts and the parameters (C30), and opening reads it back (C74)
* Theorems: `C75_kept_partial`, `C75_reopened_partial`, `C75_tokenizer`, `C75_quoted_refuted`, `C75_stemmer_refuted`, `C75_null_refuted`, `C75_nameless_refuted`, `C75_tokenizer_refuted`
* For plain texts, named compressors and stemmers that exist; without these conditions it is false (C75_quoted_refuted, C75_stemmer_refuted, C75_null_refuted, C75_nameless_refuted, C75_tokenizer_refuted). One handle at a time; the options of a new burrow's recipe are not modelled.

### C76 A warren's ranking statistics are the ones it declares (partial)

* Model: ChoiceModel (Stats::make, check, the hoppers of items, containers and identifiers; TfIdfStats::make's use of metadata), with and without NDEBUG
* Method: case analysis of the makes over all parameters and answers of the warren; inversion of what is made
* Theorems: `C76_chosen`, `C76_declared`, `C76_possible`, `C76_held`, `C76_checked`, `C76_items`, `C76_identifiers`, `C76_meadow`, `C76_terms_partial`, `C76_fast_refuted`, `C76_id_refuted`, `C76_tag_refuted`, `C76_check_refuted`
* Proved for programs with assertions; without them (make fast) queries cannot be split (C76_fast_refuted). Also false for the identifiers of a meadow (C76_id_refuted), for a tag without a name (C76_tag_refuted) and for the converse of the check (C76_check_refuted). The warren does not change between making and using.

### C77 Options change exactly the setting they name (partial)

* Model: OptionsModel (interpret_option, extract_option, the pieces of an option, loops over options), on RecipeModel
* Method: refinement: the text says a tree of settings (C30), and each option is a change of the tree; induction over the options; what happens to other options by computation on the configuration of a new bigwig
* Theorems: `C77_option_partial`, `C77_options_partial`, `C77_extracted_partial`, `C77_back_partial`, `C77_short_refuted`, `C77_long_refuted`, `C77_empty_refuted`, `C77_whole_refuted`, `C77_missing_refuted`
* For options of the four forms with values that are not empty, plain texts without colon and at sign, and for items that have a recipe; for others it is false (C77_short_refuted, C77_long_refuted, C77_empty_refuted, C77_whole_refuted, C77_missing_refuted). Dividing the options at white space is not modelled, and no theorem covers the empty option.

## Parts of the code

Modelled, function by function (the comments in the model give the lines):

| source | theory | left out or simplified |
|---|---|---|
| src/hopper.h, hopper.cc, array_hopper.cc | HopperModel, ArrayDefs | the debug wrappers |
| gcl/gcl.cc, vector_hopper.cc, materialize.cc | HopperModel, VectorModel, UnaryModel | |
| gcl/parse.cc, optimizer.cc | QueryModel | cost numbers are any function |
| gcl/mt.cc, mt.h | InfixModel | error texts, allocation, stack depth |
| src/porter.cc, src/porter.h | PorterModel | the lock (calls are one after the other); isupper and islower of negative chars |
| meadowlark/forager.cc: descriptions and labels | ForagerModel | depth of recursion on nested values |
| meadowlark/meadowlark.cc: append_tsv, append_path, path_match; src/core.cc: split_lines, split_tsv | TsvModel | reading the file, the number of threads chosen, failures as any answers of clone and ready; clones commit one after the other |
| meadowlark/meadowlark.cc: append_jsonl | JsonlModel | what scribing a line writes (json_scribe) is in other models, here only whether it succeeds and leaves an annotation; that all transactions commit together is in CommitModel and StoreModel |
| meadowlark/meadowlark.cc: already_appended | AlreadyModel | the hopper of the query and the text are arguments |
| meadowlark/meadowlark.cc: forage; meadowlark/forager.h, forager.cc: label; tf-idf_forager.cc; tf-idf_stats.cc | ForageModel | the tokens of an item, stemming and features are arguments (modelled elsewhere); the calls of a worker (clone, transaction, label, annotate, ready) come out in any way; the average length, a quotient in floating point; what an index answers for committed annotations is in other models |
| src/ranker.cc: pipelines; src/parameters.cc; src/ranking.cc: ranking_parameter, rsj_prf, kld_prf | RankerModel | the rankers, the statistics, tokenizers, stemmers, stop words, std::stof, the random generator and the arithmetic of doubles are arguments; only the names of parameters, not their values |
| src/ranker.cc: trec; src/core.cc: allowed_threads | TrecModel | cloning and setting up a worker come out in any way; what is done under a lock is one step; times left out |
| src/fastid_txt.cc, fastid_txt.h | FastidModel | the wrapped text, the query and the text compressor are arguments; uninitialised memory is an argument `junk`; allocation and I/O errors left out |
| src/post_compressor.cc, bits.h, tfdf_compressor.cc, null/bad compressors | CodecModel | zlib is a library: any lossless compressor |
| src/simple_posting.cc | PostingModel | the factory's string arguments |
| src/fiver.cc | PostingModel, ShardModel, TextModel, StoreModel (one atomic content), HazelModel, FileModel (pickle as bytes, the single file) | thread start-up |
| src/bigwig.cc | ShardModel, TextModel, OwslaModel, NameModel, StoreModel, SchedModel | sizes in bytes are any function; waiting on condition variables |
| src/hazel.cc | HazelModel (index), FileModel (text, dictionary, whole file), StoreModel (file protocol of a merge), NameModel (names) | argument checks of the merge |
| src/owsla.cc, owsla.h | NameModel, OwslaModel (a shard of either kind) | |
| src/cache_gate.h, OwslaCache (owsla.h), fill threads of bigwig.cc and hazel.cc, waiting in array_hopper.h | CacheModel, CacheView | a step is one access to what is shared; the std::map under its mutex is read in one step; the text chunk feature, whose list a snapshot does not share |
| src/read_gate.h | GateModel | opening the file; the file does not change |
| HazelTxt::obtain (hazel.cc) | ObtainModel | reading and decompressing is one step that gives the chunk or fails |
| src/ascii_tokenizer.cc | TokenModel | |
| src/utf8_tokenizer.cc, unicode.h | Utf8Model, Utf8Table (all its numbers) | bigram branches, which no codepoint reaches; `utf8_tables`, which wrote unicode.h |
| src/json.cc, json_txt.cc | JsonModel, JsonTxtModel | the JSON parser and `std::to_string` are library calls: the text written for a number is any function, clean when it is a number that `reads` as the value; six decimals lose precision |
| src/hashing_featurizer.cc and wrappers | FeatModel | MD5-like constants as written |
| src/recipe.cc, dna.cc | RecipeModel | interpret_option, extract_option |
| src/simple_idx.cc, simple_annotator.cc | SingleModel | the cache of lists, threads (joined before their results are used), failures to create temporary files |
| src/simple_txt_io.{h,cc}, committable.h | ChunkModel | clone, the mutex, files that cannot be opened; a stream may hold back any of the bytes written to it until it is flushed or closed |
| src/simple_txt.cc, simple_appender.cc, the text part of simple_builder.cc | PlainModel | clone, locks, range_, raw_, recover, failures of files; the txt file is a list of records; what the annotator does with annotations (SingleModel); text appended between ready and commit |
| the index part of simple_builder.cc | BuildModel | threads (joined before their files are read), failures of files |
| ssr_ranking, parallel_ssr, tiered_ranking (a list of queries), lmd/product/bm25_ranking, maybe_add_container, rrf_fusion, merge_results of src/ranking.cc | RankModel | the query texts are hoppers; scores are any type with an order and an addition (doubles without NaN), weights and gains any functions; worker threads run one after the other |
| tf_df_annotations, tf_annotations of src/ranking.cc, src/tf_hopper.h, the sums and term hopper of src/df_stats.cc | StatsModel | the text of a range, split into words, is an argument; the annotations are a list; failures of the annotator and transaction are left out; std::map is a list in order of first use |
| src/eval.cc | EvalModel | doubles are real numbers: no rounding, and one value `None` for not a number and infinities; atof, std::sort, std::regex (the one pattern it is used with) and the solution of a query are arguments or written out |
| src/working.h, working.cc | WorkModel | files can be opened and written; ls, remove and making the directory |
| simple_builder.cc: sort_records, merge_records, check_annotations | SortModel | messages; reading an open file does not fail |
| src/builder.h, builder.cc | BuilderModel | messages; std::istream is modelled by what read() does; popen and fopen are given by what can be read from them |
| simple_appender.cc: recover, file operations | TextCrashModel | the order of file operations is written beside the calls of PlainModel and proved to give the same files; records are not bytes |
| tf_field_annotations of src/ranking.cc, src/field_stats.cc | FieldModel | the hoppers of the items and fields are arguments; the text of a range, split into words, is an argument; std::stof and the comparisons and arithmetic of weights are arguments; idf, rsj and the average length, in floating point, are left out; failures of the annotator and transaction are left out |
| tf_idf_annotations of src/ranking.cc, src/idf_stats.cc, okay of src/core.cc | IdfModel | the hopper of the items is an argument; the text of a range, split into words, is an argument; the logarithms, quotients and comparisons in floating point are arguments; failures of the file, the annotator and the transaction are left out |
| build_tiers and tiered_ranking by text of src/ranking.cc | TierModel | the logarithm of a word's rarity, the sum, the comparison and the test against delta in floating point are arguments; std::sort is any function that sorts; the container is compiled already |
| icover_ranking of src/ranking.cc | IcoverModel | the weight of a word, sums, the comparison and the penalty for the length in floating point are arguments; std::sort is any function that sorts; the query is split and the container compiled already |
| random_ranking of src/ranking.cc | RandomModel | the numbers drawn are an argument; std::sort is any function that sorts |
| qap of src/ranking.cc | QapModel | translate, split and tokenize, the weight of a word at a distance, sums, the cube and the comparison in floating point are arguments; the parameters are converted already; substr beyond the end counts as undefined |
| qa_prf of src/ranking.cc | QaModel | translate and split, the parameters' conversions, the expectation of a word for a gap, the worth, sums and the comparison in floating point are arguments; addresses are far from the ends of their type |
| src/featurizer.cc, tagging_, vocab_, json_, wrapping_, null_featurizer, unwrap of recipe.cc, json_internal_token of json.h | MakeModel | char is signed; whether there is a working directory and a vocabulary in it are arguments; error texts are left out; the vocabulary file is written without failures |
| configuration in src/bigwig.cc (make, recipe_, set_parameter_, get_parameter_, merge), src/warren.h, src/tokenizer.cc, stemmer.cc, compressor.cc | OpenModel | the shards are left out (StoreModel has them); the file is replaced in one step (C30); one handle at a time, so the lock of the fluffle is left out; the options of a new burrow's recipe are left out |
| src/stats.cc and the makes in src/idf_stats.cc, df_stats.cc, field_stats.cc, meadowlark/tf-idf_stats.cc | ChoiceModel | the warren is what the choice reads of it: parameters, solutions of queries, sums of the statistics, parsed metadata; the warren does not change between making and using; error texts are left out |
| interpret_option, extract_option in src/recipe.cc | OptionsModel | std::regex with one character is a division at that character; dividing the options at white space is left out; iterators of different maps, compared in the code, are taken to differ when something was found, and are undefined otherwise |
| src/committable.h, simple_warren.cc, scribe.cc | CommitModel | hooks of leaves are oracles |

Not modelled: the values of parameters, stop words, the rest of meadowlark,
apps, the network server.

## Trusted base

* Coq's kernel (8.16.1). `vm_compute` is used for concrete witnesses.
* `Print Assumptions` is printed under each property theorem. Those of C01 to C58 and from C62 on say
  "Closed under the global context": no axiom is used. C59 to C61 are about real numbers and list axioms
  of Coq's standard library (its `Reals`) and no others: `ClassicalDedekindReals.sig_forall_dec`,
  `ClassicalDedekindReals.sig_not_dec`, `FunctionalExtensionality.functional_extensionality_dep` and
  `Classical_Prop.classic`.
* The reading of `/repo` into the model, cited line by line in the comments.
* The laws named under Conventions for `std::sort`, zlib and tokenizers, which are hypotheses in
  the statements.
* C46_bm25 asks for addition without rounding: with doubles, sums in different orders can differ
  in their last bits, and then a document whose score ties with the last one kept may be skipped.
* Threads are interleaved step by step (sequential consistency). This is what the C++ memory model
  gives programs without data races; C34 proves that there are none on the contents of lists and
  chunks, everything else that is shared being atomic or under a mutex.
* File-system calls used by the code (`rename`, `link`, `remove`, `truncate`, opening with
  truncation) are atomic. The code never calls `fsync`, so durability is durability against a
  stop of the process, except in C23, where the tails of files may be lost too.

## Wrong programs

`seeded/LOG.jsonl` has one line for each edit of the model that was tried in a scratch copy: the
definition, the edit, the claim it breaks, the theorems that failed and those that were tightened.

## Findings

Proved of the model as `_refuted` theorems:

| theorem | what the code does |
|---|---|
| C04_merge_refuted | binary Merge answers `uat`/`ohr` wrongly when two operand intervals start together and end apart |
| C10_parser_overflow_refuted | a long run of digits in a query overflows |
| C13_push_negative_zero_refuted | a value of -0.0 may come back as 0.0 |
| C14_same_start_refuted | of annotations with the same start the outer one is kept too |
| C15_empty_list_refuted | an empty list among those merged breaks the merge |
| C16_nested_erase_refuted | with nested erased ranges something erased is seen again |
| C17_straddle_refuted, C17_leading_refuted | a background merge changes an answer when an annotation contains an erased one of its feature; text that does not start with a token moves |
| C19_prefix_refuted, C19_batch_refuted | a snapshot need not be a prefix of the ready order; a commit_all can be seen in part |
| C20_empty_refuted, C20_abort_refuted | committing a transaction without annotations stops the process; an abort before ready uses numbers that were never initialised |
| C21_order_refuted | the order in which shards are combined matters in a directory with aliases |
| C22_unwritten_refuted, C22_late_refuted | a merged shard whose writing failed replaces its sources; a late failure of the conversion loses the shard |
| C25_maxfinity_refuted, C25_open_tag_refuted | a range ending at maxfinity, and a text that leaves a tag open, do not read back |
| C25_cut_off_refuted, C26_utf8_nul_refuted | a text that ends in an unfinished UTF-8 sequence swallows its separator, and the next text does not read back; split stops at a NUL, tokenize does not |
| C27_begin_empty_refuted | SimpleTxtIO: beginning a transaction on an empty store reads a member that was never assigned |
| C27_unflushed_refuted | SimpleTxtIO: a transaction begun on text that was not flushed and aborted at once changes that text: closing the stream writes its buffer after the restored chunk |
| C27_abort_refuted | SimpleTxtIO: with a compressor that can make a longer chunk shorter, abort puts bytes of the aborted transaction over the restored text |
| C27_early_reader_refuted | SimpleTxtIO: a reader that opened the store before a transaction reads chunks the transaction rewrites in place |
| C43_nul_refuted | SimpleAppender::transaction_: a NUL in the last 1024 tokens hides the tokens after it, and the transaction is given addresses that are taken |
| C43_mixed_refuted | SimpleAppender::append_: last_pq is never updated, so a word with upper case letters at an address that is a multiple of 1024 gets two records; then SimpleTxt cannot be opened, or (at address 0) divides by zero |
| C44_lost_refuted | SimpleBuilder::build_index: with annotations but no word the index is empty, and finalize succeeds |
| C44_order_refuted | annotations of a feature not in order of their starts, or with the feature of a word, fail the assertion of build_index, depending on the batch size |
| C29_tag_colon_refuted, C29_tag_translate_refuted | tags with colons collide; a tagging featurizer translates a feature to `tag:key`, not to the key |
| C29_nul/number/erase_marker/overflow_refuted | terms with NUL bytes, `#n` terms, the reserved number and one hash value collide or overflow |
| C30_quote/backslash/nested_escape/newline/freeze_text_refuted | configuration texts that do not survive freezing |
| C31_alias_refuted | a name with fewer digits is read as the same range |
| C35_open_refuted | `SimpleAnnotator` renames `.new` files while `SimpleIdx::make` looks for `.NEW`: opening after a crash in commit pairs the new idx with the old pst, and so does recovery in the wrong direction |
| C42_nested_refuted | of nested annotations of a transaction a single-file index keeps the outer one, or with smaller batches the inner one |
| C36_newline/control/reserved/forged_refuted | a JSON string with a newline comes back with a space, with a tab as bad JSON, with a reserved codepoint as bad or as other JSON |
| C36_letter_refuted, C36_twice_refuted, C36_recipe_refuted | the letter U+FDFA is replaced as if it were reserved; json_translate escapes the result of json_encode again; a JSON view writes `jason` into its recipe and looks for `json` |
| C40_gap_refuted | after an abort all merging can stop |
| C41_unreadable_refuted, C41_last_line_refuted | an unreadable file leaves its transaction open; a last line without newline is lost |
| C45_overlap_refuted | ssr_ranking: of overlapping containers only the first is credited with a solution that lies in both |
| C46_negative_refuted | bm25_ranking: a term with a negative weight hides documents it does not occur in |
| C48_range_refuted | tf_annotations: items of the last batch are counted in the totals and get no term frequencies, unless one of them ends where the range ends; with the default range no item of a collection below a million addresses gets any (ranking.cc:799-800) |
| C48_gap_refuted | tf_df_annotations: an unused address between two items (an aborted transaction) shifts the words of the later items and reads past the end of the words (ranking.cc:901) |
| C49_some_refuted | `2 of ("a","b","c")` is accepted by the infix parser, which offers `(2 "c" "b" "a")`; the s-expression language has no such operator (mt.cc:331-335, parse.cc:20-40) |
| C49_backslash_refuted | the infix language knows no backslash, the s-expression language does: a term ending in a backslash is accepted and then misread (mt.cc:337, 410-430) |
| C49_failed_definition_refuted | `x = "a" "b"` is refused as having extra characters and x is defined all the same (mt.cc:704-722) |
| C50_outside_refuted | step 1 of the stemmer cuts `ies`, and a vowel followed by `ed`, `ing`, `eds` or `ings` (not `eed`), to one letter; steps 2 and 4 then read the byte before the buffer (porter.cc:224, 285) |
| C50_ion_refuted | when `ion` is left before step 4, its test of the letter before the suffix reads the byte before the buffer (porter.cc:297) |
| C50_nul_refuted | a word is copied up to its first NUL but stemmed with its full length, so bytes of earlier words show through (porter.h:42-52) |

Seen while reading, not stated as theorems:

* `Fiver::commit_` makes its link inside an `assert` (fiver.cc:719): compiled with `NDEBUG` the
  link is never made. `SimpleTxtIO::restore` truncates inside asserts (54-59, 76).
* `Fiver::make` never initialises `sequence_start_` and `sequence_end_`.
* `merge_worker` ignores a failure of `pickle()` (bigwig.cc:1285); `Fiver::hazel` appends a
  newline to the text of a shard that readers can see (fiver.cc:1219).
* An address gap inside a merged shard makes translate return the text to the end of the shard;
  `HazelTxt` clamps the end of the range where `FiverTxt` does not.
* `BigwigIdx::count` counts erased and duplicate annotations.
* An annotation that starts before the staging area and ends in it is moved in part; values that
  are addresses are not moved.
* A feature annotated only with `p > q` gives an empty list, on which `ArrayHopper` is undefined.
* `std::sort` is not stable: of duplicates with different values either may be kept.
* The query parser ignores what follows a complete query.
* The optimizer can enumerate about 2^63 positions when all operands are fixed-width.
* `JsonTxt` writes its recipe under the key "jason" and looks for "json".
* annotate ignores features up to 0 and bad ranges, and returns true. No code calls
  `SimpleAnnotator::recover`, and idx.lock left by a crash refuses every later transaction.
* json.cc tests for noncharacters with `||` where `&&` is meant.
* `SimpleIdx::locate` reads through its iterator after the loop.
* `ls` passes an unquoted path to a shell and reads lines into 256 bytes.
* recipe.cc: "Malformed option" has no return; iterators of different maps are compared;
  `extract_option` dereferences an end iterator when the option is missing.
* `scribe_jsonl` with a null scribe does not return after the error.
* `HazelIdx::load` can overflow on a damaged count or offset; `HazelIdx::merge` drops features
  below 0 and the feature maxfinity; DNA with a blank line ends the Hazel DNA early.
* `tiered_ranking` passes an empty parameter map to `ssr_ranking` for each tier (ranking.cc:250-251),
  so a caller's `ssr:K` is ignored.
* There is no `fsync`.
* `tf_annotations` carries on with an empty query when no container is defined (ranking.cc:767-770 lacks the
  `return false` that `tf_df_annotations` has).
* mt.cc: a missing "in" after "contained" reports an old error text; numbers 4294967290 to 4294967294 are read as
  4294967295; "0 of" is any one position; definitions are never freed; recursion is as deep as the parentheses.
* Labels of foragers (C51_labels_refuted): `forager_label` joins name and tag with colons and leaves out an empty name, so
  a tf-idf forager with the empty name and the tag "null" has the label of the null forager without a tag, and name "" with
  tag "tf-idf:a" that of name "tf-idf" with tag "a".  A code over 255 in a description reads as a question mark.
* Files with fields (C52): `append` answers (a+1, a) for a text without tokens and `append_tsv` takes the maximum, so a
  record whose last field is empty is annotated up to the first token of the next record (C52_next_token_refuted), and a
  file that ends in a blank line up to one address past its end (C52_past_the_end_refuted).  Unless the separator ends in
  white space a newline is stored after each field (C52_comma_refuted).  The path is committed before the lines, so a file
  that could not be appended counts as appended (C52_path_only_refuted).  A stored path "a b" answers for "a"
  (C52_longer_path_refuted); a path without tokens is annotated on a range with p > q (C52_empty_path_refuted).  The clones
  commit one at a time: readers may see part of a file.
* JSONL files (C53_few_lines_refuted): a thread of append_jsonl that gets no line readies an empty transaction, which
  writes no file, and committing it fails an assertion: a file with fewer lines than threads stops the process, on every
  schedule.  The default number of threads is one more than the processors.  Likewise append_tsv with more threads than
  lines when there are over 65536 lines.
* Foraging (C54_few_items_refuted): a worker of forage with no items answers that it is ready without readying its
  transaction, and committing it fails an assertion: more workers than items (over 65536 of them) stop the process.
* Foraging (C54_not_atomic_refuted): each worker commits on its own, so when one fails the parts of the others stay
  though forage answers false, and foraging again adds them a second time.
* Foraging (C54_unread_refuted): the empty name is taken for tf-idf, with its label, but the description keeps the empty
  name and the statistics are refused when they are asked for; likewise when intervals are foraged without a query, as
  the description then has no gcl parameter.
* Foraging (C54_unknown_refuted): forage does not look at what Forager::make answers; with a stemmer or a tokenizer that
  does not exist it is a null pointer, and is used.
* Fast ids: the parameter that turns them on is set before the file of ids is closed, and reading the file does not look
  for its end: after a crash opening the warren reads uninitialised memory (C55_crash_refuted).  A NUL in the text of an
  id cuts it (C55_nul_refuted).  The middle of the search is an int (C55_many_refuted).  `FastidTxt` has no raw text of its
  own, so the default answers the translated text (C55_raw_refuted).
* Pipelines: white space before the first stage, or no stage, is refused (C56_leading_refuted).  Drawing the parameters of
  bm25 or lmd also sets "depth", which feedback then takes for its own depth (C56_depth_refuted).  lmd splits a query
  that is not yet weighted by the tokenizer of the warren, the other stages by that of the statistics: C56_stages asks that they agree.
* Feedback: the passage about a result near the start of its container is a token too long, one near the end goes past the
  end of the container (C57_window_refuted).  A depth of 0 gives one passage (C57_depth_refuted).
* trec without topics does not clear the results (C58_empty_refuted).
* Evaluation: what is stored as "rr", the reciprocal rank, is the average precision (C59_rr_refuted, eval.cc:182).  Items
  repeated in a ranking count each time (C59_repeats_refuted, C60_repeats_refuted).  The mean goes on iterating from an
  entry it has just erased when a measure is missing (C60_missing_refuted).  Empty rankings, and judgments that are all 0,
  divide 0 by 0 (C60_empty_refuted, C61_zero_refuted).
* Judgments: loading a second file into the same map scales the grades of the first again (C61_twice_refuted).  A line
  that starts with white space has an empty first field, so that three fields after it are accepted (C61_leading_refuted).
* Working directories: the reader accepts every recipe, because of `|| "compression test"` in working.cc:214, and with a
  mistyped one reads a plain file as if compressed, which is undefined (C62_recipe_refuted).  A request for 2^64-1 bytes
  after another request wraps around (C62_huge_refuted).  Temporary names repeat after 2^32 calls (C62_wrap_refuted).
* Sorting records: a file without records is removed and the empty name given for the result (C63_empty_refuted); bytes
  lost at the close of a file are not noticed, and the input is removed (C63_short_refuted).
* build_trec dereferences a null pointer when a file cannot be read (C65_unreadable_refuted).  An error while reading, or
  a zcat that fails half way, is taken for the end of the file (C65_error_refuted).
* SimpleAppender::ready_ does not flush txt.new, which is closed in commit_ only: a crash after ready has answered true can
  lose records, and recovery that rolls forward then publishes what is left of them (C66_ready_refuted).  Nothing in the
  files tells recovery whether commit had begun; rolled back between the text store and the records, the text of the
  transaction stays (C66_direction_refuted).
* The hopper of a term over weighted fields asks the items for the last one that ends by the start of the last occurrence,
  so uat and ohr give the item before, with the other's value (C67_back_refuted); rankings only call tau.  When a field has
  several intervals in an item only the first is counted (C67_second_refuted).  FieldStats::make means to fall back on
  statistics without fields when there are no weights, but splitting an empty string gives one empty piece, so it is an
  error (C67_no_weights_refuted); a weight out of the range of float is an exception that is not caught
  (C67_range_refuted).
* IdfStats::make reads the parameters that say which weights were made only when they cannot be read (the test is the wrong
  way round), so the statistics always say that they have idf, rsj and unstemmed words; BM25 over statistics made without
  rsj runs with every weight 0 (C68_have_refuted).  tf_idf_annotations on a collection without items succeeds and notes the
  average 0/0 (C68_empty_refuted).
* build_tiers asks for the word twice in the query for a set of one word (`(... t t)`), so tiered_ranking does not return an
  item that holds one word of the query once, although there is room for it; a query of one word finds only items that hold
  it twice (C69_one_word_refuted).
* icover_ranking asked for 0 results reads the back() of an empty vector for every query of two words or more
  (C70_none_refuted). Once it has depth results it drops the lightest word if the n lightest together do not beat the last
  result, although that word next to a heavy one may: a better passage is left out (C70_dropped_refuted). Its last pass stops
  after depth occurrences, also if they are all in one container: other containers are left out although there is room
  (C70_crowded_refuted).
* qap never adds to its set of fragments seen: the same text around two passages counts twice and gives the same answer twice
  (C72_repeated_refuted). Its loop over runs of tokens ends one early, so the last run around a passage is never an answer
  (C72_last_refuted). It compares a position with a distance where it looks for the nearest occurrence of a word, so the first
  one counts (C72_nearest_refuted), and gives all words after a passage the distance 1 (C72_after_refuted). Asked for answers
  of 0 words it reads before the first token (C72_zero_refuted).
* qa_prf replaces the weighted query by its terms, where the other feedback methods add to it (C73_forgets_refuted). Words
  after a passage count as nearer than those in it; right after a passage of one word the gap is 0 and the worth f log(f/0)
  (C73_after_refuted). At the end of a container the last word of the passage counts as one after it (C73_end_refuted). It
  reads the parameters of kld.
* A tag that is itself a configuration does not survive the featurizer's own recipe: it comes back with other spacing, so
  the features of the restored index differ (C74_tag_refuted); one with a quotation mark makes a recipe that is not read
  (C74_quoted_refuted). Featurizer::check passes a vocabulary that make refuses without a working directory
  (C74_working_refuted).
* json_internal_token tests `token[2] >= '\x90' || token[2] >= '\x99'`, so every character from U+FDD0 to U+FDFF is
  taken for structure: Arabic ligatures such as U+FDFA are not indexed (C74_text_refuted).
* Any phrase query as default container has quotation marks; set_default_container accepts it, writes it without escapes
  and the burrow cannot be opened afterwards (C75_quoted_refuted). The same after set_parameter with a stemmer that does not
  exist (C75_stemmer_refuted).
* Opening a bigwig writes to its configuration (set_stemmer, set_default_container in Bigwig::make); with the null stemmer,
  whose name is empty, this loses the parameter (C75_null_refuted).
* A compressor from PostCompressor::make() and the like has an empty name, which the configuration takes for zlib: after
  reopening, shards are read with another compressor than they were written with (C75_nameless_refuted).
* Tokenizer::make sets the name of the tokenizer without testing for the null pointer, so a bad recipe is undefined behaviour
  (C75_tokenizer_refuted); opening a burrow with such a recipe in its configuration is, too.
* Stats::make assigns the tokenizer inside an assertion (src/stats.cc:80-81). The Makefile's target fast compiles with NDEBUG, so
  there the statistics of every warren but a meadow have no tokenizer, and ranking any query is undefined (C76_fast_refuted).
* TfIdfStats::make tries the queries for items and containers, but not the one for identifiers; id_hopper then fails an
  assertion (C76_id_refuted).
* Stats::make with a tag and no name ignores the tag (C76_tag_refuted). Stats::check accepts tf-idf, which only a meadow can
  have (C76_check_refuted).
* interpret_option notes that an option is malformed but goes on: with one piece it reads past the end of a vector
  (C77_short_refuted), with more than three it leaves out the rest (C77_long_refuted). An option with an empty value is taken as
  one with a piece less, so X:name: sets the recipe of X to the text name (C77_empty_refuted).
* interpret_option and extract_option compare iterators to the end of another map, and extract_option does not test whether the
  setting was found; both are undefined for items without a recipe, such as parameters, and settings that are not there
  (C77_whole_refuted, C77_missing_refuted).
