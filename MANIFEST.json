{
 "claims": [
  {
   "property": "C01",
   "status": "proved",
   "theorems": [
    "C01_stored_list",
    "C01_no_interval",
    "C01_one_interval",
    "C01_fixed_width"
   ],
   "note": "Array, Empty, Singleton and FixedWidth hoppers, any history of calls, no overflow, loops terminate."
  },
  {
   "property": "C02",
   "status": "proved",
   "theorems": [
    "C02_contained_in",
    "C02_containing",
    "C02_not_contained_in",
    "C02_not_containing"
   ],
   "note": "All four containment operators over any operands that answer correctly."
  },
  {
   "property": "C03",
   "status": "proved",
   "theorems": [
    "C03_and",
    "C03_or",
    "C03_followed_by"
   ],
   "note": "And, Or, FollowedBy over any operands that answer correctly."
  },
  {
   "property": "C04",
   "status": "partial",
   "theorems": [
    "C04_vector_merge",
    "C04_merge_partial",
    "C04_merge_forward_partial",
    "C04_merge_refuted"
   ],
   "note": "The n-ary merge is proved in full. The binary Merge class is proved when no two operand intervals start together and end apart, and for tau/rho/L/R always; its uat/ohr answer is refuted otherwise (C04_merge_refuted)."
  },
  {
   "property": "C05",
   "status": "proved",
   "theorems": [
    "C05_link"
   ],
   "note": "Operand lists that fit in memory (at most 2^61-1 intervals)."
  },
  {
   "property": "C06",
   "status": "proved",
   "theorems": [
    "C06_query_tree",
    "C06_query_text"
   ],
   "note": "Any valid tree, and from query text through phrase expansion and the optimizer; terms are answered by an index object given by hypothesis; link/materialize operands fit in memory."
  },
  {
   "property": "C07",
   "status": "proved",
   "theorems": [
    "C07_enumeration",
    "C07_materialize"
   ],
   "note": "All four enumeration loops and Materialize."
  },
  {
   "property": "C08",
   "status": "proved",
   "theorems": [
    "C08_phrase",
    "C08_phrases_inside"
   ],
   "note": "tokenizer->split is any function whose tokens can be written as raw query terms and are indexed as single positions (at most 2^32-1 of them)."
  },
  {
   "property": "C09",
   "status": "proved",
   "theorems": [
    "C09_optimizer"
   ],
   "note": "Any cost function; the intermediate lists the optimizer materializes must fit in memory."
  },
  {
   "property": "C10",
   "status": "proved",
   "theorems": [
    "C10_print_parse",
    "C10_parsed_is_printable",
    "C10_parser_total",
    "C10_parser_overflow_refuted",
    "C10_nary_left_nested"
   ],
   "note": "Round trip for every writable tree and every parsed text; totality when digit runs are at most 18 long, overflow witnessed otherwise."
  },
  {
   "property": "C11",
   "status": "proved",
   "theorems": [
    "C11_post_lossless",
    "C11_post_only_ascending"
   ],
   "note": "Byte-level model of PostCompressor; lossless exactly on ascending non-negative lists, within the promised room."
  },
  {
   "property": "C12",
   "status": "proved",
   "theorems": [
    "C12_tfdf_lossless",
    "C12_tfdf_component_lossless",
    "C12_tfdf_component_refuses",
    "C12_bits",
    "C12_bits_buffer",
    "C12_null_lossless",
    "C12_bad_lossless"
   ],
   "note": "Bit buffers, tf/df codec (plain and component), null and test compressors at byte level. zlib is external."
  },
  {
   "property": "C13",
   "status": "proved",
   "theorems": [
    "C13_write_read",
    "C13_file",
    "C13_truncated",
    "C13_default_compressors",
    "C13_arrays",
    "C13_push",
    "C13_push_negative_zero_refuted",
    "C13_append"
   ],
   "note": "Any compressors lossless on the list's arrays; the default ones are, for every list of non-negative addresses. A value pushed with the bit pattern of -0.0 may be read back as 0.0 (C13_push_negative_zero_refuted)."
  },
  {
   "property": "C14",
   "status": "partial",
   "theorems": [
    "C14_index_partial",
    "C14_sort_exists",
    "C14_same_start_refuted"
   ],
   "note": "Exact content of the index for every batch, any order of ties; innermost annotations when those starting together are the same. Otherwise refuted (C14_same_start_refuted): an outer annotation with the same start is kept."
  },
  {
   "property": "C15",
   "status": "partial",
   "theorems": [
    "C15_merge_partial",
    "C15_empty_list_refuted"
   ],
   "note": "Merge of any number of non-empty lists. With an empty list among them the claim is refuted (C15_empty_list_refuted)."
  },
  {
   "property": "C16",
   "status": "partial",
   "theorems": [
    "C16_merge_exclude",
    "C16_view",
    "C16_visible_partial",
    "C16_merged_partial",
    "C16_nested_erase_refuted"
   ],
   "note": "Exact view of any sound shards (C16_view); nothing erased is seen and everything else is, before and after merging, when no erased range contains another (C16_visible_partial, C16_merged_partial). With nested erased ranges the claim is refuted (C16_nested_erase_refuted)."
  },
  {
   "property": "C17",
   "status": "partial",
   "theorems": [
    "C17_life_text_partial",
    "C17_life_index_partial",
    "C17_life_total",
    "C17_merge_partial",
    "C17_queries_partial",
    "C17_nothing_lost",
    "C17_straddle_refuted",
    "C17_text_partial",
    "C17_total_partial",
    "C17_count_partial",
    "C17_leading_refuted"
   ],
   "note": "Any number of merges of any adjacent runs leaves every feature and every query answering the same, when no annotation contains an erased one of its own feature and erased ranges do not nest; refuted otherwise (C17_straddle_refuted), but nothing seen is ever lost (C17_nothing_lost). Text and token counts also stay the same for consecutive transactions whose text starts with a token (C17_text_partial, C17_count_partial); refuted otherwise (C17_leading_refuted). Merging any run succeeds (C17_total_partial). Over the whole life of a store (merging in memory, jars, writing files, merging files after crashes, in any order) text, counts and queries stay the same with the same limits (C17_life_text_partial, C17_life_index_partial), and nothing gets stuck (C17_life_total)."
  },
  {
   "property": "C18",
   "status": "proved",
   "theorems": [
    "C18_disjoint",
    "C18_ready_order",
    "C18_no_gap"
   ],
   "note": "Any interleaving of any number of clones, readers, commit_all calls, merge workers, crashes (also while opening) and reopenings, with file-system calls as atomic steps. The move of a transaction's own annotations along with its text is part of the text model: C39_* and C25_* hold for every address the transaction is given."
  },
  {
   "property": "C19",
   "status": "partial",
   "theorems": [
    "C19_snapshot",
    "C19_contents",
    "C19_generation",
    "C19_commit_shows",
    "C19_prefix_refuted",
    "C19_batch_refuted"
   ],
   "note": "Any interleaving of any number of clones, readers, commit_all calls, merge workers, crashes (also while opening) and reopenings, with file-system calls as atomic steps. Between start and end the content read is the content at start; it has every transaction whose commit returned and only such whose commit was called. That it is a prefix of the ready order is false (C19_prefix_refuted), and a commit_all can be seen in part (C19_batch_refuted)."
  },
  {
   "property": "C20",
   "status": "partial",
   "theorems": [
    "C20_durable",
    "C20_nothing_lost",
    "C20_opening_interrupted",
    "C20_commit_succeeds",
    "C20_batch_succeeds",
    "C20_batch_durable",
    "C20_empty_refuted",
    "C20_abort_refuted"
   ],
   "note": "Any interleaving of any number of clones, readers, commit_all calls, merge workers, crashes (also while opening) and reopenings, with file-system calls as atomic steps. Process stops, not power loss (the code has no fsync). Input/output failures are limited to those the code handles. False for transactions without annotations, whose commit stops the process (C20_empty_refuted), and for aborts before ready, which use numbers that were never initialised (C20_abort_refuted); all other histories are proved."
  },
  {
   "property": "C21",
   "status": "proved",
   "theorems": [
    "C21_open",
    "C21_open_again",
    "C21_restart",
    "C21_opens",
    "C21_refuses",
    "C21_order_refuted"
   ],
   "note": "Directory contents are any list of file names; opening is Fiver::sanitize, Hazel::sanitize and combine_shards in order, after the commit scripts ran. Every shard file is within a kept one, kept ones are disjoint and in order, only files of the directory are removed and none of the kept, and stopping after any number of removals and opening again gives the same ranges. std::sort is a parameter with its law. Errors part way through combine_shards are characterised by C21_opens."
  },
  {
   "property": "C22",
   "status": "partial",
   "theorems": [
    "C22_invisible",
    "C22_all_crashes",
    "C22_unwritten_refuted",
    "C22_late_refuted"
   ],
   "note": "Any interleaving of any number of clones, readers, commit_all calls, merge workers, crashes (also while opening) and reopenings, with file-system calls as atomic steps. False when writing the merged shard fails, which is not checked (C22_unwritten_refuted), and when converting a shard fails late (C22_late_refuted); proved for every history without these two failures."
  },
  {
   "property": "C23",
   "status": "proved",
   "theorems": [
    "C23_resume"
   ],
   "note": "Any number of crashed attempts, at any point of any write, with any tail of either checkpoint file lost: the next attempt ends with the same blob, and the blob is that of an index characterised by the innermost annotations of the sources. File resets and truncations are atomic; the sources are unchanged between the attempts."
  },
  {
   "property": "C24",
   "status": "proved",
   "theorems": [
    "C24_lookup",
    "C24_default_compressors"
   ],
   "note": "Index blob anywhere in a file; lookup, count, posting and hopper equal to those of the index in memory, for any compressors that store its lists; the default compressors store every index a commit or a merge makes."
  },
  {
   "property": "C25",
   "status": "partial",
   "theorems": [
    "C25_text_back_partial",
    "C25_append_partial",
    "C25_append_exact_partial",
    "C25_count_partial",
    "C25_maxfinity_refuted",
    "C25_open_tag_refuted",
    "C25_cut_off_refuted"
   ],
   "note": "Any edits of a transaction in the in-memory shard, any tokenizer with the stated laws (the ASCII and the UTF-8 tokenizer have them: C26_ascii_laws_partial, C26_utf8_laws_partial), any history of translate calls; the range returned by append gives the text back; token count and address range. Refuted for ranges ending at maxfinity (C25_maxfinity_refuted), texts that leave a tag open (C25_open_tag_refuted) and texts that end in an unfinished UTF-8 sequence (C25_cut_off_refuted). For shards of both kinds in one view: C17_life_text_partial. Other text stores: C27, C28."
  },
  {
   "property": "C26",
   "status": "partial",
   "theorems": [
    "C26_ascii_agree_partial",
    "C26_ascii_words_partial",
    "C26_ascii_laws_partial",
    "C26_utf8_agree_partial",
    "C26_utf8_words",
    "C26_utf8_laws_partial",
    "C26_utf8_cut",
    "C26_utf8_complete",
    "C26_utf8_nul_refuted"
   ],
   "note": "Every byte string. ASCII tokenizer, with and without markup: proved. UTF-8 tokenizer: proved for all byte strings without NUL (split stops at a NUL, tokenize does not: C26_utf8_nul_refuted); for encoded text the tokens are characterised by codepoints (longest runs of letters, single symbols, folded by the table of unicode.h)."
  },
  {
   "property": "C27",
   "status": "partial",
   "theorems": [
    "C27_flat_file_partial",
    "C27_crash_partial",
    "C27_ready",
    "C27_reader_partial",
    "C27_begin_empty_refuted",
    "C27_unflushed_refuted",
    "C27_abort_refuted",
    "C27_early_reader_refuted"
   ],
   "note": "Proved for every lossless compressor, chunk size, stream buffering and history: the store answers as a flat file; a crash at any file operation of any call, plus interrupted recoveries, leaves the committed text (or, during commit, possibly the new one); a ready commit can always be completed; a reader that opens the store during a transaction reads the committed text whatever the writer does. Missing, each refuted by a witness: transactions begun on an empty store or on unflushed text, aborts of unflushed appends when a longer chunk can compress to fewer bytes, readers opened before the transaction; also closing with a transaction open and crashes outside transactions."
  },
  {
   "property": "C28",
   "status": "proved",
   "theorems": [
    "C28_reading",
    "C28_laws"
   ],
   "note": "Every text, every store that serves it (C27 gives such stores), every sequence of questions, and any tokenizer with the laws of C26, which both tokenizers have (C28_laws). Counting tokens needs a text without NUL."
  },
  {
   "property": "C29",
   "status": "partial",
   "theorems": [
    "C29_short_unique_partial",
    "C29_short_long_partial",
    "C29_positive_partial",
    "C29_translate_short_partial",
    "C29_translate_long_partial",
    "C29_number",
    "C29_defined_partial",
    "C29_nul_refuted",
    "C29_number_refuted",
    "C29_erase_marker_refuted",
    "C29_overflow_refuted",
    "C29_tags_partial",
    "C29_tagged_name_partial",
    "C29_tag_colon_refuted",
    "C29_tag_translate_refuted"
   ],
   "note": "Proved for ordinary terms (not empty, no NUL byte, not a '#' followed by digits): terms of at most 7 bytes get distinct positive numbers that translate back, terms of 8 or more bytes never share a number with a short term, numbers written '#n' are themselves. Terms of 8 or more bytes are hashed, so two of them may collide and the property is limited to that. Refuted outside: NUL bytes, '#n' spellings, a term that gets the reserved erase number, and an 8-byte term whose hash is INT64_MIN (signed overflow). The tagging featurizer keeps tags and keys apart as long as tags have no colon (C29_tags_partial, C29_tag_colon_refuted) and translates to tag:key (C29_tag_translate_refuted)."
  },
  {
   "property": "C30",
   "status": "proved",
   "theorems": [
    "C30_freeze_cook",
    "C30_says_exists",
    "C30_says_unique",
    "C30_exact",
    "C30_cooked",
    "C30_bounded",
    "C30_parameters",
    "C30_file",
    "C30_quote_refuted",
    "C30_backslash_refuted",
    "C30_nested_escape_refuted",
    "C30_newline_refuted",
    "C30_freeze_text_refuted"
   ],
   "note": "Any map, any nesting depth: cook(freeze m) has the same names, equal texts and nested values with the same meaning; through the configuration file as well, for any sequence of set parameters. C30_exact identifies the surviving texts (no quotation mark, backslash or zero). The _refuted theorems exhibit what happens to the others. interpret_option and extract_option are in OptionsModel (C77)."
  },
  {
   "property": "C31",
   "status": "proved",
   "theorems": [
    "C31_back",
    "C31_exact",
    "C31_named",
    "C31_unique",
    "C31_one_range",
    "C31_order",
    "C31_hazel",
    "C31_sidecar",
    "C31_sidecar_back",
    "C31_alias_refuted"
   ],
   "note": "Every range of sequence numbers from 0 to 2^63-1. The names read are characterised exactly. C31_alias_refuted: a name with fewer digits than the program writes is read too, so names of a directory are not unique per range."
  },
  {
   "property": "C32",
   "status": "proved",
   "theorems": [
    "C32_dictionary",
    "C32_foreign",
    "C32_truncated",
    "C32_dna"
   ],
   "note": "Round trip for any list of blobs and any trailing bytes, exact characterisation of what is accepted (no undefined behaviour on any byte string), every truncation rejected, configuration text read back and skipped. A name whose length exceeds the file is modelled as a failed read."
  },
  {
   "property": "C33",
   "status": "proved",
   "theorems": [
    "C33_order",
    "C33_all_commit",
    "C33_together",
    "C33_out_of_order",
    "C33_commit_all"
   ],
   "note": "All nestings of two-part components (SimpleWarren, Fiver) and wrappers (WarrenScribe, Bigwig), all call sequences and failures: order kept, all components commit together and as often as the caller, out-of-order calls change nothing. commit outside a yes vote stops the process (assert). The hooks of the innermost components are oracles."
  },
  {
   "property": "C34",
   "status": "proved",
   "theorems": [
    "C34_complete",
    "C34_once",
    "C34_no_race",
    "C34_progress",
    "C34_bounded",
    "C34_snapshot",
    "C34_snapshot_ranked",
    "C34_gate_limit",
    "C34_gate_reads",
    "C34_gate_progress",
    "C34_gate_bounded",
    "C34_text_complete",
    "C34_text_no_race",
    "C34_text_progress",
    "C34_text_bounded"
   ],
   "note": "For any number of threads, programs and schedules, both builds of the gate. Complete answers, one load per list, no race, progress, bounded steps; for the lists of a snapshot over shards in memory and on disk; the reader gate and the cache of decompressed text likewise. Threads are interleaved one access at a time."
  },
  {
   "property": "C35",
   "status": "partial",
   "theorems": [
    "C35_recovery_partial",
    "C35_open_refuted"
   ],
   "note": "Proved: a transaction on a standing index gets as far as commit; a crash anywhere before commit plus any number of crashed recoveries and one complete rollback leaves exactly the old index; a crash anywhere in commit plus rollforward leaves the same new index as an undisturbed commit. Missing: recovery takes the direction as an argument and no code calls it; opening looks for .NEW where commit writes .new, and C35_open_refuted shows the mixtures that follow."
  },
  {
   "property": "C36",
   "status": "partial",
   "theorems": [
    "C36_values_partial",
    "C36_input_partial",
    "C36_prepared",
    "C36_encode",
    "C36_newline_refuted",
    "C36_control_refuted",
    "C36_reserved_refuted",
    "C36_forged_refuted",
    "C36_letter_refuted",
    "C36_twice_refuted",
    "C36_recipe_refuted"
   ],
   "note": "Proved for all values whose strings have no control characters, NUL or reserved codepoints (C36_input_partial shows which input texts give only such strings), through the UTF-8 tokenizer, commit and translate; refuted outside that. Numbers come back as the text std::to_string wrote, taken as any function."
  },
  {
   "property": "C37",
   "status": "proved",
   "theorems": [
    "C37_pickle",
    "C37_default_compressors",
    "C37_truncated_refuted"
   ],
   "note": "For any compressors that can store the lists and a lossless text compressor; instance for the default list compressors. Finding: a jar cut inside its text is not recognised (C37_truncated_refuted): the read of the text is not checked."
  },
  {
   "property": "C38",
   "status": "proved",
   "theorems": [
    "C38_choice_sound",
    "C38_choice_covered",
    "C38_longest_run",
    "C38_smallest_pair",
    "C38_ordered",
    "C38_one_worker",
    "C38_stays",
    "C38_installed",
    "C38_installs"
   ],
   "note": "Any interleaving of any number of clones, readers, commit_all calls, merge workers, crashes and reopenings. A worker may choose any run of adjacent, idle, visible shards (what validate_* demands); the choices the scheduler (find_*) makes are among these (C38_choice_covered)."
  },
  {
   "property": "C39",
   "status": "partial",
   "theorems": [
    "C39_life_search",
    "C39_answers_partial",
    "C39_search"
   ],
   "note": "Words: in full. Annotated features: when different annotations of a feature do not start together (C14_same_start_refuted shows why). Words are found through the whole life of a store, jars, files and merges of files included (C39_life_search)."
  },
  {
   "property": "C40",
   "status": "partial",
   "theorems": [
    "C40_bounded",
    "C40_rest",
    "C40_gives_up",
    "C40_gap_refuted"
   ],
   "note": "The number of merges is bounded, and at rest at most three shards are left, if no sequence number is missing between shards. False otherwise: after an abort all merging can stop (C40_gap_refuted)."
  },
  {
   "property": "C41",
   "status": "partial",
   "theorems": [
    "C41_files_partial",
    "C41_unreadable_refuted",
    "C41_jsonl_partial",
    "C41_last_line_refuted"
   ],
   "note": "Proved: with readable files one committed transaction per file; JSONL hands on every newline-terminated line. Refuted: an unreadable file leaves its transaction open and blocks the next; a last line without newline is lost."
  },
  {
   "property": "C42",
   "status": "partial",
   "theorems": [
    "C42_committed_partial",
    "C42_nested_refuted"
   ],
   "note": "Proved over every history of transactions (committed, aborted before or after ready, lost in a crash, saved after a crash, reopened), for every batch size and every sort that meets std::sort's contract. Missing: transactions in which one annotation contains another of the same feature, for which C42_nested_refuted shows the claim false."
  },
  {
   "property": "C43",
   "status": "partial",
   "theorems": [
    "C43_life_partial",
    "C43_range",
    "C43_utf8",
    "C43_nul_refuted",
    "C43_mixed_refuted"
   ],
   "note": "Builder, then any history of transactions, aborts and restarts. Missing: texts that leave a token open, what C27 leaves out, and two refuted cases: a NUL in the text (C43_nul_refuted) and words with several features at addresses that are multiples of 1024 (C43_mixed_refuted; the UTF-8 tokenizer has none, C43_utf8)."
  },
  {
   "property": "C44",
   "status": "proved",
   "theorems": [
    "C44_found",
    "C44_life",
    "C44_lost_refuted",
    "C44_order_refuted"
   ],
   "note": "For all sequences of texts and annotations, batch sizes, sorts and tokenizers with the laws of C26; the caller's duties are those the code's comment names (order, no nesting) plus at least one word and no annotation with the feature of a word; both are refuted without. Threads that write batches are taken as done at once; files can be created."
  },
  {
   "property": "C45",
   "status": "proved",
   "theorems": [
    "C45_best",
    "C45_parallel",
    "C45_overlap_refuted"
   ],
   "note": "For containers that do not overlap; overlapping ones are refuted."
  },
  {
   "property": "C46",
   "status": "proved",
   "theorems": [
    "C46_terms",
    "C46_bm25",
    "C46_negative_refuted",
    "C46_containers"
   ],
   "note": "BM25 for addition without rounding and weights not below zero; negative weights are refuted."
  },
  {
   "property": "C47",
   "status": "proved",
   "theorems": [
    "C47_fusion",
    "C47_merge",
    "C47_tiers"
   ],
   "note": "Ties in any order."
  },
  {
   "property": "C48",
   "status": "partial",
   "theorems": [
    "C48_made",
    "C48_totals",
    "C48_read",
    "C48_ranking",
    "C48_bm25",
    "C48_range_partial",
    "C48_range_refuted",
    "C48_gap_refuted"
   ],
   "note": "C48_made, C48_read, C48_ranking and C48_bm25 prove the property for whole collections whose addresses all have text. Missing: ranges that do not end at the end of an item, where C48_range_refuted shows it false (C48_range_partial is the case that holds), and collections with unused addresses, where C48_gap_refuted shows it false."
  },
  {
   "property": "C49",
   "status": "partial",
   "theorems": [
    "C49_session_partial",
    "C49_accepted",
    "C49_total",
    "C49_refused",
    "C49_answers_partial",
    "C49_some_refuted",
    "C49_backslash_refuted",
    "C49_failed_definition_refuted"
   ],
   "note": "C49_accepted (iff), C49_total, C49_refused are complete; C49_session_partial and C49_answers_partial leave out n-of-m queries, terms ending in a backslash (both refuted: C49_some_refuted, C49_backslash_refuted) and wrong texts with an equals sign (C49_failed_definition_refuted). Error texts, memory and stack depth are not modelled."
  },
  {
   "property": "C50",
   "status": "partial",
   "theorems": [
    "C50_stem_partial",
    "C50_one",
    "C50_history",
    "C50_unchanged",
    "C50_outside_refuted",
    "C50_ion_refuted",
    "C50_nul_refuted"
   ],
   "note": "For every stemmer in use and every word of letters but the exceptional ones the answer is the stem the rules give; the answer does not depend on earlier calls; other strings come back unchanged. Partial because for the exceptional words, characterised exactly by C50_outside_refuted, the code reads outside its buffer, and a NUL in a word lets earlier words show through (C50_nul_refuted)."
  },
  {
   "property": "C51",
   "status": "partial",
   "theorems": [
    "C51_round_trip",
    "C51_reads",
    "C51_ends",
    "C51_labels_partial",
    "C51_labels_refuted"
   ],
   "note": "Round trip, reading of every JSON object and termination proved for all bytes. Labels: proved for names that are not empty and have no colon, refuted for the empty name (C51_labels_refuted)."
  },
  {
   "property": "C52",
   "status": "partial",
   "theorems": [
    "C52_already_partial",
    "C52_lines",
    "C52_split",
    "C52_shares",
    "C52_fields",
    "C52_records_partial",
    "C52_path_partial",
    "C52_text_partial",
    "C52_next_token_refuted",
    "C52_past_the_end_refuted",
    "C52_comma_refuted",
    "C52_commit_partial",
    "C52_path_only_refuted",
    "C52_same_path_partial",
    "C52_longer_path_refuted",
    "C52_empty_path_refuted"
   ],
   "note": "Lines, fields, shares of the workers, field names: full. Records whose last field is empty, chunks whose last line has no token, separators without white space, paths with spaces and the path committed ahead of the lines are refuted findings. C52_already_partial: which files count as appended, for paths without white space."
  },
  {
   "property": "C53",
   "status": "partial",
   "theorems": [
    "C53_lines",
    "C53_success_partial",
    "C53_one_partial",
    "C53_failure",
    "C53_ends",
    "C53_few_lines_refuted"
   ],
   "note": "Missing: that all is committed when some thread gets no line that leaves an annotation, which is false (C53_few_lines_refuted). What a line writes when scribed is not part of this model."
  },
  {
   "property": "C54",
   "status": "partial",
   "theorems": [
    "C54_collected",
    "C54_forage_partial",
    "C54_workers",
    "C54_described",
    "C54_read",
    "C54_term",
    "C54_ranking",
    "C54_bm25",
    "C54_few_items_refuted",
    "C54_not_atomic_refuted",
    "C54_refused",
    "C54_unread_refuted",
    "C54_unknown_refuted"
   ],
   "note": "Up to one worker for each item; with more the process stops (C54_few_items_refuted). When foraging fails, parts may have been committed (C54_not_atomic_refuted). Statistics foraged under the empty name or without a query are not found (C54_unread_refuted), and an unknown stemmer is a null pointer (C54_unknown_refuted)."
  },
  {
   "property": "C55",
   "status": "partial",
   "theorems": [
    "C55_same_partial",
    "C55_fast",
    "C55_refused",
    "C55_crash_refuted",
    "C55_nul_refuted",
    "C55_many_refuted",
    "C55_raw_refuted"
   ],
   "note": "For ids without NUL bytes and at most 2^31 of them everything reads as before. Refuted: a crash before the file is closed, NUL bytes in an id, over 2^32 ids, raw text."
  },
  {
   "property": "C56",
   "status": "partial",
   "theorems": [
    "C56_text",
    "C56_names",
    "C56_leading_refuted",
    "C56_stages",
    "C56_parameter",
    "C56_depth_refuted"
   ],
   "note": "Reading pipelines, the stages and parameters: full. White space before the first stage and the depth that drawing parameters sets are refuted findings."
  },
  {
   "property": "C57",
   "status": "partial",
   "theorems": [
    "C57_rsj",
    "C57_kld",
    "C57_passage_partial",
    "C57_window_refuted",
    "C57_depth_refuted"
   ],
   "note": "What feedback adds: full, with logarithms and quotients as arguments. The length of passages and a depth of 0 are refuted findings."
  },
  {
   "property": "C58",
   "status": "partial",
   "theorems": [
    "C58_topics",
    "C58_ends",
    "C58_threads",
    "C58_empty_refuted"
   ],
   "note": "Every schedule: full. Without topics the results are not cleared, a refuted finding."
  },
  {
   "property": "C59",
   "status": "partial",
   "theorems": [
    "C59_counts",
    "C59_shares",
    "C59_repeats_refuted",
    "C59_rr_refuted",
    "C59_gains",
    "C59_normalised",
    "C59_biased",
    "C59_rbp_range"
   ],
   "note": "exact arithmetic; rr is refuted (it holds average precision), and shares above 1 with repeated items are refuted"
  },
  {
   "property": "C60",
   "status": "partial",
   "theorems": [
    "C60_difference",
    "C60_normalised",
    "C60_empty_refuted",
    "C60_repeats_refuted",
    "C60_mean_partial",
    "C60_missing_refuted"
   ],
   "note": "rankings without repetitions; refuted for repeated items, two empty rankings and missing measures"
  },
  {
   "property": "C61",
   "status": "partial",
   "theorems": [
    "C61_load_partial",
    "C61_range",
    "C61_missing",
    "C61_query",
    "C61_zero_refuted",
    "C61_twice_refuted",
    "C61_leading_refuted",
    "C61_docno",
    "C61_identifier"
   ],
   "note": "one file into empty maps, lines of fields; refuted for grades all 0, a second file and lines starting with white space"
  },
  {
   "property": "C62",
   "status": "partial",
   "theorems": [
    "C62_same_partial",
    "C62_temporary_partial",
    "C62_pattern",
    "C62_wrap_refuted",
    "C62_recipe_refuted",
    "C62_huge_refuted"
   ],
   "note": "amounts and positions below 2^63; temporary names for the first 2^32 calls; beyond that, and for mistyped recipes, refuted"
  },
  {
   "property": "C63",
   "status": "partial",
   "theorems": [
    "C63_sort_partial",
    "C63_orders",
    "C63_check",
    "C63_sorted_check",
    "C63_missing",
    "C63_empty_refuted",
    "C63_short_refuted"
   ],
   "note": "files with a record, when bytes are not lost at close; both exceptions refuted"
  },
  {
   "property": "C64",
   "status": "proved",
   "theorems": [
    "C64_open",
    "C64_refused",
    "C64_finalized",
    "C64_cases"
   ],
   "note": "for every sequence of calls and every builder"
  },
  {
   "property": "C65",
   "status": "partial",
   "theorems": [
    "C65_zipped",
    "C65_plain",
    "C65_command",
    "C65_inhale",
    "C65_build_partial",
    "C65_unreadable_refuted",
    "C65_error_refuted"
   ],
   "note": "files that can be read; a file that cannot is undefined behavior, and an error while reading is taken for the end (refuted)"
  },
  {
   "property": "C66",
   "status": "partial",
   "theorems": [
    "C66_rolled_back",
    "C66_rolled_forward_partial",
    "C66_ready_refuted",
    "C66_direction_refuted",
    "C66_warren_back",
    "C66_warren_forward_partial",
    "C66_refused",
    "C66_whole"
   ],
   "note": "Rolling back is proved for every crash point and loss, for the text alone and with the index; rolling forward for crashes that lose nothing written to txt.new, without which it is refuted (ready does not flush it). That recovery finds the direction by itself is refuted. The annotations of the transaction are any, not tied to the words of its texts; those the appender makes itself are C43."
  },
  {
   "property": "C67",
   "status": "partial",
   "theorems": [
    "C67_made_partial",
    "C67_read_partial",
    "C67_ranking",
    "C67_bm25",
    "C67_back_refuted",
    "C67_second_refuted",
    "C67_weights",
    "C67_weights_tab",
    "C67_weights_bad",
    "C67_no_weights_refuted",
    "C67_range_refuted"
   ],
   "note": "Proved: what is made, what is read back with weights for histories of calls that look ahead, both rankings, the choice of fields. Refuted: looking back (uat, ohr, L), several intervals of a field in an item, the fallback without weights, a weight out of range."
  },
  {
   "property": "C68",
   "status": "partial",
   "theorems": [
    "C68_made",
    "C68_read",
    "C68_none",
    "C68_ranking",
    "C68_bm25",
    "C68_flags",
    "C68_unread",
    "C68_have_refuted",
    "C68_neither",
    "C68_empty_refuted"
   ],
   "note": "Made and read back right, with rankings (C68_made, C68_read, C68_ranking, C68_bm25). That the statistics say which weights they have is refuted (C68_have_refuted), as is refusing a collection without items (C68_empty_refuted)."
  },
  {
   "property": "C69",
   "status": "proved",
   "theorems": [
    "C69_tiers",
    "C69_matches",
    "C69_ranking",
    "C69_found",
    "C69_one_word_refuted"
   ],
   "note": "Weights, their sum, order and the test against delta are arguments. Words must be writable in a query as they are, tokens at single positions from 0 on, containers apart. C69_one_word_refuted: an item with one word of the query, once, is not ranked."
  },
  {
   "property": "C70",
   "status": "partial",
   "theorems": [
    "C70_passages",
    "C70_none_refuted",
    "C70_dropped_refuted",
    "C70_crowded_refuted",
    "C70_nothing"
   ],
   "note": "Proved for every depth above 0: the passages are right, and passages with all words are placed. Missing, because false of the code: depth 0 (undefined behaviour), passages with some of the words left out for worse ones, containers left out although there is room (the _refuted theorems)."
  },
  {
   "property": "C71",
   "status": "proved",
   "theorems": [
    "C71_best",
    "C71_all"
   ],
   "note": "all containers, numbers and depths; the distribution of the numbers is not modelled"
  },
  {
   "property": "C72",
   "status": "partial",
   "theorems": [
    "C72_answers",
    "C72_first",
    "C72_nearest_refuted",
    "C72_after_refuted",
    "C72_last_refuted",
    "C72_repeated_refuted",
    "C72_zero_refuted"
   ],
   "note": "C72_answers holds for all inputs with length and passages above 0; the runs looked at leave out the last one (C72_last_refuted), distances are not those to the nearest occurrence (C72_nearest_refuted, C72_after_refuted; C72_first says which), equal texts repeat (C72_repeated_refuted), length 0 is undefined (C72_zero_refuted)"
  },
  {
   "property": "C73",
   "status": "partial",
   "theorems": [
    "C73_terms",
    "C73_forgets_refuted",
    "C73_after_refuted",
    "C73_end_refuted"
   ],
   "note": "C73_terms holds for all rankings that are not empty (an empty one leaves all as it is); the gaps are those of the code, which for words after a passage are too small (C73_after_refuted, C73_end_refuted); the query is forgotten (C73_forgets_refuted)"
  },
  {
   "property": "C74",
   "status": "partial",
   "theorems": [
    "C74_restored_partial",
    "C74_checked",
    "C74_without",
    "C74_names",
    "C74_ends",
    "C74_vocabulary",
    "C74_counts",
    "C74_lines",
    "C74_structure",
    "C74_text_partial",
    "C74_tag_refuted",
    "C74_quoted_refuted",
    "C74_working_refuted",
    "C74_text_refuted"
   ],
   "note": "Restoring needs tags that a configuration keeps (C74_tag_refuted, C74_quoted_refuted); check passes what make refuses without a working directory (C74_working_refuted); the JSON featurizer takes other characters for structure (C74_text_refuted). The rest is proved."
  },
  {
   "property": "C75",
   "status": "partial",
   "theorems": [
    "C75_kept_partial",
    "C75_reopened_partial",
    "C75_tokenizer",
    "C75_quoted_refuted",
    "C75_stemmer_refuted",
    "C75_null_refuted",
    "C75_nameless_refuted",
    "C75_tokenizer_refuted"
   ],
   "note": "For plain texts, named compressors and stemmers that exist; without these conditions it is false (C75_quoted_refuted, C75_stemmer_refuted, C75_null_refuted, C75_nameless_refuted, C75_tokenizer_refuted). One handle at a time; the options of a new burrow's recipe are not modelled."
  },
  {
   "property": "C76",
   "status": "partial",
   "theorems": [
    "C76_chosen",
    "C76_declared",
    "C76_possible",
    "C76_held",
    "C76_checked",
    "C76_items",
    "C76_identifiers",
    "C76_meadow",
    "C76_terms_partial",
    "C76_fast_refuted",
    "C76_id_refuted",
    "C76_tag_refuted",
    "C76_check_refuted"
   ],
   "note": "Proved for programs with assertions; without them (make fast) queries cannot be split (C76_fast_refuted). Also false for the identifiers of a meadow (C76_id_refuted), for a tag without a name (C76_tag_refuted) and for the converse of the check (C76_check_refuted). The warren does not change between making and using."
  },
  {
   "property": "C77",
   "status": "partial",
   "theorems": [
    "C77_option_partial",
    "C77_options_partial",
    "C77_extracted_partial",
    "C77_back_partial",
    "C77_short_refuted",
    "C77_long_refuted",
    "C77_empty_refuted",
    "C77_whole_refuted",
    "C77_missing_refuted"
   ],
   "note": "For options of the four forms with values that are not empty, plain texts without colon and at sign, and for items that have a recipe; for others it is false (C77_short_refuted, C77_long_refuted, C77_empty_refuted, C77_whole_refuted, C77_missing_refuted). Dividing the options at white space is not modelled, and no theorem covers the empty option."
  }
 ]
}