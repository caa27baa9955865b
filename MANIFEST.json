{
 "claims": [
  {
   "property": "C01",
   "status": "proved",
   "theorems": [
    "C01_roundtrip",
    "C01_domain",
    "C01_negative",
    "C01_error",
    "C01_injective"
   ],
   "note": ""
  },
  {
   "property": "C02",
   "status": "proved",
   "theorems": [
    "C02_find_complete"
   ],
   "note": ""
  },
  {
   "property": "C03",
   "status": "proved",
   "theorems": [
    "C03_find_exactly",
    "C03_find_exact_small",
    "C03_find_sound_refuted"
   ],
   "note": "Exactness is false in general (C03_find_sound_refuted); C03_find_exactly characterises every match, C03_find_exact_small gives the condition under which it is exact."
  },
  {
   "property": "C04",
   "status": "proved",
   "theorems": [
    "C04_roundtrip",
    "C04_bad_value",
    "C04_history",
    "C04_encode_bad_value"
   ],
   "note": ""
  },
  {
   "property": "C05",
   "status": "proved",
   "theorems": [
    "C05_widths",
    "C05_error",
    "C05_encode_error",
    "C05_zero_refuted"
   ],
   "note": "Width 0 is rejected although advertised (C05_zero_refuted); the accepted widths are exactly 1..16."
  },
  {
   "property": "C06",
   "status": "proved",
   "theorems": [
    "C06_pickle"
   ],
   "note": "m, bits and bytes survive, the item list survives only if empty (iff)."
  },
  {
   "property": "C07",
   "status": "proved",
   "theorems": [
    "C07_deltas",
    "C07_single",
    "C07_not_increasing",
    "C07_roundtrip_refuted"
   ],
   "note": "Round trip characterised exactly (iff constant step); false in general (C07_roundtrip_refuted)."
  },
  {
   "property": "C08",
   "status": "proved",
   "theorems": [
    "C08_bitarray"
   ],
   "note": ""
  },
  {
   "property": "C09",
   "status": "proved",
   "theorems": [
    "C09_getbest",
    "C09_spec_unique",
    "C09_bad_capacity"
   ],
   "note": ""
  },
  {
   "property": "C10",
   "status": "proved",
   "theorems": [
    "C10_refines",
    "C10_machine_sorted",
    "C10_pop_minimal"
   ],
   "note": ""
  },
  {
   "property": "C11",
   "status": "proved",
   "theorems": [
    "C11_priority_queue"
   ],
   "note": ""
  },
  {
   "property": "C12",
   "status": "proved",
   "theorems": [
    "C12_union",
    "C12_union_keys",
    "C12_union_rounded"
   ],
   "note": ""
  },
  {
   "property": "C13",
   "status": "proved",
   "theorems": [
    "C13_intersection",
    "C13_intersection_keys",
    "C13_intersection_rounded"
   ],
   "note": ""
  },
  {
   "property": "C14",
   "status": "proved",
   "theorems": [
    "C14_last_call_counts",
    "C14_range_search",
    "C14_bad_bounds",
    "C14_not_a_pair"
   ],
   "note": ""
  },
  {
   "property": "C15",
   "status": "proved",
   "theorems": [
    "C15_exact_value",
    "C15_none_returns_all",
    "C15_exact_value_refuted"
   ],
   "note": "Exact for every value but None (C15_exact_value); for None the query means 'unbounded' and returns all documents (C15_none_returns_all, C15_exact_value_refuted)."
  },
  {
   "property": "C16",
   "status": "proved",
   "theorems": [
    "C16_statistics"
   ],
   "note": ""
  },
  {
   "property": "C17",
   "status": "proved",
   "theorems": [
    "C17_state_of_mapping",
    "C17_unindex",
    "C17_index",
    "C17_index_observed",
    "C17_unindex_observed"
   ],
   "note": ""
  },
  {
   "property": "C18",
   "status": "proved",
   "theorems": [
    "C18_sorted_list_exists",
    "C18_sort_ascending",
    "C18_limited_is_prefix"
   ],
   "note": ""
  },
  {
   "property": "C19",
   "status": "proved",
   "theorems": [
    "C19_sort_descending"
   ],
   "note": ""
  },
  {
   "property": "C20",
   "status": "proved",
   "theorems": [
    "C20_descending_prefix",
    "C20_descending_prefix_refuted"
   ],
   "note": "False in general (C20_descending_prefix_refuted); C20_descending_prefix gives the conditions under which it holds."
  },
  {
   "property": "C21",
   "status": "proved",
   "theorems": [
    "C21_skips_unindexed",
    "C21_type_errors",
    "C21_skips_unindexed_refuted"
   ],
   "note": "False in general (C21_skips_unindexed_refuted); C21_type_errors is the exact condition, C21_skips_unindexed the positive part."
  },
  {
   "property": "C22",
   "status": "proved",
   "theorems": [
    "C22_limit"
   ],
   "note": ""
  },
  {
   "property": "C23",
   "status": "proved",
   "theorems": [
    "C23_last_call_counts",
    "C23_and_search",
    "C23_or_search",
    "C23_other_operator",
    "C23_default"
   ],
   "note": ""
  },
  {
   "property": "C24",
   "status": "proved",
   "theorems": [
    "C24_statistics"
   ],
   "note": ""
  },
  {
   "property": "C25",
   "status": "proved",
   "theorems": [
    "C25_index_replaces",
    "C25_remove",
    "C25_index_observed",
    "C25_unindex_observed",
    "C25_answers_of_mapping",
    "C25_exceptions"
   ],
   "note": ""
  },
  {
   "property": "C26",
   "status": "proved",
   "theorems": [
    "C26_threshold_invisible",
    "C26_optimize"
   ],
   "note": ""
  },
  {
   "property": "C27",
   "status": "proved",
   "theorems": [
    "C27_case_insensitive",
    "C27_as_lowercased"
   ],
   "note": ""
  },
  {
   "property": "C28",
   "status": "proved",
   "theorems": [
    "C28_filtering_normalize_refuted",
    "C28_nonemptying_normalize"
   ],
   "note": "False when normalize empties a non-empty sequence (C28_filtering_normalize_refuted); true otherwise: C28_nonemptying_normalize gives the hypothesis of C23-C26."
  },
  {
   "property": "C29",
   "status": "proved",
   "theorems": [
    "C29_same_answers",
    "C29_snapshots",
    "C29_snapshots_refuted"
   ],
   "note": "Every result is a snapshot except that of an 'and' search for one keyword (C29_snapshots, C29_snapshots_refuted), in a model with object identities that refines the value model (C29_same_answers)."
  },
  {
   "property": "C30",
   "status": "proved",
   "theorems": [
    "C30_filter_contents",
    "C30_exceptions"
   ],
   "note": ""
  },
  {
   "property": "C31",
   "status": "proved",
   "theorems": [
    "C31_index_adds_only",
    "C31_unindex_then_index",
    "C31_reindex_replaces_refuted"
   ],
   "note": "False (C31_reindex_replaces_refuted); C31_index_adds_only is the exact behaviour, C31_unindex_then_index the safe sequence."
  },
  {
   "property": "C32",
   "status": "proved",
   "theorems": [
    "C32_or_search",
    "C32_and_search",
    "C32_errors"
   ],
   "note": ""
  },
  {
   "property": "C33",
   "status": "proved",
   "theorems": [
    "C33_known_filters",
    "C33_unknown_filters_refuted"
   ],
   "note": "False (C33_unknown_filters_refuted); true when all named filters exist (C33_known_filters)."
  },
  {
   "property": "C34",
   "status": "proved",
   "theorems": [
    "C34_keyword_query_unchanged",
    "C34_keyword_apply",
    "C34_topic_apply",
    "C34_topic_query_after",
    "C34_topic_query_unchanged_refuted"
   ],
   "note": "Holds for keyword indexes (C34_keyword_query_unchanged), fails for topic indexes (C34_topic_query_unchanged_refuted); C34_topic_query_after is the exact effect."
  },
  {
   "property": "C35",
   "status": "proved",
   "theorems": [
    "C35_bijection",
    "C35_unknown_id",
    "C35_words",
    "C35_count"
   ],
   "note": ""
  },
  {
   "property": "C36",
   "status": "proved",
   "theorems": [
    "C36_permanent"
   ],
   "note": ""
  },
  {
   "property": "C37",
   "status": "proved",
   "theorems": [
    "C37_fresh"
   ],
   "note": ""
  },
  {
   "property": "C38",
   "status": "proved",
   "theorems": [
    "C38_term_ids",
    "C38_same_ids",
    "C38_query_words"
   ],
   "note": ""
  },
  {
   "property": "C39",
   "status": "proved",
   "theorems": [
    "C39_glob_exact",
    "C39_glob_nodup",
    "C39_no_wildcard",
    "C39_is_glob",
    "C39_leading_wildcard"
   ],
   "note": ""
  },
  {
   "property": "C40",
   "status": "proved",
   "theorems": [
    "C40_glob_matching_refuted",
    "C40_glob_complete_refuted",
    "C40_literal_prefix"
   ],
   "note": "Shell matching is false in general (C40_glob_matching_refuted, C40_glob_complete_refuted); C40_literal_prefix is what always holds, C39_glob_exact the exact part."
  },
  {
   "property": "C41",
   "status": "proved",
   "theorems": [
    "C41_splitter",
    "C41_runs_unique",
    "C41_words",
    "C41_idempotent",
    "C41_globs",
    "C41_globs_unique",
    "C41_same_as_documents",
    "C41_globs_are_safe",
    "C41_pipeline"
   ],
   "note": ""
  },
  {
   "property": "C42",
   "status": "proved",
   "theorems": [
    "C42_stop_words",
    "C42_single_chars",
    "C42_single_chars_refuted",
    "C42_pipeline"
   ],
   "note": "Characters with code point 255 and above are kept (C42_single_chars_refuted)."
  },
  {
   "property": "C43",
   "status": "proved",
   "theorems": [
    "C43_markup_separates",
    "C43_plain_text",
    "C43_pipeline"
   ],
   "note": ""
  },
  {
   "property": "C44",
   "status": "proved",
   "theorems": [
    "C44_tokens",
    "C44_tokens_unique",
    "C44_token_shapes",
    "C44_nothing_lost"
   ],
   "note": ""
  },
  {
   "property": "C45",
   "status": "proved",
   "theorems": [
    "C45_total"
   ],
   "note": ""
  },
  {
   "property": "C46",
   "status": "proved",
   "theorems": [
    "C46_accepts",
    "C46_rejects",
    "C46_syntax_error",
    "C46_syntax_error_refuted",
    "C46_reading",
    "C46_unambiguous"
   ],
   "note": "C46_syntax_error_refuted: with a leading hyphen the message may be the other one."
  },
  {
   "property": "C47",
   "status": "proved",
   "theorems": [
    "C47_executable"
   ],
   "note": ""
  },
  {
   "property": "C48",
   "status": "proved",
   "theorems": [
    "C48_ignored",
    "C48_leaves",
    "C48_all_reported_refuted"
   ],
   "note": "C48_all_reported_refuted: 'the NOT foo OR bar' loses 'foo' without reporting it."
  },
  {
   "property": "C49",
   "status": "proved",
   "theorems": [
    "C49_documents",
    "C49_scores",
    "C49_raises",
    "C49_misplaced_not"
   ],
   "note": ""
  },
  {
   "property": "C50",
   "status": "proved",
   "theorems": [
    "C50_binary32",
    "C50_okapi_consistent",
    "C50_rounding",
    "C50_cosine_consistent",
    "C50_cosine_weights"
   ],
   "note": ""
  },
  {
   "property": "C51",
   "status": "proved",
   "theorems": [
    "C51_okapi_counts",
    "C51_cosine_counts"
   ],
   "note": ""
  },
  {
   "property": "C52",
   "status": "proved",
   "theorems": [
    "C52_okapi_never_raises",
    "C52_cosine_never_raises",
    "C52_okapi_unindex_unknown",
    "C52_cosine_unindex_unknown",
    "C52_okapi_reindex",
    "C52_okapi_unindex",
    "C52_okapi_determined",
    "C52_cosine_reindex",
    "C52_cosine_unindex",
    "C52_cosine_determined"
   ],
   "note": "Okapi: for texts of at most 2^24 words where lengths matter (see C53)."
  },
  {
   "property": "C53",
   "status": "proved",
   "theorems": [
    "C53_total_length"
   ],
   "note": ""
  },
  {
   "property": "C54",
   "status": "proved",
   "theorems": [
    "C54_cosine_clear",
    "C54_okapi_clear_view",
    "C54_okapi_clear_empty",
    "C54_okapi_total",
    "C54_okapi_clear_refuted"
   ],
   "note": "C54_okapi_clear_refuted: the total document length is not reset."
  },
  {
   "property": "C55",
   "status": "proved",
   "theorems": [
    "C55_okapi_documents",
    "C55_cosine_documents",
    "C55_okapi_scores",
    "C55_cosine_scores"
   ],
   "note": ""
  },
  {
   "property": "C56",
   "status": "proved",
   "theorems": [
    "C56_okapi_complete",
    "C56_okapi_sound",
    "C56_cosine_complete",
    "C56_cosine_sound",
    "C56_okapi_scores",
    "C56_cosine_scores"
   ],
   "note": ""
  },
  {
   "property": "C57",
   "status": "proved",
   "theorems": [
    "C57_okapi_phrase_iff",
    "C57_cosine_phrase_iff",
    "C57_okapi_exact",
    "C57_cosine_exact",
    "C57_phrase_exact_refuted"
   ],
   "note": "C57_phrase_exact_refuted: a document without the phrase is found, in every arithmetic."
  },
  {
   "property": "C58",
   "status": "proved",
   "theorems": [
    "C58_okapi_glob",
    "C58_cosine_glob",
    "C58_okapi_scores",
    "C58_cosine_scores"
   ],
   "note": ""
  },
  {
   "property": "C59",
   "status": "proved",
   "theorems": [
    "C59_okapi_query_weight",
    "C59_okapi_bound",
    "C59_glob_refuted"
   ],
   "note": "What query_weight computes: in any safe arithmetic. The bound: over the reals; C59_glob_refuted for globs."
  },
  {
   "property": "C60",
   "status": "proved",
   "theorems": [
    "C60_cosine_query_weight",
    "C60_cosine_bound",
    "C60_repeated_refuted"
   ],
   "note": "What query_weight computes: in any safe arithmetic. The bound: over the reals; C60_repeated_refuted for repeated words."
  },
  {
   "property": "C61",
   "status": "proved",
   "theorems": [
    "C61_searches_return",
    "C61_mean_positive",
    "C61_idf_positive",
    "C61_tf_range",
    "C61_tf_grows",
    "C61_tf_falls",
    "C61_large_text_refuted"
   ],
   "note": "C61_large_text_refuted: a text of 2^24 + 3 words."
  },
  {
   "property": "C62",
   "status": "proved",
   "theorems": [
    "C62_c_agrees",
    "C62_c_searches",
    "C62_other_constants_refuted"
   ],
   "note": "Equality operation by operation in every arithmetic; C62_other_constants_refuted for subclasses with other constants."
  },
  {
   "property": "C63",
   "status": "proved",
   "theorems": [
    "C63_okapi_own_words",
    "C63_cosine_own_words",
    "C63_no_proviso_refuted"
   ],
   "note": "C63_no_proviso_refuted: without the proviso it fails."
  },
  {
   "property": "C64",
   "status": "proved",
   "theorems": [
    "C64_okapi_default",
    "C64_cosine_default",
    "C64_okapi_documents",
    "C64_cosine_documents",
    "C64_parse_errors",
    "C64_okapi_scores",
    "C64_cosine_scores",
    "C64_okapi_range",
    "C64_cosine_range"
   ],
   "note": "Which documents: in any arithmetic that is safe (C65 shows IEEE is). Scores: in exact arithmetic."
  },
  {
   "property": "C65",
   "status": "proved",
   "theorems": [
    "C65_safe",
    "C65_okapi_safe",
    "C65_okapi_queries",
    "C65_cosine_queries",
    "C65_cosine_updates"
   ],
   "note": "Integers beyond the binary64 range are taken as the largest binary64 number (Python raises OverflowError)."
  },
  {
   "property": "C66",
   "status": "proved",
   "theorems": [
    "C66_okapi",
    "C66_cosine",
    "C66_small_ids",
    "C66_phrases_refuted"
   ],
   "note": "Phrases: for phrases that the word ids do not confuse; C66_phrases_refuted shows that this condition is needed. Cosine: in any arithmetic that is safe (C65 shows IEEE is). Sums of the scores of several words are taken in the order of the terms of the query."
  },
  {
   "property": "C67",
   "status": "proved",
   "theorems": [
    "C67_cosine",
    "C67_okapi",
    "C67_okapi_found",
    "C67_no_effect_refuted",
    "C67_ids_exhausted_refuted"
   ],
   "note": "C67_no_effect_refuted and C67_ids_exhausted_refuted: failed updates do leave traces in the Okapi index; C67_okapi says which when the lexicon raises."
  },
  {
   "property": "C68",
   "status": "proved",
   "theorems": [
    "C68_consistent",
    "C68_commit",
    "C68_isolated",
    "C68_serial",
    "C68_alone",
    "C68_one_client",
    "C68_attempt",
    "C68_serializable_refuted",
    "C68_clear_refuted"
   ],
   "note": "The conflict resolution of BTrees and Length is modelled as documented (external). C68_serializable_refuted and C68_clear_refuted: commits are not serializable, and changes concurrent with a clear are lost."
  },
  {
   "property": "C69",
   "status": "proved",
   "theorems": [
    "C69_consistent",
    "C69_commit",
    "C69_serial",
    "C69_isolated",
    "C69_alone",
    "C69_attempt",
    "C69_one_client",
    "C69_conversion_refuted",
    "C69_optimize_refuted"
   ],
   "note": "The conflict resolution of BTrees and Length is modelled as documented (external). The proviso (posting sets never converted) is needed: C69_conversion_refuted, C69_optimize_refuted."
  },
  {
   "property": "C70",
   "status": "proved",
   "theorems": [
    "C70_commit",
    "C70_serializable",
    "C70_permanent",
    "C70_conflicts",
    "C70_snapshot",
    "C70_latest",
    "C70_attempt"
   ],
   "note": "The conflict resolution of BTrees and Length is modelled as documented (external); split buckets can cause further conflicts."
  },
  {
   "property": "C71",
   "status": "proved",
   "theorems": [
    "C71_commit",
    "C71_consistent",
    "C71_serial",
    "C71_latest",
    "C71_one_client",
    "C71_new_word",
    "C71_commits",
    "C71_clears",
    "C71_attempt",
    "C71_serializable_refuted",
    "C71_clear_refuted"
   ],
   "note": "Okapi index only. The conflict resolution of BTrees and Length is modelled as documented (external). C71_serializable_refuted and C71_clear_refuted: commits are not serializable, and documents indexed concurrently with a clear are lost. C71_commits, C71_clears and C71_latest (and C70_conflicts) speak of the modelled resolution, key by key; the BTrees library also reports a conflict when a bucket was split, emptied or removed, which is not modelled."
  },
  {
   "property": "C72",
   "status": "proved",
   "theorems": [
    "C72_deferred",
    "C72_undisturbed",
    "C72_few",
    "C72_sound",
    "C72_present",
    "C72_complete",
    "C72_refuted"
   ],
   "note": "sorting.py:35-134 as a generator: deferral (C72_deferred), undisturbed results (C72_undisturbed, C72_few), bounds on any interleaving (C72_sound, C72_present, C72_complete). C72_refuted: not a snapshot of the moment of the call, may yield unindexed documents, order of no moment. Walking over the forward index after a modification is left unspecified, as in BTrees."
  },
  {
   "property": "C73",
   "status": "proved",
   "theorems": [
    "C73_memory",
    "C73_saved",
    "C73_careful",
    "C73_lost",
    "C73_refuted"
   ],
   "note": "What ZODB and BTrees save is modelled as documented (external). C73_refuted and C73_lost: clearFilters() followed by commits is lost on restart, together with documents indexed since, because FilteredSetBase is not Persistent."
  },
  {
   "property": "C74",
   "status": "proved",
   "theorems": [
    "C74_okapi",
    "C74_okapi_searches",
    "C74_okapi_history",
    "C74_cosine_answer",
    "C74_cosine",
    "C74_real",
    "C74_real_searches",
    "C74_real_history",
    "C74_rounded_refuted"
   ],
   "note": "C74_rounded_refuted: with IEEE 754 arithmetic and the correctly rounded logarithm, a word in 119696244 of 205671881 documents has weight 1.0 and a wildcard query overwrites its posting."
  },
  {
   "property": "C75",
   "status": "proved",
   "theorems": [
    "C75_okapi",
    "C75_cosine",
    "C75_documents",
    "C75_cosine_answers",
    "C75_okapi_answers",
    "C75_okapi_raises",
    "C75_refuted"
   ],
   "note": "C75_okapi_raises, C75_refuted: OkapiIndex._search_wids calls documentCount(), which nothing has upgraded yet."
  },
  {
   "property": "C76",
   "status": "proved",
   "theorems": [
    "C76_okapi",
    "C76_cosine",
    "C76_okapi_results",
    "C76_cosine_results",
    "C76_okapi_history",
    "C76_cosine_history"
   ],
   "note": "One connection, commits and evictions between calls only. The behaviour of ZODB and BTrees (what marks an object as changed, what commit, abort and eviction do) is taken from their documentation."
  },
  {
   "property": "C77",
   "status": "proved",
   "theorems": [
    "C77_field_results",
    "C77_field_search",
    "C77_field_documentCount",
    "C77_field_sort",
    "C77_field_sort_unfit",
    "C77_field_wordCount",
    "C77_field_unchanged_refuted",
    "C77_field_later_calls_refuted",
    "C77_keyword_results",
    "C77_keyword_answers",
    "C77_keyword_wordCount",
    "C77_topic_contents",
    "C77_topic_index",
    "C77_topic_unindex",
    "C77_topic_other"
   ],
   "note": "Two parts of the expected property are false and refuted: that a failed index_doc of a field index leaves the index as it was, and that it does not make later calls fail. What BTrees do with an integer out of range (lookups find nothing, insertion, removal and building a set raise TypeError) is taken from their C sources."
  },
  {
   "property": "C78",
   "status": "proved",
   "theorems": [
    "C78_okapi_results",
    "C78_cosine_results",
    "C78_okapi_apart",
    "C78_cosine_apart",
    "C78_okapi_documents",
    "C78_cosine_documents",
    "C78_okapi_answers",
    "C78_cosine_answers",
    "C78_okapi_unaffected",
    "C78_cosine_unaffected",
    "C78_okapi_poisoned",
    "C78_cosine_poisoned",
    "C78_okapi_cleared",
    "C78_cosine_cleared",
    "C78_unchanged_refuted",
    "C78_later_refuted"
   ],
   "note": "That a failed call has no effect, and that it does not make valid calls fail, is false and refuted. The theorems about documents and answers are about histories in which no valid call failed; that holds whenever no document shares a word with a refused text (C78_okapi_apart, C78_cosine_apart). What BTrees do with an integer out of range is taken from their C sources, as for C77."
  },
  {
   "property": "C79",
   "status": "proved",
   "theorems": [
    "C79_contents",
    "C79_search",
    "C79_calls",
    "C79_own_filters",
    "C79_elsewhere",
    "C79_elsewhere_refuted",
    "C79_snapshots",
    "C79_result_is_own",
    "C79_live",
    "C79_cleared",
    "C79_snapshots_refuted"
   ],
   "note": "That results are always snapshots, and that indexes never influence each other, is false and refuted. All filters are PythonFilteredSet objects; what the C function intersection(None, s) returns (the object s) is taken from the BTrees sources, as for C29."
  },
  {
   "property": "C80",
   "status": "proved",
   "theorems": [
    "C80_calls",
    "C80_lexicon",
    "C80_okapi",
    "C80_cosine",
    "C80_okapi_alone",
    "C80_cosine_alone",
    "C80_text_index",
    "C80_other_lexicon_refuted"
   ],
   "note": "That a TextIndex finds a document by its text also when its lexicon is not that of its index is false and refuted. Queries are not among the calls of the programs; C74 says what they change."
  },
  {
   "property": "C81",
   "status": "proved",
   "theorems": [
    "C81_okapi",
    "C81_okapi_c",
    "C81_cosine"
   ],
   "note": "The limits on sizes are those for which the bounds are proved; nothing is said beyond them."
  },
  {
   "property": "C82",
   "status": "proved",
   "theorems": [
    "C82_balanced",
    "C82_alive",
    "C82_null",
    "C82_value",
    "C82_value_refuted",
    "C82_no_length",
    "C82_computes"
   ],
   "note": "C82_value_refuted: neither PyObject_Length nor PyFloat_AsDouble is checked for failure, so None can be returned with an exception set."
  },
  {
   "property": "C83",
   "status": "proved",
   "theorems": [
    "C83_commit",
    "C83_serial",
    "C83_conflict",
    "C83_latest",
    "C83_one_client",
    "C83_attempt",
    "C83_serializable_refuted"
   ],
   "note": "C83_serializable_refuted: two transactions that each unindex and reindex a document can leave it in the filters of both values. Filters whose documents are emptied or whose expression is changed in place are C73's subject."
  },
  {
   "property": "C84",
   "status": "proved",
   "theorems": [
    "C84_ieee",
    "C84_stored_weights_refuted",
    "C84_commit",
    "C84_consistent",
    "C84_serial",
    "C84_latest",
    "C84_one_client",
    "C84_new_word",
    "C84_commits",
    "C84_clears",
    "C84_attempt",
    "C84_serializable_refuted",
    "C84_clear_refuted"
   ],
   "note": "Schedules are assumed to have fewer than 2^28 distinct words and not to tamper with the counter of the lexicon. Weights that the 32-bit rounding confuses are allowed: after a merge a dict may keep the weight of an old text, which reads as the same number (C84_stored_weights_refuted, in IEEE arithmetic). C84_serializable_refuted and C84_clear_refuted show what commits do not guarantee."
  },
  {
   "property": "C85",
   "status": "proved",
   "theorems": [
    "C85_field",
    "C85_field_outcomes",
    "C85_keyword",
    "C85_keyword_outcomes"
   ],
   "note": "One client, whose transactions begin and end between calls; concurrent transactions are C68 and C69. Every set of document ids is an object of its own, referred to by the BTree; that no two keys share one is part of the proof."
  },
  {
   "property": "C86",
   "status": "proved",
   "theorems": [
    "C86_terms",
    "C86_plain",
    "C86_some"
   ],
   "note": "The reading of a query, to which C86_terms refers by its unique syntax tree, is that of C46; lexicons whose parseTerms raises are not modelled."
  },
  {
   "property": "C87",
   "status": "proved",
   "theorems": [
    "C87_answers"
   ],
   "note": "That BTrees' multiunion makes a new set, also of a single one, is part of the model of that library."
  },
  {
   "property": "C88",
   "status": "proved",
   "theorems": [
    "C88_ascending",
    "C88_descending",
    "C88_none_refuted"
   ],
   "note": "C88_none_refuted shows that the assumption about None is needed. In C88_descending the n-best strategy is not forced without a limit (a test override; C21)."
  }
 ]
}