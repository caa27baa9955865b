{
 "C03": {
  "note": "Exactness is false in general (C03_find_sound_refuted); C03_find_exactly characterises every match, C03_find_exact_small gives the condition under which it is exact."
 },
 "C05": {
  "note": "Width 0 is rejected although advertised (C05_zero_refuted); the accepted widths are exactly 1..16."
 },
 "C06": {
  "note": "m, bits and bytes survive, the item list survives only if empty (iff)."
 },
 "C07": {
  "note": "Round trip characterised exactly (iff constant step); false in general (C07_roundtrip_refuted)."
 },
 "C15": {
  "note": "Exact for every value but None (C15_exact_value); for None the query means 'unbounded' and returns all documents (C15_none_returns_all, C15_exact_value_refuted)."
 },
 "C20": {
  "note": "False in general (C20_descending_prefix_refuted); C20_descending_prefix gives the conditions under which it holds."
 },
 "C21": {
  "note": "False in general (C21_skips_unindexed_refuted); C21_type_errors is the exact condition, C21_skips_unindexed the positive part."
 },
 "C28": {
  "note": "False when normalize empties a non-empty sequence (C28_filtering_normalize_refuted); true otherwise: C28_nonemptying_normalize gives the hypothesis of C23-C26."
 },
 "C29": {
  "note": "Every result is a snapshot except that of an 'and' search for one keyword (C29_snapshots, C29_snapshots_refuted), in a model with object identities that refines the value model (C29_same_answers)."
 },
 "C31": {
  "note": "False (C31_reindex_replaces_refuted); C31_index_adds_only is the exact behaviour, C31_unindex_then_index the safe sequence."
 },
 "C33": {
  "note": "False (C33_unknown_filters_refuted); true when all named filters exist (C33_known_filters)."
 },
 "C34": {
  "note": "Holds for keyword indexes (C34_keyword_query_unchanged), fails for topic indexes (C34_topic_query_unchanged_refuted); C34_topic_query_after is the exact effect."
 },
 "C40": {
  "note": "Shell matching is false in general (C40_glob_matching_refuted, C40_glob_complete_refuted); C40_literal_prefix is what always holds, C39_glob_exact the exact part."
 },
 "C42": {
  "note": "Characters with code point 255 and above are kept (C42_single_chars_refuted)."
 },
 "C46": {
  "note": "C46_syntax_error_refuted: with a leading hyphen the message may be the other one."
 },
 "C48": {
  "note": "C48_all_reported_refuted: 'the NOT foo OR bar' loses 'foo' without reporting it."
 },
 "C52": {
  "note": "Okapi: for texts of at most 2^24 words where lengths matter (see C53)."
 },
 "C54": {
  "note": "C54_okapi_clear_refuted: the total document length is not reset."
 },
 "C57": {
  "note": "C57_phrase_exact_refuted: a document without the phrase is found, in every arithmetic."
 },
 "C59": {
  "note": "What query_weight computes: in any safe arithmetic. The bound: over the reals; C59_glob_refuted for globs."
 },
 "C60": {
  "note": "What query_weight computes: in any safe arithmetic. The bound: over the reals; C60_repeated_refuted for repeated words."
 },
 "C61": {
  "note": "C61_large_text_refuted: a text of 2^24 + 3 words."
 },
 "C62": {
  "note": "Equality operation by operation in every arithmetic; C62_other_constants_refuted for subclasses with other constants."
 },
 "C63": {
  "note": "C63_no_proviso_refuted: without the proviso it fails."
 },
 "C64": {
  "note": "Which documents: in any arithmetic that is safe (C65 shows IEEE is). Scores: in exact arithmetic."
 },
 "C65": {
  "note": "Integers beyond the binary64 range are taken as the largest binary64 number (Python raises OverflowError)."
 },
 "C66": {
  "note": "Phrases: for phrases that the word ids do not confuse; C66_phrases_refuted shows that this condition is needed. Cosine: in any arithmetic that is safe (C65 shows IEEE is). Sums of the scores of several words are taken in the order of the terms of the query."
 },
 "C67": {
  "note": "C67_no_effect_refuted and C67_ids_exhausted_refuted: failed updates do leave traces in the Okapi index; C67_okapi says which when the lexicon raises."
 },
 "C68": {
  "note": "The conflict resolution of BTrees and Length is modelled as documented (external). C68_serializable_refuted and C68_clear_refuted: commits are not serializable, and changes concurrent with a clear are lost."
 },
 "C69": {
  "note": "The conflict resolution of BTrees and Length is modelled as documented (external). The proviso (posting sets never converted) is needed: C69_conversion_refuted, C69_optimize_refuted."
 },
 "C70": {
  "note": "The conflict resolution of BTrees and Length is modelled as documented (external); split buckets can cause further conflicts."
 },
 "C71": {
  "note": "Okapi index only. The conflict resolution of BTrees and Length is modelled as documented (external). C71_serializable_refuted and C71_clear_refuted: commits are not serializable, and documents indexed concurrently with a clear are lost. C71_commits, C71_clears and C71_latest (and C70_conflicts) speak of the modelled resolution, key by key; the BTrees library also reports a conflict when a bucket was split, emptied or removed, which is not modelled."
 },
 "C72": {
  "note": "sorting.py:35-134 as a generator: deferral (C72_deferred), undisturbed results (C72_undisturbed, C72_few), bounds on any interleaving (C72_sound, C72_present, C72_complete). C72_refuted: not a snapshot of the moment of the call, may yield unindexed documents, order of no moment. Walking over the forward index after a modification is left unspecified, as in BTrees."
 },
 "C73": {
  "note": "What ZODB and BTrees save is modelled as documented (external). C73_refuted and C73_lost: clearFilters() followed by commits is lost on restart, together with documents indexed since, because FilteredSetBase is not Persistent."
 },
 "C74": {
  "note": "C74_rounded_refuted: with IEEE 754 arithmetic and the correctly rounded logarithm, a word in 119696244 of 205671881 documents has weight 1.0 and a wildcard query overwrites its posting."
 },
 "C75": {
  "note": "C75_okapi_raises, C75_refuted: OkapiIndex._search_wids calls documentCount(), which nothing has upgraded yet."
 },
 "C76": {
  "note": "One connection, commits and evictions between calls only. The behaviour of ZODB and BTrees (what marks an object as changed, what commit, abort and eviction do) is taken from their documentation."
 },
 "C77": {
  "note": "Two parts of the expected property are false and refuted: that a failed index_doc of a field index leaves the index as it was, and that it does not make later calls fail. What BTrees do with an integer out of range (lookups find nothing, insertion, removal and building a set raise TypeError) is taken from their C sources."
 },
 "C78": {
  "note": "That a failed call has no effect, and that it does not make valid calls fail, is false and refuted. The theorems about documents and answers are about histories in which no valid call failed; that holds whenever no document shares a word with a refused text (C78_okapi_apart, C78_cosine_apart). What BTrees do with an integer out of range is taken from their C sources, as for C77."
 },
 "C79": {
  "note": "That results are always snapshots, and that indexes never influence each other, is false and refuted. All filters are PythonFilteredSet objects; what the C function intersection(None, s) returns (the object s) is taken from the BTrees sources, as for C29."
 },
 "C80": {
  "note": "That a TextIndex finds a document by its text also when its lexicon is not that of its index is false and refuted. Queries are not among the calls of the programs; C74 says what they change."
 },
 "C81": {
  "note": "The limits on sizes are those for which the bounds are proved; nothing is said beyond them."
 },
 "C82": {
  "note": "C82_value_refuted: neither PyObject_Length nor PyFloat_AsDouble is checked for failure, so None can be returned with an exception set."
 },
 "C83": {
  "note": "C83_serializable_refuted: two transactions that each unindex and reindex a document can leave it in the filters of both values. Filters whose documents are emptied or whose expression is changed in place are C73's subject."
 },
 "C84": {
  "note": "Schedules are assumed to have fewer than 2^28 distinct words and not to tamper with the counter of the lexicon. Weights that the 32-bit rounding confuses are allowed: after a merge a dict may keep the weight of an old text, which reads as the same number (C84_stored_weights_refuted, in IEEE arithmetic). C84_serializable_refuted and C84_clear_refuted show what commits do not guarantee."
 },
 "C85": {
  "note": "One client, whose transactions begin and end between calls; concurrent transactions are C68 and C69. Every set of document ids is an object of its own, referred to by the BTree; that no two keys share one is part of the proof."
 },
 "C86": {
  "note": "The reading of a query, to which C86_terms refers by its unique syntax tree, is that of C46; lexicons whose parseTerms raises are not modelled."
 },
 "C87": {
  "note": "That BTrees' multiunion makes a new set, also of a single one, is part of the model of that library."
 },
 "C88": {
  "note": "C88_none_refuted shows that the assumption about None is needed. In C88_descending the n-best strategy is not forced without a limit (a test override; C21)."
 }
}
