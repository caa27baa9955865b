# Formal model of zope.index in Coq 8.16.1 — design

## 1. Approach

The model is a set of total, computable Gallina functions that mirror the Python
functions branch by branch.  Exceptions are values (`res A = Ok a | Raise e`);
functions that mutate an object return the new object; functions that may raise
after having mutated something return both the state and the outcome.  Loops are
structural recursion, or recursion on fuel that returns a distinguished error
(`OutOfFuel`), with the theorems proving that this error never occurs.

Layers (all under `rocq/theories/`):

| layer | files | content |
|---|---|---|
| library | `Prelude`, `Ord`, `SMap`, `Sort`, `Regex` | exceptions, ordered keys, BTrees as sorted maps, Python `sorted`, Python `re` subset |
| models | `M_*.v` | one file per Python module, with line citations; no proofs |
| specs | `S_*.v` | small, model independent statements of what is expected (histories as lists of API calls, last-write maps, grammar, boolean semantics ...) |
| proofs | `L_*.v` | lemmas |
| properties | `P_*.v` | property theorems only, closed by `exact`, with `Print Assumptions` and non-vacuity `Example`s |

### External libraries (trusted modelling assumptions)

* `BTrees` containers (BTree, Bucket, Set, TreeSet) and Python `dict`s: finite maps
  with iteration in ascending key order (`SMap`: strictly sorted association lists,
  extensional).  Where a Python `dict` is iterated its insertion order never
  influences a result (the model iterates in key order and this is noted), except
  that it orders the additions of a cosine document weight, where the model follows it.
* `BTrees.Length`: an integer cell.
* `family.IF` stores values as 32-bit floats.  The models carry a rounding
  function for such stores; it is a parameter (any idempotent function) in the
  structural theorems and the identity in the exact-arithmetic theorems.
* `weightedUnion`, `weightedIntersection`, `multiunion`, `intersection`,
  `difference`: their documented meaning; the C code of the first two rounds
  weights, products and sums to single precision, and so does the model.
* `sorted`, `bisect`, `heapq.nlargest`, `itertools.islice`, `list.sort`: their
  documented meaning, including stability and TypeError for incomparable keys.
* `re`: the regular expressions used are written as ASTs and run by a
  backtracking matcher that follows Python's priority order.
* Character classification (`\w`, `\s`) and case conversion: arbitrary functions
  (section variables, universally quantified in every theorem).
* ZODB transactions on field indexes, keyword indexes, lexicons, text indexes and topic indexes (`M_zodb`, `M_ztext`, `M_ztopic`, `M_zcos`, C68-C71, C83, C84): a transaction reads the
  version it began with; at commit each persistent object changed on both sides is
  merged by its documented conflict resolution.  The model commits whenever the
  real one does, and sometimes when the real one meets a conflict (split buckets;
  objects written back unchanged), so the theorems about all commits apply; it is
  by reading that the refutations use commits the real one accepts.  What a ZODB saves of an
  index used by one client (`M_ptopic`, C73; `M_ptext`, C76; `M_pindex`, C85) follows the documentation of
  `Persistent` and `BTrees`.  In the theorems about text indexes and lexicons
  that are not about transactions the lexicon's shared counter may be advanced
  arbitrarily by other connections where the theorem does not exclude it.
* Floating point: the scoring code is written once, over the class `Arith` of
  arithmetics (`Arith.v`).  Structural theorems hold for every arithmetic, or for
  every arithmetic meeting a stated class (`SoundEq`, `SafeArith`, `ExactArith`).
  Numeric theorems are about exact real arithmetic (`RArith.v`).  `IEEE.v` gives
  IEEE 754 binary64 with binary32 stores, from Flocq, as a further instance; C65
  says which theorems it inherits.  `math.log` is an arbitrary function there,
  subject to `sane_ln` (not negative for arguments from 1 on), which the correctly
  rounded logarithm is proved to meet.
* Machine integer limits on docids (32/64 bit): docids are `Z`, except that `M_range` and
  `M_rtext` take the set of storable integers as a parameter.
* Python's recursion limit is not modelled.

## 2. Properties: what is modelled and how it is proved

See `properties.jsonl` for the full statements.

| id | model | proof |
|---|---|---|
| C01-C03 | `M_widcode`: encode/decode on lists of code points, table lookup + `_encode`, `_prog.findall` | arithmetic per code length; resynchronisation lemma: a code is one byte >= 128 followed by bytes < 128; induction on lists.  C03 refuted by a witness, with the exact characterisation of what a match means |
| C04-C08 | `M_rice`: BitArray on bytes, RiceCode | refinement of BitArray to a bit list; decode loop inversion.  C05 (m=0), C06 (len) and C07 (non-constant deltas) refuted by witness, plus the strongest true statement |
| C09-C11 | `M_nbest` with bisect | refinement to a stably sorted list, induction over operations |
| C12-C13 | `M_setops` over NBest and weighted set operations | invariant: multiset sum of the queue; induction on queue length |
| C14-C17 | `M_field` | refinement invariant forward/reverse/count vs. last-write map; state equality by extensionality of sorted maps |
| C18-C22 | `M_field.sort` with the three strategies | each strategy equals the sorted specification; refutations for reverse ties and TypeErrors |
| C23-C29 | `M_keyword` | same style as field; representation flags for Set/TreeSet; heap model for aliasing |
| C30-C34 | `M_topic` | induction over histories; expression evaluation is an arbitrary partial function |
| C35-C40 | `M_lexicon`, `Regex` | invariant; adversarial counter jumps as an operation; lexicographic contiguity of prefixes; regex compilation of glob patterns |
| C41-C43 | `M_split` on top of `Regex` findall | characterise findall of each pattern as maximal munch |
| C44-C48 | `M_parser`: tokenizer + recursive descent on fuel | fuel adequacy, soundness and completeness w.r.t. an inductive grammar, shape invariant of trees |
| C49 | `M_tree` | induction on trees |
| C50-C58 | `M_baseindex`, `M_okapi`, `M_cosine` | refinement invariant between inverted index and last-write map of word lists |
| C59-C61 | real instance of the scoring arithmetic | inequalities over `R`, Cauchy-Schwarz |
| C62 | `okascore.c` modelled over abstract arithmetic | equality |
| C63-C64 | `M_textindex` composing everything | composition |
| C65 | `IEEE`: Flocq binary64 as an instance of the scoring arithmetic | rounding is monotone; the generic theorems instantiated |
| C66 | pairs of histories of `M_okapi`, `M_cosine`, `M_textindex` with the same documents (`S_indep`) | the answers computed from the documents alone, in any arithmetic; a refutation for phrases with word ids from 128 on |
| C67 | the updates of `M_baseindex`, `M_okapi`, `M_cosine` with a call of `sourceToWordIds` that raises (`S_fail`) | induction over histories with failures; the updates commute with a change of the total document length; refutations for the Okapi index and for exhausted word ids |
| C68 | `M_zodb`: the field index as persistent objects with identities; a commit is a three-way merge of the objects (`_p_resolveConflict` of BTrees and Length, as documented) | an invariant of all committed versions, stable under commits; refutations of serializability |
| C69 | `M_zodb` with the keyword index of `M_kwheap` | the invariant of C68 plus: posting sets are never replaced; refutations with the default threshold |
| C70 | `M_ztext`: the lexicon of `M_lexicon` under the conflict resolution of `M_zodb` | invariant: ids are 1, ..., wordCount; simulation between the transaction's own run and the same calls on the latest version |
| C71 | `M_ztext`: the index of `M_baseindex`/`M_okapi` and its lexicon under the conflict resolution of `M_zodb` | the invariant of C45-C53 for the merged state, word ids compared under the merged lexicon; commits compared with single-client histories; a frame lemma (calls leave the entries of other words alone) for the absence of conflicts; refutations of serializability |
| C72 | `M_sortgen`: `sort` as a generator resumed by `next()`, interleaved with calls on the index; `clear` replaces the BTrees the generator still names | the first `next()` decides a list (`begun`); induction over the events for what is then yielded; equal to `f_sort` of C18-C22 without interference; refutations of snapshot and order |
| C73 | `M_ptopic`: filters (not persistent) and their Sets (persistent) in memory and in the database; marks on BTree keys decide what a commit saves and an abort restores; bucket sharing left open | simulation with the ideal store of `S_ptopic` for programs that re-add filters they changed; invariant `detached` for what is lost; refutations |
| C74 | `M_alias`: searches, query trees and `apply` with object identity (an object is new or is the BTree of a word); assignment to its items | equality of values with `M_textindex` by induction over queries; ownership; irrationality of e (`L_e`) for exact arithmetic; refutation in binary64 (`L_unit`), computing with a closed form of the index of 205671881 documents |
| C75 | `M_upgrade`: the methods of text indexes and lexicons on objects whose counters may be missing, with the `except AttributeError` code | simulation by the present index (`rel`), step by step over the history; searches depend on the contents only, Okapi ones also on the document counter |
| C76 | `M_ptext`: the methods of text indexes and the lexicon on objects that have a state in memory, a saved one and marks (of changed keys) | invariant: in memory and saved states differ at marked keys only, dicts are changed in place only where `_wordinfo[wid]` is assigned next; simulation by the index in memory, step by step |
| C77 | `M_range`: the methods of field, keyword and topic indexes on BTrees that refuse some integers, with what was done before the exception | relation with the index of `M_field`, `M_keyword`, `M_topic` after the calls whose ids fit: equal up to empty postings, which are characterized by the history |
| C78 | `M_rtext`: the text indexes on BTrees that refuse some integers, with the order of the loop over the words, dicts that take any key, and what was done before the exception | simulation with `M_okapi`, `M_cosine` on the history in which refused calls only use the lexicon; postings may differ only for words of refused texts; an invariant for ids left behind in postings |
| C79 | `M_theap`: any number of topic indexes, filter objects and set objects with identities, on the heap of `M_kwheap` | invariant: every filter has its own set, whose contents and whose holders are those read off the history (`S_theap`); sets that belong to no filter never change; agreement with `M_topic` for an index with its own filters |
| C80 | `M_share`: any number of lexicons, indexes of both classes and TextIndex objects, referring to each other; `TextIndex.__init__` | invariant over programs: every index is in the state that `M_okapi`/`M_cosine` reach after the calls for it and the texts its lexicon got from others, both read off the program by `S_share`; then C66 to compare with an index alone |
| C81 | the whole of `apply` over `Arith_b64` (Flocq's binary64, binary32 storage, constants 1.2 and 0.75) | interval arithmetic: bounds that are exact in both formats survive rounding (`L_interval`); bounds for idf, term frequencies, norms and query weights (`L_finite`); an invariant of weighted unions, intersections and trees: a result for c words lies between 2^-100 and c times 2^16 (`L_bound`, `L_finscore`) |
| C82 | `okascore.c` as a C program calling the Python API, with references and error indicator (`M_okascore`) | one round of the loop keeps what is owned, the discipline and the error reports; induction on the rounds; refinement to the loop of `M_okapi` |
| C83 | `M_ztopic`: the BTree of filters, one Set object per filter and a counter of clears; commits merge each with the resolution of `M_zodb` | invariant of the versions (sets are not shared, later versions keep earlier objects); refinement to `M_topic`; characterization of the merge of Sets; refutation of serializability |
| C84 | `M_zcos`: the transactions of `M_ztext` with the calls of `M_cosine`; equality of stored weights is a parameter | the invariant of C71 for any weights (`L_ztext`), stated of the index as it is read, with the weights in dicts rounded (`L_zcround`: calls, merges and answers do not depend on the digits that rounding drops); frame lemmas for the entries of other words; answers determined by documents and lexicon (C52); refutations |
| C85 | `M_pindex`: the methods of field and keyword indexes on objects that have a state in memory, a saved one and marks, with the sets of document ids as objects of their own | invariant: in memory and saved states differ at marked keys only, no two keys share a set; simulation by the index in memory, step by step |
| C86 | `M_parser`: `terms` of the nodes; `S_terms`: the atoms of a syntax tree that are not negated | mutual induction over the concrete syntax trees of C46 (`L_terms`), with the nodes collected so far as parameters |
| C87 | `M_fheap`: the sets of `M_pindex` as objects, `apply` returning a new one, and changes by the caller to any set returned; `S_fheap`: the answers as values | invariant over events: the sets returned are distinct and none is a set of the index (`L_fheap`) |
| C88 | `M_field`: `f_apply` and `f_sort`; `S_rsort`: the documents in a range by value | composition of C14 with C18, C19 and C21: the answer contains only indexed documents, so no refused comparison is possible (`L_rsort`) |

## 3. Trusted base

### 3.1 What is trusted

* The kernel of Coq 8.16.1 (the theorems are checked by `coqc`; `coqchk` accepts
  the compiled files too).  `vm_compute` is used in some examples and in the
  proofs of a few refutations; it is part of the kernel.
* The axioms that `Print Assumptions` lists, below.  There are none but the
  standard library's, and they all come from its real numbers
  (`Coq.Reals`, on which Flocq is built too).  Loading Flocq and `ssreflect` also
  loads `Coq.ssr.ssrunder.Under_rel.*` and the opaque modules
  `Rdefinitions.RbaseSymbolsImpl.*` and `Rdefinitions.RinvImpl.*`; no theorem
  depends on the first, and the others are the standard library's sealed
  definitions of the operations on real numbers.
* That the model says what the code does: the definitions in `M_*.v` (and the
  library files they use) were written by reading `/repo`; no part is extracted
  or generated from it, and nothing was run.
* The description of external libraries in section 1.

### 3.2 What `Print Assumptions` says, theorem by theorem

(`tools/assumptions.py` prints this list from a build log.)

* **no axioms (closed under the global context)**, 362 theorems: C74_okapi, C74_okapi_searches, C74_okapi_history, C74_cosine_answer, C74_cosine, C67_cosine, C67_okapi, C67_okapi_found, C67_no_effect_refuted, C67_ids_exhausted_refuted, C87_answers, C14_last_call_counts, C14_range_search, C14_bad_bounds, C14_not_a_pair, C15_exact_value, C15_none_returns_all, C15_exact_value_refuted, C16_statistics, C17_state_of_mapping, C17_unindex, C17_index, C17_index_observed, C17_unindex_observed, C18_sorted_list_exists, C18_sort_ascending, C18_limited_is_prefix, C19_sort_descending, C20_descending_prefix, C20_descending_prefix_refuted, C21_skips_unindexed, C21_type_errors, C21_skips_unindexed_refuted, C22_limit, C66_okapi, C66_cosine, C66_small_ids, C66_phrases_refuted, C23_last_call_counts, C23_and_search, C23_or_search, C23_other_operator, C23_default, C24_statistics, C25_index_replaces, C25_remove, C25_index_observed, C25_unindex_observed, C25_answers_of_mapping, C25_exceptions, C26_threshold_invisible, C26_optimize, C27_case_insensitive, C27_as_lowercased, C28_filtering_normalize_refuted, C28_nonemptying_normalize, C29_same_answers, C29_snapshots, C29_snapshots_refuted, C34_keyword_query_unchanged, C34_keyword_apply, C35_bijection, C35_unknown_id, C35_words, C35_count, C36_permanent, C37_fresh, C38_term_ids, C38_same_ids, C38_query_words, C39_glob_exact, C39_glob_nodup, C39_no_wildcard, C39_is_glob, C39_leading_wildcard, C40_glob_matching_refuted, C40_glob_complete_refuted, C40_literal_prefix, C09_getbest, C09_spec_unique, C09_bad_capacity, C10_refines, C10_machine_sorted, C10_pop_minimal, C11_priority_queue, C82_balanced, C82_alive, C82_null, C82_value, C82_value_refuted, C82_no_length, C82_computes, C44_tokens, C44_tokens_unique, C44_token_shapes, C44_nothing_lost, C45_total, C46_accepts, C46_rejects, C46_syntax_error, C46_syntax_error_refuted, C46_reading, C46_unambiguous, C47_executable, C48_ignored, C48_leaves, C48_all_reported_refuted, C85_field, C85_field_outcomes, C85_keyword, C85_keyword_outcomes, C76_okapi, C76_cosine, C76_okapi_results, C76_cosine_results, C76_okapi_history, C76_cosine_history, C73_memory, C73_saved, C73_careful, C73_lost, C73_refuted, C77_field_results, C77_field_search, C77_field_documentCount, C77_field_sort, C77_field_sort_unfit, C77_field_wordCount, C77_field_unchanged_refuted, C77_field_later_calls_refuted, C77_keyword_results, C77_keyword_answers, C77_keyword_wordCount, C77_topic_contents, C77_topic_index, C77_topic_unindex, C77_topic_other, C04_roundtrip, C04_bad_value, C04_history, C04_encode_bad_value, C05_widths, C05_error, C05_encode_error, C05_zero_refuted, C06_pickle, C07_deltas, C07_single, C07_not_increasing, C07_roundtrip_refuted, C08_bitarray, C88_ascending, C88_descending, C88_none_refuted, C78_okapi_results, C78_cosine_results, C78_okapi_apart, C78_cosine_apart, C78_okapi_documents, C78_cosine_documents, C78_okapi_answers, C78_cosine_answers, C78_okapi_unaffected, C78_cosine_unaffected, C78_okapi_poisoned, C78_cosine_poisoned, C78_okapi_cleared, C78_cosine_cleared, C78_later_refuted, C59_okapi_query_weight, C60_cosine_query_weight, C61_searches_return, C55_okapi_documents, C55_cosine_documents, C55_okapi_scores, C55_cosine_scores, C56_okapi_complete, C56_okapi_sound, C56_cosine_complete, C56_cosine_sound, C56_okapi_scores, C56_cosine_scores, C57_okapi_phrase_iff, C57_cosine_phrase_iff, C57_okapi_exact, C57_cosine_exact, C57_phrase_exact_refuted, C58_okapi_glob, C58_cosine_glob, C58_okapi_scores, C58_cosine_scores, C62_c_agrees, C62_c_searches, C62_other_constants_refuted, C12_union, C12_union_keys, C13_intersection, C13_intersection_keys, C12_union_rounded, C13_intersection_rounded, C80_calls, C80_lexicon, C80_okapi, C80_cosine, C80_okapi_alone, C80_cosine_alone, C80_text_index, C72_deferred, C72_undisturbed, C72_few, C72_sound, C72_present, C72_complete, C72_refuted, C41_splitter, C41_runs_unique, C41_words, C41_idempotent, C41_globs, C41_globs_unique, C41_same_as_documents, C41_globs_are_safe, C41_pipeline, C42_stop_words, C42_single_chars, C42_single_chars_refuted, C42_pipeline, C43_markup_separates, C43_plain_text, C43_pipeline, C86_terms, C86_plain, C86_some, C50_okapi_consistent, C50_rounding, C50_cosine_consistent, C50_cosine_weights, C51_okapi_counts, C51_cosine_counts, C52_okapi_never_raises, C52_cosine_never_raises, C52_okapi_unindex_unknown, C52_cosine_unindex_unknown, C52_okapi_reindex, C52_okapi_unindex, C52_okapi_determined, C52_cosine_reindex, C52_cosine_unindex, C52_cosine_determined, C53_total_length, C54_cosine_clear, C54_okapi_clear_view, C54_okapi_clear_empty, C54_okapi_total, C54_okapi_clear_refuted, C64_okapi_default, C64_cosine_default, C64_okapi_documents, C64_cosine_documents, C64_parse_errors, C64_okapi_scores, C64_cosine_scores, C63_okapi_own_words, C63_cosine_own_words, C79_contents, C79_search, C79_calls, C79_own_filters, C79_elsewhere, C79_elsewhere_refuted, C79_snapshots, C79_result_is_own, C79_live, C79_cleared, C79_snapshots_refuted, C30_filter_contents, C30_exceptions, C31_index_adds_only, C31_unindex_then_index, C31_reindex_replaces_refuted, C32_or_search, C32_and_search, C32_errors, C33_known_filters, C33_unknown_filters_refuted, C34_topic_apply, C34_topic_query_after, C34_topic_query_unchanged_refuted, C49_documents, C49_scores, C49_raises, C49_misplaced_not, C75_okapi, C75_cosine, C75_documents, C75_cosine_answers, C75_okapi_answers, C75_okapi_raises, C75_refuted, C01_roundtrip, C01_domain, C01_negative, C01_error, C01_injective, C02_find_complete, C03_find_exactly, C03_find_exact_small, C03_find_sound_refuted, C84_commit, C84_consistent, C84_serial, C84_latest, C84_one_client, C84_new_word, C84_commits, C84_clears, C84_attempt, C84_serializable_refuted, C84_clear_refuted, C69_consistent, C69_commit, C69_serial, C69_isolated, C69_alone, C69_attempt, C69_one_client, C69_conversion_refuted, C69_optimize_refuted, C70_commit, C70_serializable, C70_permanent, C70_conflicts, C70_snapshot, C70_latest, C70_attempt, C68_consistent, C68_commit, C68_isolated, C68_serial, C68_alone, C68_one_client, C68_attempt, C68_serializable_refuted, C68_clear_refuted, C71_commit, C71_consistent, C71_serial, C71_latest, C71_one_client, C71_new_word, C71_commits, C71_clears, C71_attempt, C71_serializable_refuted, C71_clear_refuted, C83_commit, C83_serial, C83_conflict, C83_latest, C83_one_client, C83_attempt, C83_serializable_refuted.
* **ClassicalDedekindReals.sig_forall_dec, ClassicalDedekindReals.sig_not_dec, Classical_Prop.classic, FunctionalExtensionality.functional_extensionality_dep**, 30 theorems: C74_real, C74_real_searches, C74_real_history, C74_rounded_refuted, C81_okapi, C81_okapi_c, C81_cosine, C65_safe, C65_okapi_safe, C65_okapi_queries, C65_cosine_queries, C65_cosine_updates, C50_binary32, C78_unchanged_refuted, C59_okapi_bound, C59_glob_refuted, C60_cosine_bound, C60_repeated_refuted, C61_mean_positive, C61_idf_positive, C61_tf_range, C61_tf_grows, C61_tf_falls, C61_large_text_refuted, C80_other_lexicon_refuted, C64_okapi_range, C64_cosine_range, C63_no_proviso_refuted, C84_ieee, C84_stored_weights_refuted.

### 3.3 Which parts of the code are modelled

| file | modelled (in) | not modelled |
|---|---|---|
| `nbest.py` | all: `__init__`, `__len__`, `capacity`, `add`, `addmany`, `getbest`, `pop_smallest` (`M_nbest`) | - |
| `field/index.py` | all: `__init__`/`clear`, `documentCount`, `wordCount`, `index_doc`, `unindex_doc`, `apply` (`M_field`; what a ZODB saves of them in `M_pindex`, C85; who owns the sets returned in `M_fheap`, C87) | the `except KeyError` arm of `unindex_doc` is modelled but unreachable (C16, C17) |
| `field/sorting.py` | `sort`: limit check, the lazy, n-best and plain strategies and both test overrides (`M_field`); as a generator consumed while the index changes in `M_sortgen` (C72) | changing the index during the C loops of `sorted` and `heapq` |
| `keyword/index.py` | all: `clear`, `documentCount`, `wordCount`, `has_doc`, `normalize`, `index_doc`, `unindex_doc`, `_insert_forward`, `_insert_reverse`, `search`, `apply`, `optimize`, `CaseInsensitiveKeywordIndex.normalize` (`M_keyword`; and with object identity in `M_kwheap`) | assigning other values to `family` |
| `topic/filter.py` | all (`M_topic`); `eval` is an arbitrary function that may return or raise | `__repr__`; effects of the evaluated expression |
| `topic/index.py` | all (`M_topic`; what a ZODB saves of it in `M_ptopic`, C73; filters shared by indexes and identity of results in `M_theap`, C79; concurrent transactions in `M_ztopic`, C83) | changing the `id` attribute of a filter |
| `text/widcode.py` | all (`M_widcode`) | - |
| `text/ricecode.py` | `BitArray`, `RiceCode`, `encode`, `encode_deltas`, `decode_deltas` (`M_rice`) | `pickle_efficiency` (a benchmark) |
| `text/setops.py` | all (`M_setops`; with object identity, as `apply` uses it, in `M_alias`) | - |
| `text/lexicon.py` | `Lexicon` except conflict resolution, `_text2list`, `Splitter`, `CaseNormalizer`, `StopWordRemover`, `StopWordAndSingleCharRemover` (`M_lexicon`, `M_split`; upgrading an old `wordCount` in `M_upgrade`) | `_p_deactivate` reloading the counter is an arbitrary jump of the counter (operation of the lexicon histories) |
| `text/htmlsplitter.py` | all (`M_split`) | - |
| `text/stopdict.py` | the list and `get_stopdict` (`M_split`) | - |
| `text/parsetree.py` | all node classes: `nodeType`, `getValue`, `terms`, `executeQuery`; `QueryError`, `ParseError` (`M_parser`, `M_tree`) | `__repr__`; `AtomNode`/`GlobNode`/`PhraseNode` built by hand with unusual values |
| `text/queryparser.py` | all: tokenizer, `parseQuery`, `parseQueryEx`, `getIgnored` and the recursive descent (`M_parser`) | text of error messages; the recursion limit |
| `text/baseindex.py` | all concrete methods (`M_baseindex`; the `except AttributeError` arms, which upgrade objects stored by old releases, in `M_upgrade`, C75; what a ZODB saves of them in `M_ptext`, C76) | - |
| `text/okapiindex.py` | all: updates, both `_search_wids`, `query_weight`, `_get_frequencies` (`M_okapi`; the upgrade of `_totaldoclen` in `M_upgrade`) | - |
| `text/okascore.c` | the arithmetic of `score` and its loop (`M_okapi`); `score` with references, error indicator and checks (`M_okascore`) | the module's initialisation |
| `text/cosineindex.py` | all (`M_cosine`; concurrent transactions in `M_zcos`, C84) | - |
| `text/textindex.py` | `index_doc`, `unindex_doc`, `clear`, `documentCount`, `wordCount`, `apply`, the default lexicon (`M_textindex`); `__init__` and objects shared by several indexes (`M_share`, C80) | the unused parameters `start` and `count` |
| `interfaces.py`, `*/interfaces.py` | - | declarations only |

Not modelled anywhere:

* ZODB: pickling of indexes; transactions, `_p_resolveConflict` and concurrent
  writers, except on field and keyword indexes (`M_zodb`, C68, C69; there no
  transaction assigns `tree_threshold`), on lexicons and
  text indexes (`M_ztext`, `M_zcos`, C70, C71, C84) and on topic indexes (`M_ztopic`, C83); what is saved and undone, except for indexes
  with one client (`M_ptopic`, C73; `M_ptext`, C76; `M_pindex`, C85).
* Limits of the 32 and 64 bit BTree families on document ids, and the resulting
  `TypeError` for ids that do not fit, except in `M_range` (field, keyword and topic
  indexes, C77) and `M_rtext` (text indexes, C78).  Document ids that are not integers.  Word ids are limited by
  the widcode format, and that limit is modelled (C01).
* Objects with a user-defined order that is not a total preorder, or whose
  comparison has effects.
* Object identity, except for keyword indexes (`M_kwheap`, C29), field indexes (`M_fheap`, C87), the queries of text
  indexes (`M_alias`, C74), filters and sets of topic indexes (`M_theap`, C79), and the Sets
  of topic filters under ZODB (`M_ptopic`, C73).
* Python's recursion limit, memory exhaustion and interrupts.

