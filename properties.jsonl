{"id": "C01", "title": "Widcode round trip", "statement": "For every list of word ids in [0, 2**28), widcode.encode succeeds and widcode.decode of its result returns exactly that list; if some id is >= 2**28, encode raises AssertionError.", "quantifier": "every finite list of non-negative integers", "why_tests_cant": "2**28 ids and unbounded list lengths; the decoder has to resynchronise between neighbouring codes of different lengths, so single-id tests do not settle list decoding.", "anchors": ["src/zope/index/text/widcode.py:encode,_encode,decode,_decode,_fill"]}
{"id": "C02", "title": "Encoded substring search never misses a phrase", "statement": "If a list of word ids occurs contiguously in a document's list of word ids, then the encoded phrase occurs in the encoded document, i.e. docwords.find(code) >= 0.", "quantifier": "every pair of lists of ids in [0, 2**28)", "why_tests_cant": "quantifies over all documents and all phrases.", "anchors": ["src/zope/index/text/widcode.py:encode", "src/zope/index/text/baseindex.py:BaseIndex.search_phrase"]}
{"id": "C03", "title": "When encoded substring search is exact", "statement": "The encoded phrase is found in the encoded document exactly when the document contains, in a row, the phrase's words except that the last may be any word whose id has the last word's id as its leading base 128 digits. Hence the search is exact when the ids are below 128, and it is not exact in general.", "quantifier": "every pair of lists of ids in [0, 2**28)", "why_tests_cant": "the counterexamples need a word id >= 128 whose code extends the code of a small id; tests use tiny vocabularies.", "anchors": ["src/zope/index/text/widcode.py", "src/zope/index/text/baseindex.py:BaseIndex.search_phrase"]}
{"id": "C04", "title": "Rice code round trip", "statement": "For every m in 1..16 and every list of integers >= 1, appending the list to RiceCode(m) and calling tolist() returns the list, len() is the list length; appending a value < 1 raises ValueError and leaves the code unchanged.", "quantifier": "all m in 1..16 and all lists of integers", "why_tests_cant": "unbounded values and lists; tests draw random small samples.", "anchors": ["src/zope/index/text/ricecode.py:RiceCode,encode,BitArray"]}
{"id": "C05", "title": "Rice code widths", "statement": "RiceCode(m) can be constructed exactly for the m from 1 to 16 and raises ValueError for every other m; in particular for m = 0, which its error message advertises.", "quantifier": "all integers m", "why_tests_cant": "the boundary m = 0 is accepted by the guard but fails later; needs case analysis over all m.", "anchors": ["src/zope/index/text/ricecode.py:RiceCode.__init__,init"]}
{"id": "C06", "title": "Rice code and pickling", "statement": "Restoring a RiceCode from its pickled state yields the same m, bits and byte string, but not the item count: len() and tolist() are preserved exactly when the code was empty.", "quantifier": "every m and every encoded list", "why_tests_cant": "must hold for every encoded content.", "anchors": ["src/zope/index/text/ricecode.py:RiceCode.__getstate__,__setstate__"]}
{"id": "C07", "title": "When delta coding round trips", "statement": "decode_deltas(*encode_deltas(l)) == l for a strictly increasing list l of at least two elements exactly when its step is constant; lists of one element round trip; lists that are not increasing are refused; so the round trip fails in general.", "quantifier": "every non-empty strictly increasing list of integers", "why_tests_cant": "the existing test only uses range() lists, for which all deltas are equal.", "anchors": ["src/zope/index/text/ricecode.py:encode_deltas,decode_deltas"]}
{"id": "C08", "title": "BitArray is a bit list", "statement": "After any sequence of append calls on an empty BitArray, len() is the number of appended bits, indexing position i returns bit i, and the byte string is the bits packed little-endian and zero padded to ceil(n/8) bytes.", "quantifier": "every finite bit sequence and every position", "why_tests_cant": "unbounded lengths; the byte boundary cases interact with bitsleft.", "anchors": ["src/zope/index/text/ricecode.py:BitArray"]}
{"id": "C09", "title": "NBest keeps exactly the N best", "statement": "For every N >= 1 and every sequence of add/addmany calls, getbest() returns the first N pairs of the stable descending sort by score of everything added, and len() is min(N, number of adds).", "quantifier": "every capacity and every sequence of (item, score) pairs", "why_tests_cant": "quantifies over all insertion orders and tie patterns.", "anchors": ["src/zope/index/nbest.py:NBest"]}
{"id": "C10", "title": "NBest under interleaved pops", "statement": "For every interleaving of add, addmany and pop_smallest, the object behaves like an abstract stably sorted list of at most N pairs: add inserts and drops the worst when over capacity, addmany is a loop of add, pop_smallest removes and returns a pair with the lowest score held, and raises IndexError exactly when empty.", "quantifier": "every finite interleaving of operations", "why_tests_cant": "the count kept locally in addmany has to stay in step with the lists after arbitrary pops.", "anchors": ["src/zope/index/nbest.py:NBest.addmany,add,pop_smallest,getbest"]}
{"id": "C11", "title": "NBest as priority queue", "statement": "If at most N pairs are added to NBest(N) and then popped until empty, the pops return a permutation of the added pairs in ascending score order.", "quantifier": "every sequence of pairs", "why_tests_cant": "all orders of insertion.", "anchors": ["src/zope/index/nbest.py:NBest", "src/zope/index/interfaces.py:INBest"]}
{"id": "C12", "title": "Weighted union of many maps", "statement": "mass_weightedUnion(L) maps exactly the keys occurring in some input map, each to the sum over the inputs containing it of weight*value (exact arithmetic), whatever the number, sizes and order of inputs.", "quantifier": "every list of (map, weight) pairs", "why_tests_cant": "the merge tree is chosen by sizes through NBest; all shapes have to agree.", "anchors": ["src/zope/index/text/setops.py:mass_weightedUnion,_trivial"]}
{"id": "C13", "title": "Weighted intersection of many maps", "statement": "mass_weightedIntersection(L) ignores None maps and maps exactly the keys present in all remaining inputs to the sum of weight*value (exact arithmetic); it is empty for an empty list.", "quantifier": "every list of (optional map, weight) pairs", "why_tests_cant": "inputs are sorted by size first; the result has to be independent of the order.", "anchors": ["src/zope/index/text/setops.py:mass_weightedIntersection,_trivial"]}
{"id": "C14", "title": "Field index range search is exact", "statement": "After any history of index_doc/unindex_doc/clear calls with mutually orderable values, apply((lo, hi)) returns exactly the docids whose most recently indexed value v satisfies lo <= v <= hi (None = unbounded); a query that is not a 2-tuple raises TypeError.", "quantifier": "every history and every bounds pair", "why_tests_cant": "forward and reverse structures must stay consistent through arbitrary reindex/unindex interleavings.", "anchors": ["src/zope/index/field/index.py:FieldIndex.index_doc,unindex_doc,clear,apply"]}
{"id": "C15", "title": "Field index exact-value search", "statement": "apply((v, v)) returns exactly the documents whose current value is v, for every value v other than None that can be compared with the indexed ones; for v = None, which can be indexed, it returns all documents.", "quantifier": "every history and every indexable value", "why_tests_cant": "needs all values including None.", "anchors": ["src/zope/index/field/index.py:FieldIndex.apply"]}
{"id": "C16", "title": "Field index statistics", "statement": "After any history, documentCount() is the number of documents currently indexed and wordCount() the number of distinct values currently indexed.", "quantifier": "every history", "why_tests_cant": "counters are maintained incrementally; drift shows only on particular histories.", "anchors": ["src/zope/index/field/index.py:FieldIndex.documentCount,wordCount"]}
{"id": "C17", "title": "Field index update laws", "statement": "unindex_doc removes every trace of the document and of nothing else, is a no-op for unknown docids; re-indexing replaces the old value; index_doc with an unchanged value changes nothing; the observable state depends only on the current docid->value mapping, not on the history.", "quantifier": "every reachable state, docid and value", "why_tests_cant": "state-equality claims over all histories.", "anchors": ["src/zope/index/field/index.py:FieldIndex.index_doc,unindex_doc"]}
{"id": "C18", "title": "Field sort, ascending", "statement": "list(index.sort(docids, limit=k)) is the list of the indexed docids among docids, ordered by (value, docid), truncated to k, whichever of the three internal strategies (lazy, n-best, full sort) is chosen; hence every limited sort is a prefix of the unlimited one.", "quantifier": "every reachable index, every docid collection, every limit >= 1, every strategy choice", "why_tests_cant": "strategy thresholds make test inputs exercise only some branches.", "anchors": ["src/zope/index/field/sorting.py:SortingIndexMixin.sort"]}
{"id": "C19", "title": "Field sort, descending", "statement": "list(index.sort(docids, reverse=True, limit=k)) is ordered by non-increasing value, contains no duplicates, only indexed docids from the input, min(k, number of indexed inputs) of them, and no omitted document has a larger value than a returned one.", "quantifier": "every reachable index, docid collection and limit", "why_tests_cant": "as above.", "anchors": ["src/zope/index/field/sorting.py:SortingIndexMixin.sort"]}
{"id": "C20", "title": "Field sort, limited descending sort as a prefix", "statement": "sort(docids, reverse=True, limit=k) is the first k elements of sort(docids, reverse=True) when 4 * k is at least the number of docids, or when the documents have distinct values; in general it is not, because the n-best strategy breaks ties in the opposite docid order.", "quantifier": "every reachable index, docid collection and limit", "why_tests_cant": "depends on ties combined with the size threshold that switches strategy.", "anchors": ["src/zope/index/field/sorting.py:SortingIndexMixin.sort"]}
{"id": "C21", "title": "Field sort and unindexed documents", "statement": "sort skips docids that are not indexed; it raises TypeError exactly when the full-sort strategy is chosen and has to compare values (including None, and the placeholder -1 used for documents that are not indexed) that are not orderable. So it may fail because of documents that are not indexed.", "quantifier": "every reachable index and docid collection", "why_tests_cant": "depends on value types together with the strategy chosen.", "anchors": ["src/zope/index/field/sorting.py:SortingIndexMixin.sort", "src/zope/index/interfaces.py:IIndexSort"]}
{"id": "C22", "title": "Field sort limit validation", "statement": "sort with limit < 1 raises ValueError, for every index state and input; with limit None or >= 1 it never raises ValueError.", "quantifier": "every index state, docids, limit", "why_tests_cant": "all limits and states.", "anchors": ["src/zope/index/field/sorting.py:SortingIndexMixin.sort"]}
{"id": "C23", "title": "Keyword search is exact", "statement": "After any history of index_doc/unindex_doc/clear/optimize and tree_threshold changes, search(words, 'and') returns exactly the docids whose current keyword set contains all normalized query words (empty set for an empty query), search(words, 'or') those containing at least one; other operators raise TypeError.", "quantifier": "every history, query and operator", "why_tests_cant": "incremental set-difference maintenance and the Set/TreeSet switch over arbitrary histories.", "anchors": ["src/zope/index/keyword/index.py:KeywordIndex.index_doc,unindex_doc,search,apply"]}
{"id": "C24", "title": "Keyword index statistics", "statement": "After any history, documentCount() is the number of documents whose current keyword sequence is non-empty, wordCount() the number of distinct keywords currently used, has_doc(d) tells whether d currently has keywords.", "quantifier": "every history", "why_tests_cant": "counter drift depends on the history.", "anchors": ["src/zope/index/keyword/index.py:KeywordIndex.documentCount,wordCount,has_doc"]}
{"id": "C25", "title": "Keyword index update laws", "statement": "Indexing replaces the previous keywords, indexing an empty sequence or unindexing removes every trace of the document and nothing else, both are no-ops for unknown documents; a plain string argument raises TypeError and changes nothing; no operation raises otherwise.", "quantifier": "every reachable state, docid and sequence", "why_tests_cant": "state equality over all histories.", "anchors": ["src/zope/index/keyword/index.py:KeywordIndex.index_doc,unindex_doc,_insert_forward,_insert_reverse"]}
{"id": "C26", "title": "tree_threshold is invisible", "statement": "Changing tree_threshold and calling optimize at any points of a history never changes any search result or statistic; after optimize every posting set is a TreeSet iff it has at least tree_threshold members.", "quantifier": "every history with arbitrary threshold changes", "why_tests_cant": "64-element thresholds and mixed representations over histories.", "anchors": ["src/zope/index/keyword/index.py:KeywordIndex.optimize,_insert_forward"]}
{"id": "C27", "title": "Case-insensitive keywords", "statement": "For CaseInsensitiveKeywordIndex, results are invariant under changing the case of indexed keywords and of query keywords: only the lower-cased forms matter.", "quantifier": "every history and query, every lower-casing function", "why_tests_cant": "all strings.", "anchors": ["src/zope/index/keyword/index.py:CaseInsensitiveKeywordIndex.normalize"]}
{"id": "C28", "title": "Keyword index with a filtering normalize", "statement": "For every override of normalize (the documented extension point) that does not empty a non-empty sequence, search and statistics stay exact; with one that does, documentCount drifts and stale keywords stay.", "quantifier": "every normalize function and history", "why_tests_cant": "depends on user-supplied function; holds iff it maps non-empty sequences to non-empty ones.", "anchors": ["src/zope/index/keyword/index.py:KeywordIndex.index_doc,normalize"]}
{"id": "C29", "title": "Keyword search results as snapshots", "statement": "A set returned by search does not change when the index is updated later, unless it is the result of an 'and' search for a single keyword: that is the live posting set, and may change.", "quantifier": "every history after the search", "why_tests_cant": "aliasing over all later histories.", "anchors": ["src/zope/index/keyword/index.py:KeywordIndex.search"]}
{"id": "C30", "title": "Topic filter contents", "statement": "After any history, a filter contains exactly the docids that were indexed with a context satisfying the filter expression at some index_doc since the docid's last unindex_doc / the filter's last clear; index_doc and unindex_doc never raise, whatever the expression does.", "quantifier": "every history and every expression behaviour (true, false, exception)", "why_tests_cant": "quantifies over all expressions and histories.", "anchors": ["src/zope/index/topic/filter.py:PythonFilteredSet.index_doc,FilteredSetBase.unindex_doc,clear", "src/zope/index/topic/index.py:TopicIndex"]}
{"id": "C31", "title": "Topic re-indexing", "statement": "index_doc(d, obj) only ever adds d to filters: afterwards a filter contains d iff it did before or obj satisfies its expression. So re-indexing does not replace; unindex_doc followed by index_doc does.", "quantifier": "every history", "why_tests_cant": "needs a history with a change of truth value.", "anchors": ["src/zope/index/topic/filter.py:PythonFilteredSet.index_doc"]}
{"id": "C32", "title": "Topic search", "statement": "search(ids, 'or') is the union of the contents of the filters named in ids; search(ids, 'and') is the intersection of those of the named filters that exist (empty when none exists); other operators raise TypeError, non-list queries raise TypeError.", "quantifier": "every topic index state, query and operator", "why_tests_cant": "all queries and states.", "anchors": ["src/zope/index/topic/index.py:TopicIndex.search"]}
{"id": "C33", "title": "Topic 'and' search with unknown filters", "statement": "If all named filters exist, an 'and' search returns exactly the documents in all of them. Filters that do not exist are ignored, so that a search naming one may return documents.", "quantifier": "every state and query", "why_tests_cant": "as above.", "anchors": ["src/zope/index/topic/index.py:TopicIndex.search", "src/zope/index/topic/interfaces.py:ITopicQuerying"]}
{"id": "C34", "title": "Queries and their argument", "statement": "apply(query) on a keyword index leaves the query mapping unchanged. On a topic index it removes 'operator' from the mapping, so that applying the same mapping twice may give different answers. The answer is that of search with the given, or the default, operator.", "quantifier": "every state and query mapping", "why_tests_cant": "requires repeating calls with the same object.", "anchors": ["src/zope/index/topic/index.py:TopicIndex.apply", "src/zope/index/keyword/index.py:KeywordIndex.apply"]}
{"id": "C35", "title": "Lexicon is a bijection", "statement": "After any history of sourceToWordIds calls, word->wid and wid->word are mutually inverse, wid 0 and negative wids are never assigned, get_wid/get_word agree, and wordCount() equals the number of words.", "quantifier": "every history of texts", "why_tests_cant": "all histories.", "anchors": ["src/zope/index/text/lexicon.py:Lexicon.sourceToWordIds,_getWordIdCreate,_new_wid,get_word,get_wid"]}
{"id": "C36", "title": "Word ids are permanent", "statement": "Once assigned, a word's id never changes and is never reused, over any later history.", "quantifier": "every history and every word", "why_tests_cant": "all later histories.", "anchors": ["src/zope/index/text/lexicon.py:Lexicon._getWordIdCreate"]}
{"id": "C37", "title": "Word ids stay fresh under counter drift", "statement": "Even if the shared word counter is advanced by arbitrary amounts between calls (other ZODB connections), new word ids are still positive, never collide with an existing one, and the search for a free id terminates.", "quantifier": "every history interleaved with arbitrary non-negative counter jumps", "why_tests_cant": "concurrent counter values cannot be enumerated.", "anchors": ["src/zope/index/text/lexicon.py:Lexicon._new_wid,sourceToWordIds"]}
{"id": "C38", "title": "Query terms resolve to the indexed ids", "statement": "termToWordIds never changes the lexicon, returns one id per pipeline word, the id sourceToWordIds assigned for known words and 0 for unknown ones.", "quantifier": "every lexicon state, pipeline and text", "why_tests_cant": "all states and texts.", "anchors": ["src/zope/index/text/lexicon.py:Lexicon.termToWordIds,sourceToWordIds"]}
{"id": "C39", "title": "Glob expansion is exact", "statement": "For every pattern whose literal prefix is non-empty and free of regular-expression metacharacters (in particular everything the default splitter produces), and words without newlines, globToWordIds returns the ids of exactly the lexicon words matching the shell pattern; a pattern starting with * or ? raises QueryError; a pattern without wildcards returns the id of that word if known, else nothing.", "quantifier": "every lexicon state and pattern", "why_tests_cant": "relies on contiguity of prefixes in the sorted key range, for all key sets; and on regex compilation of all patterns.", "anchors": ["src/zope/index/text/lexicon.py:Lexicon.globToWordIds"]}
{"id": "C40", "title": "Glob expansion for arbitrary literal prefixes", "statement": "Whatever the prefix of a pattern before its first wildcard, only words that begin with it are found. When the prefix contains characters that are special in regular expressions, words that do not match the shell pattern may be found and words that match it may be missed.", "quantifier": "every pattern", "why_tests_cant": "needs metacharacters in the prefix.", "anchors": ["src/zope/index/text/lexicon.py:Lexicon.globToWordIds"]}
{"id": "C41", "title": "Splitter returns the maximal word runs", "statement": "Splitter.process returns exactly the maximal runs of word characters in order; every result is non-empty and made of word characters; splitting its own output changes nothing.", "quantifier": "every text, every classification of characters", "why_tests_cant": "all strings.", "anchors": ["src/zope/index/text/lexicon.py:Splitter"]}
{"id": "C42", "title": "Stop-word and single-character removal", "statement": "StopWordRemover keeps exactly the non-stop-words, in order; StopWordAndSingleCharRemover removes exactly the stop words and the words of a single character with code point below 255, so that it keeps some words of a single character.", "quantifier": "every word list", "why_tests_cant": "all characters.", "anchors": ["src/zope/index/text/lexicon.py:StopWordRemover,StopWordAndSingleCharRemover", "src/zope/index/text/stopdict.py"]}
{"id": "C43", "title": "HTML splitter ignores markup", "statement": "For HTMLWordSplitter a tag <...> (without < or > inside) or a character entity acts as a word separator and contributes no words; text without < and & is split like plain text after lower-casing.", "quantifier": "every text", "why_tests_cant": "all strings and positions.", "anchors": ["src/zope/index/text/htmlsplitter.py:HTMLWordSplitter"]}
{"id": "C44", "title": "Tokenizer contract", "statement": "The query tokenizer returns, in order, parentheses and atoms; every atom is non-empty and is an optionally hyphenated double-quoted string or a run without whitespace, parentheses and quotes; all other text dropped is whitespace or unmatched quotes.", "quantifier": "every query string", "why_tests_cant": "all strings.", "anchors": ["src/zope/index/text/queryparser.py:_tokenizer_regex"]}
{"id": "C45", "title": "Query parser is total", "statement": "For every query string and lexicon, parseQuery terminates and either returns a tree or raises ParseError; no other exception can occur.", "quantifier": "every query string and every lexicon behaviour", "why_tests_cant": "all inputs; recursive descent with index arithmetic over tokens.", "anchors": ["src/zope/index/text/queryparser.py:QueryParser"]}
{"id": "C46", "title": "Query parser and the documented grammar", "statement": "A query derivable from the documented grammar OrExpr/AndExpr/NotExpr/Term is never a syntax error: it is parsed, in the one way the grammar allows, or fails only because a term has no positive word or all its words are stop words. Any other query raises ParseError; a 'Token required' error if no atom begins with a hyphen, though not in general.", "quantifier": "every token sequence", "why_tests_cant": "language equivalence.", "anchors": ["src/zope/index/text/queryparser.py:QueryParser._parseOrExpr,_parseAndExpr,_parseNotExpr,_parseTerm,_parseAtom"]}
{"id": "C47", "title": "Parsed queries are executable", "statement": "In every tree returned by parseQuery a NOT node occurs only as a direct child of an AND node that has at least one positive child listed first; hence executing a parsed query never raises 'NOT parse tree node cannot be executed directly'.", "quantifier": "every query string and lexicon", "why_tests_cant": "all inputs.", "anchors": ["src/zope/index/text/queryparser.py:QueryParser", "src/zope/index/text/parsetree.py:NotNode,AndNode,OrNode"]}
{"id": "C48", "title": "Ignored terms are reported exactly", "statement": "After a successful parse, getIgnored() lists, in query order, exactly the atoms for which the lexicon returned no words; the leaves of the tree are nodes of other atoms, each used once, and of all of them if nothing was ignored. If something was ignored, another atom may be missing from the tree without being reported.", "quantifier": "every query string and lexicon", "why_tests_cant": "all inputs.", "anchors": ["src/zope/index/text/queryparser.py:QueryParser.parseQueryEx,getIgnored,_parseAtom"]}
{"id": "C49", "title": "Boolean query semantics", "statement": "Executing a parsed query returns exactly the documents satisfying the boolean meaning of the tree (AND, OR, NOT over the atoms' result sets, terms made only of stop words being neutral).", "quantifier": "every tree and index", "why_tests_cant": "all trees, all indexes.", "anchors": ["src/zope/index/text/parsetree.py:AndNode,OrNode,AtomNode,PhraseNode,GlobNode"]}
{"id": "C50", "title": "Inverted index consistency", "statement": "After any history of index_doc (new or re-index), unindex_doc and clear, with a lexicon possibly shared with other indexes, the posting map of a word contains exactly the documents whose current text contains the word, with the weight computed from the current text; get_words(d) is the current word-id list, has_doc(d) tells whether d is indexed.", "quantifier": "every history below 2**28 words", "why_tests_cant": "incremental re-index logic over all histories.", "anchors": ["src/zope/index/text/baseindex.py:BaseIndex.index_doc,_reindex_doc,unindex_doc,_add_wordinfo,_mass_add_wordinfo,_del_wordinfo,get_words,has_doc"]}
{"id": "C51", "title": "Text index statistics", "statement": "After any history, documentCount() is the number of indexed documents and wordCount() the number of distinct words occurring in them.", "quantifier": "every history", "why_tests_cant": "incrementally maintained counters.", "anchors": ["src/zope/index/text/baseindex.py:BaseIndex", "src/zope/index/text/textindex.py:TextIndex.documentCount,wordCount"]}
{"id": "C52", "title": "Text index update laws", "statement": "unindex_doc removes every trace of a document and is a no-op for unknown ones; re-indexing equals unindexing and indexing afresh, in every observable; the index never raises (below 2**28 words).", "quantifier": "every reachable state, docid and text", "why_tests_cant": "all histories.", "anchors": ["src/zope/index/text/baseindex.py:BaseIndex._reindex_doc,unindex_doc"]}
{"id": "C53", "title": "Total document length", "statement": "For the Okapi index, the total document length used for the mean equals the sum of the lengths of the indexed documents after any history of index_doc/unindex_doc (documents of at most 2**24 words).", "quantifier": "every history without clear", "why_tests_cant": "incremental counter with negative adjustments via a float32 store.", "anchors": ["src/zope/index/text/okapiindex.py:OkapiIndex.index_doc,_reindex_doc,unindex_doc,_change_doc_len"]}
{"id": "C54", "title": "clear()", "statement": "After clear() a cosine index behaves like a newly created one with the same lexicon. So does an Okapi index in all it stores except the total document length, which keeps the length of the documents cleared; so its scores differ from those of a new index.", "quantifier": "every history followed by clear", "why_tests_cant": "needs scores after clear, compared over all histories.", "anchors": ["src/zope/index/text/baseindex.py:BaseIndex.clear", "src/zope/index/text/okapiindex.py:OkapiIndex.__init__"]}
{"id": "C55", "title": "Word search is exact", "statement": "search(term) returns None iff the pipeline yields no words, else exactly the documents containing at least one of the term's words, each with score equal to the sum of tf*idf of the term's words it contains.", "quantifier": "every reachable index and term", "why_tests_cant": "all histories and terms.", "anchors": ["src/zope/index/text/baseindex.py:BaseIndex.search", "src/zope/index/text/okapiindex.py:OkapiIndex._python_search_wids", "src/zope/index/text/cosineindex.py:CosineIndex._search_wids"]}
{"id": "C56", "title": "Phrase search finds all occurrences", "statement": "search_phrase(phrase) returns every document containing the phrase's words contiguously; it returns only documents containing all words of the phrase.", "quantifier": "every reachable index and phrase", "why_tests_cant": "all histories.", "anchors": ["src/zope/index/text/baseindex.py:BaseIndex.search_phrase"]}
{"id": "C57", "title": "When phrase search is exact", "statement": "search_phrase(phrase) returns exactly the documents that contain all words of the phrase and, in a row, its words except that the last may be a word whose id has the last word's id as its leading base 128 digits. Hence it is exact while all word ids are below 128, and not in general.", "quantifier": "every reachable index and phrase", "why_tests_cant": "needs large vocabularies with a specific id relation.", "anchors": ["src/zope/index/text/baseindex.py:BaseIndex.search_phrase", "src/zope/index/text/widcode.py"]}
{"id": "C58", "title": "Glob search is exact", "statement": "search_glob(pattern) returns exactly the documents containing a word that matches the pattern, when the part before its first wildcard is not empty and has no characters special in regular expressions and no word contains a line feed. The score is that of all matching words.", "quantifier": "every reachable index and pattern with plain prefix", "why_tests_cant": "all histories and patterns.", "anchors": ["src/zope/index/text/baseindex.py:BaseIndex.search_glob"]}
{"id": "C59", "title": "Query weight bounds Okapi scores", "statement": "For a query without globs (other than below NOT), query_weight(terms) is an upper bound on every score returned for the query by the Okapi index (exact arithmetic), so that normalised scores lie in (0, 1]. For a glob query it is not.", "quantifier": "every reachable index and parsed query", "why_tests_cant": "real inequality over all corpora.", "anchors": ["src/zope/index/text/okapiindex.py:OkapiIndex.query_weight,_python_search_wids", "src/zope/index/text/textindex.py:TextIndex.apply"]}
{"id": "C60", "title": "Query weight bounds cosine scores", "statement": "For a query without globs (other than below NOT) whose words are pairwise distinct, query_weight(terms) is an upper bound on every score of the cosine index (exact arithmetic). When a query repeats a word it may not be.", "quantifier": "every reachable index and query", "why_tests_cant": "real inequality over all corpora.", "anchors": ["src/zope/index/text/cosineindex.py:CosineIndex.query_weight,_get_frequencies"]}
{"id": "C61", "title": "Okapi scoring is well defined", "statement": "As long as no text has more than 2**24 words, no search in an Okapi index divides by zero: the mean document length is positive whenever a known word is scored; TF is strictly between 0 and k1+1, increases with the term frequency and decreases with document length; idf is positive. With longer texts a search may divide by zero.", "quantifier": "every reachable index", "why_tests_cant": "all histories.", "anchors": ["src/zope/index/text/okapiindex.py:OkapiIndex._python_search_wids", "src/zope/index/text/baseindex.py:inverse_doc_frequency"]}
{"id": "C62", "title": "C and Python scoring loops agree", "statement": "For the default K1 and B the C scoring loop computes for each document the same sequence of arithmetic operations as the Python loop, hence the same scores, for every arithmetic; for a subclass with other K1 or B they differ.", "quantifier": "every posting list, document length map and arithmetic", "why_tests_cant": "bit-for-bit equality over all inputs.", "anchors": ["src/zope/index/text/okascore.c:score", "src/zope/index/text/okapiindex.py:OkapiIndex._c_search_wids,_python_search_wids"]}
{"id": "C63", "title": "Documents are found by their own words", "statement": "With the default pipeline, after index_doc(d, text) every query consisting of a non-stop-word of the text returns d, provided lower-casing a word yields a word that the splitter and lower-casing leave unchanged; without the proviso it fails (e.g. words containing U+0130).", "quantifier": "every history, text and word", "why_tests_cant": "all Unicode strings; the pipeline is applied twice to query words.", "anchors": ["src/zope/index/text/textindex.py:TextIndex.apply", "src/zope/index/text/queryparser.py:QueryParser._parseAtom", "src/zope/index/text/lexicon.py:Lexicon.parseTerms,termToWordIds"]}
{"id": "C64", "title": "End-to-end text query", "statement": "TextIndex.apply(query) raises ParseError/QueryError or returns exactly the documents satisfying the boolean meaning of the query over current document texts, with scores divided by the (non-zero) query weight; start and count have no influence.", "quantifier": "every history and query string", "why_tests_cant": "composition of all parts.", "anchors": ["src/zope/index/text/textindex.py:TextIndex.apply"]}
{"id": "C65", "title": "Rounding never changes which documents are found", "statement": "In IEEE 754 binary64 arithmetic with binary32 storage in the BTrees, and with any logarithm that is not negative from 1 on, no index, unindex or query operation of either text index raises because of arithmetic (division by zero, logarithm or square root of a bad argument), and queries return exactly the documents that satisfy them.", "quantifier": "every history, query, logarithm implementation and, for Okapi, every finite K1 >= 0 and 0 <= B <= 1", "why_tests_cant": "rounding, underflow and overflow for all document lengths, counts and frequencies.", "anchors": ["src/zope/index/text/okapiindex.py:OkapiIndex._python_search_wids", "src/zope/index/text/cosineindex.py:CosineIndex._search_wids,_get_frequencies", "src/zope/index/text/baseindex.py:inverse_doc_frequency", "src/zope/index/text/textindex.py:TextIndex.apply"]}
{"id": "C66", "title": "Answers depend on the documents, not on the order of events", "statement": "Two text indexes whose histories leave the same documents with the same words report the same documents, texts and counts and give the same answers (documents, scores to the last bit, exceptions) to search, search_glob, query_weight and TextIndex.apply, although word ids, reindexing history and other users of the lexicon may differ. For phrases this holds while word ids do not make one word look like the end of another (in particular while they are below 128), and fails otherwise.", "quantifier": "every pair of histories with the same current documents (and, for Okapi, the same total length left behind by clear), every query, any scoring arithmetic", "why_tests_cant": "pairs of arbitrary histories and rounding: floating point sums taken in a different order differ.", "anchors": ["src/zope/index/text/baseindex.py:BaseIndex.search,search_glob,search_phrase", "src/zope/index/text/okapiindex.py:OkapiIndex._python_search_wids", "src/zope/index/text/cosineindex.py:CosineIndex._search_wids", "src/zope/index/text/lexicon.py:Lexicon.sourceToWordIds", "src/zope/index/text/textindex.py:TextIndex.apply"]}
{"id": "C67", "title": "Calls of index_doc that fail", "statement": "If index_doc(docid, text) fails because the lexicon cannot process the text (for instance a text that is not a string), the exception reaches the caller; the cosine index is left as if the call had not been made. The Okapi index is left likewise except for its total document length, which loses the length of the document that was to be replaced: what is found stays right while that length is positive, and otherwise searches may raise ZeroDivisionError. An index_doc that fails because word ids have run out leaves a document that is found but cannot be unindexed.", "quantifier": "every history with successful and failed calls, every exception, every effect of the failed call on the lexicon", "why_tests_cant": "failures at any point of arbitrary histories, including repeated ones.", "anchors": ["src/zope/index/text/okapiindex.py:OkapiIndex._reindex_doc,index_doc,_change_doc_len", "src/zope/index/text/baseindex.py:BaseIndex.index_doc,_reindex_doc", "src/zope/index/text/widcode.py:_encode"]}
{"id": "C68", "title": "Concurrent transactions on a field index", "statement": "When transactions on a field index stored in a ZODB commit concurrently, with the conflict resolution of BTrees, every committed version of the index is consistent: it answers as an index in which exactly its documents were indexed. A transaction sees the version it began with and its own changes. Its commit keeps, for each document, its own change or that of the transactions committed meanwhile, and never both; a transaction that began with the latest version never meets a conflict. If nobody else touched its documents the effect is that of running it at commit time. Transactions are not serializable in general, and a clear makes concurrent changes disappear.", "quantifier": "every schedule of transactions, each any sequence of index_doc, unindex_doc and clear on any earlier version", "why_tests_cant": "all interleavings of all transactions.", "anchors": ["src/zope/index/field/index.py:FieldIndex.clear,index_doc,unindex_doc"]}
{"id": "C69", "title": "Concurrent transactions on a keyword index", "statement": "When transactions on a keyword index stored in a ZODB commit concurrently, with the conflict resolution of BTrees, every committed version answers as an index in which exactly its documents were indexed, and a commit keeps, for each document, the transaction's change or the others', provided posting sets are never converted between Set and TreeSet (tree_threshold at most 1, or no transaction sees a keyword with tree_threshold documents). With the default threshold a document indexed concurrently with such a conversion, by index_doc or optimize, is lost: the index has it but does not find it, and unindex_doc does not remove it. For a single client transactions make no difference.", "quantifier": "every schedule of transactions, each any sequence of index_doc, unindex_doc, clear and optimize on any earlier version", "why_tests_cant": "all interleavings of all transactions.", "anchors": ["src/zope/index/keyword/index.py:KeywordIndex.index_doc,unindex_doc,_insert_forward,optimize,clear"]}
{"id": "C70", "title": "Concurrent transactions on a lexicon", "statement": "When transactions that call sourceToWordIds on a lexicon stored in a ZODB commit concurrently, with the conflict resolution of BTrees and Length, a commit has precisely the effect of the same calls made on the latest version, so every version is the lexicon of a single client who indexed the texts of the committed transactions in that order; ids are permanent. There is a conflict precisely if the transaction meets a new word and somebody has added one of its new words since it began, or any word since it read the word counter. With snapshot isolation, of two concurrent transactions that add words only one commits.", "quantifier": "every pipeline and every schedule of transactions, each any list of texts on any earlier version, reading the counter of that or any later version", "why_tests_cant": "all interleavings of all transactions.", "anchors": ["src/zope/index/text/lexicon.py:Lexicon.sourceToWordIds,_getWordIdCreate,_new_wid"]}
{"id": "C71", "title": "Concurrent transactions on a text index", "statement": "When transactions that index, reindex, unindex and clear documents of an Okapi text index stored in a ZODB commit concurrently, with the conflict resolution of BTrees and Length, a commit combines the transaction's changes document by document with those others committed since it began (or, if one of them cleared the index, the changes of one side are lost); every committed version cannot be told apart, by document lookups, counts, searches and query weights, from the index of a single client with the same documents; a transaction whose documents nobody else changed has the effect of the same calls on the latest version; a transaction on the latest version never meets a conflict, so for a single client transactions make no difference. A transaction about other documents, with other words, than those attempted since it began meets no conflict unless the lexicon objects; if one side cleared the index there is no conflict unless both did or the lexicon objects. Of two concurrent transactions that use a word no document had before, only one commits.", "quantifier": "every pipeline, every schedule of transactions (each any list of calls on any earlier version, reading the word counter at that or any later version) with fewer than 2**28 distinct words and texts of at most 2**24 words", "why_tests_cant": "all interleavings of all transactions.", "anchors": ["src/zope/index/text/baseindex.py:BaseIndex.index_doc,unindex_doc,_reindex_doc,clear,_add_wordinfo,_del_wordinfo", "src/zope/index/text/okapiindex.py:OkapiIndex.index_doc,unindex_doc,_change_doc_len", "src/zope/index/text/lexicon.py:Lexicon.sourceToWordIds"]}
{"id": "C72", "title": "Sorting one document at a time", "statement": "FieldIndex.sort is lazy: it returns an iterator, and nothing (not even checking limit) happens before the first next(); the documents are those of the index at that moment, not of the moment sort was called. While the iterator is consumed, calls about other documents do not matter, and clear() and everything after it do not matter. Whatever calls are made, no document is yielded twice, only those asked for are and never more than limit. If few of many documents are asked for, all are decided at the first next(); otherwise, without clear(), a document is indexed at the moment it is yielded, and, when all are sorted, one that stays indexed is not missed. It is false that documents come in the order of values they had at some time.", "quantifier": "every history, every list of docids, direction and limit, every interleaving of next() with index_doc, unindex_doc and clear (when the iterator walks over the forward index, calls before a clear leave the rest unspecified)", "why_tests_cant": "all interleavings of consuming and updating.", "anchors": ["src/zope/index/field/sorting.py:SortingIndexMixin.sort", "src/zope/index/field/index.py:FieldIndex.clear"]}
{"id": "C73", "title": "What a ZODB saves of a topic index", "statement": "For a topic index stored in a ZODB, addFilter, delFilter, clear, index_doc and unindex_doc are saved by commit and undone by abort, and a restart, or the cache dropping objects, changes nothing. For clearFilters and setExpression this holds only if the filters concerned are passed to addFilter again before the transaction ends; otherwise, since filters are not persistent objects, clearFilters and every index_doc and unindex_doc after it may be lost although they were committed, and abort may not undo them.", "quantifier": "every history of calls, commits, aborts, cache evictions and restarts; every evaluation of filter expressions; every sharing of BTree buckets by filters", "why_tests_cant": "all histories and crash points; the tests do not use a database.", "anchors": ["src/zope/index/topic/index.py:TopicIndex.addFilter,delFilter,clear,clearFilters,index_doc,unindex_doc", "src/zope/index/topic/filter.py:FilteredSetBase.clear,setExpression,unindex_doc", "src/zope/index/topic/filter.py:PythonFilteredSet.index_doc"]}
{"id": "C74", "title": "Queries change nothing", "statement": "A query on a text index leaves the index as it was, and the mapping it returns belongs to the caller: no later call on the index changes it, and changing it does not change the index. In a history of updates and queries the queries can be left out without changing any later result. This holds for Okapi indexes always; for cosine indexes when no word's weight is exactly 1, which is always so in exact arithmetic. In floating point arithmetic a weight can be exactly 1.0, and then a query changes the stored weights of a word, so that later searches find other scores.", "quantifier": "every history of updates and queries, every query, every pipeline and arithmetic", "why_tests_cant": "all histories; the failing case needs particular numbers of documents, hundreds of millions.", "anchors": ["src/zope/index/text/textindex.py:TextIndex.apply", "src/zope/index/text/cosineindex.py:CosineIndex._search_wids", "src/zope/index/text/setops.py:_trivial,mass_weightedIntersection,mass_weightedUnion", "src/zope/index/text/baseindex.py:BaseIndex.search,search_glob,search_phrase", "src/zope/index/text/parsetree.py:executeQuery"]}
{"id": "C75", "title": "Text indexes stored by old releases", "statement": "A text index stored by a release that did not yet have the word counter, the document counter, the total length as a Length object or the counter of the lexicon can be used: no index_doc, unindex_doc or clear raises because of it, and after every history of such calls the documents, postings, weights and total length are those of an index of the present release with the same history. documentCount() and wordCount() raise NotImplementedError until the counter is made, and are right from then on; the document counter is made by the first call that adds or removes a document or clears the index, the word counter by the first that adds a document, clears the index or changes which words occur in it. Searches and queries give what they would in the present release, in cosine indexes always, in Okapi indexes once the document counter is made. Before that, even after documents were indexed again, a search in an Okapi index for a word of the documents raises NotImplementedError.", "quantifier": "every set of missing counters, every history before the index was stored and since, every pipeline, query and arithmetic", "why_tests_cant": "all stored states and all histories; the tests upgrade a few hand-made objects by one call.", "anchors": ["src/zope/index/text/baseindex.py:BaseIndex.index_doc,unindex_doc,_add_wordinfo,_mass_add_wordinfo,_del_wordinfo,wordCount,documentCount", "src/zope/index/text/okapiindex.py:OkapiIndex._change_doc_len,_search_wids,query_weight", "src/zope/index/text/lexicon.py:Lexicon.wordCount,_new_wid"]}
{"id": "C76", "title": "What a ZODB saves of a text index", "statement": "A text index and its lexicon stored in a ZODB lose nothing and keep nothing they should not: whatever is committed, aborted, dropped from the object cache or restarted between the calls, the index in memory is the one that only the calls not undone would have made in memory, a new connection reads the one that the committed calls would have made, and each call returns or raises what it would there. In particular, changes made in place to the dicts in which the documents of rare words are kept, which are not Persistent, are saved, whichever keys share a bucket, and so is the conversion of a dict into an IF BTree.", "quantifier": "every list of calls, commits, aborts, cache evictions and restarts, every distribution of keys over buckets, every pipeline and arithmetic, Okapi and cosine indexes", "why_tests_cant": "the tests use no database; a missing store is visible only after an abort, eviction or restart at the right moment.", "anchors": ["src/zope/index/text/baseindex.py:BaseIndex._add_wordinfo,_mass_add_wordinfo,_del_wordinfo,clear,index_doc,unindex_doc", "src/zope/index/text/okapiindex.py:OkapiIndex._change_doc_len", "src/zope/index/text/lexicon.py:Lexicon._getWordIdCreate,_new_wid"]}
{"id": "C77", "title": "Document ids out of range in field, keyword and topic indexes", "statement": "When index_doc of a field or keyword index is called with an integer that the BTree family of the index cannot store (2**40 in a 32 bit family), it raises TypeError and afterwards every search, documentCount(), has_doc and sort answers as if the call had not been made, and no later call fails because of it, as long as the values passed can be ordered. The call does leave something behind: wordCount() counts the value of the failed call (of a keyword index, its least keyword) until a document has it or the index is cleared, and if that value cannot be ordered with those of the documents, later valid calls raise TypeError. unindex_doc of such an id does nothing. A topic index ignores index_doc of such an id without an exception, but unindex_doc raises TypeError if there is any filter; its contents are as if neither had been called.", "quantifier": "every set of storable ids, every history of calls, every query, every type of values, keywords, filters", "why_tests_cant": "all histories; the tests use no ids outside the range of the family.", "anchors": ["src/zope/index/field/index.py:FieldIndex.index_doc,unindex_doc,wordCount", "src/zope/index/field/sorting.py:SortingIndexMixin.sort", "src/zope/index/keyword/index.py:KeywordIndex.index_doc,unindex_doc,_insert_forward", "src/zope/index/topic/filter.py:FilteredSetBase.unindex_doc,PythonFilteredSet.index_doc", "src/zope/index/topic/index.py:TopicIndex.index_doc,unindex_doc"]}
{"id": "C78", "title": "Document ids out of range in text indexes", "statement": "When index_doc of a text index is called with an integer that the BTree family of the index cannot store, it raises TypeError. The documents, their words, has_doc and documentCount() are afterwards as if the call had only used the lexicon, and so are the answers to searches, phrase searches and glob searches for words that were in no such text. But the call leaves the id behind in the postings of words: if neither a word of its text nor the words before it in that text were in the index, every search for that word raises until clear(), whatever is indexed or unindexed meanwhile; wordCount() may be wrong; and after ten entries index_doc of a valid document with that word raises. A valid index_doc can fail for no other reason, and clear() repairs the index.", "quantifier": "every set of storable ids, every history of calls of an Okapi or cosine index in which callers go on after exceptions, every pipeline, every query, both versions of the Okapi scorer", "why_tests_cant": "all histories; the tests use no ids outside the range of the family.", "anchors": ["src/zope/index/text/baseindex.py:BaseIndex.index_doc,_reindex_doc,unindex_doc,_mass_add_wordinfo,_add_wordinfo,has_doc,search,search_glob,search_phrase", "src/zope/index/text/okapiindex.py:OkapiIndex.index_doc,_reindex_doc,unindex_doc,_search_wids", "src/zope/index/text/cosineindex.py:CosineIndex._search_wids"]}
{"id": "C79", "title": "Topic filters shared by indexes; topic results that are sets in use", "statement": "A filter added to several topic indexes (or called directly) selects a document iff it was indexed, by the filter or by an index holding it at that moment, with an object satisfying the expression of that moment, since the filter was last cleared and the document last unindexed, again by the filter or by an index holding it then; searches of every index answer from these contents. So calls of one index leave the answers of another unchanged unless the two share a filter. The set returned by a search is the caller's own, never changes and may be modified without effect on any index, except when an 'and' search names exactly one filter of the index that is not empty: it returns the set of that filter, which shows later indexing and unindexing, and through which the caller can change what all indexes with this filter answer, until the filter is next cleared; then it no longer changes.", "quantifier": "every history of creating, adding, deleting, clearing and calling filters and indexes, any number of both, every expression evaluator, every query", "why_tests_cant": "all interleavings of calls on indexes sharing filters, and all later calls while a result is held; the tests use one index at a time and look at a result immediately.", "anchors": ["src/zope/index/topic/index.py:TopicIndex.addFilter,delFilter,clear,clearFilters,index_doc,unindex_doc,search", "src/zope/index/topic/filter.py:FilteredSetBase.clear,unindex_doc,getIds,setExpression,PythonFilteredSet.index_doc"]}
{"id": "C80", "title": "Several text indexes, and the objects they share", "statement": "Lexicons may be shared by indexes, and indexes by TextIndex objects, in any combination. TextIndex() has a lexicon and an Okapi index of its own, TextIndex(lexicon) an Okapi index of its own on that lexicon, TextIndex(index=index) uses that index and its lexicon, TextIndex(lexicon, index) parses queries with the lexicon and asks the index. Whatever calls a program makes on them, in any order, none raises while every lexicon has fewer than 2^28 words; an index contains the documents given to it, directly or through any TextIndex that has it, and no others; and its answers, scores included, are those of an index that has a lexicon for itself and got the same calls (phrases as in C66). A lexicon has the words of all texts given to it by any of its users.", "quantifier": "every program of calls that make lexicons, Okapi and cosine indexes and TextIndex objects and call their methods, any number of objects and calls, every pipeline, every arithmetic satisfying the laws of C65", "why_tests_cant": "all ways of sharing objects and all interleavings of calls; the tests use a lexicon with one index.", "anchors": ["src/zope/index/text/textindex.py:TextIndex.__init__,index_doc,unindex_doc,clear,apply", "src/zope/index/text/baseindex.py:BaseIndex.__init__,index_doc,_reindex_doc,unindex_doc,clear", "src/zope/index/text/lexicon.py:Lexicon.__init__,sourceToWordIds"]}
{"id": "C81", "title": "Scores are finite positive numbers in IEEE arithmetic", "statement": "In binary64 arithmetic, with scores stored as C floats, every score that TextIndex.apply returns with a document, from an Okapi index (Python or C scorer) or from a cosine index, is a finite number greater than zero: between 2^-134 and 2^42, never NaN, infinite or zero by underflow. The logarithm need only be right within a factor of two. This is for texts of at most 2^24 words, at most 2^64 documents, and queries that stand for at most 2^24 words.", "quantifier": "every history of an index within those limits, every lexicon pipeline for texts and for queries, every query string that parses, every document returned, every logarithm right within a factor of two from 1 on and not negative there", "why_tests_cant": "rounding, overflow and underflow depend on the numbers of words and documents, which have no bound a test could exhaust; the tests compare a few scores.", "anchors": ["src/zope/index/text/textindex.py:TextIndex.apply", "src/zope/index/text/okapiindex.py:OkapiIndex._search_wids,_python_score,query_weight", "src/zope/index/text/okascore.c:score", "src/zope/index/text/cosineindex.py:CosineIndex._search_wids,_get_frequencies,query_weight", "src/zope/index/text/setops.py:mass_weightedIntersection,mass_weightedUnion", "src/zope/index/text/parsetree.py:executeQuery"]}
{"id": "C82", "title": "The C scorer leaks no references, uses no freed object and reports errors", "statement": "Whatever its arguments are and whatever Python API call fails during it, okascore.score owns no reference when it ends except the one to None that it returns; it uses only objects that are arguments, that it owns or that belong to a tuple it owns, and gives back only references it owns. When it returns NULL an exception is set. When it returns None no exception is set, provided its second argument has a length and its numbers convert to double (without that it can return None with an exception set). With proper arguments, fewer than 2^31, it stores what the scoring loop computes.", "quantifier": "every environment: every answer or failure of every API call, depending on everything that happened before; every arithmetic", "why_tests_cant": "a failure can happen at each call of each round, and a leaked reference or a use of a freed object need not have any visible effect in a test.", "anchors": ["src/zope/index/text/okascore.c:score"]}
{"id": "C83", "title": "Concurrent transactions on a topic index combine filter by filter and document by document", "statement": "When transactions on a topic index stored in a ZODB commit one after another, a commit combines, for each filter and each document, the change of the transaction with those others committed since it began (a filter added, replaced or removed is as the side left it that did so; after a clear one side's changes are lost). If meanwhile nobody changed the filters or where the documents stand that the transaction indexes and unindexes, the commit is as good as making its calls on the latest version. Transactions that only index and unindex clash exactly if both changed the documents of one filter and the same document was changed, or no documents are left on one side or after both. A transaction that began with the latest version never clashes, and one client sees exactly what it would see without transactions. Commits need not have the effect of any serial order (refuted).", "quantifier": "every schedule of any number of transactions, each begun with any earlier version and making any calls of addFilter, delFilter, clear, index_doc and unindex_doc; every evaluation of expressions, including ones that raise", "why_tests_cant": "the property ranges over all interleavings of transactions of any length; a test runs a few.", "anchors": ["src/zope/index/topic/index.py:TopicIndex", "src/zope/index/topic/filter.py:FilteredSetBase", "src/zope/index/topic/filter.py:PythonFilteredSet"]}
{"id": "C84", "title": "Concurrent transactions on a cosine text index combine document by document", "statement": "When transactions on a cosine text index and its lexicon stored in a ZODB commit one after another, a commit combines, document by document, the changes of the transaction with those others committed since it began (after a clear one side's changes are lost), and the lexicon becomes as if the texts had been indexed with the latest version. Every committed version answers has_doc, get_words, the counts, searches (with scores) and query weights exactly as the index of a single client with the same documents. If nobody else changed the documents that a transaction is about and nobody cleared the index, its commit is as good as its calls made on the latest version. Of two concurrent transactions that use a word new to the index only one commits; transactions about unrelated documents and words do not clash unless the lexicon objects. A transaction that began with the latest version never clashes, and one client sees what it would see without transactions. Commits need not have the effect of any serial order (refuted).", "quantifier": "every schedule of any number of transactions, each begun with any earlier version, reading the counter of the lexicon at any version in between, and making any calls of index_doc, unindex_doc and clear; every pipeline; every arithmetic meeting the stated laws, IEEE arithmetic included", "why_tests_cant": "the property ranges over all interleavings of transactions of any length and all texts; a test runs a few.", "anchors": ["src/zope/index/text/cosineindex.py:CosineIndex", "src/zope/index/text/baseindex.py:BaseIndex", "src/zope/index/text/lexicon.py:Lexicon"]}
{"id": "C85", "title": "What a ZODB saves of field and keyword indexes", "statement": "A field or keyword index stored in a ZODB loses nothing and keeps nothing it should not: whatever is committed, aborted, dropped from the object cache or restarted between the calls, the index in memory is the one that only the calls not undone would have made in memory, a new connection reads the one that the committed calls would have made, and each call returns or raises what it would there. This includes changes made in place to sets of document ids, sets given up and made again, the conversions between Set and TreeSet, assignments to tree_threshold and clear.", "quantifier": "every sequence of calls (index_doc, unindex_doc, clear; for keyword indexes also optimize and assignments to tree_threshold, and every normalization), commits, aborts, cache evictions and restarts, whichever keys share a bucket", "why_tests_cant": "the property ranges over all sequences of calls and transaction boundaries and all layouts of the BTrees; a test runs a few.", "anchors": ["src/zope/index/field/index.py:FieldIndex", "src/zope/index/keyword/index.py:KeywordIndex"]}
{"id": "C86", "title": "The terms of a query", "statement": "terms() of the tree of a parsed query, from which apply computes the weight by which it divides the scores, lists exactly the atoms of the query that are not negated (neither written with a hyphen nor part of what follows a NOT) and do not consist of stop words, in query order and as often as they occur; a quoted or hyphenated atom of several words is one term. In particular what is negated does not count, however deeply nested, and a query that parses always has a term.", "quantifier": "every query string that parses; every lexicon (parseTerms and isGlob), every notion of white space without the hyphen, every str.upper", "why_tests_cant": "the property ranges over all query strings, nestings and lexicons; a test tries a few queries.", "anchors": ["src/zope/index/text/parsetree.py:ParseTreeNode.terms", "src/zope/index/text/parsetree.py:NotNode.terms", "src/zope/index/text/queryparser.py:QueryParser", "src/zope/index/text/interfaces.py:IQueryParseTree.terms"]}
{"id": "C87", "title": "The answers of a field index are the caller's own", "statement": "The set that apply of a field index returns belongs to the caller: whatever the caller does to it (insert, remove, clear, update), at once or after later calls, changes neither the index nor the set of any other query, also when a query covered a single value or two queries were the same; and index_doc, unindex_doc and clear never change a set that was returned earlier. So the index is always that of the calls made to it, and every returned set is what it was when returned but for the caller's own changes.", "quantifier": "every order of indexed values; every sequence of index_doc, unindex_doc and clear calls, queries, and arbitrary changes to any of the sets returned so far", "why_tests_cant": "sharing between an answer and the index shows only when the caller changes the one and then looks at the other, in one of unboundedly many interleavings; a test tries a few.", "anchors": ["src/zope/index/field/index.py:FieldIndex.apply", "src/zope/index/field/index.py:FieldIndex.index_doc", "src/zope/index/field/index.py:FieldIndex.unindex_doc", "src/zope/index/field/index.py:FieldIndex.clear"]}
{"id": "C88", "title": "A range query, sorted", "statement": "If no document has the value None and the bounds can be compared with the values, passing the answer of apply((lo, hi)) to sort of the same field index never raises, whatever strategy sort chooses and in whatever order the answer is passed. Ascending, the result is the list of exactly the documents with lo <= value <= hi by value and, for equal values, by document id, cut off after limit; descending, it is sorted by value, has min(limit, number of answers) distinct documents, all in the range, and no document in the range that is left out has a greater value than one returned. With the value None, sort may raise TypeError.", "quantifier": "every order of values; every history of index_doc, unindex_doc and clear; all bounds; every limit of at least 1 or none; every strategy of sort; every enumeration of the answer", "why_tests_cant": "it ranges over all histories, bounds, limits and, through the sizes of index and answer, over the three strategies of sort; a test tries a few small indexes, which all take the same strategy.", "anchors": ["src/zope/index/field/index.py:FieldIndex.apply", "src/zope/index/field/sorting.py:SortingIndexMixin.sort"]}
