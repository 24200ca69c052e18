{
 "claims": [
  {
   "property": "C01",
   "status": "proved",
   "theorems": [
    "C01_lossless",
    "C01_fffd_refuted"
   ],
   "note": "C01_fffd_refuted shows the U+FFFD condition is needed."
  },
  {
   "property": "C02",
   "status": "proved",
   "theorems": [
    "C02_offsets"
   ],
   "note": ""
  },
  {
   "property": "C03",
   "status": "proved",
   "theorems": [
    "C03_framing",
    "C03_indexes"
   ],
   "note": "C03_indexes holds for any length."
  },
  {
   "property": "C04",
   "status": "proved",
   "theorems": [
    "C04_omit"
   ],
   "note": "No well-formedness needed."
  },
  {
   "property": "C05",
   "status": "proved",
   "theorems": [
    "C05_total"
   ],
   "note": "Keywords are valid UTF-8 by well-formedness; see C49 for others."
  },
  {
   "property": "C06",
   "status": "proved",
   "theorems": [
    "C06_normal_optimal",
    "C06_limit_refuted"
   ],
   "note": "C06_limit_refuted shows the length limit is exact: at 32768 runes a cost can wrap around and a worse segmentation is returned."
  },
  {
   "property": "C07",
   "status": "proved",
   "theorems": [
    "C07_search_optimal"
   ],
   "note": "The length limit is exact (C16_limit_refuted: at 31334 runes the result need not even cover the input)."
  },
  {
   "property": "C08",
   "status": "proved",
   "theorems": [
    "C08_extended"
   ],
   "note": "Any length."
  },
  {
   "property": "C09",
   "status": "proved",
   "theorems": [
    "C09_other_modes"
   ],
   "note": ""
  },
  {
   "property": "C10",
   "status": "proved",
   "theorems": [
    "C10_wakati",
    "C10_wakati_omit"
   ],
   "note": ""
  },
  {
   "property": "C11",
   "status": "proved",
   "theorems": [
    "C11_provenance",
    "C11_runes"
   ],
   "note": ""
  },
  {
   "property": "C12",
   "status": "proved",
   "theorems": [
    "C12_user_priority"
   ],
   "note": ""
  },
  {
   "property": "C13",
   "status": "proved",
   "theorems": [
    "C13_unknown"
   ],
   "note": ""
  },
  {
   "property": "C14",
   "status": "proved",
   "theorems": [
    "C14_history"
   ],
   "note": "Heap-level model of pools, lattices and nodes. Any contents of pooled nodes, any freed lattices in the pool, any sequence of earlier calls of Analyze, Wakati and AnalyzeGraph; the dictionaries satisfy wf_dict/wf_udict (and wf_data for graph calls)."
  },
  {
   "property": "C15",
   "status": "proved",
   "theorems": [
    "C15_no_interference",
    "C15_terminates",
    "C15_completes",
    "C15_no_race",
    "C15_graph_text"
   ],
   "note": "Interleavings of single memory accesses and pool operations under sequential consistency; any number of goroutines, each with any list of calls of Analyze, Wakati and AnalyzeGraph (each graph call with a writer of its own)."
  },
  {
   "property": "C16",
   "status": "partial",
   "theorems": [
    "C16_refuted",
    "C16_limit_refuted",
    "C16_lossless_partial",
    "C16_framing_partial",
    "C16_suffix_partial"
   ],
   "note": "False of the code: costs saturate at 2^31-1 on long inputs and a node no path reaches can win (C16_refuted); the limits in C01 and C03 are the exact ones (C16_limit_refuted). Proved for inputs of any length in which every position ends some candidate word; in general the output covers a suffix of the input."
  },
  {
   "property": "C17",
   "status": "partial",
   "theorems": [
    "C17_graph_refuted",
    "C17_graph_partial"
   ],
   "note": "False of the code: AnalyzeGraph leaves Index and Position 0 and ignores OmitBosEos. Everything else agrees."
  },
  {
   "property": "C18",
   "status": "proved",
   "theorems": [
    "C18_closed",
    "C18_best_path",
    "C18_bos_eos"
   ],
   "note": "C18_closed holds in every mode; C18_best_path for Normal and Search. C18_extended_no_path shows that in Extended mode the unknown words of the best path are not drawn."
  },
  {
   "property": "C19",
   "status": "partial",
   "theorems": [
    "C19_refuted",
    "C19_document_partial"
   ],
   "note": "False of the code: Dot copies surfaces and parts of speech into quoted labels unescaped, so an input holding a quotation mark gives a text that graphviz cannot read. Proved when neither the input nor the parts of speech hold a quotation mark, for every way of printing node addresses without quotation marks and backslashes."
  },
  {
   "property": "C20",
   "status": "proved",
   "theorems": [
    "C20_feature_at",
    "C20_any"
   ],
   "note": ""
  },
  {
   "property": "C21",
   "status": "proved",
   "theorems": [
    "C21_pos"
   ],
   "note": ""
  },
  {
   "property": "C22",
   "status": "proved",
   "theorems": [
    "C22_named"
   ],
   "note": ""
  },
  {
   "property": "C23",
   "status": "proved",
   "theorems": [
    "C23_equal_features",
    "C23_token_equal",
    "C23_token_features_pos"
   ],
   "note": "Equality of lists/fields is an equivalence; the functions are shown to decide it."
  },
  {
   "property": "C24",
   "status": "proved",
   "theorems": [
    "C24_token_data"
   ],
   "note": ""
  },
  {
   "property": "C25",
   "status": "proved",
   "theorems": [
    "C25_features_match"
   ],
   "note": ""
  },
  {
   "property": "C26",
   "status": "partial",
   "theorems": [
    "C26_wildcard_unsound_refuted",
    "C26_wildcard_incomplete_refuted",
    "C26_wildcard_partial",
    "C26_found_partial",
    "C26_more_partial",
    "C26_right_partial"
   ],
   "note": "False of the code: a literal feature inserted after Any at the same position is attached to the Any edge, and Match follows only the first fitting edge. Proved: exactness for pattern lists without ambiguous wildcards; and for any list, a pattern matches all it covers unless an earlier pattern has a literal where it has Any, later patterns never take a match away, and nothing uncovered matches when at each depth the literals come before the wildcards."
  },
  {
   "property": "C27",
   "status": "proved",
   "theorems": [
    "C27_order",
    "C27_extensions"
   ],
   "note": ""
  },
  {
   "property": "C28",
   "status": "proved",
   "theorems": [
    "C28_run",
    "C28_drop_keep"
   ],
   "note": ""
  },
  {
   "property": "C29",
   "status": "proved",
   "theorems": [
    "C29_word_match",
    "C29_word_filter"
   ],
   "note": ""
  },
  {
   "property": "C30",
   "status": "proved",
   "theorems": [
    "C30_pos_filter"
   ],
   "note": "Patterns without ambiguous wildcards; the POS accessor must not panic (C50 shows it does not for tokens of Analyze)."
  },
  {
   "property": "C31",
   "status": "proved",
   "theorems": [
    "C31_yield",
    "C31_drop",
    "C31_concat",
    "C31_yield_drop",
    "C31_no_panic"
   ],
   "note": ""
  },
  {
   "property": "C32",
   "status": "proved",
   "theorems": [
    "C32_load",
    "C32_unique",
    "C32_new_filter",
    "C32_new_filter_error"
   ],
   "note": "bufio.Scanner and ScanLines are modelled; lines of 64 KiB or more make loading fail with ErrTooLong. The embedded asset contents are not modelled (any contents)."
  },
  {
   "property": "C33",
   "status": "proved",
   "theorems": [
    "C33_lossless",
    "C33_complete"
   ],
   "note": "Any reader script: chunk sizes, empty reads, EOF with or after the last bytes, read errors."
  },
  {
   "property": "C34",
   "status": "proved",
   "theorems": [
    "C34_strip",
    "C34_only_space"
   ],
   "note": "C34_only_space covers chunks that cut runes: then some white space may survive."
  },
  {
   "property": "C35",
   "status": "proved",
   "theorems": [
    "C35_contract",
    "C35_scanner"
   ],
   "note": ""
  },
  {
   "property": "C36",
   "status": "proved",
   "theorems": [
    "C36_sentences",
    "C36_decodings",
    "C36_ends",
    "C36_blanks"
   ],
   "note": "C36_sentences needs reads that end on rune boundaries; C36_decodings holds for any bytes and reads, counting bytes of a cut rune as runes. C36_blanks: the skipped white space is Unicode's White_Space, listed."
  },
  {
   "property": "C37",
   "status": "partial",
   "theorems": [
    "C37_doubled_refuted",
    "C37_blank_line_refuted",
    "C37_feeds_partial",
    "C37_double_partial"
   ],
   "note": "False of the code: the flag is not reset by runes that are kept, so a line feed ends a sentence that has had one line feed anywhere before. Proved: a single line feed never ends a sentence, two adjacent ones do."
  },
  {
   "property": "C38",
   "status": "partial",
   "theorems": [
    "C38_follower_refuted",
    "C38_line_feed_refuted",
    "C38_reads_partial"
   ],
   "note": "False of the code: followers at the start of a chunk and line feed pairs cut by a read are treated differently. C38_reads_partial proves it for reads cut before ordinary runes and texts in which no sentence holds two line feeds with text between them and text after them (lone_feeds), which is what ordinary lines and closed paragraphs are."
  },
  {
   "property": "C39",
   "status": "proved",
   "theorems": [
    "C39_tokens",
    "C39_empty",
    "C39_total",
    "C39_inert"
   ],
   "note": "The JSON decoder is a parameter, assumed to read a JSON object into the two fields as encoding/json documents; the model of encoding/json's decoder meets the assumption (C102_contract)."
  },
  {
   "property": "C40",
   "status": "proved",
   "theorems": [
    "C40_blocks",
    "C40_sentences",
    "C40_lines",
    "C40_restores"
   ],
   "note": "With -split the texts are those of the default splitter (C33-C36, C54, C55). C40_lines asks that no printed field contains a line feed."
  },
  {
   "property": "C41",
   "status": "partial",
   "theorems": [
    "C41_all_modes_refuted",
    "C41_json_partial"
   ],
   "note": "False of the code in Extended mode: the DUMMY tokens, which the text output prints, are left out of the JSON array. Proved for the other modes; with C40_blocks each block printed is the JSON array of the token data, read back by an independent JSON reader."
  },
  {
   "property": "C42",
   "status": "proved",
   "theorems": [
    "C42_dispatch",
    "C42_default",
    "C42_same",
    "C42_rejects",
    "C42_ends"
   ],
   "note": "Serving is a parameter of the model (C42_ends assumes that it returns, if at all started)."
  },
  {
   "property": "C43",
   "status": "proved",
   "theorems": [
    "C43_tokenize_rejects",
    "C43_lattice_rejects",
    "C43_server_rejects",
    "C43_sentence_rejects",
    "C43_one_meaning",
    "C43_tokenize_fails",
    "C43_empty_sysdict",
    "C43_server_serves",
    "C43_lattice_fails",
    "C43_server_fails",
    "C43_sentence_fails",
    "C43_option_check"
   ],
   "note": "Use of the named dictionary, input and mode: C40_blocks, C40_sentences, C61_lattice, C43_server_serves."
  },
  {
   "property": "C44",
   "status": "proved",
   "theorems": [
    "C44_new"
   ],
   "note": ""
  },
  {
   "property": "C45",
   "status": "proved",
   "theorems": [
    "C45_one_owner"
   ],
   "note": "Holds at every reachable state of every interleaving."
  },
  {
   "property": "C46",
   "status": "partial",
   "theorems": [
    "C46_refuted",
    "C46_finite_partial",
    "C46_ends_partial",
    "C46_reads_all_partial",
    "C46_writes_partial"
   ],
   "note": "False of the code: if dot ends, or is killed by the timeout, before it has read the whole graph, the copying goroutine stops without closing its end of the in-memory pipe and the handler blocks in Write for ever. Proved: all executions are finite, that is the only way to end without an answer, and a dot that reads all its input leads to an answer in every schedule."
  },
  {
   "property": "C47",
   "status": "partial",
   "theorems": [
    "C47_returns_partial",
    "C47_refuted",
    "C47_leak_refuted"
   ],
   "note": "False of the code: the command returns nil on cancellation without shutting the server down, so requests are still answered and the listener goroutine is left behind. Proved: it returns nil only when cancelled, an error only when the listener failed, can return in each of the two cases, and not otherwise."
  },
  {
   "property": "C48",
   "status": "partial",
   "theorems": [
    "C48_extended_refuted",
    "C48_extended_partial",
    "C48_runes_partial"
   ],
   "note": "False for invalid UTF-8 (bytes come back as U+FFFD); proved for valid UTF-8. C48_runes_partial: of any bytes the runes come back, each encoded anew."
  },
  {
   "property": "C49",
   "status": "partial",
   "theorems": [
    "C49_user_keyword_refuted",
    "C49_user_keyword_partial"
   ],
   "note": "False: a keyword that ends inside a rune of the input makes Analyze panic; proved for keywords that are non-empty valid UTF-8."
  },
  {
   "property": "C50",
   "status": "proved",
   "theorems": [
    "C50_no_panic"
   ],
   "note": ""
  },
  {
   "property": "C51",
   "status": "partial",
   "theorems": [
    "C12_extended_refuted",
    "C12_user_priority"
   ],
   "note": "False of the code: an unknown word that covers a user keyword is split into runes. Proved for tokens that are not runes of a split unknown word."
  },
  {
   "property": "C52",
   "status": "partial",
   "theorems": [
    "C52_pos_id_refuted",
    "C52_pos_id_partial"
   ],
   "note": "False of the code: the guard is int(id) > len instead of >=, so id = len panics; proved for larger ids."
  },
  {
   "property": "C53",
   "status": "partial",
   "theorems": [
    "C53_blanks_refuted",
    "C53_too_long_partial"
   ],
   "note": "False of the code: 64 KiB of blanks after an unfinished sentence give ErrTooLong and lose it. Proved for inputs under 64 KiB, and without SkipWhiteSpace when MaxRuneLen <= 16384."
  },
  {
   "property": "C54",
   "status": "partial",
   "theorems": [
    "C54_empty_refuted",
    "C54_nonempty_partial"
   ],
   "note": "False of the code for readers that return the last bytes together with EOF (and for a blank delimiter)."
  },
  {
   "property": "C55",
   "status": "partial",
   "theorems": [
    "C55_valid_refuted",
    "C55_valid_partial",
    "C55_brief_partial"
   ],
   "note": "False of the code: the bytes of a rune cut by the end of the buffer count as runes, so MaxRuneLen can be reached inside a rune. Proved when the reads end on rune boundaries; and for reads that end anywhere, for each sentence of fewer than MaxRuneLen bytes whose predecessor also has fewer (unless U+FFFD is a delimiter or follower, or the space is a delimiter and skipped, which C55_sober_example shows to be needed)."
  },
  {
   "property": "C56",
   "status": "proved",
   "theorems": [
    "C56_features"
   ],
   "note": ""
  },
  {
   "property": "C57",
   "status": "proved",
   "theorems": [
    "C57_graph"
   ],
   "note": ""
  },
  {
   "property": "C58",
   "status": "partial",
   "theorems": [
    "C58_tokenize_usage_refuted",
    "C58_tokenize_usage_partial",
    "C58_server_usage",
    "C58_lattice_usage",
    "C58_sentence_usage"
   ],
   "note": "False of the code for tokenize: its usage line offers -userdict (the flag is -udict) and -simple false (the value of a boolean flag must follow an equals sign). Proved for the rest of that line and for the other commands."
  },
  {
   "property": "C59",
   "status": "partial",
   "theorems": [
    "C59_error_refuted",
    "C59_answer_refuted",
    "C59_error_partial",
    "C59_answer_partial",
    "C59_text",
    "C59_phrase",
    "C59_modes"
   ],
   "note": "False of the code: the error text is put between quotation marks unescaped, so bodies such as {'sentence':\"a\"} are answered with text that is not JSON; the Content-Type is text/plain. C59_answer_partial says exactly for which bodies the answer is JSON and what it says then; C59_text gives the text, JSON or not, for every body with a byte that cannot be part of a value; all modes but Search and Extended are Normal."
  },
  {
   "property": "C60",
   "status": "proved",
   "theorems": [
    "C60_prompt"
   ],
   "note": ""
  },
  {
   "property": "C61",
   "status": "proved",
   "theorems": [
    "C61_lattice"
   ],
   "note": "The graph itself: C18, C56, C57."
  },
  {
   "property": "C62",
   "status": "proved",
   "theorems": [
    "C62_sentence"
   ],
   "note": ""
  },
  {
   "property": "C63",
   "status": "proved",
   "theorems": [
    "C63_page"
   ],
   "note": "The HTML templates are not modelled; dot is any function from the graph to its output."
  },
  {
   "property": "C64",
   "status": "proved",
   "theorems": [
    "C64_default",
    "C64_options"
   ],
   "note": "The two embedded files are copied byte for byte into Assets.v; the lists of the specification are written out in SpecLucene.v."
  },
  {
   "property": "C65",
   "status": "proved",
   "theorems": [
    "C65_read_back",
    "C65_distinct",
    "C65_one_line"
   ],
   "note": "fmt's %d, %q and strconv.Quote are modelled from the standard library's source; strconv.IsPrint is any predicate that is false on control characters."
  },
  {
   "property": "C66",
   "status": "partial",
   "theorems": [
    "C66_mode_names_refuted",
    "C66_mode_names_partial",
    "C66_distinct"
   ],
   "note": "False of the code: Extended.String() is \"extend\", which -mode rejects with exit status 1. Proved for Normal and Search; names are distinct for all integers."
  },
  {
   "property": "C67",
   "status": "proved",
   "theorems": [
    "C67_cut",
    "C67_scan"
   ],
   "note": "Every input has a cut and the package-level ScanSentences makes that cut; the marks and closers are given as text, independently of the code's lists. C67_scan is for one call on the bytes at hand; C33-C38 speak of whole readers."
  },
  {
   "property": "C68",
   "status": "proved",
   "theorems": [
    "C68_chosen",
    "C68_unique"
   ],
   "note": "Normal and Search mode up to the lengths of C06 and C07 (32767 and 31333 runes, exact limits); Extended mode follows through C08. The rule is an independent relation on segmentations and is shown to leave exactly one."
  },
  {
   "property": "C69",
   "status": "partial",
   "theorems": [
    "C69_refuted",
    "C69_read_partial"
   ],
   "note": "False of the code: a backslash (or quotation mark, see C19) of the input is copied unescaped into the label. Proved for inputs and parts of speech without quotation marks, backslashes and ampersands."
  },
  {
   "property": "C70",
   "status": "proved",
   "theorems": [
    "C70_patterns",
    "C70_text"
   ],
   "note": "A feature beginning with spaces can make different filters look alike (C70_example)."
  },
  {
   "property": "C71",
   "status": "proved",
   "theorems": [
    "C71_requests",
    "C71_completes",
    "C71_finite"
   ],
   "note": "net/http, the JSON decoder and dot are parameters; the demo page's handling of a dot that fails or hangs is C46."
  },
  {
   "property": "C72",
   "status": "partial",
   "theorems": [
    "C72_others_refuted",
    "C72_rebuild_refuted",
    "C72_once_partial",
    "C72_completes_partial"
   ],
   "note": "False of the code: Build does not reset the lists of an earlier Build, so a lattice that is built twice reports words of the earlier input, and after Free so does a later Analyze. Proved when no lattice is built more than once."
  },
  {
   "property": "C73",
   "status": "proved",
   "theorems": [
    "C73_page",
    "C73_not_found",
    "C73_not_started",
    "C73_tags"
   ],
   "note": "As read by an independent HTML reader. The picture is any text that can stand among elements and has no rows, cells or strong elements. The handler is assumed to get to the end of writing to dot (see C46)."
  },
  {
   "property": "C74",
   "status": "partial",
   "theorems": [
    "C74_mode_refuted",
    "C74_text_refuted",
    "C74_form_partial",
    "C74_total_partial",
    "C74_tags_partial"
   ],
   "note": "False of the code: the template compares the mode with \"search\" and \"extended\" while its own form sends \"Search\" and \"Extended\", so Normal is always on; and a line feed at the start of the sentence is dropped by browsers. Proved otherwise."
  },
  {
   "property": "C75",
   "status": "proved",
   "theorems": [
    "C75_calls_end",
    "C75_handlers_end"
   ],
   "note": "No hypotheses about the dictionaries, except that the search of the keyword index is the contract of the library (a total function)."
  },
  {
   "property": "C76",
   "status": "proved",
   "theorems": [
    "C76_panics",
    "C76_completes",
    "C76_finite"
   ],
   "note": "No hypotheses about the dictionaries. The pools may hold whatever earlier calls left."
  },
  {
   "property": "C77",
   "status": "proved",
   "theorems": [
    "C77_connections",
    "C77_completes",
    "C77_finite"
   ],
   "note": "No hypotheses about the dictionaries. The dot process and the pipe that a panicking demo handler leaves behind are not modelled."
  },
  {
   "property": "C78",
   "status": "proved",
   "theorems": [
    "C78_tokenize",
    "C78_server",
    "C78_lattice",
    "C78_sentence",
    "C78_usage_lines",
    "C78_commands"
   ],
   "note": "letters_printable: strconv.IsPrint holds of visible ASCII. The usage line of tokenize is read as written; that two of its items are refused is C58."
  },
  {
   "property": "C79",
   "status": "partial",
   "theorems": [
    "C79_lattice",
    "C79_server",
    "C79_sentence",
    "C79_tokenize_partial",
    "C79_tokenize_refuted",
    "C79_default_partial",
    "C79_checks",
    "C79_one_fault",
    "C79_no_dictionary"
   ],
   "note": "False of the code for tokenize, which ends with an empty line instead of the reason, and for kagome without the name of a command, whose text does not depend on the fault. Proved for lattice, server and sentence, for the errors of all OptionCheck functions, and for faults of the flag syntax in tokenize."
  },
  {
   "property": "C80",
   "status": "proved",
   "theorems": [
    "C80_version"
   ],
   "note": "debug.ReadBuildInfo is a parameter."
  },
  {
   "property": "C81",
   "status": "proved",
   "theorems": [
    "C81_one",
    "C81_scan",
    "C81_text",
    "C81_reads"
   ],
   "note": "The counterpart of C67 for any options, and the whole text instead of one call. How reads can change sentences is C38."
  },
  {
   "property": "C82",
   "status": "proved",
   "theorems": [
    "C82_readme"
   ],
   "note": "The texts of package flag are modelled in Help."
  },
  {
   "property": "C83",
   "status": "proved",
   "theorems": [
    "C83_tokenize",
    "C83_redirect",
    "C83_one_place",
    "C83_connect"
   ],
   "note": "net/http's ServeMux by the rules of Go before 1.22, which the go line of go.mod (1.19) selects; path.Clean and cleanPath are modelled as code."
  },
  {
   "property": "C84",
   "status": "partial",
   "theorems": [
    "C84_radio_refuted",
    "C84_deeper_refuted",
    "C84_typed_partial",
    "C84_posts_partial"
   ],
   "note": "False of the code: a change of the radio buttons posts to ./a, which is the page itself, and a page below another address (served for any path) posts beside itself. What is typed into a page in the root reaches the endpoint."
  },
  {
   "property": "C85",
   "status": "proved",
   "theorems": [
    "C85_same",
    "C85_linear",
    "C85_nodes"
   ],
   "note": "Steps are counted in Work.v, whose results are proved to be those of the model (C85_same). Time inside library functions (the trie search, category and connection lookups, map lookups, slice growth) is not counted."
  },
  {
   "property": "C86",
   "status": "partial",
   "theorems": [
    "C86_hidden_refuted",
    "C86_tag_refuted",
    "C86_table_partial"
   ],
   "note": "False of the code: the script puts texts into the page as HTML, so the text <!-- hides its row and a user dictionary word <b> becomes a tag. Proved: one row per word always, and each row without < & NUL in its cells shows exactly the word."
  },
  {
   "property": "C87",
   "status": "partial",
   "theorems": [
    "C87_stale_refuted",
    "C87_ordered_partial",
    "C87_some_partial",
    "C87_runs_partial"
   ],
   "note": "False of the code: answers that overtake each other leave a stale table. Proved: true when answers keep the order of requests; in any order and with lost requests the table is that of one text and mode that were in the form."
  },
  {
   "property": "C88",
   "status": "proved",
   "theorems": [
    "C88_unused",
    "C88_features",
    "C88_wakati"
   ],
   "note": "Dictionaries are compared by their index tables (keyword, id), in order."
  },
  {
   "property": "C89",
   "status": "proved",
   "theorems": [
    "C89_alternatives"
   ],
   "note": "For texts within the limit where int32 costs cannot overflow (SpecTok.optimal_limit)."
  },
  {
   "property": "C90",
   "status": "proved",
   "theorems": [
    "C90_costs",
    "C90_alone"
   ],
   "note": "C90_costs is about lattices from the pool used by concurrent goroutines; C90_alone about the functional model."
  },
  {
   "property": "C91",
   "status": "proved",
   "theorems": [
    "C91_found",
    "C91_words"
   ],
   "note": "FTS4's MATCH is a parameter with a contract; database errors are not modelled."
  },
  {
   "property": "C92",
   "status": "partial",
   "theorems": [
    "C92_twice_refuted",
    "C92_neighbours_partial"
   ],
   "note": "False of the code: slices.Compact compares neighbours only, so 東に東 is stored as 東 に 東. Proved: the same words, no two neighbours equal."
  },
  {
   "property": "C93",
   "status": "partial",
   "theorems": [
    "C93_objects",
    "C93_mark_refuted",
    "C93_text_partial"
   ],
   "note": "False of the code: a word's leading byte order mark is dropped by the TextDecoder. Proved: the objects for every text; the surface forms together are the text if it has no byte order mark (and under the conditions of C01)."
  },
  {
   "property": "C94",
   "status": "partial",
   "theorems": [
    "C94_early_refuted",
    "C94_hidden_refuted",
    "C94_table_partial"
   ],
   "note": "False of the code: text typed before the program is loaded is not analysed until the next input, and texts are inserted as HTML. Proved: from the first input after loading on, for words without characters special in HTML."
  },
  {
   "property": "C95",
   "status": "proved",
   "theorems": [
    "C95_tokenize",
    "C95_user_dict",
    "C95_wakati"
   ],
   "note": "The README of the wakati example shows the heading with one hyphen too many."
  },
  {
   "property": "C96",
   "status": "proved",
   "theorems": [
    "C96_built",
    "C96_forward"
   ],
   "note": "The addresses of nodes are a parameter."
  },
  {
   "property": "C97",
   "status": "partial",
   "theorems": [
    "C97_reported_refuted",
    "C97_ending_partial",
    "C97_whole_partial"
   ],
   "note": "False of the code: errors of writes are dropped, and the exit status is 0 (C97_reported_refuted). Proved: failures change nothing but what reaches the output, the ending is that of the run without failures, and without a failing write the output is complete. SIGPIPE is not modelled."
  },
  {
   "property": "C98",
   "status": "partial",
   "theorems": [
    "C98_prefix_refuted",
    "C98_prefix_partial",
    "C98_tokenize_partial",
    "C98_sentence_partial",
    "C98_lattice_partial"
   ],
   "note": "False of the code: after a failed write the next answer is still written (C98_prefix_refuted). Proved: a prefix if no write takes anything after the first failure; in general each answer (tokenize) or line (sentence, lattice) is written whole or loses its end."
  },
  {
   "property": "C99",
   "status": "proved",
   "theorems": [
    "C99_page",
    "C99_too_long"
   ],
   "note": "The browser is described by SpecForm.v (HTML and URL standards); FormValue is modelled from net/http and net/url."
  },
  {
   "property": "C100",
   "status": "proved",
   "theorems": [
    "C100_same"
   ],
   "note": "JSON.parse and the JSON decoder are parameters with contracts, as in C86."
  },
  {
   "property": "C101",
   "status": "partial",
   "theorems": [
    "C101_chosen_refuted",
    "C101_chosen_partial"
   ],
   "note": "False of the code: the script's posts have the type of a form, and a text such as &lattice= is read as a form value (C101_chosen_refuted). Proved for texts without an ampersand."
  },
  {
   "property": "C102",
   "status": "proved",
   "theorems": [
    "C102_total",
    "C102_understands",
    "C102_one",
    "C102_tokens",
    "C102_empty",
    "C102_utf8",
    "C102_others",
    "C102_contract"
   ],
   "note": "encoding/json's scanner, Decoder.Decode and decodeState are modelled (Decode.v) for this request type and proved against the grammar of SpecDecode.v; the body arrives whole. C102_contract discharges the assumption that C39, C59, C86 and C100 make about the decoder."
  },
  {
   "property": "C103",
   "status": "proved",
   "theorems": [
    "C103_answers",
    "C103_fields",
    "C103_kinds"
   ],
   "note": "Composes the models of ServeMux, ParseForm, the JSON decoder and the two handlers. Bodies of type multipart/form-data and read errors are left out. What a 400 says is C59; the fields of the words C39; texts that begin with a line feed or contain NUL are shown otherwise in the form (C74)."
  },
  {
   "property": "C104",
   "status": "proved",
   "theorems": [
    "C104_reads",
    "C104_pieces",
    "C104_answer",
    "C104_waits",
    "C104_fails",
    "C104_settled"
   ],
   "note": "Over encoding/json's Decoder.readValue and refill (modelled from their source). The text of the connection's error goes into the answer as it is (see C59). What the answer to a body is: C102, C59, C103."
  },
  {
   "property": "C105",
   "status": "proved",
   "theorems": [
    "C105_own",
    "C105_new",
    "C105_layout"
   ],
   "note": "Over a memory of arrays of strings with slices as windows (offset, length, capacity). Strings are values (Go's are immutable). The tables of slices themselves (Contents, POSs) are never handed out and are values in the model."
  },
  {
   "property": "C106",
   "status": "proved",
   "theorems": [
    "C106_same",
    "C106_differ",
    "C106_long"
   ],
   "note": "Beyond 31333 runes costs can reach the maximum and the result is no longer the cheapest (C07). In Search mode the comparison rests on the way ties are broken being the same in both modes (C68)."
  },
  {
   "property": "C107",
   "status": "proved",
   "theorems": [
    "C107_place",
    "C107_ends",
    "C107_race",
    "C107_access",
    "C107_result"
   ],
   "note": "The tokens that stay are those of C28-C31. The predicate given to Drop and Keep is a function of the token without effects (C28 allows a state). A call whose predicate panics is covered as far as the other goroutines and the memory outside its slice go."
  },
  {
   "property": "C108",
   "status": "proved",
   "theorems": [
    "C108_pipe"
   ],
   "note": "A sentence of 64 KiB (a run of full stops that fills the buffer) can be split off, but as a line the second program cannot read it (bufio.ErrTooLong); the theorem excludes such sentences."
  },
  {
   "property": "C109",
   "status": "partial",
   "theorems": [
    "C109_again_partial",
    "C109_changed_partial",
    "C109_command_partial",
    "C109_again_refuted"
   ],
   "note": "False of the code: sentences cut at an empty line (a heading, a paragraph without a full stop) are joined when they are split again, and a closing bracket at the start of a paragraph moves to the sentence before. C109_again_partial gives the sentences that stay as they are, also when the lines are read in pieces; C109_changed_partial shows that all others change; C109_command_partial says both of kagome sentence | kagome sentence."
  },
  {
   "property": "C110",
   "status": "partial",
   "theorems": [
    "C110_agree_partial",
    "C110_agree_refuted"
   ],
   "note": "False of the code in Extended mode: the command leaves out the runes of split unknown words (see C41), the endpoint tells them. C110_agree_partial: the command's list is the endpoint's without them, and the whole list in the other modes."
  },
  {
   "property": "C111",
   "status": "proved",
   "theorems": [
    "C111_verbose"
   ],
   "note": "Within the limit of C03 (no_loss); beyond it BOS may be missing and the loop of lattice, which starts at index 1, skips a word."
  },
  {
   "property": "C112",
   "status": "proved",
   "theorems": [
    "C112_names",
    "C112_simple",
    "C112_command"
   ],
   "note": "bare d is d with Contents nil: what kagome-dict's shrunk loaders give (that module is not in the repository)."
  },
  {
   "property": "C113",
   "status": "proved",
   "theorems": [
    "C113_lines",
    "C113_sentences"
   ],
   "note": "For sentences the reads are those for which C81 holds (fair): in one piece, or cut where C38 allows."
  },
  {
   "property": "C114",
   "status": "proved",
   "theorems": [
    "C114_text",
    "C114_inside"
   ],
   "note": "C114_needed shows that the condition is needed: a text that is itself a user word is cut into a shorter user word and a word of the system dictionary of negative cost."
  },
  {
   "property": "C115",
   "status": "proved",
   "theorems": [
    "C115_word",
    "C115_join"
   ],
   "note": "In Extended mode unknown words come back as runes, so only known words are counted there."
  },
  {
   "property": "C116",
   "status": "proved",
   "theorems": [
    "C116_past",
    "C116_future"
   ],
   "note": "C116_past_example shows a word whose entry depends on the right id before it."
  },
  {
   "property": "C117",
   "status": "proved",
   "theorems": [
    "C117_scale",
    "C117_written"
   ],
   "note": "C117_search and C117_user show that the two restrictions are needed; C117_written gives such a dictionary for every k, f and g."
  },
  {
   "property": "C118",
   "status": "proved",
   "theorems": [
    "C118_same",
    "C118_call",
    "C118_linear",
    "C118_short"
   ],
   "note": "Time inside bufio.Scanner and utf8.DecodeRune is not counted. C118_reads shows that the Reads cannot be left out of the bound: read byte by byte, an unfinished sentence is gone through anew at every Read."
  },
  {
   "property": "C119",
   "status": "proved",
   "theorems": [
    "C119_alike",
    "C119_malformed"
   ],
   "note": "For texts within the length under which the best path is exact (C01); features follow from id and class, while Surface and Position differ with the text. C119_needed shows that the conditions are needed."
  },
  {
   "property": "C120",
   "status": "proved",
   "theorems": [
    "C120_counts",
    "C120_linear",
    "C120_text"
   ],
   "note": "The bytes of the text are bounded for addresses (%p) of bounded length."
  },
  {
   "property": "C121",
   "status": "proved",
   "theorems": [
    "C121_numbers",
    "C121_told",
    "C121_accessors",
    "C121_graph",
    "C121_order"
   ],
   "note": "No bound on the length of the text. That entries of one keyword keep their order is needed: ties go to the first (C68)."
  },
  {
   "property": "C122",
   "status": "proved",
   "theorems": [
    "C122_chain",
    "C122_order",
    "C122_opposite",
    "C122_yield"
   ],
   "note": "C122_chain describes what a call leaves for unambiguous patterns (C26); C122_order, C122_opposite and C122_yield hold for all patterns."
  },
  {
   "property": "C123",
   "status": "proved",
   "theorems": [
    "C123_held",
    "C123_pools",
    "C123_texts",
    "C123_kept",
    "C123_exact",
    "C123_again",
    "C123_inside",
    "C123_busy",
    "C123_requests"
   ],
   "note": "C123_held and C123_kept need nothing of the pools. The others assume what the comment of mem.NewPool says (pool.go:20-21): the constructor is called when the pool is empty; sync.Pool aims at this but does not promise it. The nodes Extended mode makes for single runes do not come from the pool (the garbage collector takes them) and are not counted."
  },
  {
   "property": "C124",
   "status": "proved",
   "theorems": [
    "C124_rules",
    "C124_work"
   ],
   "note": "Holds of all pattern lists; with it one sees exactly where C26 fails (a literal added after Any at the same place is taken into the Any branch). The comparisons are the iterations of the loop of has, counted in FilterWork.v."
  },
  {
   "property": "C125",
   "status": "proved",
   "theorems": [
    "C125_ahead",
    "C125_texts",
    "C125_nodes",
    "C125_printed",
    "C125_sentences"
   ],
   "note": "bufio.Scanner is modelled from its documentation and source (Scanner.v). C125_ahead is about reading line by line; for -split the length of the texts is bounded; what waits is C127. The pools are those of C123."
  },
  {
   "property": "C126",
   "status": "proved",
   "theorems": [
    "C126_time",
    "C126_output",
    "C126_sentence"
   ],
   "note": "The steps are those of Analyze (C85); those of the splitter are C118. The time of printing is bounded only through what is printed."
  },
  {
   "property": "C127",
   "status": "proved",
   "theorems": [
    "C127_sentence",
    "C127_tokenize",
    "C127_small"
   ],
   "note": "The counterpart of C60 (line by line). What was read is compared up to white space that the splitter drops. Input that is not UTF-8 is not stated. os.File and bufio.Scanner are modelled (Scanner.v); the standard output is not buffered (os.Stdout)."
  },
  {
   "property": "C128",
   "status": "proved",
   "theorems": [
    "C128_answer",
    "C128_body",
    "C128_error",
    "C128_sentence"
   ],
   "note": "C128_answer: for any decoder, n is the length of the sentence in the decoded request. C128_body and C128_error: for the decoder modelled in Decode.v, n is the length of the body, all bodies. The factor depends on the dictionary (its longest features)."
  },
  {
   "property": "C129",
   "status": "proved",
   "theorems": [
    "C129_page"
   ],
   "note": "The texts of the two templates are those of C73 and C74 (Page.v). graphviz is arbitrary: m bounds what it prints. What is written to it is bounded by C120."
  }
 ]
}
