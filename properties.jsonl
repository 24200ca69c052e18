{"id": "C01", "title": "Tokenization is lossless", "statement": "In Normal and Search mode, for every input of at most 32768 runes (Normal) or 31333 runes (Search), or of any length if some candidate word ends at every position, concatenating the Surface of the tokens returned by Analyze (without the BOS/EOS markers) gives back the input byte for byte, including inputs that are not valid UTF-8. Condition: the input holds no literal U+FFFD, or the dictionary groups the category of U+FFFD (the IPA and UniDic DEFAULT category does).", "quantifier": "every well-formed dictionary, optional user dictionary, mode and byte string within the length limit of the mode", "why_tests_cant": "the input space is all byte strings times all dictionaries; a lost or duplicated byte appears only for particular mixtures of invalid bytes, grouping and dictionary keys", "anchors": ["tokenizer/lattice/lattice.go:Lattice.Build", "tokenizer/lattice/lattice.go:Lattice.Backward", "tokenizer/tokenizer.go:Tokenizer.Analyze"]}
{"id": "C02", "title": "Token offsets are exact", "statement": "For every token returned by Analyze, Position is the byte offset of the token in the input, Start and End are its rune offsets, input[Position:Position+len(Surface)] is its Surface, and each token starts exactly where the preceding one ends.", "quantifier": "every dictionary, user dictionary, mode, valid-UTF-8 or (Normal/Search) arbitrary input", "why_tests_cant": "offset drift depends on unbounded prefixes of multi-byte runes and invalid bytes", "anchors": ["tokenizer/lattice/lattice.go:Lattice.Build", "tokenizer/lattice/lattice.go:Lattice.addNode", "tokenizer/lattice/lattice.go:Lattice.Backward", "tokenizer/tokenizer.go:Tokenizer.Analyze"]}
{"id": "C03", "title": "BOS/EOS framing and Index numbering", "statement": "Analyze returns a BOS token first and an EOS token last and nowhere else (ID -1, class DUMMY, EOS at the end of the input), and Index counts 0,1,2,... over the returned tokens.", "quantifier": "every dictionary, user dictionary, mode and input of at most 32768 runes (Normal) or 31333 runes (Search, Extended)", "why_tests_cant": "quantifies over every lattice shape", "anchors": ["tokenizer/tokenizer.go:Tokenizer.Analyze", "tokenizer/lattice/lattice.go:Lattice.Build"]}
{"id": "C04", "title": "OmitBosEos only removes the markers", "statement": "A tokenizer built with OmitBosEos returns exactly the tokens of the tokenizer without it, minus the BOS and EOS tokens, renumbered; nothing else changes.", "quantifier": "every dictionary, user dictionary, mode and input", "why_tests_cant": "relates two runs on every input", "anchors": ["tokenizer/tokenizer.go:Tokenizer.Analyze", "tokenizer/tokenizer_option.go:OmitBosEos"]}
{"id": "C05", "title": "Analyze never panics and always terminates", "statement": "For every well-formed dictionary and every byte string, Analyze returns a token list: no index is out of range and the back-pointer walk ends.", "quantifier": "every well-formed dictionary, user dictionary, mode and byte string of any length", "why_tests_cant": "absence of panics over all byte strings, including malformed UTF-8 and any length", "anchors": ["tokenizer/lattice/lattice.go:Lattice.Build", "tokenizer/lattice/lattice.go:Lattice.Forward", "tokenizer/lattice/lattice.go:Lattice.Backward"]}
{"id": "C06", "title": "Normal mode returns a minimum-cost segmentation", "statement": "The token sequence returned in Normal mode is a segmentation of the input into candidate words whose total cost (word costs plus connection costs, including BOS and EOS) is at most that of every other segmentation into candidate words.", "quantifier": "every well-formed dictionary with 16-bit costs, user dictionary and input of at most 32767 runes, against every segmentation", "why_tests_cant": "the number of segmentations is exponential; optimality is a statement about all of them", "anchors": ["tokenizer/lattice/lattice.go:Lattice.Forward", "tokenizer/lattice/lattice.go:Lattice.Backward"]}
{"id": "C07", "title": "Search mode minimises cost plus the length penalty", "statement": "In Search mode the returned segmentation minimises the total cost when each word longer than 2 runes made of ideographs only costs 3000 more per extra rune and each other word longer than 7 runes costs 1700 more per extra rune.", "quantifier": "every dictionary, user dictionary and input of at most 31333 runes, against every segmentation", "why_tests_cant": "as C06; in addition the penalty must be charged exactly once per word, the last one included", "anchors": ["tokenizer/lattice/lattice.go:additionalCost", "tokenizer/lattice/lattice.go:kanjiOnly", "tokenizer/lattice/lattice.go:Lattice.Forward"]}
{"id": "C08", "title": "Extended mode is Search mode with unknown words split into runes", "statement": "Analyze in Extended mode returns exactly the Search-mode tokens with every UNKNOWN token replaced by one DUMMY token per rune (same ID, consecutive Position/Start/End, that rune as Surface), and nothing else changed.", "quantifier": "every dictionary, user dictionary and input", "why_tests_cant": "relates two modes on every input", "anchors": ["tokenizer/lattice/lattice.go:Lattice.Backward", "tokenizer/tokenizer.go:Tokenizer.Analyze"]}
{"id": "C09", "title": "Modes outside the enumeration behave as Normal; Tokenize is Normal", "statement": "Analyze with any mode value other than Search and Extended returns what Normal returns; Tokenize returns what Analyze in Normal mode returns.", "quantifier": "every integer mode value, dictionary and input", "why_tests_cant": "all mode values", "anchors": ["tokenizer/tokenizer.go:Tokenizer.Analyze", "tokenizer/tokenizer.go:Tokenizer.Tokenize"]}
{"id": "C10", "title": "Wakati yields the non-empty surfaces and loses nothing", "statement": "Wakati returns the surfaces of the Tokenize tokens that are not BOS/EOS, in order, none of them empty, and their concatenation is the input; OmitBosEos does not change it.", "quantifier": "every dictionary, user dictionary and input (conditions of C01)", "why_tests_cant": "needs the surface coverage for all inputs", "anchors": ["tokenizer/tokenizer.go:Tokenizer.Wakati"]}
{"id": "C11", "title": "Tokens come from the dictionaries", "statement": "Each KNOWN (USER) token has a Surface that is a keyword of the system (user) dictionary and an ID stored under that keyword; each UNKNOWN token has an ID among the unknown-word entries of the category of its first rune.", "quantifier": "every dictionary, user dictionary, mode and input", "why_tests_cant": "provenance of every token of every analysis", "anchors": ["tokenizer/lattice/lattice.go:Lattice.Build", "tokenizer/lattice/lattice.go:Lattice.addNode"]}
{"id": "C12", "title": "User dictionary entries take priority", "statement": "In Normal and Search mode, any token other than BOS/EOS that begins at a position where some user dictionary keyword matches the text is a USER token; in Extended mode the same holds for every token that is not a rune of a split unknown word.", "quantifier": "every dictionary, user dictionary, mode and input", "why_tests_cant": "all combinations of overlapping keywords", "anchors": ["tokenizer/lattice/lattice.go:Lattice.Build"]}
{"id": "C13", "title": "Unknown words are short runs of one category", "statement": "An UNKNOWN token never exceeds 1024 runes, all its runes have the category of its first rune, it has one rune if that category is not grouped, and it occurs at a position with a system dictionary match only if the category invokes unknown words.", "quantifier": "every dictionary, user dictionary, mode and input", "why_tests_cant": "runs of unbounded length", "anchors": ["tokenizer/lattice/lattice.go:Lattice.Build"]}
{"id": "C14", "title": "Results do not depend on earlier calls (pool reuse)", "statement": "What Analyze, Tokenize and Wakati return, and what AnalyzeGraph and Dot return and draw, does not depend on what was analysed before: a lattice and nodes taken from the pools behave like new ones, whatever inputs, dictionaries and modes used them before. The drawn graph is the same up to the addresses printed for its nodes, and different nodes have different addresses.", "quantifier": "every sequence of earlier calls and every choice of pooled objects", "why_tests_cant": "histories of unbounded length; the pool returns arbitrary recycled objects", "anchors": ["tokenizer/lattice/lattice.go:New", "tokenizer/lattice/lattice.go:Lattice.Free", "tokenizer/lattice/lattice.go:Lattice.addNode", "tokenizer/lattice/lattice.go:Lattice.Dot", "tokenizer/lattice/mem/pool.go:Pool", "tokenizer/tokenizer.go:Tokenizer.AnalyzeGraph"]}
{"id": "C15", "title": "Concurrent calls do not interfere", "statement": "Any number of goroutines may call Analyze, Tokenize, Wakati, AnalyzeGraph and Dot at the same time on shared tokenizers: under every interleaving, each call returns, and each graph call writes to its own writer, what it would alone (node addresses in the graph aside).", "quantifier": "every number of goroutines, inputs and every schedule of their memory operations and pool operations", "why_tests_cant": "schedules cannot be enumerated", "anchors": ["tokenizer/lattice/lattice.go:New", "tokenizer/lattice/lattice.go:Lattice.Free", "tokenizer/lattice/lattice.go:Lattice.Dot", "tokenizer/lattice/mem/pool.go:Pool.Get", "tokenizer/lattice/mem/pool.go:Pool.Put", "tokenizer/tokenizer.go:Tokenizer.AnalyzeGraph", "tokenizer/tokenizer.go:Tokenizer.Wakati"]}
{"id": "C16", "title": "Losslessness holds without a length bound", "statement": "C01 and C03 hold for inputs of any length.", "quantifier": "every dictionary and byte string, with no bound on its length", "why_tests_cant": "32-bit cost saturation only shows after tens of thousands of runes", "anchors": ["tokenizer/lattice/lattice.go:Lattice.Forward"]}
{"id": "C17", "title": "AnalyzeGraph returns the tokens of Analyze", "statement": "AnalyzeGraph returns, for the same input and mode, the same tokens as Analyze.", "quantifier": "every tokenizer, input and mode", "why_tests_cant": "relates two entry points on all inputs", "anchors": ["tokenizer/tokenizer.go:Tokenizer.AnalyzeGraph", "tokenizer/tokenizer.go:Tokenizer.Dot", "tokenizer/tokenizer.go:Tokenizer.Analyze"]}
{"id": "C18", "title": "The lattice graph is closed and highlights the best path", "statement": "In the graph written by Dot/AnalyzeGraph, both end points of every edge are declared nodes, each declared node is declared once, and in Normal and Search mode the tokens of the result are highlighted nodes connected by highlighted edges from BOS to EOS.", "quantifier": "every dictionary, input and mode", "why_tests_cant": "all lattices", "anchors": ["tokenizer/lattice/lattice.go:Lattice.Dot"]}
{"id": "C19", "title": "The lattice graph is syntactically valid for every input", "statement": "The text written by Dot is a well-formed graphviz document whatever the input is.", "quantifier": "every dictionary and input", "why_tests_cant": "every input character", "anchors": ["tokenizer/lattice/lattice.go:Lattice.Dot"]}
{"id": "C20", "title": "FeatureAt agrees with Features", "statement": "FeatureAt(i) returns the i-th element of Features and true when it exists, and \"\" and false for every other i, negative ones included.", "quantifier": "every token produced by Analyze and every integer i", "why_tests_cant": "all tokens and all indices", "anchors": ["tokenizer/token.go:Token.Features", "tokenizer/token.go:Token.FeatureAt"]}
{"id": "C21", "title": "POS is a contiguous part of Features", "statement": "For KNOWN tokens POS is a prefix of Features, for USER tokens its first element, for UNKNOWN tokens the slice of Features given by the dictionary metadata (nil if it does not fit), for DUMMY tokens both are nil.", "quantifier": "every token of every dictionary", "why_tests_cant": "all dictionaries and metadata", "anchors": ["tokenizer/token.go:Token.POS", "tokenizer/token.go:Token.Features"]}
{"id": "C22", "title": "Named feature accessors are FeatureAt at the metadata index", "statement": "BaseForm, Reading, Pronunciation, InflectionalType and InflectionalForm return FeatureAt at the index the dictionary metadata gives for that key and the token's class, and (\"\", false) for USER and DUMMY tokens or when the key is absent.", "quantifier": "every token, dictionary and metadata map", "why_tests_cant": "all dictionaries", "anchors": ["tokenizer/token.go:Token.pickupFromFeatures", "tokenizer/token.go:Token.BaseForm", "tokenizer/token.go:Token.Reading", "tokenizer/token.go:Token.Pronunciation", "tokenizer/token.go:Token.InflectionalType", "tokenizer/token.go:Token.InflectionalForm"]}
{"id": "C23", "title": "Equality functions are equivalence relations", "statement": "EqualFeatures(l, r) holds exactly when the lists are equal element by element (nil equals empty); EqualFeatures, EqualPOS and Equal on tokens are reflexive, symmetric and transitive; Equal holds exactly when ID, Class and Surface agree.", "quantifier": "all pairs and triples of tokens and string lists", "why_tests_cant": "all pairs and triples", "anchors": ["tokenizer/token.go:EqualFeatures", "tokenizer/token.go:Token.Equal", "tokenizer/token.go:Token.EqualPOS", "tokenizer/token.go:Token.EqualFeatures"]}
{"id": "C24", "title": "TokenData carries the token faithfully", "statement": "NewTokenData copies ID, Start, End and Surface, gives the class name, never has nil POS or Features (an empty list instead of nil), and has the accessor's string where the accessor reports a feature and the empty string where it reports absence.", "quantifier": "every token", "why_tests_cant": "all tokens", "anchors": ["tokenizer/token.go:NewTokenData"]}
{"id": "C25", "title": "A features filter matches exactly the feature vectors extending one of its patterns", "statement": "For pattern lists without ambiguous wildcards (no two patterns that agree up to some position where exactly one has Any), Match(fs) is true if and only if some non-empty pattern is a prefix of fs, Any standing for any feature.", "quantifier": "every list of patterns and every feature vector", "why_tests_cant": "patterns interact through a shared trie; all insertion orders and prefixes matter", "anchors": ["filter/feature.go:FeaturesFilter.add", "filter/feature.go:FeaturesFilter.Match", "filter/feature.go:filterNode.has"]}
{"id": "C26", "title": "Any is a wildcard in every pattern list", "statement": "Match(fs) is true if and only if some non-empty pattern is a prefix of fs with Any standing for any feature, for every list of patterns.", "quantifier": "every list of patterns, wildcards included, and every feature vector", "why_tests_cant": "interaction of wildcard and literal edges", "anchors": ["filter/feature.go:filterNode.has", "filter/feature.go:FeaturesFilter.add", "filter/feature.go:FeaturesFilter.Match"]}
{"id": "C27", "title": "Filter construction is order- and duplicate-insensitive", "statement": "Permuting or repeating the patterns given to NewFeaturesFilter/NewPOSFilter, or adding a pattern that extends one already present, does not change what the filter matches (no ambiguous wildcards).", "quantifier": "all pattern lists and permutations", "why_tests_cant": "all permutations", "anchors": ["filter/feature.go:NewFeaturesFilter", "filter/pos.go:NewPOSFilter"]}
{"id": "C28", "title": "Drop and Keep are stable in-place filters", "statement": "Drop leaves exactly the tokens the predicate rejects and Keep exactly those it accepts, in their original order and unmodified; the predicate is evaluated once per token in order; a nil pointer is a no-op; Drop and Keep of the same predicate partition the tokens.", "quantifier": "every token list and predicate", "why_tests_cant": "all lists and predicates, with in-place overwriting", "anchors": ["filter/filter.go:applyFilter", "filter/filter.go:Drop", "filter/filter.go:Keep"]}
{"id": "C29", "title": "A word filter matches exactly its words", "statement": "WordFilter.Match(w) is true if and only if w is one of the given words; Drop/Keep remove or keep exactly the tokens whose Surface is one of the words.", "quantifier": "every word list, word and token list", "why_tests_cant": "all word lists", "anchors": ["filter/word.go:NewWordFilter", "filter/word.go:WordFilter.Match", "filter/word.go:WordFilter.apply"]}
{"id": "C30", "title": "A POS filter drops or keeps by part of speech", "statement": "POSFilter.Drop/Keep remove or keep exactly the tokens whose POS matches one of the patterns, in order.", "quantifier": "every pattern list and token list", "why_tests_cant": "all pattern and token lists", "anchors": ["filter/pos.go:POSFilter.apply"]}
{"id": "C31", "title": "ja.Filter.Yield is a per-token function", "statement": "Yield returns, in order, for each token: nothing if its POS matches a stop tag or its surface is a stop word; else its base form if its POS matches a base-form pattern (nothing when it has none); else its surface. Hence Yield of a concatenation is the concatenation of the Yields, and Yield of the dropped list is Yield of the list.", "quantifier": "every token list and filter configuration", "why_tests_cant": "all token lists", "anchors": ["filter/ja/filter.go:Filter.Yield", "filter/ja/filter.go:Filter.Drop", "filter/ja/filter.go:NewFilter"]}
{"id": "C32", "title": "Stop lists are read line by line with # comments", "statement": "The stop tags and words of the default ja filter are exactly the non-empty lines of the asset with everything from the first # removed; later options override the defaults and each other.", "quantifier": "every asset content and option list", "why_tests_cant": "all file contents", "anchors": ["filter/ja/loader.go:loadConfig", "filter/ja/filter.go:newDefaultLuceneStopTagPOSFilter", "filter/ja/filter.go:NewFilter"]}
{"id": "C33", "title": "Sentence splitting without whitespace skipping is lossless for every chunking", "statement": "With SkipWhiteSpace off, if the scan ends without an error of the Scanner the concatenation of the sentences produced by a bufio.Scanner using ScanSentences is the input, byte for byte, however the reader delivers it; and there is no error when the reader ends with EOF, never stalls, and MaxRuneLen <= 16384 or the input is under 64 KiB. After an error the sentences are a prefix of the input.", "quantifier": "every splitter configuration, byte string and sequence of reads", "why_tests_cant": "chunk boundaries fall at any byte of any input", "anchors": ["filter/sentence_splitter.go:SentenceSplitter.ScanSentences"]}
{"id": "C34", "title": "Sentence splitting with whitespace skipping removes only whitespace", "statement": "With SkipWhiteSpace on, for valid UTF-8 delivered in chunks that end on rune boundaries, the concatenation of the sentences is the input with its white space removed.", "quantifier": "every splitter configuration, valid UTF-8 text and rune-aligned chunking", "why_tests_cant": "the split function rewrites the scanner's buffer in place; all chunkings matter", "anchors": ["filter/sentence_splitter.go:SentenceSplitter.ScanSentences"]}
{"id": "C35", "title": "The split function obeys the SplitFunc contract", "statement": "ScanSentences never reads or writes outside data, returns 0 <= advance <= len(data) and no error, advances by at least one byte whenever it returns a token, and at EOF consumes everything it does not return; so a Scanner neither panics nor loops.", "quantifier": "every splitter configuration, data and atEOF", "why_tests_cant": "all byte strings", "anchors": ["filter/sentence_splitter.go:SentenceSplitter.ScanSentences"]}
{"id": "C36", "title": "Sentences end at delimiters and respect MaxRuneLen", "statement": "Every sentence consists of at most MaxRuneLen runes up to and including its first delimiter, followed only by delimiters and followers. Within the data of one call, a sentence that is followed by more text ended because (a) it was complete and the next rune is no delimiter, follower or skipped white space, (b) of a white space delimiter, or (c) of a second line feed.", "quantifier": "every configuration and input", "why_tests_cant": "all inputs", "anchors": ["filter/sentence_splitter.go:SentenceSplitter.ScanSentences"]}
{"id": "C37", "title": "Line feeds split sentences only when doubled", "statement": "With DoubleLineFeedSplit a sentence ends at a line feed only if it directly follows another line feed (blanks between them aside).", "quantifier": "every input", "why_tests_cant": "all placements of line feeds", "anchors": ["filter/sentence_splitter.go:SentenceSplitter.ScanSentences"]}
{"id": "C38", "title": "Sentence boundaries do not depend on the reads", "statement": "The sentences produced do not depend on how the reader cuts the input into chunks.", "quantifier": "every input and every pair of chunkings", "why_tests_cant": "all chunk boundaries", "anchors": ["filter/sentence_splitter.go:SentenceSplitter.ScanSentences", "cmd/sentence/cmd.go:command", "cmd/tokenize/cmd.go:command"]}
{"id": "C39", "title": "The tokenize endpoint returns the analysis", "statement": "POST /tokenize with a decodable body answers status true with the token data of Analyze in the requested mode without BOS/EOS; for a non-empty sentence the token list is non-empty (never null) and for an empty one it is [].", "quantifier": "every request body and tokenizer", "why_tests_cant": "all requests", "anchors": ["cmd/server/api.go:TokenizeHandler.ServeHTTP"]}
{"id": "C40", "title": "tokenize prints one line per token and EOS per sentence", "statement": "For each scanned line (or sentence with -split) the text output has one line per token of Analyze that is not BOS/EOS, in order, surface first, then for words other than DUMMY a tab and the comma separated features, and one closing EOS line; nothing else is printed. In the modes Normal and Search, for a line Analyze does not truncate and without an ambiguous U+FFFD (conditions of C01), the surfaces printed concatenate to the line. Only a line of 65536 bytes or more ends the run early, with an error.", "quantifier": "every input stream, way of reading it, option set and pair of dictionaries", "why_tests_cant": "all inputs", "anchors": ["cmd/tokenize/cmd.go:printTokens", "cmd/tokenize/cmd.go:command"]}
{"id": "C41", "title": "The JSON output lists every token", "statement": "With -json the tokens printed for a line are those of the text output, in every mode.", "quantifier": "every input and mode", "why_tests_cant": "relates two output formats for all inputs and modes", "anchors": ["cmd/tokenize/cmd.go:printTokensJSON"]}
{"id": "C42", "title": "Subcommand dispatch", "statement": "kagome runs the subcommand named by its first argument with the remaining arguments; otherwise it runs tokenize with all arguments, provided they are accepted, exactly as if tokenize had been named, else it prints only messages on the standard error and exits with status 1. The exit status is 0 exactly if the command returns no error. With sound dictionaries the process always ends with status 0 or 1.", "quantifier": "every argument vector", "why_tests_cant": "all argument vectors", "anchors": ["kagome.go:main"]}
{"id": "C43", "title": "Validated options select the right dictionary and mode", "statement": "An argument list accepted by a command fixes its options: the dictionary, the user dictionary, the input and the mode used are those named (last setting of each flag, or the default). Any other argument list makes the command print only messages on the standard error and return an error, before anything is opened or read. If something named cannot be opened, or the empty name is given for the system dictionary, the command returns an error having read and written nothing. OptionCheck of a command returns no error exactly for the argument lists its Run accepts.", "quantifier": "every option string", "why_tests_cant": "all strings", "anchors": ["cmd/tokenize/cmd.go:option.parse", "cmd/tokenize/cmd.go:selectDict", "cmd/tokenize/cmd.go:selectMode", "cmd/lattice/cmd.go:option.parse", "cmd/lattice/cmd.go:selectDict", "cmd/lattice/cmd.go:selectMode", "cmd/server/cmd.go:selectDict"]}
{"id": "C44", "title": "Tokenizer construction", "statement": "New fails exactly when the dictionary is nil or some option fails (a nil user dictionary); otherwise the tokenizer has that dictionary, the last user dictionary given and omits BOS/EOS iff asked to.", "quantifier": "every option list", "why_tests_cant": "all option sequences", "anchors": ["tokenizer/tokenizer.go:New", "tokenizer/tokenizer_option.go:UserDict", "tokenizer/tokenizer_option.go:OmitBosEos", "tokenizer/tokenizer_option.go:Nop"]}
{"id": "C45", "title": "Pooled objects have one owner", "statement": "An object obtained from the lattice or node pool is never held by two analyses at the same time, and each analysis returns everything it obtained.", "quantifier": "every interleaving of any number of analyses", "why_tests_cant": "all schedules", "anchors": ["tokenizer/lattice/mem/pool.go:Pool", "tokenizer/lattice/lattice.go:Lattice.Free", "tokenizer/lattice/lattice.go:Lattice.addNode"]}
{"id": "C46", "title": "The demo page always answers", "statement": "The lattice request of the demo page finishes (graph, error or timeout) whenever the dot process finishes or is killed.", "quantifier": "every schedule of the handler, the pipe and the dot process, every amount of graph output", "why_tests_cant": "all schedules of processes", "anchors": ["cmd/server/demo.go:TokenizeDemoHandler.analyzeGraph"]}
{"id": "C47", "title": "The server command ends on cancellation or server error", "statement": "The server command returns nil once its context is cancelled and an error if the listener fails, and stops serving when it returns.", "quantifier": "every interleaving of cancellation, listener failure and requests", "why_tests_cant": "all schedules", "anchors": ["cmd/server/cmd.go:command"]}
{"id": "C48", "title": "Extended mode is lossless", "statement": "The surfaces returned in Extended mode concatenate to the input.", "quantifier": "every dictionary and byte string", "why_tests_cant": "invalid UTF-8 inputs", "anchors": ["tokenizer/lattice/lattice.go:Lattice.Backward"]}
{"id": "C49", "title": "User dictionary keywords can be any strings", "statement": "Analyze does not panic whatever the keywords of the user dictionary are.", "quantifier": "every user dictionary and input", "why_tests_cant": "keywords cut inside a rune", "anchors": ["tokenizer/lattice/lattice.go:Lattice.Build", "tokenizer/lattice/lattice.go:Lattice.addNode"]}
{"id": "C50", "title": "Token accessors never panic on analysis results", "statement": "Features, FeatureAt, POS, UserExtra and the named accessors never panic on tokens returned by Analyze with well-formed dictionaries.", "quantifier": "every token, dictionary and index", "why_tests_cant": "all tokens", "anchors": ["tokenizer/token.go:Token.Features", "tokenizer/token.go:Token.FeatureAt", "tokenizer/token.go:Token.POS", "tokenizer/token.go:Token.UserExtra"]}
{"id": "C51", "title": "User dictionary entries take priority in Extended mode too", "statement": "In Extended mode, too, every token that begins at a position where some user dictionary keyword matches the text is a USER token.", "quantifier": "every dictionary, user dictionary and input", "why_tests_cant": "The failing inputs need a user keyword inside a run of one character category; tests use keywords at word boundaries.", "anchors": ["tokenizer/lattice/lattice.go:Lattice.Build"]}
{"id": "C52", "title": "POS ids outside the name list are reported absent", "statement": "FeatureAt on a KNOWN token whose i-th POS id is not an index of the POS name list returns (\"\", false).", "quantifier": "every KNOWN token and dictionary, well formed or not", "why_tests_cant": "Needs a dictionary with an out-of-range POS id; the shipped dictionaries have none and the boundary value is one id out of 2^32.", "anchors": ["tokenizer/token.go:Token.FeatureAt"]}
{"id": "C53", "title": "White space never makes a sentence too long", "statement": "A Scanner using ScanSentences fails with ErrTooLong only if some sentence is too long; skipped white space does not count, and inputs under 64 KiB never fail.", "quantifier": "every splitter configuration, byte string and reader", "why_tests_cant": "needs more than 64 KiB of white space at particular places", "anchors": ["filter/sentence_splitter.go:SentenceSplitter.ScanSentences"]}
{"id": "C54", "title": "Sentences are not empty", "statement": "With SkipWhiteSpace no sentence produced by a Scanner is the empty string.", "quantifier": "every splitter configuration, byte string and reader", "why_tests_cant": "depends on how the reader reports the end", "anchors": ["filter/sentence_splitter.go:SentenceSplitter.ScanSentences"]}
{"id": "C55", "title": "Sentences of valid UTF-8 are valid UTF-8", "statement": "If the input is valid UTF-8 then so is every sentence produced by a Scanner, however the reader delivers the input.", "quantifier": "every splitter configuration, valid text and reader", "why_tests_cant": "the buffer of the Scanner cuts the text at any byte", "anchors": ["filter/sentence_splitter.go:SentenceSplitter.ScanSentences"]}
{"id": "C56", "title": "Features are those of the dictionary entry", "statement": "Features of a KNOWN token are the part-of-speech names of its entry followed by the entry's contents (none if the dictionary was loaded without contents), of an UNKNOWN token the contents of its unknown-word entry, of a USER token the part of speech, the segmentation joined with / and the readings joined with /; UserExtra gives the segmentation and the readings of a USER token and nil for any other; both are nil for a DUMMY token.", "quantifier": "for all dictionaries, user dictionaries and tokens returned by Analyze on any input in any mode", "why_tests_cant": "The entry is selected by an ID that ranges over the whole dictionary; tests look at a few words.", "anchors": ["tokenizer/token.go:Token.Features", "tokenizer/token.go:Token.UserExtra"]}
{"id": "C57", "title": "The lattice graph draws every candidate and every connection", "statement": "The nodes of the graph written by Dot/AnalyzeGraph are BOS, EOS and words that the dictionaries offer at their place, labelled with surface, part of speech and word cost; every word of the system or user dictionary offered for the input is drawn, unknown words are drawn only on the best path; the edges are exactly the pairs of drawn nodes where one ends where the other starts, labelled with the connection cost of the matrix (0 next to user words).", "quantifier": "for all dictionaries, user dictionaries, inputs and modes", "why_tests_cant": "The graph depends on all candidates of an arbitrary input; the tests compare two fixed outputs.", "anchors": ["tokenizer/lattice/lattice.go:Lattice.Dot", "tokenizer/lattice/lattice.go:posFeature", "tokenizer/tokenizer.go:Tokenizer.AnalyzeGraph"]}
{"id": "C58", "title": "The usage lines tell the options", "statement": "A command line written as the usage line of a command says is accepted by that command.", "quantifier": "every command line of the form of a usage line", "why_tests_cant": "all combinations of options and values", "anchors": ["cmd/tokenize/cmd.go:usageMessage", "cmd/tokenize/cmd.go:newOption", "cmd/tokenize/cmd.go:option.parse", "cmd/server/cmd.go:usageMessage", "cmd/server/cmd.go:newOption", "cmd/lattice/cmd.go:UsageMessage", "cmd/lattice/cmd.go:newOption", "cmd/sentence/cmd.go:usageMessage", "cmd/sentence/cmd.go:newOption"]}
{"id": "C59", "title": "The tokenize endpoint reports bad requests as JSON", "statement": "POST /tokenize with a body that cannot be decoded answers 400 with a JSON object, status false and the decoder's message; every mode other than Search and Extended analyses as Normal does.", "quantifier": "every request body, decoder error text and mode string", "why_tests_cant": "all error texts and mode strings", "anchors": ["cmd/server/api.go:TokenizeHandler.ServeHTTP"]}
{"id": "C60", "title": "tokenize answers a line before reading on", "statement": "Whenever tokenize (without -split) asks for more input, it has already printed the analysis of every complete line read so far, and nothing else.", "quantifier": "every input, every size of the chunks read, every option set", "why_tests_cant": "all ways the input can arrive", "anchors": ["cmd/tokenize/cmd.go:command"]}
{"id": "C61", "title": "lattice writes the graph and the tokens", "statement": "The lattice command joins its arguments with spaces, analyzes that sentence with the dictionary, user dictionary and mode named, writes the graph of AnalyzeGraph once to the named file or the standard output, and with -v prints the tokens after BOS (EOS included) on the standard error; it returns no error.", "quantifier": "every accepted argument list and sound dictionary", "why_tests_cant": "all inputs and options", "anchors": ["cmd/lattice/cmd.go:command", "cmd/lattice/cmd.go:option.parse"]}
{"id": "C62", "title": "sentence prints one sentence per line", "statement": "The sentence command prints each sentence found by the default splitter followed by a line feed and nothing else; no sentence contains a line feed, so the lines printed are exactly the sentences.", "quantifier": "every input and every size of the chunks read", "why_tests_cant": "all inputs", "anchors": ["cmd/sentence/cmd.go:command"]}
{"id": "C63", "title": "The demo page lists the tokens and shows the picture", "statement": "For every sentence and mode, the lattice page has one row per token of the analysis in order, without BOS/EOS, with surface, parts of speech joined by commas, base form, reading and pronunciation, '*' for what is missing (Extended is drawn in Search mode), and the picture is what dot prints from the first <svg on.", "quantifier": "every sentence, mode, dictionary and dot output", "why_tests_cant": "all sentences and all dot outputs", "anchors": ["cmd/server/demo.go:newRecord", "cmd/server/demo.go:toRecords", "cmd/server/demo.go:TokenizeDemoHandler.analyzeGraph"]}
{"id": "C64", "title": "The default japanese filter stops exactly the listed tags and words", "statement": "ja.NewFilter() without options succeeds with the embedded stop_tags.txt and stop_words.txt. Its Yield drops a token exactly when the first four levels of its POS are one of the 27 listed tags (unspecified levels being \"*\") or its surface is one of the 109 listed words, yields the base form of verbs, adjectives and adjectival verbs (nothing if there is none) and the surface otherwise; its Drop removes the same tokens. With options, each of the three parts is the default or the one given last.", "quantifier": "every dictionary, user dictionary, input and token list from Analyze; every option list", "why_tests_cant": "all tokens of all dictionaries, including POS of fewer or more levels", "anchors": ["filter/ja/filter.go:NewFilter", "filter/ja/filter.go:newDefaultLuceneStopTagPOSFilter", "filter/ja/loader.go:loadConfig", "filter/ja/asset/stop_tags.txt", "filter/ja/asset/stop_words.txt"]}
{"id": "C65", "title": "The text of a token can be read back", "statement": "Token.String writes index:\"surface\" (position: start, end) CLASS [id] on one line without control characters, and a reader of that format with Go string literals gets back exactly these seven values, whatever bytes the surface has; so tokens that differ in one of them have different texts.", "quantifier": "every token (any surface bytes, any ids) and any notion of printable rune that excludes control characters", "why_tests_cant": "all byte strings as surfaces, including quotation marks, escapes, invalid UTF-8 and line breaks", "anchors": ["tokenizer/token.go:Token.String", "tokenizer/token.go:TokenClass.String"]}
{"id": "C66", "title": "The name of a mode selects that mode", "statement": "For each of the three tokenize modes, the name TokenizeMode.String returns is accepted by the -mode option and selects that mode; different modes have different names. (False for Extended, whose name is \"extend\" while the option wants \"extended\".)", "quantifier": "every mode value, environment and program name", "why_tests_cant": "the refutation is for every environment; injectivity is over all integers", "anchors": ["tokenizer/tokenizer.go:TokenizeMode.String", "cmd/tokenize/cmd.go:option.parse", "cmd/tokenize/cmd.go:selectMode"]}
{"id": "C67", "title": "Where the default splitter ends a sentence", "statement": "The package-level ScanSentences ends a sentence at the first of: one of the marks 。．！!？? ; the 128th rune that is not white space; a line feed that follows another one after the first solid rune with no other white space between them; the end of the text. After a mark or the 128th rune, further marks, the closers .｣」』)）｝}〉》 and white space up to a second line feed belong to the sentence. The sentence is its runes without white space, and the rest of the text is left for the next call.", "quantifier": "every input, at the end of the text or not", "why_tests_cant": "all placements of marks, closers, white space and line feeds in texts of any length", "anchors": ["filter/sentence_splitter.go:ScanSentences", "filter/sentence_splitter.go:defaultSplitter", "filter/sentence_splitter.go:SentenceSplitter.ScanSentences"]}
{"id": "C68", "title": "Ties are broken in a fixed way", "statement": "Among segmentations of equal cost Analyze returns the one that, at the last word where two differ, has the longer word; for words of the same text, a known word before an unknown one, and within a dictionary the one listed first. So the words returned are determined by the candidate words and their costs alone, for every input, also when costs tie.", "quantifier": "every well-formed dictionary and user dictionary, every input up to the length limits of C06 and C07, Normal and Search mode", "why_tests_cant": "all sets of equally cheap segmentations (exponentially many) over all dictionaries", "anchors": ["tokenizer/lattice/lattice.go:Lattice.Forward", "tokenizer/lattice/lattice.go:Lattice.Build", "tokenizer/lattice/lattice.go:Lattice.addNode", "tokenizer/tokenizer.go:Tokenizer.Analyze"]}
{"id": "C69", "title": "The text of the lattice graph shows the graph", "statement": "A reader of the document written by Dot/AnalyzeGraph sees exactly the drawing: the same nodes and edges in the same order, each node with its surface, part of speech and cost as the three lines of its label and a double border exactly on the best path, each edge with its cost and bold exactly on the best path.", "quantifier": "every dictionary, user dictionary, input and mode", "why_tests_cant": "every input character, including those with a meaning in graphviz labels", "anchors": ["tokenizer/lattice/lattice.go:Lattice.Dot", "tokenizer/tokenizer.go:Tokenizer.AnalyzeGraph"]}
{"id": "C70", "title": "The text of a features filter shows its patterns", "statement": "FeaturesFilter.String writes an outline, two spaces per level and one feature per line, whose branches are exactly the shortest patterns of the filter (those that extend no other pattern), each once, if there are no ambiguous wildcards; and for any pattern lists two filters with the same text match the same features. The features must not contain line feeds or begin with a space.", "quantifier": "every pattern list", "why_tests_cant": "all pattern lists; the tests compare a few texts", "anchors": ["filter/feature.go:FeaturesFilter.String", "filter/feature.go:filterString"]}
{"id": "C71", "title": "Requests to the server do not disturb each other", "statement": "Whatever connections the server has and however their handlers are interleaved, and whatever the pools still hold from before, each POST /tokenize and each demo page is answered with exactly the status, body, table and picture text that it would get as the only request ever made; the handlers always finish, and the memory they leave behind is fit for further requests.", "quantifier": "every number of connections, every list of requests on each, every interleaving, every decoder, every behaviour of dot, every left-over memory", "why_tests_cant": "interleavings and pool contents are chosen by the run time; the tests of the server make no concurrent requests", "anchors": ["cmd/server/api.go:TokenizeHandler.ServeHTTP", "cmd/server/demo.go:TokenizeDemoHandler.ServeHTTP", "tokenizer/lattice/lattice.go:Build", "tokenizer/lattice/mem/pool.go"]}
{"id": "C72", "title": "Programs that use lattices themselves do not disturb others", "statement": "The exported methods of a lattice can be called in any order between New and Free: Output holds what each Backward gives for the input built last and the mode of the last Forward, and neither other lattices nor calls of the tokenizer notice.", "quantifier": "every sequence of Build, Forward and Backward on any number of lattices in any number of goroutines beside tokenizer calls, every interleaving", "why_tests_cant": "all call sequences and interleavings; the tests use each lattice once and in the order Build, Forward, Backward", "anchors": ["tokenizer/lattice/lattice.go:New", "tokenizer/lattice/lattice.go:Free", "tokenizer/lattice/lattice.go:Build", "tokenizer/lattice/lattice.go:Forward", "tokenizer/lattice/lattice.go:Backward"]}
{"id": "C73", "title": "The lattice page shows the analysis and nothing the user can smuggle in", "statement": "With a lattice value the demo page, as a browser reads it, has a table with the sentence and mode as sent, one row for each word of the analysis (surface, part of speech, base form, reading, pronunciation, a star where there is none), and dot's picture; if dot is missing or fails it shows the error and no words. The tags of the page do not depend on the sentence, the mode, the words or the error text. A NUL is shown as U+FFFD.", "quantifier": "every sentence, mode and dictionary, every outcome of dot", "why_tests_cant": "all sentences including markup; the tests look for a title", "anchors": ["cmd/server/demo.go:TokenizeDemoHandler.ServeHTTP", "cmd/server/demo.go:analyzeGraph", "cmd/server/asset/graph.html"]}
{"id": "C74", "title": "The form page shows what was sent", "statement": "Without a lattice value the demo page is a form whose text area holds the sentence that was sent and whose radio button for the mode that was sent is on; its tags do not depend on the sentence.", "quantifier": "every sentence and mode", "why_tests_cant": "all sentences and modes; the tests look for a title", "anchors": ["cmd/server/demo.go:TokenizeDemoHandler.ServeHTTP", "cmd/server/asset/demo.html"]}
{"id": "C75", "title": "With any dictionary a call ends", "statement": "Analyze, Wakati, AnalyzeGraph and the two handlers of the server return or panic, whatever the tables of the dictionaries contain: no loop runs for ever, not even the walk along the prev pointers in Backward and in the graph.", "quantifier": "every system and user dictionary, sound or not, every input and mode", "why_tests_cant": "corrupt tables are never loaded in tests, and a test cannot tell a loop from a slow call", "anchors": ["tokenizer/tokenizer.go:Tokenizer.Analyze", "tokenizer/tokenizer.go:Tokenizer.AnalyzeGraph", "tokenizer/lattice/lattice.go:Backward", "tokenizer/lattice/lattice.go:Forward", "tokenizer/lattice/lattice.go:Dot"]}
{"id": "C76", "title": "A panicking call disturbs nobody", "statement": "If callers recover from panics (a broken dictionary makes the analysis panic in the middle), each call in each goroutine still gives exactly what it gives alone, its answer or its panic; the lattice of a panicking call goes back to the pool and later users of its memory do not notice; all goroutines finish.", "quantifier": "every number of goroutines, every list of calls with any tokenizers, every interleaving, every left-over memory", "why_tests_cant": "no test makes a call panic, let alone reuses its pooled memory in another goroutine", "anchors": ["tokenizer/tokenizer.go:Tokenizer.Analyze", "tokenizer/tokenizer.go:Tokenizer.AnalyzeGraph", "tokenizer/lattice/lattice.go:Free", "tokenizer/lattice/mem/pool.go"]}
{"id": "C77", "title": "A panicking request ends its own connection only", "statement": "When a handler panics, net/http recovers and closes that connection: the requests before it on the connection got the answers they get alone, and the requests on every other connection, with their own tokenizers or the same one, are answered as if the panicking one had not been made.", "quantifier": "every number of connections, every tokenizer and list of requests on each, every interleaving, every decoder, every behaviour of dot, every left-over memory", "why_tests_cant": "interleavings, pool contents and broken dictionaries are outside the tests", "anchors": ["cmd/server/api.go:TokenizeHandler.ServeHTTP", "cmd/server/demo.go:TokenizeDemoHandler.ServeHTTP", "tokenizer/lattice/lattice.go:Free"]}
{"id": "C78", "title": "Help is truthful", "statement": "The help text of each command lists exactly the flags the command accepts, each once: a flag that is not listed is refused, and giving a flag the default the text shows has the same effect as leaving it out. The usage line lists the options whose acceptance C58 describes, and the list of commands names exactly the commands there are and marks the one that runs when no command is named.", "quantifier": "every command, every listed flag, every flag not listed, every further arguments, every environment", "why_tests_cant": "the flags that are not listed and the further arguments cannot be enumerated", "anchors": ["cmd/tokenize/cmd.go:newOption", "cmd/server/cmd.go:newOption", "cmd/lattice/cmd.go:newOption", "cmd/sentence/cmd.go:newOption", "cmd/tokenize/cmd.go:PrintDefaults", "kagome.go:PrintDefaults"]}
{"id": "C79", "title": "Refused arguments are refused with the reason", "statement": "When a command refuses its arguments it exits with status 1, writes nothing to the standard output, and its error text consists of flag's own report (if the syntax of flags is broken), the usage line, the help and the reason: the first fault of the syntax, the arguments that are too many or missing, or the flag and the value that is not allowed. The reason is the right one for the arguments.", "quantifier": "every command, every list of arguments that is refused, every environment", "why_tests_cant": "all lists of arguments", "anchors": ["cmd/tokenize/cmd.go:Run", "cmd/server/cmd.go:Run", "cmd/lattice/cmd.go:Run", "cmd/sentence/cmd.go:Run", "cmd/tokenize/cmd.go:option.parse", "cmd/server/cmd.go:option.parse", "cmd/lattice/cmd.go:option.parse", "cmd/sentence/cmd.go:option.parse", "kagome.go:main"]}
{"id": "C80", "title": "What kagome version says", "statement": "kagome version, with any further arguments, exits with status 0 and writes to the standard error the version set at link time, else the version of the main module, else (devel), and then one line for every dependency below kagome-dict, in order.", "quantifier": "every build information, every arguments", "why_tests_cant": "build information of other builds is not available to a test", "anchors": ["kagome.go:ShowVersion", "kagome.go:main"]}
{"id": "C81", "title": "The sentences of a text, for any options", "statement": "For every SentenceSplitter the first sentence of a text is determined by the delimiters, the length limit, the pairs of line feeds and the white space as follows: it ends with the first delimiter that is not leading white space, with the rune that makes it MaxRuneLen long, or with a line feed that follows another one with no dropped white space between; after a delimiter or the last rune it takes with it all delimiters, followers and dropped white space that follow, up to a second dropped line feed. ScanSentences returns exactly that sentence and leaves exactly the rest. Scanning a valid UTF-8 text that is read at once, or in pieces as in C38, gives exactly the list of these sentences.", "quantifier": "every splitter, every text, every reader that delivers the text in one read or in pieces that begin with an ordinary rune, no sentence of the text holding two line feeds (space not a delimiter if white space is skipped)", "why_tests_cant": "all option values and texts", "anchors": ["filter/sentence_splitter.go:ScanSentences", "filter/sentence_splitter.go:isDelim", "filter/sentence_splitter.go:isFollower"]}
{"id": "C82", "title": "kagome -h prints the help that README.md shows", "statement": "When the program is started under the name kagome without the name of a command and with arguments that tokenize refuses (-h and -help among them), it prints to standard error exactly the 26 lines that README.md shows for `kagome -h`, and exits with status 1.", "quantifier": "every directory of the program, every such list of arguments, every state of the outside world", "why_tests_cant": "all argument lists that are refused; a documentation text against the program's", "anchors": ["kagome.go:main", "kagome.go:Usage", "kagome.go:PrintDefaults", "README.md"]}
{"id": "C83", "title": "Requests reach the handler of their address", "statement": "The server answers a request whose path is /tokenize with the tokenize endpoint, whatever the method, and a request for any other plain path (names separated by single slashes, none of them . or ..) with the demo page. Every other path is answered by a permanent redirection, with the same query, to the plain path that leads to the same place; so a redirection is never followed by another. A CONNECT request is never redirected.", "quantifier": "every request, every tokenizer", "why_tests_cant": "all paths and methods", "anchors": ["cmd/server/cmd.go:command"]}
{"id": "C84", "title": "What the demo page's script posts reaches the tokenize endpoint", "statement": "Every address the script of the demo page posts to, taken relative to the address of the page, is answered by the tokenize endpoint.", "quantifier": "every address at which the page is served, every input and mode", "why_tests_cant": "all addresses of the page", "anchors": ["cmd/server/cmd.go:command", "cmd/server/asset/demo.html"]}
{"id": "C85", "title": "Analysis takes time linear in the text", "statement": "For each pair of a well-formed system dictionary and a user dictionary there is a constant such that Analyze on any text, in any mode, takes at most that constant times the number of runes (plus one) steps, counting loop turns of kagome's own code, nodes taken and released, and runes counted. The lattice of a text has at most 2 + n·(k + 2v) nodes, n being the number of runes, k the most keywords that can begin at one place and v the most entries for unknown words of one category.", "quantifier": "all well-formed dictionaries, then all texts, modes and options", "why_tests_cant": "A test can time a few texts; a slow text (a long run of one category, many keywords that are prefixes of each other) may be missed, and no timing shows that the growth stays linear for every text.", "anchors": ["tokenizer/lattice/lattice.go:75-177", "tokenizer/lattice/lattice.go:192-271", "tokenizer/tokenizer.go:83-126", "tokenizer/lattice/lattice.go:57-73"]}
{"id": "C86", "title": "The demo page's table shows the words of the text", "statement": "The answer to what is typed into the demo page fills the page's table with one row for each word of the text in the chosen mode. The row shows the word's surface, part of speech, base form, reading and pronunciation (a star where one of the last three is empty), whatever characters they contain, and brings no other tag into the page.", "quantifier": "every text and mode, every well-formed dictionary, every earlier state of the table", "why_tests_cant": "all texts and dictionaries; the harmful ones are rare", "anchors": ["cmd/server/asset/demo.html:116-144", "cmd/server/api.go"]}
{"id": "C87", "title": "The demo page's table belongs to the text and mode in the form", "statement": "Once no request of the demo page is under way, its table is empty and nothing was typed, or it is the table of the text and mode that are in the form. At every moment the table is empty or that of one text and mode that were in the form, never a mixture.", "quantifier": "every sequence of inputs and every order of the answers", "why_tests_cant": "all interleavings of typing and of answers", "anchors": ["cmd/server/asset/demo.html:90", "cmd/server/asset/demo.html:116-152"]}
{"id": "C88", "title": "Dictionary entries whose keyword is not in the text do not matter", "statement": "Analyze gives the same tokens (all exported fields), or fails in the same way, and Wakati gives the same strings, with any two system and user dictionaries that agree except for entries whose keyword does not occur in the text; a user dictionary none of whose keywords occurs in the text is like having no user dictionary. If the user dictionaries also have the same contents, the tokens' features are the same.", "quantifier": "every text, mode, filler option, every system and user dictionary, well formed or not", "why_tests_cant": "all pairs of dictionaries", "anchors": ["tokenizer/lattice/lattice.go:102-177", "tokenizer/tokenizer.go:66-132"]}
{"id": "C89", "title": "Alternatives that were not taken do not matter", "statement": "Entries are taken away from the dictionaries so that the words of the answer remain and no new candidate words arise. Then Analyze gives the same tokens as before in Normal and Search mode, ties included, and in Extended mode when the text's answer in Search mode is unaffected.", "quantifier": "every text below the length where costs overflow, every well-formed dictionary and every set of removed entries", "why_tests_cant": "all dictionaries and all sets of removed entries", "anchors": ["tokenizer/lattice/lattice.go:213-270", "tokenizer/tokenizer.go:83-132"]}
{"id": "C90", "title": "The Cost of a node in a lattice's Output is exact", "statement": "After lattice.New, Build, Forward and Backward, Output is EOS, the words of a cheapest segmentation from the last to the first, and BOS. The Cost of EOS is the cost of that segmentation, and the Cost of each word is that of the cheapest way from the beginning of the text to it, its own length penalty not yet included. With Backward in Extended mode the characters that replace an unknown word have no cost.", "quantifier": "every text of at most 32767 runes (31333 in Search and Extended mode), every well-formed dictionary, all modes of Forward and Backward, whatever other goroutines do", "why_tests_cant": "all texts and dictionaries, all ways to a word, all schedules", "anchors": ["tokenizer/lattice/lattice.go:201-270", "tokenizer/lattice/node.go:37-48"]}
{"id": "C91", "title": "The search example finds the lines in which a word is used", "statement": "The program _examples/db_search, given any lines and search words, prints for each search word in turn a heading and, in order and once each, the content and the number of the lines in which the word is used, or that there are none. A word is used in a line if it stands between separators (SQLite's notion of a word) in one of the words Wakati returns; in a line without ASCII characters, if it is one of them. So a word is not found in a longer word.", "quantifier": "every well-formed dictionary, all lines without NUL, all non-empty search words without ASCII characters, every MATCH that meets FTS4's contract", "why_tests_cant": "all lines, words and dictionaries", "anchors": ["_examples/db_search/main.go:31-120", "_examples/db_search/main.go:122-210"]}
{"id": "C92", "title": "The search example puts no word of a line into the index twice", "statement": "The text stored in the index for a line consists of the words of Wakati, each of them once (the comment: remove duplicate segment tokens).", "quantifier": "every line and dictionary", "why_tests_cant": "all lines", "anchors": ["_examples/db_search/main.go:142-146"]}
{"id": "C93", "title": "kagome_tokenize gives JavaScript one object per word", "statement": "kagome_tokenize(s) of the WebAssembly example returns an array with one object for each word of Normal mode without BOS and EOS, in order; word_id, word_type, word_position, surface_form, pos (joined with commas), base_form, reading and pronunciation are those of the token, empty if there are none. The surface forms together are s. Without an argument it returns null.", "quantifier": "every string and well-formed dictionary", "why_tests_cant": "all strings and dictionaries", "anchors": ["_examples/wasm/main.go:18-42"]}
{"id": "C94", "title": "The WebAssembly page shows the words of the text in its form", "statement": "After any sequence of inputs the table of kagome.html has one row of five cells for each word of the text in the form: surface, part of speech, base form, reading and pronunciation.", "quantifier": "every sequence of inputs and the loading of the program between any two of them, every well-formed dictionary", "why_tests_cant": "all sequences of inputs and all texts", "anchors": ["_examples/wasm/kagome.html:119-135", "_examples/wasm/main.go:44-54"]}
{"id": "C95", "title": "The small example programs print every word with its features", "statement": "The program _examples/tokenize prints a heading and for each word of its text, in order, the surface, a tab and the features joined with commas; _examples/user_dict prints the words of Search mode with their features in brackets; _examples/wakati prints a heading and one line of words with slashes between them, which without the slashes is the text if that contains none.", "quantifier": "every text in place of the programs' own, every well-formed dictionary and user dictionary", "why_tests_cant": "all texts and dictionaries", "anchors": ["_examples/tokenize/main.go:17-22", "_examples/user_dict/main.go:27-30", "_examples/wakati/main.go:17-19"]}
{"id": "C96", "title": "The text of a lattice shows every candidate word, its cost and its predecessor", "statement": "After Build, String of a lattice is a paragraph for BOS, one for each rune position of the text and one for EOS; the paragraph of a position has one line for each candidate word that ends there (each once and in the order of preference if the dictionaries list nothing twice) with id, byte and rune position, class, cost 0, the connection ids and weight of its dictionary entry, its text and no predecessor. After Forward the cost is that of the cheapest way to the word (for EOS, of the cheapest segmentation) and the predecessor is the last node on such a way; a word that starts where no word ends has cost 2147483647 and no predecessor.", "quantifier": "every text (after Forward: up to 32767 runes in Normal and 31333 in the other modes), every well-formed dictionary and user dictionary, every mode, every placement of the nodes in memory; texts with the replacement character only with a dictionary that groups it", "why_tests_cant": "all texts, dictionaries and addresses", "anchors": ["tokenizer/lattice/lattice.go:180-190", "tokenizer/lattice/lattice.go:99-177", "tokenizer/lattice/lattice.go:212-241", "tokenizer/lattice/node.go:36-47"]}
{"id": "C97", "title": "A command whose output could not be written says so", "statement": "If a write of the output fails, tokenize, sentence and lattice exit with a nonzero status; if none fails, the output is complete whatever its length.", "quantifier": "every input, dictionary and list of arguments, every pattern of failing and partial writes", "why_tests_cant": "tests do not inject write errors; all patterns of failures", "anchors": ["cmd/tokenize/cmd.go:166-219", "cmd/sentence/cmd.go:66-84", "cmd/lattice/cmd.go:105-148", "tokenizer/lattice/lattice.go:344-388"]}
{"id": "C98", "title": "What is written before a failure is the beginning of the output", "statement": "If writes of the output fail, what has been written in the end is a prefix of the output of the same run without failures. (For tokenize, what is lost is the end of an answer; for sentence and lattice, the end of a line.)", "quantifier": "every input, dictionary and list of arguments, every pattern of failing and partial writes", "why_tests_cant": "tests do not inject write errors; all patterns of failures", "anchors": ["cmd/tokenize/cmd.go:166-219", "cmd/sentence/cmd.go:66-84", "tokenizer/lattice/lattice.go:344-388"]}
{"id": "C99", "title": "The button Lattice shows the analysis of the text in the form", "statement": "What a browser sends for the form of the demo page (text area, mode, button) reaches the handler unchanged but for line ends, which become CR LF, whichever of its bytes are percent-encoded and in upper or lower case: the answer is the page with the words of that text in the mode chosen (Extended as Search) and its graph, or with the error. A body of more than 10 MiB is dropped: the answer is the empty form.", "quantifier": "every text, mode, dictionary and behaviour of graphviz", "why_tests_cant": "all texts; the form encoding is not part of the tests", "anchors": ["cmd/server/demo.go:112-158", "cmd/server/asset/demo.html:90-101", "cmd/server/cmd.go:106-108"]}
{"id": "C100", "title": "The table that fills while one types and the table of the button Lattice agree", "statement": "For the same text and mode both pages list the same words in the same order, and their cells (surface, part of speech, base form, reading, pronunciation) are equal.", "quantifier": "every valid text without line ends whose form body is at most 10 MiB, Normal and Search mode, every well-formed dictionary; words whose fields are non-empty valid texts without NUL (in the live table also without < and &)", "why_tests_cant": "relates two independent implementations (Go template and JavaScript) on all inputs", "anchors": ["cmd/server/demo.go:45-80", "cmd/server/asset/demo.html:116-152", "cmd/server/asset/graph.html:47-70", "cmd/server/api.go:18-64"]}
{"id": "C101", "title": "A change of the mode is not taken for the button Lattice", "statement": "The server answers what the demo page posts when a radio button changes with the form, without analysing or drawing anything.", "quantifier": "every text and mode", "why_tests_cant": "all texts", "anchors": ["cmd/server/asset/demo.html:146-151", "cmd/server/demo.go:112-128"]}
{"id": "C102", "title": "The tokenize endpoint understands every JSON spelling of a request and nothing else", "statement": "A body is taken as a request exactly when it begins with a JSON value (RFC 8259, nesting at most 10000) that is null or an object whose members named sentence or mode, up to case, are strings or null; the last string of a name counts, other members are ignored, escapes mean what JSON says, lone surrogates and bytes that are not UTF-8 mean U+FFFD. Then the answer is the analysis of that sentence in that mode; any other body is answered with 400. The decoder never panics and never fails to end.", "quantifier": "every body, as bytes; every dictionary", "why_tests_cant": "all byte strings against the grammar of JSON; the decoder runs two passes of a state machine with 30 states and a stack", "anchors": ["cmd/server/api.go:28-64", "cmd/server/api.go:18-21"]}
{"id": "C103", "title": "Every request to the server gets the answer it is due", "statement": "Whatever the method, path, query and body of a request, the server answers it. A path that is not plain is redirected once; /tokenize answers 200 with the tokens of the sentence if the body asks for one (C102) and 400 otherwise; any other plain path gets the demo page, which without a value for lattice is the form with the text sent and otherwise the page of the words and the graph of the text, in the mode sent, or of graphviz's error. The values are those of the form in the body and then of the query, in any order and however percent-encoded, the first of a name counting and spoilt fields being left out. A CONNECT request is never redirected.", "quantifier": "every method, path, query, body, well-formed dictionary and behaviour of graphviz", "why_tests_cant": "all requests; the tests send a few requests to each handler", "anchors": ["cmd/server/cmd.go:106-108", "cmd/server/api.go:28-64", "cmd/server/demo.go:113-158"]}
{"id": "C104", "title": "A body that arrives in pieces, late or not to its end", "statement": "The answer of /tokenize does not depend on how the body is cut into pieces on its way. It is given as soon as the bytes that have come settle it: the object is closed, another value is followed by something, or a byte cannot belong to any value; what comes later does not change it, even if the connection fails then. At the end of the body the answer is the one to the whole body. As long as the answer is not settled the handler waits, and if the connection fails it answers 400 with the error of the connection.", "quantifier": "every sequence of reads of the body, with or without an end or an error, every tokenizer", "why_tests_cant": "all ways to cut a body into reads and to break it off; the tests send bodies at once", "anchors": ["cmd/server/api.go:31-38"]}
{"id": "C105", "title": "The slices a token hands out are the caller's own", "statement": "A program may write into every slice it got from Features, POS, UserExtra or NewTokenData, up to its capacity: no later call of any token's methods, no other slice it holds and no dictionary entry changes by it. The slices have no room behind their elements, so appending to one never writes into memory that something else uses. A call of these methods writes only to memory it has allocated itself, so calls from several goroutines do not get in each other's way.", "quantifier": "every program of calls and writes, every layout of the dictionaries in memory (rows that share arrays, with room behind them), any growth of append", "why_tests_cant": "aliasing shows only if a caller writes into a result and something else is read later; the tests only read results", "anchors": ["tokenizer/token.go:55-83", "tokenizer/token.go:141-187", "tokenizer/token.go:279-299"]}
{"id": "C106", "title": "Search and Extended mode change only what has long words", "statement": "If no word of the result of Normal mode is long (more than two runes all of which are ideographs, or more than seven runes), Search mode gives the same tokens, and so does Extended mode if moreover no word is unknown. In any case the penalties of the words of the Search result are together at most those of the Normal result; if they are equal the two results are equal; and what the words of the Search result cost more is at most what they save in penalties.", "quantifier": "every dictionary and user dictionary, every input of at most 31333 runes, every set of ideographs", "why_tests_cant": "relates two runs over every dictionary and text; a test compares the two modes on a few texts", "anchors": ["tokenizer/lattice/lattice.go:192-242", "tokenizer/tokenizer.go:83-127"]}
{"id": "C107", "title": "The filters work in place and touch only the caller's slice", "statement": "Drop and Keep of filter, POSFilter and WordFilter and Drop of ja.Filter write the tokens that stay to the beginning of the caller's slice and shorten the slice; the array, its offset and its capacity stay. Behind the new end the array keeps what was there (tokens appended to the result overwrite it). Nothing outside the slice is read or written, so goroutines that filter slices without common elements, even of one array and with one filter, do not race and each gets the result it would get alone, in at most four steps a token.", "quantifier": "every memory of token arrays, any number of calls on slices that do not overlap, every interleaving of their memory accesses, every filter", "why_tests_cant": "interleavings and the memory behind the slice; tests look at the elements of one slice after one call", "anchors": ["filter/filter.go:17-32", "filter/pos.go:39-54", "filter/word.go:39-54", "filter/ja/filter.go:129-132"]}
{"id": "C108", "title": "tokenize -split does what sentence piped into tokenize does", "statement": "kagome tokenize -split with further options prints exactly what kagome sentence, piped into kagome tokenize with the same further options, prints, and it fails as the pipeline does under pipefail; this holds for every text, however it and the pipe are read, and also when a dictionary or the file cannot be had or a dictionary makes the analysis panic, as long as no sentence has 64 KiB or more.", "quantifier": "every input and reader of it, every way in which the pipe delivers the sentences, every choice of options, every dictionary", "why_tests_cant": "two programs and the unbounded ways of cutting their inputs into reads", "anchors": ["cmd/tokenize/cmd.go:131-176", "cmd/sentence/cmd.go:66-84", "filter/sentence_splitter.go:SentenceSplitter.ScanSentences"]}
{"id": "C109", "title": "Splitting what has been split changes nothing", "statement": "When the sentences of a text are printed one a line, as kagome sentence does, and the lines are split again with the same splitter, the same sentences come out. This holds exactly if every sentence but the last has a delimiter or MaxRuneLen runes, and none but the first begins with a delimiter or a follower.", "quantifier": "every splitter that skips white space and has none among its delimiters; every valid text, read in any whole runes; the printed lines read in one piece or in pieces that begin with an ordinary rune (for the converse: in one piece)", "why_tests_cant": "it relates two runs of the splitter on unboundedly many texts", "anchors": ["filter/sentence_splitter.go:SentenceSplitter.ScanSentences", "cmd/sentence/cmd.go:66-84"]}
{"id": "C110", "title": "The tokenize endpoint and tokenize -json tell the same tokens", "statement": "Asked about the same one-line text, in the same mode and with the same dictionaries, POST /tokenize and kagome tokenize -json tell the same list of tokens with the same data, however the request is spelt and however the command's input is cut.", "quantifier": "every one-line text under 64 KiB, every spelling of the request, every mode, all well-formed dictionaries, every reader that makes progress", "why_tests_cant": "it relates two programs on unboundedly many texts, spellings and reads", "anchors": ["cmd/server/api.go:28-64", "cmd/tokenize/cmd.go:131-215", "tokenizer/token.go:279-299"]}
{"id": "C111", "title": "lattice -v writes the lines of tokenize", "statement": "For the same one-line text, mode and dictionaries, what kagome lattice -v writes to the standard error is byte for byte what kagome tokenize writes to the standard output, with or without -output and however tokenize's input is cut.", "quantifier": "every one-line text under 64 KiB whose costs cannot reach the int32 bound (no_loss), every mode, all well-formed dictionaries, every reader that makes progress", "why_tests_cant": "it relates two programs on unboundedly many texts, dictionaries and reads", "anchors": ["cmd/lattice/cmd.go:109-150", "cmd/tokenize/cmd.go:131-215"]}
{"id": "C112", "title": "Names do not decide where words are, and -simple only leaves features out", "statement": "Dictionaries that differ only in parts of speech, features and their metadata give the same tokens for every text, mode and option. With a dictionary loaded without its contents (-simple) the tokens are the same; words of the dictionary keep exactly their part of speech as features, and all other tokens keep all features. kagome tokenize and kagome tokenize -simple print the same lines for the same input, except that the features of a line may be cut short.", "quantifier": "all texts, modes, options and dictionaries (well-formed ones for the features), every reader, with and without -split", "why_tests_cant": "it relates two runs on unboundedly many texts, dictionaries and reads", "anchors": ["tokenizer/lattice/lattice.go:75-271", "tokenizer/tokenizer.go:83-126", "tokenizer/token.go:55-83", "tokenizer/token.go:156-187", "cmd/tokenize/cmd.go:100-176"]}
{"id": "C113", "title": "Texts one after another", "statement": "kagome tokenize of two files one after the other (the first empty or ending with a line feed) prints exactly what it prints of the first and then of the second, as text and as JSON: no line influences another. The non-empty sentences of two texts one after the other, of which the first ends with a kept delimiter and the second does not begin with a delimiter, a follower or dropped white space, are those of the first and then those of the second.", "quantifier": "all texts (lines under 64 KiB; for sentences a first text of valid UTF-8), all dictionaries, modes, splitter options, and reads as in C40 and C81", "why_tests_cant": "it relates three runs on unboundedly many texts and reads", "anchors": ["cmd/tokenize/cmd.go:131-215", "filter/sentence_splitter.go:50-134"]}
{"id": "C114", "title": "Texts made of user words", "statement": "A text that reads as keywords of the user dictionary one after another, each the only keyword of the user dictionary where it begins, is cut into exactly these words, all of class USER, in every mode and whatever the system dictionary contains. The same holds of such a stretch inside a longer text wherever a token begins at its beginning.", "quantifier": "all well-formed dictionaries and user dictionaries, all modes (also invalid ones), all texts; for a whole text, those within the length of C01 or without gaps", "why_tests_cant": "it quantifies over all dictionaries, costs and texts; the tests use one user dictionary", "anchors": ["tokenizer/lattice/lattice.go:102-178", "tokenizer/tokenizer.go:83-126"]}
{"id": "C115", "title": "What becomes cheaper is not used less often", "statement": "If the cost of one entry of the dictionary (a word or an unknown-word entry) is lowered and nothing else is changed, then in every text that entry is found at least as often as before. If the cost of one connection (a right id and a left id) is lowered, neighbouring tokens are joined by it at least as often as before. A maintainer who lowers a cost to make a word appear cannot make it disappear.", "quantifier": "all pairs of well-formed dictionaries that differ in that one cost, all user dictionaries, all texts up to the length of C06/C07, Normal and Search mode and modes outside the enumeration; in Extended mode for known words", "why_tests_cant": "it compares two dictionaries over all texts; a test compares two outputs", "anchors": ["tokenizer/lattice/lattice.go:213-242", "tokenizer/lattice/lattice.go:244-271"]}
{"id": "C116", "title": "What comes before bears on what follows only through one number, and the other way round", "statement": "Take two texts with the same ending, each with a token boundary where the ending begins. If the tokens before the boundary have the same right id (or are both user words; the beginning of the text has right id 0), the ending is cut into the same tokens, ties included. Take two texts with the same beginning such that no keyword of either dictionary reaches across its end and no group of characters goes on there. Then both are cut there, and if the tokens after the cut have the same left id (or are both user words, or one is the end of the text with left id 0), the beginning is cut into the same tokens. So the lattice keeps no other memory.", "quantifier": "all well-formed dictionaries and user dictionaries, all texts within the length of C06/C07 whose part before the boundary is valid UTF-8, all modes but Extended (which is Search with unknown words split, C08)", "why_tests_cant": "it compares two analyses over all dictionaries and texts", "anchors": ["tokenizer/lattice/lattice.go:102-178", "tokenizer/lattice/lattice.go:213-271"]}
{"id": "C117", "title": "On which scale costs are told does not matter", "statement": "Two dictionaries have the same words, and the second tells every cost k times as large (k > 0) and shifts costs between words and connections: connections to left id l cost f(l) more, connections from right id r cost g(r) more, and words with these ids cost as much less. Then Analyze returns the same tokens with both, ties included. In Search and Extended mode, whose penalties are fixed numbers, k must be 1; with a user word in the text, whose connections cost nothing, f and g must be 0. Both restrictions are needed.", "quantifier": "all k, f, g, all well-formed dictionaries related in this way and user dictionaries, all texts within the length of C06/C07, all modes", "why_tests_cant": "it compares two analyses over all dictionaries, scales and texts", "anchors": ["tokenizer/lattice/lattice.go:201-241", "tokenizer/lattice/lattice.go:14-21"]}
{"id": "C118", "title": "Splitting takes time linear in the text and the reads", "statement": "Count a step for every rune the sentence splitter looks at, every delimiter or follower it compares and every byte it moves or blanks. A call of ScanSentences that yields a sentence takes at most 2*(2+|Delim|+|Follower|) steps for each byte it advances over, one that asks for more data as many for each byte it was given. Splitting a whole text takes at most that many steps for each byte of the text and, for each time the reader is asked, for each byte the Scanner's buffer can hold; without SkipWhiteSpace four times MaxRuneLen takes the place of the buffer.", "quantifier": "all splitters, all texts, all readers (any sizes of Reads, empty Reads, any final error)", "why_tests_cant": "a bound on time over all texts, settings and ways of reading", "anchors": ["filter/sentence_splitter.go:32-133"]}
{"id": "C119", "title": "A character that is in no word counts only through its kind", "statement": "Take two texts with the same number of runes that agree but for runes which in neither text are covered by any keyword of the system or the user dictionary, and which at each place are of the same category, both or none ideographs, and both or none malformed bytes (a literal U+FFFD apart). Analysed in the same mode, within the length of the best-path guarantee, they give tokens of the same ids, classes, indices, starts and ends. In particular it does not matter which the bytes are that are not UTF-8.", "quantifier": "all dictionaries, user dictionaries, modes, texts", "why_tests_cant": "all pairs of texts that differ in unlisted characters", "anchors": ["tokenizer/lattice/lattice.go:102-177", "tokenizer/lattice/lattice.go:192-271"]}
{"id": "C120", "title": "The lattice graph grows linearly with the text", "statement": "If at most k keywords of either dictionary can stand at one place, a category has at most v unknown-word entries and no word has more than l runes, AnalyzeGraph draws for a text of n runes at most 2+n(k+2v) boxes and at most 1+l(k+2v) lines into each. So each dictionary has a number of boxes and lines per rune, and of bytes per rune in the Graphviz text, that no input exceeds.", "quantifier": "all dictionaries and user dictionaries, modes, texts", "why_tests_cant": "a bound over all texts of any length", "anchors": ["tokenizer/lattice/lattice.go:312-389", "tokenizer/tokenizer.go:134-173"]}
{"id": "C121", "title": "Which numbers a dictionary gives its entries does not matter", "statement": "Give the entries of the system, unknown-word and user dictionaries, the two sides of the connection matrix and the character categories other numbers (0 staying the connection number of BOS and EOS, the entries of one keyword staying in their order), and change nothing else. Every text is then analysed, in every mode, to the same tokens with the new numbers; Features, POS and UserExtra of each token are the same, FeatureAt, BaseForm, Reading and the other named accessors too, and the graph that AnalyzeGraph writes is the same byte for byte. In particular the order in which a user dictionary lists its words, each once, does not matter.", "quantifier": "all dictionaries, renumberings, modes, texts of any length", "why_tests_cant": "all renumberings of all dictionaries", "anchors": ["tokenizer/lattice/lattice.go:75-177", "tokenizer/lattice/lattice.go:213-271", "tokenizer/tokenizer.go:83-126", "tokenizer/token.go:55-83", "tokenizer/lattice/lattice.go:312-389"]}
{"id": "C122", "title": "Filters on one slice: any order, again, and the other way round", "statement": "Apply any number of filters (filter.Drop and Keep with a match function without state, Drop and Keep of POSFilter and WordFilter, Drop of ja.Filter) one after another to the tokens of an analysis. No call panics, what is left is the tokens that every one of the calls leaves, in their order, and neither the order of the calls nor a repetition matters (not even for patterns that POSFilter reads differently from what they say). Drop and Keep with the same filter part what the others leave, and both together leave nothing. Drop of a ja.Filter put anywhere among the calls does not change what its Yield gives.", "quantifier": "all sequences of calls of any length, all patterns, words and match functions, all token slices", "why_tests_cant": "all sequences of filters on all slices", "anchors": ["filter/filter.go:7-32", "filter/pos.go:24-54", "filter/word.go:23-54", "filter/ja/filter.go:107-132"]}
{"id": "C123", "title": "The memory kept in the pools is bounded by the largest calls, however many calls there are", "statement": "While goroutines call Analyze, Tokenize, Wakati, Dot and AnalyzeGraph in any interleaving, a goroutine never holds more nodes of the node pool than the lattice of the largest of its calls has nodes, and never more than one lattice, whatever the pools hand out. If Get makes no new object while the pool has one, the node objects that exist (in the pool or held) are at every moment at most as many as were there at the start or as the largest calls of the goroutines have nodes together, and the lattices at most as many as were there or as there are goroutines: the number of calls does not matter. For each dictionary there is a number of nodes per rune, so that with texts of at most R runes each goroutine accounts for at most that number times R+1. When all calls have returned the node pool has at least what the largest of them needs (with one goroutine exactly that, or what was there before), and with enough nodes in the pool no call makes a new one. A goroutine that is not inside a call holds no nodes, so with a goroutine for each request the bound is what the requests going on at the same time need together at some moment, however many requests there are in all: with texts of at most R runes, n at a time, n times that number times R+1.", "quantifier": "all dictionaries, texts, modes, numbers of goroutines and calls, all interleavings, all contents of the pools, every moment", "why_tests_cant": "a slow leak shows only after many calls; all interleavings at every moment", "anchors": ["tokenizer/lattice/lattice.go:35-73", "tokenizer/lattice/lattice.go:75-98", "tokenizer/lattice/node.go:50-52", "tokenizer/lattice/mem/pool.go:7-40", "tokenizer/tokenizer.go:83-173"]}
{"id": "C124", "title": "The patterns a features filter keeps decide what it matches, and it never does more than look at each once", "statement": "For every list of patterns, with Any anywhere, NewFeaturesFilter keeps a set of patterns: at most as many as were given, none twice, none beginning with another. They are the ones String shows, and NewFeaturesFilter of them gives the same filter. Each kept pattern is a given one with some features replaced by Any, and every given non-empty pattern begins (up to Any) with a kept one. Match(fs) holds exactly if fs fits the kept pattern found by taking at each position the feature itself if a kept pattern that agrees so far goes on with it, and Any otherwise. Match compares features at most as often as the patterns have features together, and building a filter of k patterns compares at most k times that.", "quantifier": "all pattern lists, also ambiguous ones, and all feature vectors", "why_tests_cant": "the order of overlapping patterns with wildcards gives unboundedly many cases", "anchors": ["filter/feature.go:28-109"]}
{"id": "C125", "title": "However long its input, kagome tokenize holds at most 64 KiB of it and a bounded number of nodes", "statement": "When kagome tokenize reads line by line, then with every read what was read before and not yet answered (what follows the last line feed, C60) and the piece now read have at most 65536 bytes together. No text that tokenize analyzes (line or, with -split, sentence), no line that kagome sentence prints and no text of a Scanner with any SentenceSplitter is longer than 65536 bytes. For each dictionary there is a number such that analyzing any number of such texts one after the other, with pools that make nothing new while they have something, never makes more nodes than that (or than were in the pool before) nor more than one lattice.", "quantifier": "all inputs of any length, readers, flags and modes, all well-formed dictionaries, all moments of all runs", "why_tests_cant": "the bound must hold for inputs of any length arriving in any pieces", "anchors": ["cmd/tokenize/cmd.go:161-175", "cmd/sentence/cmd.go:78-83", "filter/sentence_splitter.go:51-133", "tokenizer/lattice/mem/pool.go:7-40"]}
{"id": "C126", "title": "What kagome tokenize computes and prints grows in proportion to its input", "statement": "For each dictionary and user dictionary there is one factor such that for every input the steps of all calls of Analyze that kagome tokenize makes (each call counted as in C85) are together at most that factor times the bytes of the input. The bytes that it prints are at most such a factor times the bytes of the input too, as text and with -json, line by line and with -split, in every mode. kagome sentence prints at most two bytes for each byte of its input.", "quantifier": "all inputs of any length, also invalid UTF-8, in any pieces, with any number of lines; all flags and modes; all well-formed dictionaries", "why_tests_cant": "a bound that holds for inputs of every size cannot be seen in measurements of some", "anchors": ["cmd/tokenize/cmd.go:131-219", "cmd/sentence/cmd.go:78-83", "tokenizer/tokenizer.go:83-127", "tokenizer/lattice/lattice.go:57-271", "filter/sentence_splitter.go:51-133"]}
{"id": "C127", "title": "kagome sentence and tokenize -split answer a sentence before reading on", "statement": "Whenever kagome sentence or kagome tokenize -split reads from its input, everything it has read before has been answered (the sentence printed, or its analysis), but for white space and for what may be the beginning of one sentence: fewer than 128 characters (at most 508 bytes), with only delimiters and closing characters after the first delimiter. This holds of every moment at which the input read so far begins a valid UTF-8 text, also if the last read ended inside a character.", "quantifier": "all moments of all runs, all inputs, all ways the input arrives in pieces, all flags, modes and well-formed dictionaries", "why_tests_cant": "how a stream is cut into reads and where a program waits for more gives unboundedly many runs; a test sees the final output, in which waiting does not show", "anchors": ["cmd/sentence/cmd.go:78-83", "cmd/tokenize/cmd.go:161-175", "filter/sentence_splitter.go:51-133"]}
{"id": "C128", "title": "The answers of the tokenize endpoint are in proportion to the sentence", "statement": "For each dictionary there is a factor such that the tokenize endpoint answers a request with a sentence of n bytes, in any mode, with at most that factor times n log n (plus 1) bytes: neither the number of tokens nor the features and ids printed for one can make the answer grow faster. The same holds in the length of the request body, for every body: the sentence is at most three times as long as the body that asks for it, and a body that is no request is answered with at most 260 bytes, however long it is.", "quantifier": "all well-formed dictionaries, user dictionaries, sentences, request bodies, modes and tokenizer options", "why_tests_cant": "a test compares the answers to a few sentences; how the length grows is a statement about unboundedly many, and a text repeated in every token shows only in long ones", "anchors": ["cmd/server/api.go:28-64", "tokenizer/token.go:279-299"]}
{"id": "C129", "title": "The demo pages grow in proportion to the text and the picture", "statement": "For each dictionary there is a factor such that the page that the demo answers with (the form, the table with the picture, or the error of graphviz) has at most that factor times as many bytes as the text, the mode and what graphviz printed have together (plus 1): escaping, the table and the features in it cannot make it grow faster.", "quantifier": "all well-formed dictionaries, user dictionaries, texts, modes and other form values, tokenizer options and behaviours of graphviz", "why_tests_cant": "a test looks at the pages for a few texts; how their length grows is a statement about unboundedly many, and about whatever graphviz does", "anchors": ["cmd/server/demo.go:80-110", "cmd/server/demo.go:113-158", "cmd/server/asset/graph.html:48-80"]}
