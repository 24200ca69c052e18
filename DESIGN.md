# Formal model of ikawaha/kagome in Rocq (Coq 8.16.1)

The model is executable Gallina, written function by function from `/repo`; every definition cites the file
and lines it models. `properties.jsonl` states the properties (C01-C129), `MANIFEST.json` names the theorems that
prove them, `seeded/LOG.jsonl` lists the wrong programs tried against the theorems.

Property theorems live in `rocq/theories/Properties*.v`. These files hold only theorems (closed by `exact lemma`),
`Print Assumptions`, and an `Example` beside each theorem that meets its hypotheses in a concrete case.
Names: `_refuted` is a machine-checked counterexample (the property, as stated, is false of the code);
`_partial` is what is true of it, the full statement being the one in `properties.jsonl`.

## How the model is built

| files | models | specification | proofs |
|---|---|---|---|
| `GoBase` | Go strings as byte lists, slices, indexing, panics | | |
| `Utf8` | `unicode/utf8` and `range` over strings | | `Utf8Facts` |
| `Dict` | the data of `kagome-dict` that kagome reads | `SpecTok.wf_dict`, `SpecFeat.wf_data` | |
| `Lattice` | `tokenizer/lattice/{lattice,node}.go`: Build, Forward, Backward, costs | `SpecTok` (candidate words, segmentations, cost), `SpecTie` | `BuildFacts`, `ForwardFacts`, `PathFacts`, `SaturationFacts`, `LimitFacts`, `TieFacts` |
| `Tokenizer`, `Token` | `tokenizer/{tokenizer,tokenizer_option,token}.go` | `SpecOut`, `SpecFeat` | `TokFacts`, `AnalyzeFacts`, `TokenFacts`, `RefuteTok` |
| `Dot` | `lattice.go` Dot and posFeature, `tokenizer.go` AnalyzeGraph | `SpecDot` (graphs, a grammar of dot), `SpecRead` (a reader of dot) | `DotFacts`, `DotSyntax`, `DotRuns`, `DotRead` |
| `Heap` | the same functions and Dot over shared memory: `mem/pool.go`, New, Free, addNode, goroutines | `SpecHeap` | `HeapSound`, `HeapFacts`, `HeapDot`, `HeapProps` |
| `ServerHeap` | the handlers of `cmd/server` as goroutines over that memory | `SpecServing` | `HeapAny`, `ServingFacts` |
| `Recover` | the same goroutines when calls panic: deferred Free, recovery by the caller or by net/http | `SpecRecover` | `WreckFacts`, `WreckDot`, `EndsFacts`, `RecoverFacts` |
| `Work` | Analyze and the lattice once more, with their steps counted | `SpecWork` | `WorkFacts` |
| `LatticeUse` | programs that call Build, Forward and Backward themselves | `SpecUse` | `ForwardAgain`, `UseFacts`, `UseCases`, `HeapRun` |
| `Filter` | `filter/{feature,filter,pos,word}.go`, `filter/ja/filter.go` | `SpecFilter` | `FilterFacts`, `FilterMore`, `FilterText` |
| `Scanner`, `Splitter` | `bufio.Scanner` and ScanLines over any reader; `filter/sentence_splitter.go`, `filter/ja/loader.go` | `SpecSent`, `SpecSplit` | `ScannerFacts`, `SplitterFacts`, `SentenceFacts`, `SpaceFacts`, `ChunkFacts`, `LoaderFacts`, `SentenceRuns`, `DefaultSplit`, `AnySplit` |
| `Assets` | `filter/ja/asset/*.txt`, byte for byte | `SpecLucene` | `LuceneFacts` |
| `Json` | `json.Marshal` of TokenData and of the endpoint's answer | `SpecJson` (a reader of JSON texts) | `JsonFacts` |
| `Flag`, `Cmd` | `flag.FlagSet.Parse`; `kagome.go`, `cmd/tokenize`, `cmd/sentence`, `cmd/lattice`, options of `cmd/server` | `SpecCmd` | `FlagFacts`, `OptFacts`, `CmdFacts`, `CmdRuns`, `CmdMore`, `CmdMain` |
| `Text` | `Token.String`, `TokenizeMode.String` with `fmt` and `strconv.Quote` | `SpecText` (a reader of Go string literals and token texts) | `TextFacts` |
| `Help` | everything on the standard error: usage lines, `flag`'s PrintDefaults and errors, error chains, the tool's text, the version | `SpecHelp` (readers of help texts, usage lines and command lists; faults of a command line) | `HelpFacts`, `FaultFacts` |
| `Server` | `cmd/server/{api,demo,cmd}.go` | `SpecServer` | `ServerFacts` |
| `Route` | the mux of `cmd/server/cmd.go`: `net/http` ServeMux, cleanPath, path.Clean | `SpecRoute` | `RouteFacts` |
| `Live` | the script of `asset/demo.html`: what it posts and what it does with the answers | `SpecLive` | `LiveFacts`, `LiveRuns` |
| (`Tokenizer`) | changes of the dictionaries that do not change an analysis | `SpecLocal` | `LocalFacts`, `LocalRuns` |
| (`Tokenizer`) | texts made of user words; dictionaries that differ in one cost; texts with a common part | `SpecForced`, `SpecPrice`, `SpecPast` | `ForcedFacts`, `PriceFacts`, `PastFacts` |
| (`Lattice`, `LatticeUse`) | the costs in Output | `SpecCost` | `CostFacts`, `CostRuns` |
| `Page` | the whole demo handler and `asset/{graph,demo}.html` as html/template executes them | `SpecHtml` (a reader of HTML), `SpecPage` | `PageFacts`, `PageRuns` |
| `Samples` | the programs in `_examples`: db_search, wasm with kagome.html, tokenize, wakati, user_dict | `SpecSamples` | `SampleFacts` |
| `LatticeText` | `Lattice.String` | `SpecLatticeText` | `OnceFacts`, `LatticeTextFacts` |
| `Form` | `FormValue` of the demo handler: net/http's ParseForm, net/url's ParseQuery | `SpecForm` (what a browser sends) | `FormFacts`, `FormRuns` |
| `Decode` | `json.NewDecoder(r.Body).Decode` of the tokenize endpoint: encoding/json's scanner, stream.go, decode.go for the request type | `SpecDecode` (grammar of JSON, what a body asks for, where and what the error is) | `DecodeFacts`, `DecodeSound`, `DecodeRuns`, `DecodeValue`, `DecodeAll`, `DecodeContract`, `DecodeErrors`, `DecodeServe` |
| `Slices` | the methods of `token.go` that hand out slices, over a memory of arrays | `SpecSlices` (a layout of the dictionaries; programs over vectors) | `SlicesFacts` |
| `Inplace` | the loops of `filter/{filter,pos,word}.go` and Drop of `filter/ja` over a memory of arrays of tokens, in single accesses, by any number of goroutines | `SpecInplace` | `InplaceFacts` |
| `Stream` | `Decoder.readValue` and `refill` over any reads; the tokenize endpoint on a body that arrives so | `SpecStream` (what is delivered, when the answer is settled) | `StreamFacts` |
| (`Route`, `Form`, `Decode`, `Server`, `Page`) | requests as a whole | `SpecRequest` (form fields, the answer a request is due) | `RequestFacts` |
| `Writes` | tokenize, sentence and lattice with an output whose writes may fail; `bufio.Writer` | `SpecWrites` | `WriteFacts` |
| `Check`, `Example`, `CmdExamples` | not part of the model: boolean tests and a small dictionary for the examples | | |

Conventions.

* A Go function that may panic or loop returns `res A` = `Ok` / `Panic` / `Diverge`. Indexing and slicing out of
  range give `Panic`, never a default value. Loops whose end is not structural run on fuel and give `Diverge` when it
  runs out; the theorems show `Ok`, so neither happens.
* Strings are lists of bytes, valid UTF-8 or not. Lengths, offsets and counters are `nat` (Go's int does not overflow
  on slices that fit in memory). Ids and costs are `Z`; where the code computes in int32 the wrap-around is written out
  (`wrap32`), because saturation and wrap-around change results (C16).
* A pointer to a node of one lattice is its coordinates in `la.list` (`Lattice`, `Dot`); in `Heap` it is an address
  and every access is a step.
* Effects of the commands are a trace of events (read, write on standard output or error, open, create, exit), so that
  order and absence of effects can be stated.

`RepoTests` runs the repository's own unit tests on the model: all the tests of `filter`, `filter/ja` (with its
asset files), `tokenizer`, `tokenizer/lattice` and `cmd` that state an expected result. The dictionary of
`testdata` that most of them load is not in the repository, so a small dictionary stands in for it, with the
entries that the tests name; ids and costs are its own. These are tests of how faithful the model is, not proofs,
and no theorem uses them.

## What is modelled, and what is not

Modelled: every function of the packages above that a program can call, except for what follows.

Simplifications and omissions, by package.

* `tokenizer/lattice`: complete (`String` methods: class names in `Token`, nodes and lattices in `LatticeText`).
  `unicode.Is(unicode.Ideographic, r)` is a parameter (`ideo`, any predicate).
* `kagome-dict` (another module, not in `/repo`): only its data. The keyword index is a list of (keyword, id) and its
  search is modelled by its contract (all keywords that are prefixes, shortest first). `wf_dict` bounds ids, costs and
  connection sizes as the int16 and int8 fields and the array sizes of a real dictionary do, and asks non-empty valid
  UTF-8 keywords; C49 shows what happens otherwise. Decoding dictionary files is not modelled: `world` gives a
  dictionary or an error for each name. `SpecShrink.bare` says what a dictionary without its contents is (C112); that `-simple` loads one is a
  hypothesis about the world.
* `tokenizer`: everything is modelled; in `Lattice.String` addresses are a parameter, as in `Dot`. `fmt` (`%d`, `%q`, `%v` of a node) and
  `strconv.Quote` are modelled from the library's source; `strconv.IsPrint` is a parameter.
* `Heap`: memory is sequentially consistent, and the steps of goroutines interleave at single accesses; C15_no_race
  justifies this for the calls modelled: Analyze (Tokenize), Wakati and AnalyzeGraph (Dot), the last writing to a
  writer no other goroutine uses. `sync.Pool` may return any pooled object or make a new one.
  In `Heap` nothing runs after a panic (with a sound dictionary there is none: C05). `Recover` models panics: the
  deferred `Free` runs, then the caller recovers (C76) or net/http closes the connection (C77). A node that addNode
  has taken and not yet appended when it panics goes to no list and is not pooled again. What a panicking demo
  handler leaves behind at the operating system (the pipe, the dot process) is not modelled.
* `filter`: complete. A map used as a set is a list with membership. `regexp` and I/O are not used by it.
  In `Inplace` the question that Drop and Keep ask is a function of the token without effects, and copying a token is one access.
* `filter/ja`: complete; the stop lists are parameters of the loader (any text), and `Assets` holds the embedded ones byte for byte (C64).
* `bufio.Scanner`: 64 KiB limit, 100 empty reads, panics on bad advance are modelled; readers are scripts of chunk sizes
  with EOF or an error, with or after the last bytes. The buffer is the unread bytes (its capacity and growth matter only
  through the limit). In-place rewriting of the buffer by the split function is modelled.
* `encoding/json`: encoding of the two types used, in both escaping styles of the library's history (`newer`).
  In `Server` decoding is a parameter with an assumption (`SpecServer.json_decoder`). `Decode` models encoding/json's decoder for
  the request type and C102_contract shows that it meets the assumption. There the body arrives whole; `Stream`
  adds reads of any size that end with EOF, an error or not at all (the capacity of the buffer is left out: a read brings any number of bytes). The fast path of `unquoteBytes`, which copies, is left out.
* `flag`: string and bool flags with ContinueOnError. The texts of its messages are symbolic in `Flag` and written out in `Help`;
  PrintDefaults is modelled for usage texts without back quotes and line feeds, as all of them are here.
* commands: in `Cmd` writes never fail (see `Writes` for those that do: a script says of each call of Write how many bytes it
  takes; SIGPIPE, which ends a Go program that writes to a closed pipe as its standard output, and failing writes to the standard
  error are left out); a `bufio.Writer` or `fmt.Fprint` sequence to one destination is one event per flush;
  the texts of error messages are symbolic (`MText`, `MUsage`, ...) in `Cmd` and written out in `Help`; the texts of errors
  that come from outside (opening files, loading dictionaries, reading, serving) are the parameter `tx_outside`.
  What the lattice command writes before a panic in the middle of the graph is left out (it does not panic: C18).
  Opening files, loading dictionaries and serving are functions of the `world` parameter. Signals are in `Server` only.
* server: HTTP headers other than Content-Type and Location and the log lines are not modelled. Requests are routed by
  `Route` (ServeMux of Go before 1.22, which the go line of go.mod selects; the Location before it is escaped). Form values are
  those of `Form` (bodies of type multipart/form-data are left out). html/template is modelled for the two templates: it drops their comments, escapes strings in text and text areas by
  its replacement table, and copies a `template.HTML`. The reader of HTML does not normalise line ends.
  The page's script is modelled (`Live`) for a page in the server's root directory: JSON.parse is a parameter with a contract
  (`SpecLive.js_parser`), JSON.stringify is written out, and jQuery is modelled by its contract: `$.post` sends the string
  unchanged (jQuery 1.6 rewrites data that contains ??; this is left out), `append` makes elements of each string by itself.
  A radio button fires the form's input event and then its own change event.
  `dot` is any function from its input to its output (C63) or a process that reads, ends or is killed at any time (C46).
* `_examples`: the texts the programs contain are parameters, the dictionaries any well-formed ones. Errors of the database are
  left out; FTS4's MATCH is a parameter with a contract for search words without ASCII characters and texts without NUL
  (`SpecSamples.fts4`), and its rows come in the order of docid. `js.Value.String` is applied to strings only. Strings reach
  JavaScript through a TextDecoder with a contract (`SpecSamples.text_decoder`). Go maps and slices are read as JavaScript objects
  and arrays. jQuery as above.

Library contracts that the theorems rest on (no axioms: they are definitions or parameters of the model): UTF-8 decoding,
prefix search of the dictionary index, `bufio.Scanner`, `sync.Pool`, `json.Marshal` and the JSON decoder,
`flag.FlagSet`, `io.Pipe`, `os/exec`, html/template, `net/http`'s ServeMux, JSON.parse and jQuery, SQLite's FTS4, the browser's TextDecoder.

## The properties and how they are proved

* C01, C02, C03, C05, C48 (coverage, offsets, framing, no panic): Build is characterised as "list[p] holds, in order,
  the nodes of the candidate words ending at p"; Forward by an invariant over positions done; Backward by induction on
  the position; the token loop as a function of the chain of words.
* C06, C07: cost of a segmentation over `Z` without saturation; strong induction on positions, with bounds showing that
  neither saturation nor wrap-around interferes up to 32767 runes (31333 in search mode). These limits are exact:
  `C06_limit_refuted` and `C16_limit_refuted` show that one rune more is too many.
* C68: the order in which Build appends nodes to a position, and that Forward keeps the first of the cheapest
  predecessors; then the same induction on positions for the order of segmentations from the right.
* C04, C08, C09, C10, C17: relations between runs. C11, C12, C13, C51: provenance of nodes, lifted to tokens.
* C14, C15, C45, C71, C72: programs over a shared heap, ownership invariant, every interleaving of any number of goroutines.
* C75-C77: any dictionaries. Termination by an invariant that every prev pointer leads to an earlier position; each
  step of the memory programs has a twin that fails when the functional model panics and keeps what it owns; then the
  interleaving argument of C14 applies to the programs with recovery, whose private part does not fail.
* C18, C19, C57, C69: the graph as statements and as text, with an independent recogniser of the dot grammar
  and an independent reader of dot documents (attributes, defaults, label lines).
* C20-C24, C50, C52, C56: accessors as total functions with explicit panics.
* C25-C31, C70: the trie with its updates in place against prefix matching; in-place loops against list filtering;
  the filter's text against a reader of outlines.
* C32-C38, C53-C55, C67, C81: ScanSentences byte by byte, including the buffer rewriting, run by the Scanner over any reader.
  C55 for reads that cut runes: what is left to split is a valid text with spaces put in, perhaps without its beginning.
* C40-C43, C58, C60-C62: commands as event traces, against a grammar of argument lists.
* C109: the cuts of the printed lines, by C81 for the second run and C36 for the first.
* C110: C39 and C40 for the same text, token by token.
* C108: the loops of the two commands over the texts that the Scanner yields; sentences have no line ends.
* C83, C84: path.Clean as code against following a path from the root.
* C86, C87: the script's rows against the reader of HTML of C73; a transition system of typing, requests and answers.
* C88: Build finds the same entries at each position, then calls with the same lattice; C89: the optimal answer with the tie rule of C68 is unique, so it stays the answer among fewer candidates.
* C90: the invariant of the relaxation of C06 along the path that Backward walks, carried to the heap by the simulation of C72.
* C91, C92: words between separators, in a text joined with spaces. C93-C95: the accessors of C20-C24; rows against the reader of HTML.
* C96: the stored nodes in the order of the calls of addNode; their costs as in C06.
* C103: the parts above composed; an inductive description of urlencoded fields that ParseQuery is proved to follow.
* C104: a scan of a piece either keeps the scanner inside the value, with the state that scanning the whole gives, or ends as the scan of the whole body does whatever follows.
* C105: every method over memory equals the method over values followed by an allocation of the result; a simulation of programs by programs over separate vectors.
* C106: the cost of search mode is the cost of normal mode plus the excess; then the rule of C68 for both modes, which leaves no choice.
* C111, C112: the commands of C40 and C61 side by side; the runs of the two dictionaries go through the same lattice.
* C113-C116: the candidate words of a text put together from two, moved to their places; costs add up at the boundary. C115: the best
  path of each dictionary, priced in both. C117: the costs of all segmentations change by one increasing map, so the rule of C68 chooses the same.
* C118: a loop invariant per call (the steps so far against the bytes passed); over a run, what a token call costs is paid by its advance,
  and what a request for more costs by the Read that follows it.
* C119: where the texts differ no keyword stands, so the candidates, their costs and the order of preference are the same word by word
  in both; the rule of C68, which names the chosen path by these alone, then chooses the same.
* C120: the lists of C85 are short and few; a statement has at most the surface, part of speech and cost C57 tells.
* C121: a simulation of the two runs, node by node, through Build, Forward, Backward and the loop over Output.
* C122: every call is a `List.filter` with a test of its own, so a sequence of calls is one with the conjunction of the tests.
* C123: run the same program with a quota that Get takes from and Put gives back to; by C45 the metered program never stops, and it takes the same steps. Build never gives back, so what it holds at its end bounds it; nothing later gets. C123_busy: a second such program stops if it takes a node without a lattice or gives the lattice back while it has nodes (QuotaBusy.v).
* C124: at each node of the trie Any is the last edge and no two edges are alike (RulesFacts.v canon); so the trie is what its leaf paths make again, and Match prefers the feature itself to Any.
* C125: the Scanner never has more than its buffer (65536 bytes at most); by C60 what waits is what follows the last line feed. C123 with texts of at most 65536 runes. What waits with -split is C127.
* C126: the texts have together at most two bytes for each byte read, empty lines included (a text takes at least what it gives, and at least one byte). Analyze is linear by C85. The tokens follow one another (C01), what a token has besides its surface comes from the tables of the dictionary, and offsets within a text of at most 64 KiB (C125) have few digits.
* C127: the Scanner reads only after the splitter asked for more, and then the buffer holds (besides blanks) the visible runes of an unfinished sentence; the bytes read become the answers and the buffer by deleting white space and inserting blanks (SpaceFacts.v edits, as for C34).
* C128: the tokens are at most as many as the bytes (C126), each prints a bounded text besides its surface and numbers; the ids of dummy tokens are numbers of entries (C11_runes), so they are bounded too. For bodies: induction on the grammar of C102 (a byte that is not UTF-8 becomes three), and the messages of C59 are of finitely many kinds.
* C129: a row is bounded besides its surface (finitely many entries), escaping makes at most five bytes of one; the rest of the page is constant.
* C107: each step of the loop keeps "kept so far, written over the old elements" in the window of its call and touches nothing else; interleavings by induction on the steps.
* C99-C101: an inductive description of what a form sends, read back by ParseQuery; C73 and C86 side by side.
* C97, C98: the run with failing writes against the run without, event by event.
* C102: the scanner is proved complete (every text of the grammar drives it from state to state) and sound (what it accepts is in
  the grammar); the second pass, which reuses the scanner, then follows the derivation. C59's errors: a prefix is viable if it
  can be continued to a value, and the scanner fails exactly at the first byte after which the prefix is not viable; the phrase in its message is told by which other bytes could have stood there.
* C39, C59, C63: handlers as functions of the request. C73, C74: pages against a reader of HTML that is a state machine
  over bytes, so that reading a template with texts in it splits into reading its parts. C46, C47: transition systems, all executions.
* C44: options as functions on the tokenizer under construction.

## Where the code does not do what one would expect

Each of these is a theorem with a witness.

| property | behaviour | theorem |
|---|---|---|
| C01 | a literal U+FFFD whose category is not grouped becomes an unknown word of one byte; two bytes are lost | `C01_fffd_refuted` |
| C16 | costs saturate at 2^31-1; on inputs of 33000 runes and more the beginning of the input is lost | `C16_refuted` |
| C16 | the limits 32768 (Normal) and 31333 (Search, Extended) are exact: one rune more and the first rune can be lost | `C16_limit_refuted` |
| C06 | costs are clamped above but not below: at 32768 runes a cost wraps around and a worse segmentation wins | `C06_limit_refuted` |
| C17 | AnalyzeGraph leaves Index and Position 0 and ignores OmitBosEos | `C17_graph_refuted` |
| C18 | in Extended mode the unknown words of the best path are not drawn | `C18_extended_no_path` |
| C19 | quotation marks in the input are not escaped: the graph is not a dot document | `C19_refuted` |
| C69 | backslashes in the input are not escaped: the label of `\` loses its line break (and `\N` is drawn as the node's name) | `C69_refuted` |
| C26 | a literal after Any in another pattern is attached to the Any edge; Match follows one edge only | `C26_wildcard_unsound_refuted`, `C26_wildcard_incomplete_refuted` |
| C37 | with DoubleLineFeedSplit two line feeds anywhere in a sentence end it | `C37_doubled_refuted`, `C37_blank_line_refuted` |
| C110 | in Extended mode tokenize -json leaves out tokens that the endpoint tells | `C110_agree_refuted` |
| C38 | sentence boundaries depend on how the reader cuts the input | `C38_follower_refuted`, `C38_line_feed_refuted` |
| C41 | `-json` in Extended mode leaves out the words that were split | `C41_all_modes_refuted` |
| C43 | `-sysdict ""` is accepted as an option and then fails | `C43_empty_sysdict` |
| C46 | the demo page's handler blocks for ever if dot ends before it has read its whole input | `C46_refuted` |
| C47 | the server command returns without shutting its server down | `C47_refuted`, `C47_leak_refuted` |
| C48 | Extended mode returns U+FFFD for bytes that are not UTF-8 | `C48_extended_refuted` |
| C49 | a user keyword that ends inside a rune makes Analyze panic | `C49_user_keyword_refuted` |
| C51 | in Extended mode an unknown word over a user keyword is split | `C12_extended_refuted` |
| C52 | FeatureAt panics if a part-of-speech id equals the number of names | `C52_pos_id_refuted` |
| C53 | 64 KiB of skipped blanks lose an unfinished sentence | `C53_blanks_refuted` |
| C54 | empty sentences occur with readers that return data together with EOF | `C54_empty_refuted` |
| C55 | MaxRuneLen can cut a rune that the end of a read has cut | `C55_valid_refuted` |
| C58 | tokenize's usage line names a flag that does not exist and a form that is refused | `C58_tokenize_usage_refuted` |
| C59 | error texts are put into the JSON error body unescaped: single quotes for double ones, a forgotten colon or a wrong digit after `\u` make the 400 answer no JSON | `C59_error_refuted`, `C59_answer_refuted` |
| C66 | the name of the Extended mode is "extend", which `-mode` refuses (it wants "extended") | `C66_mode_names_refuted` |
| C79 | tokenize prints an empty line instead of the reason for which it refuses its arguments; without a command's name the text is the same for every fault | `C79_tokenize_refuted`, `C79_default_partial` |
| C72 | Build keeps the lists of an earlier Build: a lattice built twice reports words of the earlier input, and so does a later Analyze that gets it from the pool | `C72_rebuild_refuted`, `C72_others_refuted` |
| C74 | the form compares the mode with "search" and "extended" but sends "Search" and "Extended": the mode falls back to Normal | `C74_mode_refuted` |
| C84 | a change of the radio buttons posts to ./a, which is the page and not the endpoint (browsers that send the form an input event too post to the endpoint as well) | `C84_radio_refuted` |
| C86 | the demo page's script inserts surfaces and features as HTML: `<!--` hides its row, a dictionary word `<b>` is a tag | `C86_hidden_refuted`, `C86_tag_refuted` |
| C87 | an answer that arrives late replaces the table of a later text | `C87_stale_refuted` |
| C92 | `_examples/db_search`: "remove duplicate segment tokens" removes neighbours only | `C92_twice_refuted` |
| C93 | `_examples/wasm`: a byte order mark at the beginning of a word is lost on the way to JavaScript | `C93_mark_refuted` |
| C94 | `_examples/wasm`: what is typed while the program loads stays unanalysed; texts are inserted as HTML | `C94_early_refuted`, `C94_hidden_refuted` |
| C97 | failed writes of the output are dropped: the commands go on and exit with status 0 | `C97_reported_refuted` |
| C98 | after a failed write later answers are still written, so the output has gaps | `C98_prefix_refuted` |
| C109 | sentences that end at an empty line are joined when they are split again | `C109_again_refuted` |
| C99 | a form body of more than 10 MiB is dropped without a message: the empty form comes back | `C99_too_long` |
| C101 | the script posts JSON with the type of a form: with a text like `&lattice=` a change of the mode makes the server draw a graph | `C101_chosen_refuted` |
| C84 | the page is served at every other address too; below another address its script posts to the page | `C84_deeper_refuted` |
| C74 | a line feed at the start of the text is lost | `C74_text_refuted` |

## Trusted base

* Coq's kernel, including its virtual machine (`vm_compute` is used for the examples and a few finite checks).
* That the model is the code: the definitions were written by reading `/repo` at the pinned commit; nothing was executed.
* The library contracts listed above, as definitions in `Utf8`, `Dict`, `Scanner`, `Json`, `Flag`, `Heap`, `Server`.
* Axioms: none are declared, and no theorem depends on any (list below). Loading `Lia` and `Zify` loads
  `Coq.ssr.ssrunder`, whose functor parameters (`Under_rel`, 7 constants) a checker of the whole environment reports;
  no theorem uses them.

### Print Assumptions, theorem by theorem

Coq prints `Closed under the global context` (no axiom at all) for each of these:

* `PropertiesAgain.v`: C109_again_partial, C109_changed_partial, C109_command_partial, C109_again_refuted.
* `PropertiesAgree.v`: C110_agree_partial, C110_agree_refuted, C111_verbose.
* `PropertiesAlike.v`: C119_alike, C119_malformed.
* `PropertiesApiWork.v`: C128_answer, C128_body, C128_error, C128_sentence, C11_runes.
* `PropertiesCat.v`: C113_lines, C113_sentences.
* `PropertiesChain.v`: C122_chain, C122_order, C122_opposite, C122_yield.
* `PropertiesCmd.v`: C40_blocks, C40_sentences, C40_lines, C40_restores, C41_all_modes_refuted, C41_json_partial, C42_dispatch, C42_default, C42_same, C42_rejects, C42_ends, C43_tokenize_rejects, C43_lattice_rejects, C43_server_rejects, C43_sentence_rejects, C43_one_meaning, C43_tokenize_fails, C43_lattice_fails, C43_server_fails, C43_sentence_fails, C43_option_check, C43_empty_sysdict, C43_server_serves, C58_tokenize_usage_refuted, C58_tokenize_usage_partial, C58_server_usage, C58_lattice_usage, C58_sentence_usage, C60_prompt, C61_lattice, C62_sentence.
* `PropertiesCmdWork.v`: C126_time, C126_output, C126_sentence.
* `PropertiesCost.v`: C90_costs, C90_alone.
* `PropertiesCuts.v`: C55_brief_partial.
* `PropertiesDecode.v`: C102_total, C102_understands, C102_one, C102_tokens, C102_empty, C102_others, C102_utf8, C102_contract, C59_answer_refuted, C59_answer_partial, C59_text, C59_phrase.
* `PropertiesDot.v`: C18_closed, C18_best_path, C18_bos_eos, C57_graph, C19_refuted, C19_document_partial, C69_refuted, C69_read_partial.
* `PropertiesDraw.v`: C120_counts, C120_linear, C120_text.
* `PropertiesFilter.v`: C25_features_match, C26_wildcard_unsound_refuted, C26_wildcard_incomplete_refuted, C26_wildcard_partial, C26_found_partial, C26_more_partial, C26_right_partial, C27_order, C27_extensions, C28_run, C28_drop_keep, C29_word_match, C29_word_filter, C30_pos_filter, C31_yield, C31_drop, C31_concat, C31_yield_drop, C31_no_panic, C70_patterns, C70_text.
* `PropertiesForced.v`: C114_text, C114_inside.
* `PropertiesForm.v`: C99_page, C99_too_long, C100_same, C101_chosen_refuted, C101_chosen_partial.
* `PropertiesGauge.v`: C117_scale, C117_written.
* `PropertiesHeap.v`: C14_history, C15_no_interference, C15_terminates, C15_completes, C15_no_race, C15_graph_text, C45_one_owner.
* `PropertiesHelp.v`: C78_tokenize, C78_server, C78_lattice, C78_sentence, C78_usage_lines, C78_commands, C79_lattice, C79_server, C79_sentence, C79_tokenize_partial, C79_tokenize_refuted, C79_default_partial, C79_checks, C79_one_fault, C79_no_dictionary, C80_version, C82_readme.
* `PropertiesInplace.v`: C107_place, C107_ends, C107_race, C107_access, C107_result.
* `PropertiesLatticeText.v`: C96_built, C96_forward.
* `PropertiesLive.v`: C86_hidden_refuted, C86_tag_refuted, C86_table_partial, C87_stale_refuted, C87_ordered_partial, C87_some_partial, C87_runs_partial.
* `PropertiesLocal.v`: C88_unused, C88_features, C88_wakati, C89_alternatives.
* `PropertiesLong.v`: C125_ahead, C125_texts, C125_nodes, C125_printed, C125_sentences.
* `PropertiesLucene.v`: C64_default, C64_options.
* `PropertiesMode.v`: C106_same, C106_differ, C106_long.
* `PropertiesPage.v`: C73_page, C73_not_found, C73_not_started, C73_tags, C74_mode_refuted, C74_text_refuted, C74_form_partial, C74_total_partial, C74_tags_partial.
* `PropertiesPageWork.v`: C129_page.
* `PropertiesPast.v`: C116_past, C116_future.
* `PropertiesPipe.v`: C108_pipe.
* `PropertiesPrice.v`: C115_word, C115_join.
* `PropertiesQuota.v`: C123_held, C123_pools, C123_texts, C123_kept, C123_exact, C123_again, C123_inside, C123_busy, C123_requests.
* `PropertiesRecover.v`: C75_calls_end, C75_handlers_end, C76_panics, C76_completes, C76_finite, C77_connections, C77_completes, C77_finite.
* `PropertiesRenumber.v`: C121_numbers, C121_told, C121_order.
* `PropertiesRenumberDraw.v`: C121_graph, C121_accessors.
* `PropertiesRequest.v`: C103_answers, C103_fields, C103_kinds.
* `PropertiesRoute.v`: C83_tokenize, C83_redirect, C83_one_place, C83_connect, C84_radio_refuted, C84_deeper_refuted, C84_typed_partial, C84_posts_partial.
* `PropertiesRules.v`: C124_rules, C124_work.
* `PropertiesSamples.v`: C91_found, C91_words, C92_twice_refuted, C92_neighbours_partial, C93_objects, C93_mark_refuted, C93_text_partial, C94_early_refuted, C94_hidden_refuted, C94_table_partial, C95_tokenize, C95_user_dict, C95_wakati.
* `PropertiesSentence.v`: C32_load, C32_unique, C32_new_filter, C32_new_filter_error, C33_lossless, C33_complete, C34_strip, C34_only_space, C35_contract, C35_scanner, C36_sentences, C36_decodings, C36_ends, C36_blanks, C37_doubled_refuted, C37_blank_line_refuted, C37_feeds_partial, C37_double_partial, C38_follower_refuted, C38_line_feed_refuted, C38_reads_partial, C53_blanks_refuted, C53_too_long_partial, C54_empty_refuted, C54_nonempty_partial, C55_valid_refuted, C55_valid_partial.
* `PropertiesServer.v`: C39_tokens, C39_inert, C39_empty, C39_total, C59_error_refuted, C59_error_partial, C59_modes, C63_page, C46_refuted, C46_writes_partial, C46_finite_partial, C46_ends_partial, C46_reads_all_partial, C47_returns_partial, C47_refuted, C47_leak_refuted.
* `PropertiesShrink.v`: C112_names, C112_simple, C112_command.
* `PropertiesSlices.v`: C105_own, C105_new, C105_layout.
* `PropertiesSoon.v`: C127_sentence, C127_tokenize, C127_small.
* `PropertiesSplit.v`: C81_one, C81_scan, C81_text, C81_reads.
* `PropertiesSplitWork.v`: C118_same, C118_call, C118_linear, C118_short.
* `PropertiesStream.v`: C104_reads, C104_pieces, C104_answer, C104_waits, C104_fails, C104_settled.
* `PropertiesText.v`: C65_read_back, C65_distinct, C65_one_line, C66_mode_names_refuted, C66_mode_names_partial, C66_distinct.
* `PropertiesTie.v`: C68_chosen, C68_unique, C67_cut, C67_scan.
* `PropertiesTok.v`: C01_lossless, C01_fffd_refuted, C02_offsets, C03_framing, C03_indexes, C04_omit, C05_total, C06_normal_optimal, C07_search_optimal, C06_limit_refuted, C08_extended, C09_other_modes, C10_wakati, C10_wakati_omit, C11_provenance, C12_user_priority, C12_extended_refuted, C13_unknown, C16_refuted, C16_limit_refuted, C16_lossless_partial, C16_framing_partial, C16_suffix_partial, C17_graph_refuted, C17_graph_partial, C48_extended_refuted, C48_extended_partial, C48_runes_partial, C49_user_keyword_refuted, C49_user_keyword_partial.
* `PropertiesToken.v`: C20_feature_at, C20_any, C21_pos, C56_features, C22_named, C23_equal_features, C23_token_equal, C23_token_features_pos, C24_token_data, C50_no_panic, C52_pos_id_refuted, C52_pos_id_partial, C44_new.
* `PropertiesUse.v`: C71_requests, C71_completes, C71_finite, C72_others_refuted, C72_rebuild_refuted, C72_once_partial, C72_completes_partial.
* `PropertiesWork.v`: C85_same, C85_linear, C85_nodes.
* `PropertiesWrites.v`: C97_reported_refuted, C97_ending_partial, C97_whole_partial, C98_prefix_refuted, C98_prefix_partial, C98_tokenize_partial, C98_sentence_partial, C98_lattice_partial.
