(** Property theorems: the sentence splitter (filter/sentence_splitter.go), run by a bufio.Scanner
    over any reader, and the stop list loader (filter/ja/loader.go, filter/ja/filter.go). *)
From Verif Require Import SpecSent SplitterFacts SentenceFacts SpaceFacts ChunkFacts LoaderFacts FilterFacts SentenceRuns Utf8Facts Check.
From Coq Require Import Lia.
Open Scope N_scope.

(** ** C32 *)
Theorem C32_load : forall b, exists entries err, load_config b = Ok (entries, err) /\
  ((err = None /\ config_of b entries) \/
   (err = Some ErrTooLong /\ exists raw l, lines_of b raw /\ In l raw /\ 65536 <= N.of_nat (length l))).
Proof. exact c32_load_lemma. Qed.
Print Assumptions C32_load.
Theorem C32_unique : forall b e1 e2, config_of b e1 -> config_of b e2 -> e1 = e2.
Proof. exact c32_unique_lemma. Qed.
Print Assumptions C32_unique.
Theorem C32_new_filter : forall ta wa opts tag_lines word_lines, config_of ta tag_lines -> config_of wa word_lines ->
  (forall raw l, lines_of ta raw \/ lines_of wa raw -> In l raw -> N.of_nat (length l) < 65536) ->
  exists pats tags words base, Forall2 tag_pattern tag_lines pats /\ new_ja_filter ta wa opts = Ok (inl (ja_of tags words base)) /\
    latest opt_tags opts pats tags /\ latest opt_words opts word_lines words /\
    latest opt_base opts [[s2b "動詞"]; [s2b "形容詞"]; [s2b "形容動詞"]] base.
Proof. exact c32_filter_lemma. Qed.
Print Assumptions C32_new_filter.
Theorem C32_new_filter_error : forall ta wa opts, exists x, new_ja_filter ta wa opts = Ok x /\
  forall e, x = inr e -> e = ErrTooLong /\ exists b raw l, (b = ta \/ b = wa) /\ lines_of b raw /\ In l raw /\ 65536 <= N.of_nat (length l).
Proof. exact c32_error_lemma. Qed.
Print Assumptions C32_new_filter_error.
Example C32_example :
  load_config (s2b "# stop words" ++ [x0a] ++ s2b "する# verb" ++ [x0d; x0a; x0a] ++ s2b " # blank" ++ [x0a] ++ s2b "#" ++ [x0a] ++ s2b "名詞-数-*" ++ [x0d]) =
    Ok ([s2b "する"; s2b " "; s2b "名詞-数-*"], None) /\
  map stop_tag_pos [s2b "名詞-数"; s2b "a-b-c-d-e"; s2b "-"] =
    [[s2b "名詞"; s2b "数"; s2b "*"; s2b "*"]; [s2b "a"; s2b "b"; s2b "c"; s2b "d"; s2b "e"]; [[]; []; s2b "*"; s2b "*"]].
Proof. split; by_eval. Qed.
Example C32_filter_example : exists f,
  new_ja_filter (s2b "助詞") (s2b "w#x") [StopWordsFilterOption [s2b "a"]; BaseFormFilterOption []; StopWordsFilterOption [s2b "b"]] = Ok (inl f) /\
  (jf_stop_words f, pos_match (jf_stop_tags f) (Some [s2b "助詞"; s2b "*"; s2b "*"; s2b "*"; s2b "x"]), pos_match (jf_base_form f) (Some [s2b "動詞"])) = ([s2b "b"], true, false).
Proof.
  destruct (@ok_and_ex _ (new_ja_filter (s2b "助詞") (s2b "w#x") [StopWordsFilterOption [s2b "a"]; BaseFormFilterOption []; StopWordsFilterOption [s2b "b"]])
    (fun x => match x with
              | inl f => test_eq (jf_stop_words f, pos_match (jf_stop_tags f) (Some [s2b "助詞"; s2b "*"; s2b "*"; s2b "*"; s2b "x"]), pos_match (jf_base_form f) (Some [s2b "動詞"])) ([s2b "b"], true, false)
              | inr _ => false end)) as ([f|] & E & H); [vm_compute; reflexivity| |discriminate].
  exists f. split; [assumption|apply test_eq_ok; assumption].
Qed.

(** ** C33 *)
Theorem C33_lossless : forall s r, sp_skip s = false ->
  exists toks err r', scan_texts (scan_sentences s) r = Ok (toks, err, r') /\
    ((err = scanner_err (Some (rd_end r)) /\ concat toks = rd_rest r) \/
     ((err = Some ErrTooLong \/ (err = Some ErrNoProgress /\ ~ lively r)) /\ exists lost, rd_rest r = concat toks ++ lost)).
Proof. exact c33_lemma. Qed.
Print Assumptions C33_lossless.
(** Nothing is lost unless a sentence may exceed 16384 runes. *)
Theorem C33_complete : forall s r, sp_skip s = false -> lively r -> rd_end r = EOF -> (sp_max s <= 16384)%Z \/ N.of_nat (length (rd_rest r)) < 65536 ->
  exists toks r', scan_texts (scan_sentences s) r = Ok (toks, None, r') /\ concat toks = rd_rest r.
Proof. exact c33_complete_lemma. Qed.
Print Assumptions C33_complete.
Definition no_skip : splitter := Splitter [12290] [12301] false true 4.
(** Delivered byte by byte, with the end reported together with the last byte. *)
Example C33_example : let input := s2b "あ。」いうabcd" ++ [x0a; x0a] ++ s2b "。" in exists x,
  scan_texts (scan_sentences no_skip) (Reader input (repeat (1%nat, true) 40) EOF []) = Ok x /\
  (fst x) = ([s2b "あ。"; s2b "」い" ++ [xe3; x81]; [x86] ++ s2b "abc"; s2b "d" ++ [x0a; x0a]; s2b "。"], None) /\ lively (Reader input (repeat (1%nat, true) 40) EOF []).
Proof.
  cbv zeta. apply run_ex_and; [vm_compute; reflexivity|]. unfold lively. repeat constructor.
Qed.

(** ** C34 *)
Theorem C34_strip : forall s r, sp_skip s = true -> rd_log r = [] ->
  exists toks err r', scan_texts (scan_sentences s) r = Ok (toks, err, r') /\ rd_rest r = concat (rd_log r') ++ rd_rest r' /\
    (whole_runes (rd_log r') ->
     (err = scanner_err (Some (rd_end r)) /\ concat toks = strip (rd_rest r)) \/
     ((err = Some ErrTooLong \/ (err = Some ErrNoProgress /\ ~ lively r)) /\ exists lost, strip (rd_rest r) = concat toks ++ lost)).
Proof. exact c34_strip_lemma. Qed.
Print Assumptions C34_strip.
(** However the reads cut the text, only white space is lost. *)
Theorem C34_only_space : forall s r, sp_skip s = true -> valid_utf8 (rd_rest r) = true ->
  exists toks err r', scan_texts (scan_sentences s) r = Ok (toks, err, r') /\
    ((err = scanner_err (Some (rd_end r)) /\ exists left, drops_space (segs (rd_rest r)) left /\ concat toks = segs_text left) \/
     ((err = Some ErrTooLong \/ (err = Some ErrNoProgress /\ ~ lively r)) /\
      exists left lost, drops_space (segs (rd_rest r)) left /\ segs_text left = concat toks ++ lost)).
Proof. exact c34_any_lemma. Qed.
Print Assumptions C34_only_space.
(** Chunks of whole runes; white space of several bytes, before, in and after the sentences. *)
Example C34_example : exists x,
  scan_texts (scan_sentences default_splitter) (Reader (s2b " 　あ い。 」 う　e! ") [(4, false); (4, false); (6, false); (30, false)]%nat EOF []) = Ok x /\
  (fst x, rd_log (snd x)) = ([s2b "あい。"; s2b "」うe!"], None,
                            [s2b " 　"; s2b "あ "; s2b "い。"; s2b " 」 う　e! "; []]).
Proof. apply run_ex. vm_compute. reflexivity. Qed.

(** ** C35 *)
Theorem C35_contract : forall s data at_eof, exists data' adv tok,
  scan_sentences s data at_eof = Ok (data', adv, tok) /\ length data' = length data /\ (adv <= length data)%nat /\
  (tok <> None -> 1 <= adv)%nat /\ (at_eof = true -> data <> [] -> tok <> None).
Proof. exact c35_lemma. Qed.
Print Assumptions C35_contract.
(** A Scanner over any reader stops without panic. *)
Theorem C35_scanner : forall s r, exists toks err r', scan_texts (scan_sentences s) r = Ok (toks, err, r').
Proof. exact c35_scan_lemma. Qed.
Print Assumptions C35_scanner.
(** Invalid bytes, a shift in place, blanks in the rest of the buffer. *)
Example C35_example :
  scan_sentences default_splitter ([xff; x20; xe3] ++ s2b "a  b") false = Ok ([xff; xe3; x61; x62; x20; x20; x20], 0%nat, None) /\
  scan_sentences default_splitter ([x20; xff; x20; xe3] ++ s2b "a。 ) b") true =
    Ok ([x20; xff; xe3; x61; xe3; x80; x82; x29; x20; x29; x20; x62], 11%nat, Some ([xff; xe3; x61] ++ s2b "。)")).
Proof. split; by_eval. Qed.

(** ** C36 *)
Theorem C36_sentences : forall s r, rd_log r = [] ->
  exists toks err r', scan_texts (scan_sentences s) r = Ok (toks, err, r') /\ (whole_runes (rd_log r') -> Forall (fun t => sentence s (segs t)) toks).
Proof. exact c36_sentences_lemma. Qed.
Print Assumptions C36_sentences.
(** Any bytes, any reads: the text is a sequence of decodings, each of one rune, forming a sentence. *)
Theorem C36_decodings : forall s r, exists toks err r', scan_texts (scan_sentences s) r = Ok (toks, err, r') /\
  Forall (fun t => exists rs, t = segs_text rs /\ Forall (fun g => snd g <> [] /\ decode_rune (snd g) = (fst g, length (snd g))) rs /\ sentence s rs) toks.
Proof. exact c36_run_lemma. Qed.
Print Assumptions C36_decodings.
(** On a whole text: why each sentence but the last ends where it does. *)
Theorem C36_ends : forall s data eof data' adv t, scan_sentences s data eof = Ok (data', adv, Some t) -> eof = false \/ skipn adv data' <> [] ->
  exists c, segs data = c ++ segs (skipn adv data') /\ t = segs_text (visible s c) /\ c <> [] /\ ended s c (segs (skipn adv data')).
Proof. exact c37_call_lemma. Qed.
Print Assumptions C36_ends.
(** The runes left out by a splitter that skips white space are those with Unicode's property
    White_Space (PropList.txt), one by one. *)
Definition white_space : list N :=
  [9; 10; 11; 12; 13; 32; 133; 160; 5760; 8192; 8193; 8194; 8195; 8196; 8197; 8198; 8199; 8200; 8201; 8202; 8232; 8233; 8239; 8287; 12288]%N.
Theorem C36_blanks : forall s l g, sp_skip s = true -> (In g (visible s l) <-> In g l /\ ~ In (fst g) white_space).
Proof.
  intros s l g E. unfold visible. rewrite E, filter_In. assert (B : is_space (fst g) = true <-> In (fst g) white_space).
  { generalize (fst g). intros r. unfold is_space, white_space. cbn [In]. rewrite !Bool.orb_true_iff, !Bool.andb_true_iff, !N.leb_le, !N.eqb_eq. lia. }
  rewrite <- B. destruct (is_space (fst g)); cbn; intuition congruence.
Qed.
Print Assumptions C36_blanks.
Example C36_example : exists x,
  scan_texts (scan_sentences (Splitter [12290; 33] [12301; 46] true true 3)) (Reader (s2b "あい!。 」..うえおか。き!く!x") [] EOF []) = Ok x /\
  fst x = ([s2b "あい!。」.."; s2b "うえお"; s2b "か。"; s2b "き!"; s2b "く!"; s2b "x"], None).
Proof. apply run_ex. vm_compute. reflexivity. Qed.

(** ** C37 *)
(** A sentence ends at a second line feed, other runes between the two. *)
Theorem C37_doubled_refuted : exists data data' adv t c, scan_sentences default_splitter data false = Ok (data', adv, Some t) /\
  segs data = c ++ segs (skipn adv data') /\ t = segs_text (visible default_splitter c) /\
  map fst c = [97; 10; 98; 10] /\ ~ delim_rune default_splitter (97, [x61]) /\ ~ delim_rune default_splitter (98, [x62]).
Proof. exact c37_refuted_lemma. Qed.
Print Assumptions C37_doubled_refuted.
(** White space other than a line feed between two line feeds keeps the sentence together (with SkipWhiteSpace). *)
Theorem C37_blank_line_refuted : exists x, scan_texts (scan_sentences default_splitter) (Reader (s2b "a" ++ [x0a; x0d; x0a] ++ s2b "b") [] EOF []) = Ok x /\
  fst x = ([s2b "ab"], None).
Proof. exact c37_blank_lemma. Qed.
Print Assumptions C37_blank_line_refuted.
(** Missing: that the two line feeds be adjacent.  A sentence that is not ended by a delimiter or
    by its length has two line feeds, the second one last; so one line feed alone never ends one. *)
Theorem C37_feeds_partial : forall s data eof data' adv t, scan_sentences s data eof = Ok (data', adv, Some t) ->
  eof = false \/ skipn adv data' <> [] ->
  exists c, segs data = c ++ segs (skipn adv data') /\ t = segs_text (visible s c) /\
    (Forall (fun g => ~ delim_rune s g) c -> (Z.of_nat (length (visible s c)) < sp_max s)%Z -> sp_dlf s = true /\ two_line_feeds c).
Proof. exact c37_feeds_lemma. Qed.
Print Assumptions C37_feeds_partial.
(** And two adjacent line feeds do end the sentence. *)
Theorem C37_double_partial : forall s data eof a g1 g2 rest,
  sp_dlf s = true -> segs data = a ++ g1 :: g2 :: rest -> fst g1 = line_feed -> fst g2 = line_feed ->
  Forall (fun g => ~ delim_rune s g /\ fst g <> line_feed) a -> ~ In line_feed (sp_delim s) ->
  (sp_skip s = true -> visible s a <> []) -> (Z.of_nat (length (visible s a)) + 2 <= sp_max s)%Z ->
  exists data' adv, scan_sentences s data eof = Ok (data', adv, Some (segs_text (visible s (a ++ [g1; g2])))) /\
    segs (skipn adv data') = rest /\ skipn adv data' = segs_text rest.
Proof. exact c37_double_lemma. Qed.
Print Assumptions C37_double_partial.
Example C37_example : exists x, scan_texts (scan_sentences default_splitter) (Reader (s2b "あ い" ++ [x0a; x0a] ++ s2b "う" ++ [x0a] ++ s2b "え") [] EOF []) = Ok x /\
  fst x = ([s2b "あい"; s2b "うえ"], None).
Proof. apply run_ex. vm_compute. reflexivity. Qed.

(** ** C38 *)
(** A follower in the next chunk; a doubled line feed cut in two. *)
Theorem C38_follower_refuted : exists x y input,
  scan_texts (scan_sentences default_splitter) (Reader input [] EOF []) = Ok x /\
  scan_texts (scan_sentences default_splitter) (Reader input [(6, false)]%nat EOF []) = Ok y /\
  fst x = ([s2b "あ。」"; s2b "い"], None) /\ fst y = ([s2b "あ。"; s2b "」い"], None).
Proof. exact c38_follower_lemma. Qed.
Print Assumptions C38_follower_refuted.
Theorem C38_line_feed_refuted : exists x y input,
  scan_texts (scan_sentences default_splitter) (Reader input [] EOF []) = Ok x /\
  scan_texts (scan_sentences default_splitter) (Reader input [(2, false)]%nat EOF []) = Ok y /\
  fst x = ([s2b "a"; s2b "b"], None) /\ fst y = ([s2b "ab"], None).
Proof. exact c38_feed_lemma. Qed.
Print Assumptions C38_line_feed_refuted.
(** Missing: reads that end inside a rune, just before a delimiter, follower or white space; and,
    when white space is skipped, texts with two line feeds in a sentence (DoubleLineFeedSplit) or blanks as delimiters. *)
Theorem C38_reads_partial : forall s r1 r2 toks1 toks2 r1' r2',
  (sp_skip s = false \/ (~ In 32 (sp_delim s) /\ (sp_dlf s = false \/ lone_feeds s (segs (rd_rest r1))))) ->
  rd_rest r1 = rd_rest r2 -> rd_log r1 = [] -> rd_log r2 = [] ->
  scan_texts (scan_sentences s) r1 = Ok (toks1, None, r1') -> scan_texts (scan_sentences s) r2 = Ok (toks2, None, r2') ->
  clean_cuts s (rd_log r1') -> clean_cuts s (rd_log r2') -> nonempty toks1 = nonempty toks2.
Proof. exact c38_lemma. Qed.
Print Assumptions C38_reads_partial.
Example C38_example : exists x, scan_texts (scan_sentences default_splitter) (Reader (s2b "あい 。」う え") [(3, false); (10, false); (30, false)]%nat EOF []) = Ok x /\
  (fst x, rd_log (snd x)) = ([s2b "あい。」"; s2b "うえ"], None, [s2b "あ"; s2b "い 。」"; s2b "う え"; []]) /\
  clean_cuts default_splitter [s2b "あ"; s2b "い 。」"; s2b "う え"; []].
Proof. apply run_ex_and; [vm_compute; reflexivity|]. exact c38_cuts. Qed.

(** Lines that are sentences, and a paragraph. *)
Example C38_lines_example :
  (lone_feeds default_splitter (segs ex_lines) /\ clean_cuts default_splitter [s2b "あ。" ++ [x0a]; s2b "い "; s2b "う。" ++ [x0a; x0a] ++ s2b "え" ++ [x0a]; s2b "お"; []]) /\
  exists x, scan_texts (scan_sentences default_splitter) (Reader ex_lines [(7, false); (4, false); (12, false); (30, false)]%nat EOF []) = Ok x /\
  (fst x, rd_log (snd x)) = ([s2b "あ。"; s2b "いう。"; s2b "えお"], None, [s2b "あ。" ++ [x0a]; s2b "い "; s2b "う。" ++ [x0a; x0a] ++ s2b "え" ++ [x0a]; s2b "お"; []]).
Proof. exact c38_lines. Qed.

(** ** C53 *)
(** One letter and 64 KiB of blanks: the scan fails and even the letter is lost. *)
Theorem C53_blanks_refuted : forall n, 65536 <= N.of_nat n ->
  exists r', scan_texts (scan_sentences default_splitter) (Reader (x61 :: repeat x20 n) [] EOF []) = Ok ([], Some ErrTooLong, r').
Proof. exact c53_refuted_lemma. Qed.
Print Assumptions C53_blanks_refuted.
(** Missing: SkipWhiteSpace with inputs of 64 KiB or more. (C53_blanks_refuted gives runs that meet the hypotheses.) *)
Theorem C53_too_long_partial : forall s r toks r', scan_texts (scan_sentences s) r = Ok (toks, Some ErrTooLong, r') -> rd_end r <> ErrTooLong ->
  65536 <= N.of_nat (length (rd_rest r)) /\ (sp_skip s = false -> (16384 < sp_max s)%Z).
Proof. exact too_long_lemma. Qed.
Print Assumptions C53_too_long_partial.

(** ** C54 *)
(** White space only, the end reported with the last bytes. *)
Theorem C54_empty_refuted : exists x, scan_texts (scan_sentences default_splitter) (Reader (s2b "  ") [(2, true)]%nat EOF []) = Ok x /\ fst x = ([[]], None).
Proof. exact c54_refuted_lemma. Qed.
Print Assumptions C54_empty_refuted.
(** Missing: readers that report the end together with bytes, reads that end inside a rune, and a
    blank as a delimiter. *)
Theorem C54_nonempty_partial : forall s r, sp_skip s = true -> ~ In 32 (sp_delim s) -> rd_log r = [] -> plain r ->
  exists toks err r', scan_texts (scan_sentences s) r = Ok (toks, err, r') /\
    (Forall (fun c => valid_utf8 c = true) (rd_log r') -> ~ In [] toks).
Proof. exact c54_lemma. Qed.
Print Assumptions C54_nonempty_partial.
Example C54_example : exists x, scan_texts (scan_sentences default_splitter) (Reader (s2b " あ 　。  ") [(1, false); (4, false); (3, false)]%nat EOF []) = Ok x /\
  (fst x, rd_log (snd x)) = ([s2b "あ。"], None, [s2b " "; s2b "あ "; s2b "　"; s2b "。  "; []]) /\
  plain (Reader (s2b " あ 　。  ") [(1, false); (4, false); (3, false)]%nat EOF []).
Proof. apply run_ex_and; [vm_compute; reflexivity|]. unfold plain. repeat constructor. Qed.

(** ** C55 *)
(** 127 letters and the first byte of a kana make 128 "runes". *)
Theorem C55_valid_refuted : exists x, valid_utf8 (repeat x61 127 ++ s2b "あ") = true /\
  scan_texts (scan_sentences default_splitter) (Reader (repeat x61 127 ++ s2b "あ") [(128, false)]%nat EOF []) = Ok x /\
  fst x = ([repeat x61 127 ++ [xe3]; [x81; x82]], None).
Proof. exact c55_refuted_lemma. Qed.
Print Assumptions C55_valid_refuted.
(** Missing: reads that end inside a rune. *)
Theorem C55_valid_partial : forall s r, rd_log r = [] ->
  exists toks err r', scan_texts (scan_sentences s) r = Ok (toks, err, r') /\
    (whole_runes (rd_log r') -> Forall (fun t => valid_utf8 t = true) toks).
Proof. exact c55_lemma. Qed.
Print Assumptions C55_valid_partial.
