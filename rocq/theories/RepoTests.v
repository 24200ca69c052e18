(** The repository's own unit tests, run on the model.  These are tests of the model (finitely many
    cases), not proofs about it: where a test needs the dictionary of testdata, which is not part of
    the repository at this commit, the small dictionary below holds the entries that the test names,
    with costs under which the path that the test expects is the cheapest, and the ids of the
    entries are those of the small dictionary. *)
From Verif Require Import Check SpecCmd Splitter SentenceRuns Cmd CmdExamples Text Decode Server Assets Example.
Open Scope Z_scope.

(** One Read that returns all, then io.EOF: strings.NewReader. *)
Definition string_reader (s : bytes) : reader := Reader s [] EOF [].
Definition texts (s : splitter) (input : bytes) : res (list bytes * option scan_err) :=
  let* p := scan_texts (scan_sentences s) (string_reader input) in Ok (fst p).
Definition all_eq {A B} `{Eqb B} (f : A -> B) (l : list (A * B)) : bool := forallb (fun p => test_eq (f (fst p)) (snd p)) l.
Definition cases (s : splitter) (l : list (bytes * list bytes)) : bool :=
  all_eq (texts s) (map (fun p => (fst p, Ok (snd p, None))) l).
Ltac run := vm_compute; reflexivity.

(** ** filter *)
(** filter/sentence_splitter_test.go:13-63 Test_DefaultSplitter *)
Example repo_default_splitter : cases default_splitter
  [([], []);
   ((s2b "あああ"), [(s2b "あああ")]);
   ((s2b "。。．"), [(s2b "。。．")]);
   ((s2b "こんにちはは「さようなら」。🍣が好き"), [(s2b "こんにちはは「さようなら」。"); (s2b "🍣が好き")]);
   ((s2b "こんにちは。さようなら。おはよう．おやすみ．"), [(s2b "こんにちは。"); (s2b "さようなら。"); (s2b "おはよう．"); (s2b "おやすみ．")]);
   ((s2b "　 こ んに  ち　は。　 ．」　 さ" ++ [x0b] ++ s2b "よ" ++ [x0d] ++ s2b "う" ++ [x09] ++ s2b "な" ++ [x0a] ++ s2b "ら" ++ [x0a]), [(s2b "こんにちは。．」"); (s2b "さようなら")]);
   (([x0a; x0a] ++ s2b "こんにちは" ++ [x0a; x0a] ++ s2b "さようなら。" ++ [x0a; x0a]), [(s2b "こんにちは"); (s2b "さようなら。")]);
   ((s2b "  こんにちは。。」さようなら。』ごきげんよう"), [(s2b "こんにちは。。」"); (s2b "さようなら。』"); (s2b "ごきげんよう")])] = true.
Proof. run. Qed.

(** filter/sentence_splitter_test.go:92-98, 147-153, 205-211 *)
Definition space_splitter (skip dlf : bool) : splitter :=
  Splitter [32; 12288]%N [46; 65379; 12301; 12303; 41; 65289; 65373; 125; 12297; 12299]%N skip dlf 256.

(** filter/sentence_splitter_test.go:65-110 Test_DelimWhiteSpace *)
Example repo_delim_white_space : cases (space_splitter true true)
  [([], []);
   ((s2b "あああ"), [(s2b "あああ")]);
   ((s2b "   "), []);
   ((s2b "こんにちはは「さようなら」　🍣が好き"), [(s2b "こんにちはは「さようなら」"); (s2b "🍣が好き")]);
   ((s2b "こんにちは さようなら　おはよう おやすみ   "), [(s2b "こんにちは"); (s2b "さようなら"); (s2b "おはよう"); (s2b "おやすみ")])] = true.
Proof. run. Qed.

(** filter/sentence_splitter_test.go:112-168 Test_DisableSkipWhiteSpace *)
Example repo_disable_skip : cases (space_splitter false true)
  [([], []);
   ((s2b "あああ"), [(s2b "あああ")]);
   ((s2b "   "), [(s2b "   ")]);
   ((s2b " x x x "), [(s2b " "); (s2b "x "); (s2b "x "); (s2b "x ")]);
   ((s2b "こんにちはは「さようなら 」　🍣が好き"), [(s2b "こんにちはは「さようなら 」　"); (s2b "🍣が好き")]);
   ((s2b "こんにちは " ++ [x09; x09] ++ s2b "さようなら　おはよう おやすみ   "), [(s2b "こんにちは "); ([x09; x09] ++ s2b "さようなら　"); (s2b "おはよう "); (s2b "おやすみ   ")]);
   ((s2b "すももも" ++ [x09; x0a; x0a] ++ s2b " " ++ [x09] ++ s2b "ももも" ++ [x0a; x0a] ++ s2b "もものうち" ++ [x0a; x0a]), [(s2b "すももも" ++ [x09; x0a; x0a]); (s2b " "); ([x09] ++ s2b "ももも" ++ [x0a; x0a]); (s2b "もものうち" ++ [x0a; x0a])])] = true.
Proof. run. Qed.

(** filter/sentence_splitter_test.go:170-226 Test_DisableSkipWhiteSpaceAndDoubleLineFeedSplit *)
Example repo_disable_both : cases (space_splitter false false)
  [([], []);
   ((s2b "あああ"), [(s2b "あああ")]);
   ((s2b "   "), [(s2b "   ")]);
   ((s2b " x x x "), [(s2b " "); (s2b "x "); (s2b "x "); (s2b "x ")]);
   ((s2b "こんにちはは「さようなら 」　🍣が好き"), [(s2b "こんにちはは「さようなら 」　"); (s2b "🍣が好き")]);
   ((s2b "こんにちは " ++ [x09; x09] ++ s2b "さようなら　おはよう おやすみ   "), [(s2b "こんにちは "); ([x09; x09] ++ s2b "さようなら　"); (s2b "おはよう "); (s2b "おやすみ   ")]);
   ((s2b "すももも" ++ [x09; x0a; x0a] ++ s2b " " ++ [x09] ++ s2b "ももも" ++ [x0a; x0a] ++ s2b "もものうち" ++ [x0a; x0a]), [(s2b "すももも" ++ [x09; x0a; x0a] ++ s2b " "); ([x09] ++ s2b "ももも" ++ [x0a; x0a] ++ s2b "もものうち" ++ [x0a; x0a])])] = true.
Proof. run. Qed.

(** filter/sentence_splitter_test.go:228-251 Test_ScanSentences: nothing to advance over, and a token that is not the empty slice *)
Example repo_scan_sentences : all_eq (scan_sentences default_splitter []) [(true, Ok ([], 0%nat, None)); (false, Ok ([], 0%nat, None))] = true.
Proof. run. Qed.

(** filter/sentence_splitter_test.go:253-276 ExampleScanSentences *)
Example repo_example_scan : cases default_splitter
  [((s2b "　人魚は、南の方の海にばかり棲んでいるのではあ" ++ [x0a] ++ s2b "                         りません。北の海にも棲んでいたのであります。" ++ [x0a] ++ s2b "                         　北方の海うみの色は、青うございました。ある" ++ [x0a] ++ s2b "                         とき、岩の上に、女の人魚があがって、あたりの景" ++ [x0a] ++ s2b "                         色をながめながら休んでいました。" ++ [x0a; x0a] ++ s2b "                         小川未明作 赤い蝋燭と人魚より"), [(s2b "人魚は、南の方の海にばかり棲んでいるのではありません。"); (s2b "北の海にも棲んでいたのであります。"); (s2b "北方の海うみの色は、青うございました。"); (s2b "あるとき、岩の上に、女の人魚があがって、あたりの景色をながめながら休んでいました。"); (s2b "小川未明作赤い蝋燭と人魚より")])] = true.
Proof. run. Qed.

(** filter/feature_test.go:7-30 TestFilter_New, TestFilter_NewEmpty *)
Example repo_filter_new : all_eq (fun p => features_string (new_features_filter p))
  [([[(s2b "hello"); (s2b "world")]; [(s2b "hello"); (s2b "goodbye")]; [(s2b "hello"); (s2b "goodbye")]], (s2b "hello" ++ [x0a] ++ s2b "  world" ++ [x0a] ++ s2b "  goodbye" ++ [x0a])); ([], [])] = true.
Proof. run. Qed.

(** filter/feature_test.go:32-51 TestFilter_Add *)
Example repo_filter_add : test_eq (features_string (fold_left add_features [[(s2b "hello"); (s2b "world")]; [(s2b "hello"); (s2b "goodbye")]; [(s2b "hello"); (s2b "goodbye")]; [(s2b "one"); (s2b "two"); (s2b "three")]; [(s2b "one"); (s2b "two")]; [(s2b "one"); (s2b "two"); (s2b "piyo")]] (FNode [])))
  (s2b "hello" ++ [x0a] ++ s2b "  world" ++ [x0a] ++ s2b "  goodbye" ++ [x0a] ++ s2b "one" ++ [x0a] ++ s2b "  two" ++ [x0a]) = true.
Proof. run. Qed.

(** filter/feature_test.go:53-89 TestFeaturesFilter_Pass *)
Example repo_filter_pass : all_eq (features_match (new_features_filter [[(s2b "hello"); (s2b "world")]; [(s2b "hello"); (s2b "goodbye")]; [(s2b "aloha")]; [(s2b "one"); (s2b "two"); (s2b "three")]; [(s2b "one"); (s2b "two"); (s2b "three"); (s2b "four")]; [any_feature; s2b "foo"; any_feature; s2b "baa"]]))
  [([(s2b "hello"); (s2b "world")], true);
   ([(s2b "hello"); (s2b "goodbye")], true);
   ([(s2b "aloha")], true);
   ([(s2b "aloha"); (s2b "aloha")], true);
   ([(s2b "one"); (s2b "two"); (s2b "three")], true);
   ([(s2b "one"); (s2b "two"); (s2b "three"); (s2b "four")], true);
   ([(s2b "one"); (s2b "two"); (s2b "three"); (s2b "four"); (s2b "five")], true);
   ([(s2b "piyo"); (s2b "foo"); (s2b "hoge"); (s2b "baa")], true);
   ([(s2b "zzz"); (s2b "foo"); (s2b "zzz"); (s2b "baa")], true);
   ([(s2b "hello")], false);
   ([(s2b "world")], false);
   ([(s2b "one"); (s2b "world")], false);
   ([(s2b "one")], false);
   ([(s2b "one"); (s2b "two")], false);
   ([(s2b "foo"); (s2b "zzz"); (s2b "zzz"); (s2b "baa")], false)] = true.
Proof. run. Qed.

(** ** A dictionary with the entries that the tests name *)
(** Surface, part of speech, other features. *)
Definition repo_words : list (bytes * list Z * list bytes) :=
  [((s2b "Tシャツ"), [0; 1; 2; 2], [(s2b "*"); (s2b "*"); (s2b "Tシャツ"); (s2b "ティーシャツ"); (s2b "ティーシャツ")]);
   ((s2b "ねこ"), [0; 1; 2; 2], [(s2b "*"); (s2b "*"); (s2b "ねこ"); (s2b "ネコ"); (s2b "ネコ")]);
   ((s2b "です"), [3; 2; 2; 2], [(s2b "特殊・デス"); (s2b "基本形"); (s2b "です"); (s2b "デス"); (s2b "デス")]);
   ((s2b "すもも"), [0; 1; 2; 2], [(s2b "*"); (s2b "*"); (s2b "すもも"); (s2b "スモモ"); (s2b "スモモ")]);
   ((s2b "も"), [4; 5; 2; 2], [(s2b "*"); (s2b "*"); (s2b "も"); (s2b "モ"); (s2b "モ")]);
   ((s2b "もも"), [0; 1; 2; 2], [(s2b "*"); (s2b "*"); (s2b "もも"); (s2b "モモ"); (s2b "モモ")]);
   ((s2b "の"), [4; 6; 2; 2], [(s2b "*"); (s2b "*"); (s2b "の"); (s2b "ノ"); (s2b "ノ")]);
   ((s2b "うち"), [0; 7; 8; 2], [(s2b "*"); (s2b "*"); (s2b "うち"); (s2b "ウチ"); (s2b "ウチ")]);
   ((s2b "私"), [0; 9; 1; 2], [(s2b "*"); (s2b "*"); (s2b "私"); (s2b "ワタシ"); (s2b "ワタシ")]);
   ((s2b "は"), [4; 5; 2; 2], [(s2b "*"); (s2b "*"); (s2b "は"); (s2b "ハ"); (s2b "ワ")]);
   ((s2b "鰻"), [0; 1; 2; 2], [(s2b "*"); (s2b "*"); (s2b "鰻"); (s2b "ウナギ"); (s2b "ウナギ")]);
   ((s2b "猫"), [0; 1; 2; 2], [(s2b "*"); (s2b "*"); (s2b "猫"); (s2b "ネコ"); (s2b "ネコ")]);
   ((s2b "い"), [10; 11; 2; 2], [(s2b "一段"); (s2b "連用形"); (s2b "いる"); (s2b "イ"); (s2b "イ")]);
   ((s2b "ます"), [3; 2; 2; 2], [(s2b "特殊・マス"); (s2b "基本形"); (s2b "ます"); (s2b "マス"); (s2b "マス")]);
   ((s2b "赤い"), [12; 11; 2; 2], [(s2b "形容詞・アウオ段"); (s2b "基本形"); (s2b "赤い"); (s2b "アカイ"); (s2b "アカイ")]);
   ((s2b "蝋燭"), [0; 1; 2; 2], [(s2b "*"); (s2b "*"); (s2b "蝋燭"); (s2b "ロウソク"); (s2b "ローソク")]);
   ((s2b "と"), [4; 13; 2; 2], [(s2b "*"); (s2b "*"); (s2b "と"); (s2b "ト"); (s2b "ト")]);
   ((s2b "人魚"), [0; 1; 2; 2], [(s2b "*"); (s2b "*"); (s2b "人魚"); (s2b "ニンギョ"); (s2b "ニンギョ")]);
   ((s2b "。"), [14; 15; 2; 2], [(s2b "*"); (s2b "*"); (s2b "。"); (s2b "。"); (s2b "。")]);
   ((s2b "、"), [14; 16; 2; 2], [(s2b "*"); (s2b "*"); (s2b "、"); (s2b "、"); (s2b "、")]);
   ((s2b "南"), [0; 1; 2; 2], [(s2b "*"); (s2b "*"); (s2b "南"); (s2b "ミナミ"); (s2b "ミナミ")]);
   ((s2b "方"), [0; 7; 1; 2], [(s2b "*"); (s2b "*"); (s2b "方"); (s2b "ホウ"); (s2b "ホー")]);
   ((s2b "海"), [0; 1; 2; 2], [(s2b "*"); (s2b "*"); (s2b "海"); (s2b "ウミ"); (s2b "ウミ")]);
   ((s2b "に"), [4; 17; 1; 2], [(s2b "*"); (s2b "*"); (s2b "に"); (s2b "ニ"); (s2b "ニ")]);
   ((s2b "ばかり"), [4; 18; 2; 2], [(s2b "*"); (s2b "*"); (s2b "ばかり"); (s2b "バカリ"); (s2b "バカリ")]);
   ((s2b "棲ん"), [10; 11; 2; 2], [(s2b "五段・マ行"); (s2b "連用タ接続"); (s2b "棲む"); (s2b "スン"); (s2b "スン")]);
   ((s2b "で"), [4; 19; 2; 2], [(s2b "*"); (s2b "*"); (s2b "で"); (s2b "デ"); (s2b "デ")]);
   ((s2b "いる"), [10; 7; 2; 2], [(s2b "一段"); (s2b "基本形"); (s2b "いる"); (s2b "イル"); (s2b "イル")]);
   ((s2b "の"), [0; 7; 1; 2], [(s2b "*"); (s2b "*"); (s2b "の"); (s2b "ノ"); (s2b "ノ")]);
   ((s2b "で"), [3; 2; 2; 2], [(s2b "特殊・ダ"); (s2b "連用形"); (s2b "だ"); (s2b "デ"); (s2b "デ")]);
   ((s2b "あり"), [10; 11; 2; 2], [(s2b "五段・ラ行"); (s2b "連用形"); (s2b "ある"); (s2b "アリ"); (s2b "アリ")]);
   ((s2b "ませ"), [3; 2; 2; 2], [(s2b "特殊・マス"); (s2b "未然形"); (s2b "ます"); (s2b "マセ"); (s2b "マセ")]);
   ((s2b "ん"), [3; 2; 2; 2], [(s2b "不変化型"); (s2b "基本形"); (s2b "ん"); (s2b "ン"); (s2b "ン")]);
   ((s2b "寿司"), [0; 1; 2; 2], [(s2b "*"); (s2b "*"); (s2b "寿司"); (s2b "スシ"); (s2b "スシ")]);
   ((s2b "を"), [4; 17; 1; 2], [(s2b "*"); (s2b "*"); (s2b "を"); (s2b "ヲ"); (s2b "ヲ")]);
   ((s2b "が"), [4; 17; 1; 2], [(s2b "*"); (s2b "*"); (s2b "が"); (s2b "ガ"); (s2b "ガ")]);
   ((s2b "食べ"), [10; 11; 2; 2], [(s2b "一段"); (s2b "連用形"); (s2b "食べる"); (s2b "タベ"); (s2b "タベ")]);
   ((s2b "たい"), [3; 2; 2; 2], [(s2b "特殊・タイ"); (s2b "基本形"); (s2b "たい"); (s2b "タイ"); (s2b "タイ")]);
   ((s2b "公園"), [0; 1; 2; 2], [(s2b "*"); (s2b "*"); (s2b "公園"); (s2b "コウエン"); (s2b "コーエン")]);
   ((s2b "学校"), [0; 1; 2; 2], [(s2b "*"); (s2b "*"); (s2b "学校"); (s2b "ガッコウ"); (s2b "ガッコー")]);
   ((s2b "行く"), [10; 11; 2; 2], [(s2b "五段・カ行促音便"); (s2b "基本形"); (s2b "行く"); (s2b "イク"); (s2b "イク")]);
   ((s2b "行か"), [10; 11; 2; 2], [(s2b "五段・カ行促音便"); (s2b "未然形"); (s2b "行く"); (s2b "イカ"); (s2b "イカ")]);
   ((s2b "関西"), [0; 20; 21; 1], [(s2b "*"); (s2b "*"); (s2b "関西"); (s2b "カンサイ"); (s2b "カンサイ")]);
   ((s2b "国際"), [0; 1; 2; 2], [(s2b "*"); (s2b "*"); (s2b "国際"); (s2b "コクサイ"); (s2b "コクサイ")]);
   ((s2b "空港"), [0; 1; 2; 2], [(s2b "*"); (s2b "*"); (s2b "空港"); (s2b "クウコウ"); (s2b "クーコー")]);
   ((s2b "関西国際空港"), [0; 20; 22; 2], [(s2b "*"); (s2b "*"); (s2b "関西国際空港"); (s2b "カンサイコクサイクウコウ"); (s2b "カンサイコクサイクーコー")]);
   ((s2b "あ"), [23; 2; 2; 2], [(s2b "*"); (s2b "*"); (s2b "あ"); (s2b "ア"); (s2b "ア")]);
   ((s2b "あ"), [24; 2; 2; 2], [(s2b "*"); (s2b "*"); (s2b "あ"); (s2b "ア"); (s2b "ア")]);
   ((s2b "あ"), [10; 11; 2; 2], [(s2b "五段・ラ行"); (s2b "体言接続特殊２"); (s2b "ある"); (s2b "ア"); (s2b "ア")]);
   ((s2b "あ"), [25; 26; 2; 2], [(s2b "*"); (s2b "*"); (s2b "あ"); (s2b "ア"); (s2b "ア")])].
Definition repo_names : list bytes := [(s2b "名詞"); (s2b "一般"); (s2b "*"); (s2b "助動詞"); (s2b "助詞"); (s2b "係助詞"); (s2b "連体化"); (s2b "非自立"); (s2b "副詞可能"); (s2b "代名詞"); (s2b "動詞"); (s2b "自立"); (s2b "形容詞"); (s2b "並立助詞"); (s2b "記号"); (s2b "句点"); (s2b "読点"); (s2b "格助詞"); (s2b "副助詞"); (s2b "接続助詞"); (s2b "固有名詞"); (s2b "地域"); (s2b "組織"); (s2b "フィラー"); (s2b "感動詞"); (s2b "その他"); (s2b "間投")].
(** Word i has the context i+1; the pairs of words that follow each other in the tests. *)
Definition repo_pairs : list (Z * Z) :=
  [(0, 2); (0, 4); (0, 9); (0, 12); (0, 15); (0, 18); (0, 32); (0, 34); (0, 39); (0, 40); (0, 42); (0, 43); (0, 46); (2, 3); (2, 10); (3, 2); (4, 5); (5, 6); (6, 5); (6, 7); (7, 8); (7, 22); (7, 23); (8, 0); (9, 10); (10, 0); (10, 11); (10, 13); (10, 20); (10, 31); (11, 0); (12, 0); (13, 14); (14, 0); (15, 16); (16, 17); (17, 18); (18, 10); (18, 19); (19, 0); (19, 18); (20, 21); (21, 7); (22, 7); (23, 24); (24, 25); (24, 41); (25, 26); (26, 27); (27, 28); (28, 29); (29, 30); (30, 10); (31, 32); (32, 33); (33, 0); (33, 19); (34, 35); (34, 36); (35, 37); (36, 37); (37, 38); (38, 0); (38, 19); (39, 24); (40, 24); (41, 0); (42, 0); (43, 44); (44, 45); (45, 0); (46, 0)].
Definition repo_size : nat := 51.
Definition repo_contexts : list Z := map Z.of_nat (seq 0 repo_size).
Definition repo_conn (p : Z * Z) : Z := if existsb (fun q => (fst p =? fst q) && (snd p =? snd q)) repo_pairs then 0 else 1000.
(** KATAKANA is category 4; its six entries have the ids 29 to 34 as in the test dictionary. *)
Definition repo_category (r : N) : nat := if ((12449 <=? r) && (r <=? 12540))%N then 4%nat else ex_category r.
Definition unk_entry (i : nat) : list bytes :=
  if (i =? 0)%nat then [(s2b "名詞"); (s2b "固有名詞"); (s2b "地域"); (s2b "一般"); (s2b "*"); (s2b "*"); (s2b "*")] else [(s2b "名詞"); (s2b "固有名詞"); (s2b "組織"); (s2b "*"); (s2b "*"); (s2b "*"); (s2b "*")].
Definition repo_dict : dict :=
  Dict (map (fun p => (fst (fst (snd p)), Z.of_nat (fst p))) (combine (seq 0 (length repo_words)) repo_words))
       (map (fun i => Morph (Z.of_nat i + 1) (Z.of_nat i + 1) 100) (seq 0 (length repo_words)))
       (Z.of_nat repo_size) (map repo_conn (list_prod repo_contexts repo_contexts))
       repo_category [false; false; false; false; true] [true; true; false; true; true]
       [(0, 0); (1, 1); (2, 2); (3, 3); (4, 29)] [(4, 5)]
       (map (fun i => Morph 0 0 (if (i =? 34)%nat then 2000 else 4000)) (seq 0 35))
       (map (fun p => snd (fst p)) repo_words) repo_names (Some (map snd repo_words))
       [(key_inflectional_type, 4); (key_inflectional_form, 5); (key_base, 6); (key_reading, 7); (key_pronunciation, 8);
        (key_pos_start, 0); (key_pos_hierarchy, 4)]
       (map unk_entry (seq 0 35)) [(key_base, 6); (key_pos_start, 0); (key_pos_hierarchy, 4)].
(** testdata/userdict.txt; NewUserDict sorts the entries. *)
Definition repo_udict : udict :=
  UDict [((s2b "日本経済新聞"), 0); ((s2b "朝青龍"), 1); ((s2b "関西国際空港"), 2)]
        [UserContent [(s2b "日本"); (s2b "経済"); (s2b "新聞")] [(s2b "ニホン"); (s2b "ケイザイ"); (s2b "シンブン")] (s2b "カスタム名詞");
         UserContent [(s2b "朝青龍")] [(s2b "アサショウリュウ")] (s2b "カスタム人名");
         UserContent [(s2b "関西"); (s2b "国際"); (s2b "空港")] [(s2b "カンサイ"); (s2b "コクサイ"); (s2b "クウコウ")] (s2b "テスト名詞")].
Definition repo_tok : tokenizer := Tokenizer repo_dict None false.
Definition repo_user : tokenizer := Tokenizer repo_dict (Some repo_udict) false.
Definition token_at (id : Z) (class : node_class) : token := Token 0 id class 0 0 1 [] repo_dict (Some repo_udict).
(** The fields that equalTokens compares (tokenizer_test.go:42-50). *)
Definition fields (t : token) := (t_index t, t_id t, t_class t, t_position t, t_start t, t_end t, t_surface t).
Definition results (t : tokenizer) (mode : Z) (input : bytes) := let* l := analyze ex_ideo t input mode in Ok (map fields l).
Definition surfaces (l : list token) : list bytes := map t_surface l.

(** ** tokenizer *)
(** tokenizer/token_test.go:15-31 Test_TokenClassString *)
Example repo_class_string : all_eq class_string [(DUMMY, s2b "DUMMY"); (KNOWN, s2b "KNOWN"); (UNKNOWN, s2b "UNKNOWN"); (USER, s2b "USER")] = true.
Proof. run. Qed.

(** tokenizer/token_test.go:33-91 Test_FeaturesKnown, Test_FeatureAtKnown *)
Example repo_features_known : (test_eq (features (token_at 0 KNOWN)) (Ok (Some [(s2b "名詞"); (s2b "一般"); (s2b "*"); (s2b "*"); (s2b "*"); (s2b "*"); (s2b "Tシャツ"); (s2b "ティーシャツ"); (s2b "ティーシャツ")])) &&
   all_eq (feature_at (token_at 0 KNOWN)) [(0, Ok ((s2b "名詞"), true)); (1, Ok ((s2b "一般"), true)); (2, Ok ((s2b "*"), true)); (3, Ok ((s2b "*"), true)); (4, Ok ((s2b "*"), true)); (5, Ok ((s2b "*"), true)); (6, Ok ((s2b "Tシャツ"), true)); (7, Ok ((s2b "ティーシャツ"), true)); (8, Ok ((s2b "ティーシャツ"), true)); (-1, Ok ([], false)); (9, Ok ([], false))])%bool = true.
Proof. run. Qed.

(** tokenizer/token_test.go:93-155 Test_FeaturesUnknown, Test_FeatureAtUnknown *)
Example repo_features_unknown : (test_eq (features (token_at 0 UNKNOWN)) (Ok (Some [(s2b "名詞"); (s2b "固有名詞"); (s2b "地域"); (s2b "一般"); (s2b "*"); (s2b "*"); (s2b "*")])) &&
   all_eq (feature_at (token_at 0 UNKNOWN)) [(0, Ok ((s2b "名詞"), true)); (1, Ok ((s2b "固有名詞"), true)); (2, Ok ((s2b "地域"), true)); (3, Ok ((s2b "一般"), true)); (4, Ok ((s2b "*"), true)); (5, Ok ((s2b "*"), true)); (6, Ok ((s2b "*"), true)); (-1, Ok ([], false)); (7, Ok ([], false))])%bool = true.
Proof. run. Qed.

(** tokenizer/token_test.go:157-214 Test_FeaturesUser, Test_FeatureAtUsers *)
Example repo_features_user : (test_eq (features (token_at 0 USER)) (Ok (Some [(s2b "カスタム名詞"); (s2b "日本/経済/新聞"); (s2b "ニホン/ケイザイ/シンブン")])) &&
   all_eq (feature_at (token_at 0 USER)) [(0, Ok ((s2b "カスタム名詞"), true)); (1, Ok ((s2b "日本/経済/新聞"), true)); (2, Ok ((s2b "ニホン/ケイザイ/シンブン"), true))])%bool = true.
Proof. run. Qed.

(** tokenizer/token_test.go:216-239 Test_FeaturesDummy *)
Example repo_features_dummy : test_eq (let* f := features (token_at 0 DUMMY) in Ok (strings_list f)) (Ok []) = true.
Proof. run. Qed.

(** tokenizer/token_test.go:349-376 Test_FeaturesUserExtra *)
Example repo_user_extra : test_eq (user_extra (token_at 0 USER)) (Ok (Some ([(s2b "日本"); (s2b "経済"); (s2b "新聞")], [(s2b "ニホン"); (s2b "ケイザイ"); (s2b "シンブン")]))) = true.
Proof. run. Qed.

(** tokenizer/token_test.go:378-391 Test_TokenString *)
Example repo_token_string : test_eq (token_string (fun _ => true) (Token 0 123 DUMMY 0 0 1 (s2b "テスト") repo_dict None)) (s2b "0:""テスト"" (0: 0, 1) DUMMY [123]") = true.
Proof. run. Qed.

(** The i-th token of the analysis passes the test. *)
Definition nth_token (input : bytes) (i : nat) : res token := let* l := tokenize ex_ideo repo_tok input in index l i.
Definition count (input : bytes) : res nat := let* l := tokenize ex_ideo repo_tok input in Ok (length l).
Definition at_token {A} (f : token -> res A) (input : bytes) (i : nat) : res A := let* t := nth_token input i in f t.

(** tokenizer/token_test.go:393-575 Test_InflectionalType, Test_InflectionalForm, Test_BaseForm, Test_Reading, Test_Pronunciation, Test_POS *)
Example repo_pickup : forallb id
  [test_eq (count (s2b "寿司を食べたい")) (Ok 6%nat);
   test_eq (count (s2b "公園に行く")) (Ok 5%nat);
   test_eq (count (s2b "トトロ")) (Ok 3%nat);
   test_eq (at_token inflectional_type (s2b "寿司を食べたい") 3) (Ok ((s2b "一段"), true));
   test_eq (at_token inflectional_type (s2b "寿司を食べたい") 0) (Ok ([], false));
   test_eq (at_token inflectional_form (s2b "寿司を食べたい") 3) (Ok ((s2b "連用形"), true));
   test_eq (at_token inflectional_form (s2b "寿司を食べたい") 0) (Ok ([], false));
   test_eq (at_token base_form (s2b "寿司を食べたい") 3) (Ok ((s2b "食べる"), true));
   test_eq (at_token base_form (s2b "寿司を食べたい") 0) (Ok ([], false));
   test_eq (at_token reading (s2b "公園に行く") 1) (Ok ((s2b "コウエン"), true));
   test_eq (at_token reading (s2b "公園に行く") 0) (Ok ([], false));
   test_eq (at_token pronunciation (s2b "公園に行く") 1) (Ok ((s2b "コーエン"), true));
   test_eq (at_token pronunciation (s2b "公園に行く") 0) (Ok ([], false));
   test_eq (at_token inflectional_form (s2b "トトロ") 1) (Ok ([], false));
   test_eq (at_token token_pos (s2b "公園に行く") 3) (Ok (Some [(s2b "動詞"); (s2b "自立"); (s2b "*"); (s2b "*")]));
   test_eq (at_token token_pos (s2b "トトロ") 1) (Ok (Some [(s2b "名詞"); (s2b "固有名詞"); (s2b "組織"); (s2b "*")]))] = true.
Proof. run. Qed.

(** tokenizer/token_test.go:577-645 TestNewTokenData *)
Example repo_token_data : forallb id
  [test_eq (at_token (fun t => let* d := new_token_data t in Ok (td_surface d, td_class d, td_pos d, td_features d)) (s2b "トトロ") 0) (Ok (s2b "BOS", s2b "DUMMY", Some [], Some []));
   test_eq (at_token (fun t => let* d := new_token_data t in Ok (td_surface d, td_class d, td_pos d, td_features d)) (s2b "トトロ") 1) (Ok ((s2b "トトロ"), s2b "UNKNOWN", Some [(s2b "名詞"); (s2b "固有名詞"); (s2b "組織"); (s2b "*")], Some [(s2b "名詞"); (s2b "固有名詞"); (s2b "組織"); (s2b "*"); (s2b "*"); (s2b "*"); (s2b "*")]));
   test_eq (at_token (fun t => let* d := new_token_data t in Ok (td_base_form d, td_reading d, td_pronunciation d)) (s2b "行か") 1) (Ok ((s2b "行く"), (s2b "イカ"), (s2b "イカ")))] = true.
Proof. run. Qed.

(** tokenizer/token_test.go:647-688 TestEqual *)
Example repo_equal : all_eq (fun w => token_equal (Token 111 1 KNOWN 456 3 4 w repo_dict None) (Token 1234 1 KNOWN 5 56 58 (s2b "ねこ") repo_dict None))
  [((s2b "ねこ"), true); ((s2b "いぬ"), false)] = true.
Proof. run. Qed.

Definition pair_of {A} (f : token -> token -> res A) (p : nat * nat) : res A :=
  let* a := nth_token (s2b "公園に行くトトロ") (fst p) in let* b := nth_token (s2b "学校に行くトトロ") (snd p) in f a b.

(** tokenizer/token_test.go:690-773 Test_EqualFeatures *)
Example repo_equal_features : all_eq (pair_of token_equal_features)
  [((0%nat, 0%nat), Ok true); ((1%nat, 1%nat), Ok false); ((2%nat, 2%nat), Ok true); ((3%nat, 3%nat), Ok true); ((4%nat, 4%nat), Ok true); ((5%nat, 5%nat), Ok true); ((0%nat, 5%nat), Ok true); ((0%nat, 4%nat), Ok false)] = true.
Proof. run. Qed.

(** tokenizer/token_test.go:775-861 Test_EqualPOS (but for the case that compares the unknown word with 学校: the part of speech that the test dictionary gives it is not known here) *)
Example repo_equal_pos : all_eq (pair_of token_equal_pos)
  [((0%nat, 0%nat), Ok true); ((1%nat, 1%nat), Ok true); ((2%nat, 2%nat), Ok true); ((3%nat, 3%nat), Ok true); ((4%nat, 4%nat), Ok true); ((5%nat, 5%nat), Ok true); ((0%nat, 5%nat), Ok true); ((1%nat, 3%nat), Ok false)] = true.
Proof. run. Qed.

(** tokenizer/tokenizer_test.go:78-84 Test_Tokenizer_New; tokenizer_option_test.go:30-37 *)
Example repo_new : match new_tokenizer None [], new_tokenizer (Some repo_dict) [OptUserDict None] with
  | inr EmptyDictionary, inr EmptyUserDictionary => true | _, _ => false end = true.
Proof. run. Qed.

(** tokenizer/tokenizer_test.go:86-101 Test_TokenizeModeString *)
Example repo_mode_string : all_eq mode_string [(mode_normal, s2b "normal"); (mode_search, s2b "search"); (mode_extended, s2b "extend"); (999, s2b "unknown tokenize mode (999)")] = true.
Proof. run. Qed.

(** tokenizer/tokenizer_test.go:103-121, 197-215, 263-282: the empty input *)
Example repo_analyze_empty : forallb id
  [test_eq (results repo_tok mode_normal [])
     (Ok [(0%nat, -1, DUMMY, 0%nat, 0%nat, 0%nat, (s2b "BOS")); (1%nat, -1, DUMMY, 0%nat, 0%nat, 0%nat, (s2b "EOS"))]);
   test_eq (results repo_tok mode_search [])
     (Ok [(0%nat, -1, DUMMY, 0%nat, 0%nat, 0%nat, (s2b "BOS")); (1%nat, -1, DUMMY, 0%nat, 0%nat, 0%nat, (s2b "EOS"))]);
   test_eq (results repo_tok mode_extended [])
     (Ok [(0%nat, -1, DUMMY, 0%nat, 0%nat, 0%nat, (s2b "BOS")); (1%nat, -1, DUMMY, 0%nat, 0%nat, 0%nat, (s2b "EOS"))])] = true.
Proof. run. Qed.

(** tokenizer/tokenizer_test.go:123-143, 217-239, 284-306: Test_Analyze and the other modes *)
Example repo_analyze : forallb id
  [test_eq (results repo_tok mode_normal (s2b "関西国際空港"))
     (Ok [(0%nat, -1, DUMMY, 0%nat, 0%nat, 0%nat, (s2b "BOS")); (1%nat, 45, KNOWN, 0%nat, 0%nat, 6%nat, (s2b "関西国際空港")); (2%nat, -1, DUMMY, 18%nat, 6%nat, 6%nat, (s2b "EOS"))]);
   test_eq (results repo_tok mode_search (s2b "関西国際空港"))
     (Ok [(0%nat, -1, DUMMY, 0%nat, 0%nat, 0%nat, (s2b "BOS")); (1%nat, 42, KNOWN, 0%nat, 0%nat, 2%nat, (s2b "関西")); (2%nat, 43, KNOWN, 6%nat, 2%nat, 4%nat, (s2b "国際")); (3%nat, 44, KNOWN, 12%nat, 4%nat, 6%nat, (s2b "空港")); (4%nat, -1, DUMMY, 18%nat, 6%nat, 6%nat, (s2b "EOS"))]);
   test_eq (results repo_tok mode_extended (s2b "関西国際空港"))
     (Ok [(0%nat, -1, DUMMY, 0%nat, 0%nat, 0%nat, (s2b "BOS")); (1%nat, 42, KNOWN, 0%nat, 0%nat, 2%nat, (s2b "関西")); (2%nat, 43, KNOWN, 6%nat, 2%nat, 4%nat, (s2b "国際")); (3%nat, 44, KNOWN, 12%nat, 4%nat, 6%nat, (s2b "空港")); (4%nat, -1, DUMMY, 18%nat, 6%nat, 6%nat, (s2b "EOS"))])] = true.
Proof. run. Qed.

(** tokenizer/tokenizer_test.go:145-164, 241-261, 308-330: Test_AnalyzeUnknown and the other modes *)
Example repo_analyze_unknown : forallb id
  [test_eq (results repo_tok mode_normal (s2b "ポポピ"))
     (Ok [(0%nat, -1, DUMMY, 0%nat, 0%nat, 0%nat, (s2b "BOS")); (1%nat, 34, UNKNOWN, 0%nat, 0%nat, 3%nat, (s2b "ポポピ")); (2%nat, -1, DUMMY, 9%nat, 3%nat, 3%nat, (s2b "EOS"))]);
   test_eq (results repo_tok mode_search (s2b "ポポピ"))
     (Ok [(0%nat, -1, DUMMY, 0%nat, 0%nat, 0%nat, (s2b "BOS")); (1%nat, 34, UNKNOWN, 0%nat, 0%nat, 3%nat, (s2b "ポポピ")); (2%nat, -1, DUMMY, 9%nat, 3%nat, 3%nat, (s2b "EOS"))]);
   test_eq (results repo_tok mode_extended (s2b "ポポピ"))
     (Ok [(0%nat, -1, DUMMY, 0%nat, 0%nat, 0%nat, (s2b "BOS")); (1%nat, 34, DUMMY, 0%nat, 0%nat, 1%nat, (s2b "ポ")); (2%nat, 34, DUMMY, 3%nat, 1%nat, 2%nat, (s2b "ポ")); (3%nat, 34, DUMMY, 6%nat, 2%nat, 3%nat, (s2b "ピ")); (4%nat, -1, DUMMY, 9%nat, 3%nat, 3%nat, (s2b "EOS"))])] = true.
Proof. run. Qed.

(** tokenizer/tokenizer_test.go:376-402 Test_Wakati *)
Example repo_wakati : all_eq (wakati ex_ideo repo_tok)
  [((s2b "すもももももももものうち"), Ok [(s2b "すもも"); (s2b "も"); (s2b "もも"); (s2b "も"); (s2b "もも"); (s2b "の"); (s2b "うち")]);
   ((s2b "寿司が食べたい。"), Ok [(s2b "寿司"); (s2b "が"); (s2b "食べ"); (s2b "たい"); (s2b "。")])] = true.
Proof. run. Qed.

(** tokenizer/tokenizer_option_test.go:38-62, 64-102, 104-142: the user dictionary in all modes *)
Example repo_analyze_user : forallb id
  [test_eq (results repo_user mode_normal (s2b "関西国際空港"))
     (Ok [(0%nat, -1, DUMMY, 0%nat, 0%nat, 0%nat, (s2b "BOS")); (1%nat, 2, USER, 0%nat, 0%nat, 6%nat, (s2b "関西国際空港")); (2%nat, -1, DUMMY, 18%nat, 6%nat, 6%nat, (s2b "EOS"))]);
   test_eq (results repo_user mode_search (s2b "関西国際空港"))
     (Ok [(0%nat, -1, DUMMY, 0%nat, 0%nat, 0%nat, (s2b "BOS")); (1%nat, 2, USER, 0%nat, 0%nat, 6%nat, (s2b "関西国際空港")); (2%nat, -1, DUMMY, 18%nat, 6%nat, 6%nat, (s2b "EOS"))]);
   test_eq (results repo_user mode_extended (s2b "関西国際空港"))
     (Ok [(0%nat, -1, DUMMY, 0%nat, 0%nat, 0%nat, (s2b "BOS")); (1%nat, 2, USER, 0%nat, 0%nat, 6%nat, (s2b "関西国際空港")); (2%nat, -1, DUMMY, 18%nat, 6%nat, 6%nat, (s2b "EOS"))])] = true.
Proof. run. Qed.

(** tokenizer/tokenizer_option_test.go:144-165 TestTokenizer_Analyze_OmitBOSEOS *)
Example repo_analyze_omit : forallb id
  [test_eq (results (Tokenizer repo_dict None true) mode_normal (s2b "関西国際空港"))
     (Ok [(0%nat, 45, KNOWN, 0%nat, 0%nat, 6%nat, (s2b "関西国際空港"))])] = true.
Proof. run. Qed.

(** ** tokenizer/lattice *)
Definition cell (n : node) := (n_id n, n_class n, n_position n, n_start n, n_surface n).
Definition built (u : option udict) (inp : bytes) {A} (f : table -> A) : res A := let* la := build repo_dict u inp in Ok (f la).
Definition ends (la : table) := (length la, map cell (hd [] la), map cell (last la [])).

(** tokenizer/lattice/lattice_test.go:12-180, 207-228 Test_LatticeBuildEmptyInput, Test_LatticeBuild, Test_LatticeBuildWithUserDict, Test_LatticeBuildUnknown, Test_LatticeBuildInvalidInput *)
Example repo_lattice : forallb id
  [test_eq (built None [] ends) (Ok (2%nat, [(-1, DUMMY, 0%nat, 0%nat, [])], [(-1, DUMMY, 0%nat, 0%nat, [])]));
   test_eq (built None (s2b "あ") ends) (Ok (3%nat, [(-1, DUMMY, 0%nat, 0%nat, [])], [(-1, DUMMY, 3%nat, 1%nat, [])]));
   test_eq (built None (s2b "ポポピ") ends) (Ok (5%nat, [(-1, DUMMY, 0%nat, 0%nat, [])], [(-1, DUMMY, 9%nat, 3%nat, [])]));
   test_eq (built None [x96; x7b; x93; xfa] ends) (Ok (6%nat, [(-1, DUMMY, 0%nat, 0%nat, [])], [(-1, DUMMY, 4%nat, 4%nat, [])]));
   test_eq (built None (s2b "あ") (fun la => map (fun n => (n_class n, n_surface n)) (nth 1 la []))) (Ok (repeat (KNOWN, (s2b "あ")) 4));
   test_eq (built None (s2b "ポポピ") (fun la => map n_class (nth 3 la []))) (Ok (repeat UNKNOWN 18));
   test_eq (built (Some repo_udict) (s2b "朝青龍") (fun la => map n_class (firstn 1 (nth 3 la [])))) (Ok [USER])] = true.
Proof. run. Qed.

(** tokenizer/lattice/lattice_test.go:230-248 Test_KanjiOnly *)
Example repo_kanji_only : all_eq (kanji_only ex_ideo) [((s2b "ひらがな"), false); ((s2b "カタカナ"), false); ((s2b "漢字"), true); ((s2b "かな漢字交じり"), false); ((s2b "123"), false); ((s2b "#$%"), false); ([], false)] = true.
Proof. run. Qed.

(** ** The filters on tokens *)
Definition repo_input : bytes := (s2b "赤い蝋燭と人魚。人魚は、南の方の海にばかり棲んでいるのではありません").
Definition through (f : option (list token) -> res (option (list token))) : res (option (list bytes)) :=
  let* l := tokenize ex_ideo repo_tok repo_input in let* r := f (Some l) in Ok (option_map surfaces r).
Definition matched (f : token -> res bool) : res (list bytes) :=
  let* l := tokenize ex_ideo repo_tok repo_input in let* bs := mapM f l in Ok (map fst (filter snd (combine (surfaces l) bs))).
Definition pos_matched (p : list (list bytes)) := matched (fun t => let* s := token_pos t in Ok (pos_match (new_pos_filter p) s)).
Definition repo_tags : list (list bytes) := [[(s2b "名詞"); (s2b "一般")]; [(s2b "動詞"); (s2b "自立")]; [(s2b "形容詞")]].

(** filter/pos_test.go:43-206 TestPOSFilter_Match, TestPOSFilter_Keep, TestPOSFilter_Drop *)
Example repo_pos_filter : forallb id
  [test_eq (pos_matched []) (Ok []);
   test_eq (pos_matched repo_tags) (Ok [(s2b "赤い"); (s2b "蝋燭"); (s2b "人魚"); (s2b "人魚"); (s2b "南"); (s2b "海"); (s2b "棲ん"); (s2b "あり")]);
   test_eq (through (pos_keep (new_pos_filter []))) (Ok (Some []));
   test_eq (through (pos_keep (new_pos_filter repo_tags))) (Ok (Some [(s2b "赤い"); (s2b "蝋燭"); (s2b "人魚"); (s2b "人魚"); (s2b "南"); (s2b "海"); (s2b "棲ん"); (s2b "あり")]));
   test_eq (through (pos_drop (new_pos_filter []))) (Ok (Some [(s2b "BOS"); (s2b "赤い"); (s2b "蝋燭"); (s2b "と"); (s2b "人魚"); (s2b "。"); (s2b "人魚"); (s2b "は"); (s2b "、"); (s2b "南"); (s2b "の"); (s2b "方"); (s2b "の"); (s2b "海"); (s2b "に"); (s2b "ばかり"); (s2b "棲ん"); (s2b "で"); (s2b "いる"); (s2b "の"); (s2b "で"); (s2b "は"); (s2b "あり"); (s2b "ませ"); (s2b "ん"); (s2b "EOS")]));
   test_eq (through (pos_drop (new_pos_filter repo_tags))) (Ok (Some [(s2b "BOS"); (s2b "と"); (s2b "。"); (s2b "は"); (s2b "、"); (s2b "の"); (s2b "方"); (s2b "の"); (s2b "に"); (s2b "ばかり"); (s2b "で"); (s2b "いる"); (s2b "の"); (s2b "で"); (s2b "は"); (s2b "ませ"); (s2b "ん"); (s2b "EOS")]));
   match pos_keep (new_pos_filter [[]]) None with Ok None => true | _ => false end;
   match pos_drop (new_pos_filter [[]]) None with Ok None => true | _ => false end] = true.
Proof. run. Qed.

(** filter/word_test.go:13-164, filter/filter_test.go:12-130 TestWordFilter_Match, TestWordFilter_Keep, TestWordFilter_Drop, TestKeep, TestDrop *)
Example repo_word_filter : forallb id
  [test_eq (matched (fun t => Ok (word_match (new_word_filter []) (t_surface t)))) (Ok []);
   test_eq (through (word_keep (new_word_filter []))) (Ok (Some []));
   test_eq (through (word_drop (new_word_filter []))) (Ok (Some [(s2b "BOS"); (s2b "赤い"); (s2b "蝋燭"); (s2b "と"); (s2b "人魚"); (s2b "。"); (s2b "人魚"); (s2b "は"); (s2b "、"); (s2b "南"); (s2b "の"); (s2b "方"); (s2b "の"); (s2b "海"); (s2b "に"); (s2b "ばかり"); (s2b "棲ん"); (s2b "で"); (s2b "いる"); (s2b "の"); (s2b "で"); (s2b "は"); (s2b "あり"); (s2b "ませ"); (s2b "ん"); (s2b "EOS")]));
   test_eq (through (fun l => let* p := filter_keep l (fun (s : unit) t => Ok (s, map_has [] (t_surface t))) tt in Ok (snd p))) (Ok (Some []));
   test_eq (through (fun l => let* p := filter_drop l (fun (s : unit) t => Ok (s, map_has [] (t_surface t))) tt in Ok (snd p))) (Ok (Some [(s2b "BOS"); (s2b "赤い"); (s2b "蝋燭"); (s2b "と"); (s2b "人魚"); (s2b "。"); (s2b "人魚"); (s2b "は"); (s2b "、"); (s2b "南"); (s2b "の"); (s2b "方"); (s2b "の"); (s2b "海"); (s2b "に"); (s2b "ばかり"); (s2b "棲ん"); (s2b "で"); (s2b "いる"); (s2b "の"); (s2b "で"); (s2b "は"); (s2b "あり"); (s2b "ませ"); (s2b "ん"); (s2b "EOS")]));
   test_eq (matched (fun t => Ok (word_match (new_word_filter [(s2b "人魚"); (s2b "南"); (s2b "の")]) (t_surface t)))) (Ok [(s2b "人魚"); (s2b "人魚"); (s2b "南"); (s2b "の"); (s2b "の"); (s2b "の")]);
   test_eq (through (word_keep (new_word_filter [(s2b "人魚"); (s2b "南"); (s2b "の")]))) (Ok (Some [(s2b "人魚"); (s2b "人魚"); (s2b "南"); (s2b "の"); (s2b "の"); (s2b "の")]));
   test_eq (through (word_drop (new_word_filter [(s2b "人魚"); (s2b "南"); (s2b "の")]))) (Ok (Some [(s2b "BOS"); (s2b "赤い"); (s2b "蝋燭"); (s2b "と"); (s2b "。"); (s2b "は"); (s2b "、"); (s2b "方"); (s2b "海"); (s2b "に"); (s2b "ばかり"); (s2b "棲ん"); (s2b "で"); (s2b "いる"); (s2b "で"); (s2b "は"); (s2b "あり"); (s2b "ませ"); (s2b "ん"); (s2b "EOS")]));
   test_eq (through (fun l => let* p := filter_keep l (fun (s : unit) t => Ok (s, map_has [(s2b "人魚"); (s2b "南"); (s2b "の")] (t_surface t))) tt in Ok (snd p))) (Ok (Some [(s2b "人魚"); (s2b "人魚"); (s2b "南"); (s2b "の"); (s2b "の"); (s2b "の")]));
   test_eq (through (fun l => let* p := filter_drop l (fun (s : unit) t => Ok (s, map_has [(s2b "人魚"); (s2b "南"); (s2b "の")] (t_surface t))) tt in Ok (snd p))) (Ok (Some [(s2b "BOS"); (s2b "赤い"); (s2b "蝋燭"); (s2b "と"); (s2b "。"); (s2b "は"); (s2b "、"); (s2b "方"); (s2b "海"); (s2b "に"); (s2b "ばかり"); (s2b "棲ん"); (s2b "で"); (s2b "いる"); (s2b "で"); (s2b "は"); (s2b "あり"); (s2b "ませ"); (s2b "ん"); (s2b "EOS")]))] = true.
Proof. run. Qed.

(** filter/ja/filter_test.go:12-58 TestFilter, with the lists of filter/ja/asset *)
Definition ja_both (f : ja_filter) : res (list bytes * option (list bytes)) :=
  let* l := tokenize ex_ideo (Tokenizer repo_dict None true) (s2b "人魚は、南の方の海にばかり棲んでいるのではありません。") in
  let* y := ja_yield f l in
  let* d := ja_drop f (Some l) in Ok (y, option_map surfaces d).
Example repo_ja_filter : test_eq (let* f := new_ja_filter stop_tags_asset stop_words_asset [] in
                                  match f with inl f => ja_both f | inr _ => Panic end)
  (Ok ([(s2b "人魚"); (s2b "南"); (s2b "方"); (s2b "海"); (s2b "棲む")], Some [(s2b "人魚"); (s2b "南"); (s2b "方"); (s2b "海"); (s2b "棲ん")])) = true.
Proof. run. Qed.

(** ** cmd *)
Definition repo_world (input : bytes) : world :=
  World (fun p _ => if bytes_eqb p (s2b "../../testdata/ipa.dict") then Some repo_dict else None) (fun _ => repo_dict) (fun _ => repo_dict)
    (fun p => if bytes_eqb p (s2b "../../testdata/userdict.txt") then Some repo_udict else None)
    (fun p => if bytes_eqb p (s2b "../../testdata/nekodearu.txt") then Some (string_reader (s2b "吾輩は猫である。名前はまだ無い。")) else None)
    (fun _ => true) (string_reader input) ex_ideo (fun _ => []) false (fun _ _ => ([], Ok None)).
Definition tok_with (input : bytes) (json : bool) : res (bytes * bool) :=
  printed (tok_command (repo_world input) (TokOpt [] (s2b "../../testdata/ipa.dict") [] [] false [] false json)).
Definition fails (e : option cmd_err) : bool := match e with None => false | Some _ => true end.
Definition run_fails (m : cmd (option cmd_err)) : res bool := let* e := snd m in Ok (fails e).

(** cmd/tokenize/cmd_test.go:15-61 TestCommand_NormalOutput *)
Example repo_cmd_text : test_eq (tok_with (s2b "ねこです") false) (Ok ((s2b "ねこ" ++ [x09] ++ s2b "名詞,一般,*,*,*,*,ねこ,ネコ,ネコ" ++ [x0a] ++ s2b "です" ++ [x09] ++ s2b "助動詞,*,*,*,特殊・デス,基本形,です,デス,デス" ++ [x0a] ++ s2b "EOS" ++ [x0a]), true)) = true.
Proof. run. Qed.

(** cmd/tokenize/cmd_test.go:63-121 TestCommand_JSONOutput (the ids apart) *)
Example repo_cmd_json : test_eq (tok_with (s2b "ねこです") true) (Ok ((s2b "[" ++ [x0a] ++ s2b "{""id"":1,""start"":0,""end"":2,""surface"":""ねこ"",""class"":""KNOWN"",""pos"":[""名詞"",""一般"",""*"",""*""],""base_form"":""ねこ"",""reading"":""ネコ"",""pronunciation"":""ネコ"",""features"":[""名詞"",""一般"",""*"",""*"",""*"",""*"",""ねこ"",""ネコ"",""ネコ""]}," ++ [x0a] ++ s2b "{""id"":2,""start"":2,""end"":4,""surface"":""です"",""class"":""KNOWN"",""pos"":[""助動詞"",""*"",""*"",""*""],""base_form"":""です"",""reading"":""デス"",""pronunciation"":""デス"",""features"":[""助動詞"",""*"",""*"",""*"",""特殊・デス"",""基本形"",""です"",""デス"",""デス""]}" ++ [x0a] ++ s2b "]" ++ [x0a]), true)) = true.
Proof. run. Qed.

(** cmd/tokenize/cmd_test.go:123-187 TestCommand_JSONOutput_issue249 (the ids apart) *)
Example repo_cmd_json_249 : test_eq (tok_with (s2b "すもももももももものうち" ++ [x0a] ++ s2b "私は鰻" ++ [x0a] ++ s2b "猫" ++ [x0a]) true) (Ok ((s2b "[" ++ [x0a] ++ s2b "{""id"":3,""start"":0,""end"":3,""surface"":""すもも"",""class"":""KNOWN"",""pos"":[""名詞"",""一般"",""*"",""*""],""base_form"":""すもも"",""reading"":""スモモ"",""pronunciation"":""スモモ"",""features"":[""名詞"",""一般"",""*"",""*"",""*"",""*"",""すもも"",""スモモ"",""スモモ""]}," ++ [x0a] ++ s2b "{""id"":4,""start"":3,""end"":4,""surface"":""も"",""class"":""KNOWN"",""pos"":[""助詞"",""係助詞"",""*"",""*""],""base_form"":""も"",""reading"":""モ"",""pronunciation"":""モ"",""features"":[""助詞"",""係助詞"",""*"",""*"",""*"",""*"",""も"",""モ"",""モ""]}," ++ [x0a] ++ s2b "{""id"":5,""start"":4,""end"":6,""surface"":""もも"",""class"":""KNOWN"",""pos"":[""名詞"",""一般"",""*"",""*""],""base_form"":""もも"",""reading"":""モモ"",""pronunciation"":""モモ"",""features"":[""名詞"",""一般"",""*"",""*"",""*"",""*"",""もも"",""モモ"",""モモ""]}," ++ [x0a] ++ s2b "{""id"":4,""start"":6,""end"":7,""surface"":""も"",""class"":""KNOWN"",""pos"":[""助詞"",""係助詞"",""*"",""*""],""base_form"":""も"",""reading"":""モ"",""pronunciation"":""モ"",""features"":[""助詞"",""係助詞"",""*"",""*"",""*"",""*"",""も"",""モ"",""モ""]}," ++ [x0a] ++ s2b "{""id"":5,""start"":7,""end"":9,""surface"":""もも"",""class"":""KNOWN"",""pos"":[""名詞"",""一般"",""*"",""*""],""base_form"":""もも"",""reading"":""モモ"",""pronunciation"":""モモ"",""features"":[""名詞"",""一般"",""*"",""*"",""*"",""*"",""もも"",""モモ"",""モモ""]}," ++ [x0a] ++ s2b "{""id"":6,""start"":9,""end"":10,""surface"":""の"",""class"":""KNOWN"",""pos"":[""助詞"",""連体化"",""*"",""*""],""base_form"":""の"",""reading"":""ノ"",""pronunciation"":""ノ"",""features"":[""助詞"",""連体化"",""*"",""*"",""*"",""*"",""の"",""ノ"",""ノ""]}," ++ [x0a] ++ s2b "{""id"":7,""start"":10,""end"":12,""surface"":""うち"",""class"":""KNOWN"",""pos"":[""名詞"",""非自立"",""副詞可能"",""*""],""base_form"":""うち"",""reading"":""ウチ"",""pronunciation"":""ウチ"",""features"":[""名詞"",""非自立"",""副詞可能"",""*"",""*"",""*"",""うち"",""ウチ"",""ウチ""]}" ++ [x0a] ++ s2b "]" ++ [x0a] ++ s2b "[" ++ [x0a] ++ s2b "{""id"":8,""start"":0,""end"":1,""surface"":""私"",""class"":""KNOWN"",""pos"":[""名詞"",""代名詞"",""一般"",""*""],""base_form"":""私"",""reading"":""ワタシ"",""pronunciation"":""ワタシ"",""features"":[""名詞"",""代名詞"",""一般"",""*"",""*"",""*"",""私"",""ワタシ"",""ワタシ""]}," ++ [x0a] ++ s2b "{""id"":9,""start"":1,""end"":2,""surface"":""は"",""class"":""KNOWN"",""pos"":[""助詞"",""係助詞"",""*"",""*""],""base_form"":""は"",""reading"":""ハ"",""pronunciation"":""ワ"",""features"":[""助詞"",""係助詞"",""*"",""*"",""*"",""*"",""は"",""ハ"",""ワ""]}," ++ [x0a] ++ s2b "{""id"":10,""start"":2,""end"":3,""surface"":""鰻"",""class"":""KNOWN"",""pos"":[""名詞"",""一般"",""*"",""*""],""base_form"":""鰻"",""reading"":""ウナギ"",""pronunciation"":""ウナギ"",""features"":[""名詞"",""一般"",""*"",""*"",""*"",""*"",""鰻"",""ウナギ"",""ウナギ""]}" ++ [x0a] ++ s2b "]" ++ [x0a] ++ s2b "[" ++ [x0a] ++ s2b "{""id"":11,""start"":0,""end"":1,""surface"":""猫"",""class"":""KNOWN"",""pos"":[""名詞"",""一般"",""*"",""*""],""base_form"":""猫"",""reading"":""ネコ"",""pronunciation"":""ネコ"",""features"":[""名詞"",""一般"",""*"",""*"",""*"",""*"",""猫"",""ネコ"",""ネコ""]}" ++ [x0a] ++ s2b "]" ++ [x0a]), true)) = true.
Proof. run. Qed.

(** TestOptionCheck of cmd/tokenize, cmd/sentence, cmd/lattice and cmd/server (cmd_test.go:189-241, 11-41, 12-63, 12-50) *)
Example repo_option_check : forallb id
  [all_eq (fun a => fails (tok_check a)) [([], false); ([(s2b "-mode"); (s2b "zzz")], true); ([(s2b "-sysdict"); (s2b "ko")], true); ([(s2b "opt")], true); ([(s2b "-file"); (s2b "<file>"); (s2b "-dict"); (s2b "<dict>"); (s2b "-udict"); (s2b "<udict>"); (s2b "-sysdict"); (s2b "uni"); (s2b "-simple"); (s2b "-mode"); (s2b "search"); (s2b "-split"); (s2b "-json")], false)];
   all_eq (fun a => fails (sen_check a)) [([], false); ([(s2b "ねこです。ねこはいます。")], true); ([(s2b "-flag"); (s2b "piyo")], true)];
   all_eq (fun a => fails (lat_check a)) [([], true); ([(s2b "ねこです。ねこはいます。")], false); ([(s2b "-flag"); (s2b "piyo")], true); ([(s2b "-dict"); (s2b "piyo")], true); ([(s2b "-mode"); (s2b "piyo")], true); ([(s2b "-udict"); (s2b "../../testdata/userdict.txt"); (s2b "-dict"); (s2b "ipa"); (s2b "-mode"); (s2b "search"); (s2b "-output"); (s2b "/dev/null"); (s2b "-v"); (s2b "私は鰻")], false)];
   all_eq (fun a => fails (srv_check a)) [([], false); ([(s2b "piyo")], true); ([(s2b "-dict"); (s2b "piyo")], true); ([(s2b "-userdict"); (s2b "../../testdata/userdict.txt"); (s2b "-http"); (s2b ":8888"); (s2b "-dict"); (s2b "ipa")], false)]] = true.
Proof. run. Qed.

(** TestRun of cmd/tokenize, cmd/sentence, cmd/lattice and cmd/server *)
Example repo_run : forallb id
  [all_eq (fun a => run_fails (tok_run (repo_world []) a)) [([(s2b "-help")], Ok true); ([(s2b "piyo")], Ok true); ([], Ok false); ([(s2b "-udict"); (s2b "../../testdata/userdict.txt"); (s2b "-file"); (s2b "../../testdata/nekodearu.txt"); (s2b "-split")], Ok false)];
   all_eq (fun a => run_fails (sen_run (repo_world []) a)) [([], Ok false); ([(s2b "-piyo"); (s2b "foo")], Ok true); ([(s2b "-file"); (s2b "../../testdata/nekodearu.txt")], Ok false)];
   all_eq (fun a => run_fails (lat_run (repo_world []) a)) [([], Ok true); ([(s2b "-piyo"); (s2b "foo")], Ok true); ([(s2b "-udict"); (s2b "../../testdata/userdict.txt"); (s2b "-dict"); (s2b "ipa"); (s2b "-mode"); (s2b "search"); (s2b "-output"); (s2b "/dev/null"); (s2b "-v"); (s2b "ねこです。")], Ok false)];
   all_eq (fun a => run_fails (srv_run (repo_world []) a)) [([(s2b "-help")], Ok true); ([(s2b "piyo")], Ok true); ([[]], Ok true); ([(s2b "-userdict"); (s2b "../../testdata/userdict.txt"); (s2b "-http"); (s2b ":0"); (s2b "-dict"); (s2b "ipa")], Ok false)]] = true.
Proof. run. Qed.

(** cmd/sentence/cmd_test.go:97-134 Test_command *)
Example repo_sentence : test_eq (printed (sen_command (repo_world []) (s2b "../../testdata/nekodearu.txt"))) (Ok ((s2b "吾輩は猫である。" ++ [x0a] ++ s2b "名前はまだ無い。" ++ [x0a]), true)) = true.
Proof. run. Qed.

Definition said (m : cmd (option cmd_err)) : bytes := concat (map (fun e => match e with EErr (MText b) => b | _ => [] end) (fst m)).
Definition lat_options : lat_opt := LatOpt (s2b "../../testdata/userdict.txt") (s2b "uni") (s2b "extended") [] true (s2b "関西国際空港").

(** cmd/lattice/cmd_test.go:124-180 Test_command *)
Example repo_lattice_cmd : forallb id
  [test_eq (run_fails (lat_command (repo_world []) (LatOpt [] [] [] [] false []))) (Ok true);
   test_eq (run_fails (lat_command (repo_world []) lat_options)) (Ok false);
   test_eq (firstn 15 (outs (fst (lat_command (repo_world []) lat_options)))) (s2b "graph lattice {");
   test_eq (said (lat_command (repo_world []) lat_options)) (s2b "関西国際空港" ++ [x09] ++ s2b "テスト名詞,関西/国際/空港,カンサイ/コクサイ/クウコウ" ++ [x0a] ++ s2b "EOS" ++ [x0a])] = true.
Proof. run. Qed.

(** ** cmd/server *)
Definition api (body : bytes) : res (Z * bytes) :=
  let* r := serve_tokenize (the_decoder (fun _ => true)) false ex_ideo repo_tok body in Ok (rs_status r, rs_body r).

Definition repo_answer : bytes := (s2b "{""status"":true,""tokens"":[{""id"":1,""start"":0,""end"":2,""surface"":""ねこ"",""class"":""KNOWN"",""pos"":[""名詞"",""一般"",""*"",""*""],""base_form"":""ねこ"",""reading"":""ネコ"",""pronunciation"":""ネコ"",""features"":[""名詞"",""一般"",""*"",""*"",""*"",""*"",""ねこ"",""ネコ"",""ネコ""]},{""id"":2,""start"":2,""end"":4,""surface"":""です"",""class"":""KNOWN"",""pos"":[""助動詞"",""*"",""*"",""*""],""base_form"":""です"",""reading"":""デス"",""pronunciation"":""デス"",""features"":[""助動詞"",""*"",""*"",""*"",""特殊・デス"",""基本形"",""です"",""デス"",""デス""]},{""id"":1,""start"":4,""end"":6,""surface"":""ねこ"",""class"":""KNOWN"",""pos"":[""名詞"",""一般"",""*"",""*""],""base_form"":""ねこ"",""reading"":""ネコ"",""pronunciation"":""ネコ"",""features"":[""名詞"",""一般"",""*"",""*"",""*"",""*"",""ねこ"",""ネコ"",""ネコ""]},{""id"":9,""start"":6,""end"":7,""surface"":""は"",""class"":""KNOWN"",""pos"":[""助詞"",""係助詞"",""*"",""*""],""base_form"":""は"",""reading"":""ハ"",""pronunciation"":""ワ"",""features"":[""助詞"",""係助詞"",""*"",""*"",""*"",""*"",""は"",""ハ"",""ワ""]},{""id"":12,""start"":7,""end"":8,""surface"":""い"",""class"":""KNOWN"",""pos"":[""動詞"",""自立"",""*"",""*""],""base_form"":""いる"",""reading"":""イ"",""pronunciation"":""イ"",""features"":[""動詞"",""自立"",""*"",""*"",""一段"",""連用形"",""いる"",""イ"",""イ""]},{""id"":13,""start"":8,""end"":10,""surface"":""ます"",""class"":""KNOWN"",""pos"":[""助動詞"",""*"",""*"",""*""],""base_form"":""ます"",""reading"":""マス"",""pronunciation"":""マス"",""features"":[""助動詞"",""*"",""*"",""*"",""特殊・マス"",""基本形"",""ます"",""マス"",""マス""]}]}").
(** cmd/server/api_test.go:35-122 TestTokenizerAPI (the ids apart) *)
Example repo_api : forallb id
  [test_eq (api (s2b "{""sentence"":""""}")) (Ok (200, (s2b "{""status"":true,""tokens"":[]}")));
   test_eq (api (s2b "{""sentence"":""ねこですねこはいます"",""mode"":""Normal""}")) (Ok (200, repo_answer));
   test_eq (api (s2b "{""sentence"":""ねこですねこはいます"",""mode"":""Search""}")) (Ok (200, repo_answer));
   test_eq (api (s2b "{""sentence"":""ねこですねこはいます"",""mode"":""Extended""}")) (Ok (200, repo_answer))] = true.
Proof. run. Qed.

Definition record_of (r : record) := (rc_surface r, rc_pos r, rc_base r, rc_reading r, rc_pron r).
(** cmd/server/demo_test.go:127-239 Test_newRecord, Test_toRecords *)
Example repo_records : forallb id
  [test_eq ((fun t => let* r := new_record t in Ok (record_of r)) (Token 0 0 DUMMY 0 0 0 (s2b "piyo") repo_dict None)) (Ok (s2b "piyo", s2b "*", s2b "*", s2b "*", s2b "*"));
   test_eq (at_token (fun t => let* r := new_record t in Ok (record_of r)) (s2b "ねこ") 0) (Ok (s2b "BOS", s2b "*", s2b "*", s2b "*", s2b "*"));
   test_eq (at_token (fun t => let* r := new_record t in Ok (record_of r)) (s2b "ねこ") 1) (Ok ((s2b "ねこ"), (s2b "名詞,一般,*,*"), (s2b "ねこ"), (s2b "ネコ"), (s2b "ネコ")));
   test_eq (at_token (fun t => let* r := new_record t in Ok (record_of r)) (s2b "ねこ") 2) (Ok (s2b "EOS", s2b "*", s2b "*", s2b "*", s2b "*"));
   test_eq (let* l := to_records [] in Ok (map record_of l)) (Ok []);
   test_eq (let* l := tokenize ex_ideo repo_tok (s2b "ねこ") in let* l := to_records l in Ok (map record_of l)) (Ok [((s2b "ねこ"), (s2b "名詞,一般,*,*"), (s2b "ねこ"), (s2b "ネコ"), (s2b "ネコ"))])] = true.
Proof. run. Qed.

