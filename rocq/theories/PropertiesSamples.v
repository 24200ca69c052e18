(** Property theorems: the programs in _examples. *)
From Verif Require Import Check Example Live LiveRuns SpecSamples Samples SampleFacts.
Open Scope Z_scope.

(** ** C91: the search example finds the lines in which the word is used, with their content and number. *)
Theorem C91_found : forall matches ideo d u omit lines words, fts4 matches -> wf_dict d -> wf_udict u ->
  Forall (fun line => ~ In x00 line) lines -> Forall (fun q => q <> [] /\ no_ascii q) words ->
  exists founds, Forall2 (fun q found => picked (fun nl => used_in ideo (Tokenizer d u omit) q (snd nl)) (numbered lines) found) words founds /\
    db_search matches ideo (Tokenizer d u omit) lines words = Ok (concat (map (fun qf => answer (fst qf) (snd qf)) (combine words founds)), false).
Proof. exact (fun matches ideo d u omit lines words Hm Hd Hu => @db_search_ok matches ideo d u omit Hm Hd Hu lines words). Qed.
Print Assumptions C91_found.
(** In a line without ASCII characters a word is used if it is one of the words of Wakati. *)
Theorem C91_words : forall ideo d u omit q line, wf_dict d -> wf_udict u -> q <> [] -> no_ascii line ->
  (used_in ideo (Tokenizer d u omit) q line <-> exists ws, wakati ideo (Tokenizer d u omit) line = Ok ws /\ In q ws).
Proof. exact (fun ideo d u omit q line Hd Hu => @used_whole ideo d u omit Hd Hu q line). Qed.
Print Assumptions C91_words.
Example C91_example : fts4 example_match /\ no_ascii (s2b "東京都に行く") /\
  db_search example_match ex_ideo (Tokenizer ex_dict None true) [s2b "東京都に行く"; s2b "東に行く"; s2b "行く"] [s2b "東"; s2b "京"; s2b "行く"] =
  Ok (s2b "Searching for: 東" ++ [x0a] ++
      s2b "  Found content: 東に行く at line: 2" ++ [x0a] ++
      s2b "Searching for: 京" ++ [x0a] ++
      s2b "  No results found" ++ [x0a] ++
      s2b "Searching for: 行く" ++ [x0a] ++
      s2b "  Found content: 東京都に行く at line: 1" ++ [x0a] ++
      s2b "  Found content: 東に行く at line: 2" ++ [x0a] ++
      s2b "  Found content: 行く at line: 3" ++ [x0a], false).
Proof. split; [exact example_match_ok|]. split; [repeat (constructor; [vm_compute; discriminate|]); constructor|]. by_eval. Qed.
(** A word of the dictionary with an ASCII separator in it is found by its parts. *)
Definition part_udict : udict := UDict [(s2b "東/都", 0)] [UserContent [s2b "東/都"] [s2b "ヒガシ/ミヤコ"] (s2b "名詞")].
Example C91_part_example : wakati ex_ideo (Tokenizer ex_dict (Some part_udict) true) (s2b "東/都") = Ok [s2b "東/都"] /\
  db_search example_match ex_ideo (Tokenizer ex_dict (Some part_udict) true) [s2b "東/都"] [s2b "都"] =
  Ok (s2b "Searching for: 都" ++ [x0a] ++ s2b "  Found content: 東/都 at line: 1" ++ [x0a], false).
Proof. split; by_eval. Qed.

(** ** C92: no word is put into the index twice for a line. *)
(** False: only neighbours are compared. *)
Theorem C92_twice_refuted : wf_dict ex_dict /\ exists s, insert_search_token ex_ideo (Tokenizer ex_dict None true) (Db [] []) 1 (s2b "東に東") = Ok s /\
  db_fts s = [(1, s2b "東 に 東")].
Proof. split; [exact wf_ex|]. apply run_ex. vm_compute. reflexivity. Qed.
Print Assumptions C92_twice_refuted.
(** Missing: equal words with another word between them. *)
Theorem C92_neighbours_partial : forall ideo t s id line s', insert_search_token ideo t s id line = Ok s' ->
  exists ws kept, wakati ideo t line = Ok ws /\ db_contents s' = db_contents s /\ db_fts s' = db_fts s ++ [(id, separated (s2b " ") kept)] /\
    (forall w, In w kept <-> In w ws) /\ forall p x y q, kept = p ++ x :: y :: q -> x <> y.
Proof. exact (fun ideo t s id line s' => @index_kept ideo t s id line s'). Qed.
Print Assumptions C92_neighbours_partial.
Example C92_example : exists s, insert_search_token ex_ideo (Tokenizer ex_dict None true) (Db [] []) 7 (s2b "東東東に") = Ok s /\ db_fts s = [(7, s2b "東 に")].
Proof. apply run_ex. vm_compute. reflexivity. Qed.

(** ** C93: kagome_tokenize gives one object for each word, and their surface forms are the text. *)
Theorem C93_objects : forall text ideo d u s rest, text_decoder text -> wf_dict d -> wf_udict u -> wf_data d ->
  exists ts objs, analyze ideo (Tokenizer d u true) s mode_normal = Ok ts /\ no_markers ts = ts /\
    wasm_tokenize text ideo (Tokenizer d u true) (s :: rest) = Ok (JArr objs) /\ Forall2 (object_of text) ts objs.
Proof. exact (fun text ideo d u s rest Ht Hd Hu Hw => @wasm_objects text ideo d u Ht Hd Hu Hw s rest). Qed.
Print Assumptions C93_objects.
(** The second half is false: a byte order mark is lost. *)
Theorem C93_mark_refuted : forall text, text_decoder text -> wf_dict ex_dict /\ wf_data ex_dict /\
  valid_utf8 mark = true /\ exists objs, wasm_tokenize text ex_ideo (Tokenizer ex_dict None true) [mark] = Ok (JArr objs) /\
    Forall2 (fun o f => js_member (s2b "surface_form") o = Ok (Some (JStr f))) objs [[]].
Proof. exact (fun text Ht => conj wf_ex (conj wf_ex_data (@mark_lost text Ht))). Qed.
Print Assumptions C93_mark_refuted.
(** Missing: texts with a byte order mark, and those excluded in C01. *)
Theorem C93_text_partial : forall text ideo d u s rest, text_decoder text -> wf_dict d -> wf_udict u -> wf_data d ->
  valid_utf8 s = true -> no_loss d u s mode_normal -> fffd_ok d s -> (forall a b, s <> a ++ [xef; xbb; xbf] ++ b) ->
  exists objs forms, wasm_tokenize text ideo (Tokenizer d u true) (s :: rest) = Ok (JArr objs) /\
    Forall2 (fun o f => js_member (s2b "surface_form") o = Ok (Some (JStr f))) objs forms /\ concat forms = s.
Proof. exact (fun text ideo d u s rest Ht Hd Hu Hw => @wasm_text text ideo d u Ht Hd Hu Hw s rest). Qed.
Print Assumptions C93_text_partial.
(** Without an argument the answer is null. *)
Definition shown_fields (o : json) : list bytes :=
  map (fun k => match js_member k o with Ok v => js_text v | _ => s2b "error" end)
    [s2b "word_id"; s2b "word_type"; s2b "word_position"; s2b "surface_form"; s2b "pos"; s2b "base_form"; s2b "reading"; s2b "pronunciation"].
Example C93_example : text_decoder drop_mark /\ wasm_tokenize drop_mark ex_ideo (Tokenizer ex_dict (Some ex_udict) true) [] = Ok JNull /\
  (let* v := wasm_tokenize drop_mark ex_ideo (Tokenizer ex_dict (Some ex_udict) true) [s2b "東kagome"] in
   Ok match v with JArr objs => map shown_fields objs | _ => [] end) =
  Ok [[s2b "0"; s2b "KNOWN"; s2b "0"; s2b "東"; s2b "名詞,一般"; s2b "東"; s2b "ヒガシ"; []];
      [s2b "1"; s2b "USER"; s2b "1"; s2b "kagome"; s2b "カスタム名詞"; []; []; []]].
Proof. split; [exact drop_mark_ok|]. split; [reflexivity|]. by_eval. Qed.

(** ** C94: the table of the page is that of the text in the form. *)
(** False: what is typed before the program is loaded is not analysed when it is, and a text can
    hide its row (see C86). *)
Theorem C94_early_refuted : forall text, text_decoder text ->
  exists st, many (page_step text ex_ideo (Tokenizer ex_dict None true)) page_start st /\ pg_ready st = true /\
    pg_text st = s2b "東" /\ ~ shows_plain text ex_ideo (Tokenizer ex_dict None true) (pg_text st) (pg_table st).
Proof. exact (fun text Ht => @page_early text). Qed.
Print Assumptions C94_early_refuted.
Theorem C94_hidden_refuted : forall text, text_decoder text ->
  exists td row, word_data ex_ideo (Tokenizer ex_dict None true) (s2b "<!--") (s2b "Normal") [td] /\
    wasm_input text ex_ideo (Tokenizer ex_dict None true) (s2b "<!--") (Page true [] []) = Page true (s2b "<!--") [row] /\ ~ shows_cells (plain_cells text td) row.
Proof. exact (fun text Ht => @page_hidden text Ht). Qed.
Print Assumptions C94_hidden_refuted.
(** From the first input after loading on it is, for the words without a character special in HTML. *)
Theorem C94_table_partial : forall text ideo d u st s st', text_decoder text -> wf_dict d -> wf_udict u -> wf_data d ->
  many (page_step text ideo (Tokenizer d u true)) page_start st -> pg_ready st = true -> valid_utf8 s = true ->
  many (page_step text ideo (Tokenizer d u true)) (wasm_input text ideo (Tokenizer d u true) s st) st' ->
  shows_plain text ideo (Tokenizer d u true) (pg_text st') (pg_table st').
Proof. exact (fun text ideo d u st s st' Ht Hd Hu Hw _ => @page_shows text ideo d u Ht Hd Hu Hw st s st'). Qed.
Print Assumptions C94_table_partial.
Example C94_example : exists st, many (page_step drop_mark ex_ideo (Tokenizer ex_dict None true)) page_start st /\ pg_ready st = true /\ pg_text st = s2b "東に" /\
  pg_table st = [s2b "<tr><td>東</td><td>名詞,一般</td><td>東</td><td>ヒガシ</td><td></td></tr>"; s2b "<tr><td>に</td><td>助詞</td><td></td><td></td><td></td></tr>"].
Proof.
  exists (wasm_input drop_mark ex_ideo (Tokenizer ex_dict None true) (s2b "東に") (Page true (s2b "東") [])). split.
  - eapply many_step; [exact (ps_input _ _ _ page_start (s2b "東") eq_refl)|]. eapply many_step; [exact (ps_load _ _ _ (s2b "東") [])|].
    eapply many_step; [exact (ps_input _ _ _ (Page true (s2b "東") []) (s2b "東に") eq_refl)|]. apply many_refl.
  - split; [by_eval|]. split; by_eval.
Qed.

(** ** C95: the small example programs print every word once, in order, with its features. *)
Theorem C95_tokenize : forall ideo d u s, wf_dict d -> wf_udict u -> wf_data d ->
  exists ts, analyze ideo (Tokenizer d u true) s mode_normal = Ok ts /\ no_markers ts = ts /\
    sample_tokenize ideo (Tokenizer d u true) s = Ok (s2b "---tokenize---" ++ [x0a] ++
      concat (map (fun tk => t_surface tk ++ [x09] ++ separated (s2b ",") (features_of tk) ++ [x0a]) ts)).
Proof. exact (fun ideo d u s Hd Hu Hw => @sample_tokenize_ok ideo d u Hd Hu Hw s). Qed.
Print Assumptions C95_tokenize.
Theorem C95_user_dict : forall ideo d u s, wf_dict d -> wf_udict u -> wf_data d ->
  exists ts, analyze ideo (Tokenizer d u true) s mode_search = Ok ts /\ no_markers ts = ts /\
    sample_user_dict ideo (Tokenizer d u true) s =
    Ok (concat (map (fun tk => t_surface tk ++ [x09] ++ s2b "[" ++ separated (s2b " ") (features_of tk) ++ s2b "]" ++ [x0a]) ts)).
Proof. exact (fun ideo d u s Hd Hu Hw => @sample_user_dict_ok ideo d u Hd Hu Hw s). Qed.
Print Assumptions C95_user_dict.
(** The line of the words, without its slashes, is the text. *)
Theorem C95_wakati : forall ideo d u s, wf_dict d -> wf_udict u ->
  exists ws, wakati ideo (Tokenizer d u true) s = Ok ws /\
    sample_wakati ideo (Tokenizer d u true) s = Ok (s2b "---wakati---" ++ [x0a] ++ separated (s2b "/") ws ++ [x0a]) /\
    (no_loss d u s mode_normal -> fffd_ok d s -> ~ In x2f s -> filter (fun b => negb (Byte.eqb b x2f)) (separated (s2b "/") ws) = s).
Proof. exact (fun ideo d u s Hd Hu => @sample_wakati_ok ideo d u Hd Hu s). Qed.
Print Assumptions C95_wakati.
Example C95_example :
  sample_tokenize ex_ideo (Tokenizer ex_dict None true) (s2b "東に") =
    Ok (s2b "---tokenize---" ++ [x0a] ++ s2b "東" ++ [x09] ++ s2b "名詞,一般,東,ヒガシ" ++ [x0a] ++ s2b "に" ++ [x09] ++ s2b "助詞,に" ++ [x0a]) /\
  sample_user_dict ex_ideo (Tokenizer ex_dict (Some ex_udict) true) (s2b "kagome東") =
    Ok (s2b "kagome" ++ [x09] ++ s2b "[カスタム名詞 ka/gome カ/ゴメ]" ++ [x0a] ++ s2b "東" ++ [x09] ++ s2b "[名詞 一般 東 ヒガシ]" ++ [x0a]) /\
  sample_wakati ex_ideo (Tokenizer ex_dict None true) (s2b "東に行く") = Ok (s2b "---wakati---" ++ [x0a] ++ s2b "東/に/行く" ++ [x0a]).
Proof. split; [by_eval|]. split; by_eval. Qed.
