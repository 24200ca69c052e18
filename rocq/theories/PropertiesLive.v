(** Property theorems: the demo page while one types (the script of cmd/server/asset/demo.html). *)
From Verif Require Import Check Example SpecFeat ServerFacts SpecLive Live LiveFacts LiveRuns.
Open Scope Z_scope.

(** ** C86: the answer to what is typed fills the table with the words. *)
(** Full statement: for each word of the text there is one row that shows it ([shows_row]).  It is
    false: the script puts the texts into the page as HTML.  A text can hide its row, and a word
    of the dictionary can bring a tag into the page. *)
Theorem C86_hidden_refuted : forall parse decode newer gv addr, js_parser parse -> json_decoder decode ->
  wf_dict ex_dict /\ wf_data ex_dict /\
  exists td row, word_data ex_ideo (Tokenizer ex_dict None true) (s2b "<!--") (s2b "Normal") [td] /\
    receive parse decode newer gv addr ex_ideo (Tokenizer ex_dict None true) (typed_post (s2b "<!--") (s2b "Normal")) [] = [row] /\ ~ shows_row td row.
Proof. exact (fun parse decode newer gv addr Hp Hd => conj wf_ex (conj wf_ex_data (@row_hidden parse decode newer gv addr Hp Hd))). Qed.
Print Assumptions C86_hidden_refuted.
Theorem C86_tag_refuted : forall parse decode newer gv addr, js_parser parse -> json_decoder decode ->
  wf_udict (Some tag_udict) /\
  exists td row evs, word_data ex_ideo (Tokenizer ex_dict (Some tag_udict) true) (s2b "<b>") (s2b "Normal") [td] /\
    receive parse decode newer gv addr ex_ideo (Tokenizer ex_dict (Some tag_udict) true) (typed_post (s2b "<b>") (s2b "Normal")) [] = [row] /\
    reads row evs /\ In (Open (s2b "b") []) evs.
Proof. exact (fun parse decode newer gv addr Hp Hd => conj wf_tag_udict (@row_tag parse decode newer gv addr Hp Hd)). Qed.
Print Assumptions C86_tag_refuted.
(** Missing: rows with a cell that contains one of < & NUL. *)
Theorem C86_table_partial : forall parse decode newer gv addr ideo d u omit s m table,
  wf_dict d -> wf_udict u -> wf_data d -> js_parser parse -> json_decoder decode ->
  valid_utf8 s = true -> valid_utf8 m = true ->
  shows_words ideo (Tokenizer d u omit) s m (receive parse decode newer gv addr ideo (Tokenizer d u omit) (typed_post s m) table).
Proof.
  exact (fun parse decode newer gv addr ideo d u omit s m table Hd Hu Hw Hp Hj =>
    @receive_shows parse decode newer gv addr ideo d u omit Hd Hu Hw Hp Hj s m table).
Qed.
Print Assumptions C86_table_partial.
Example C86_example : js_parser example_parse /\ json_decoder (example_decoder quote_error) /\
  receive example_parse (example_decoder quote_error) true (Graphviz false None (fun _ => inr [])) (fun _ => []) ex_ideo (Tokenizer ex_dict (Some ex_udict) true)
    (typed_post (s2b "東kagome""\") (s2b "Search")) [s2b "old"] =
  [s2b "<tr><td>東</td><td>名詞,一般</td><td>東</td><td>ヒガシ</td><td>*</td></tr>";
   s2b "<tr><td>kagome</td><td>カスタム名詞</td><td>*</td><td>*</td><td>*</td></tr>";
   s2b "<tr><td>""\</td><td>記号,*</td><td>*</td><td>*</td><td>*</td></tr>"].
Proof. split; [exact example_parse_ok|]. split; [apply example_decoder_ok|]. by_eval. Qed.

(** ** C87: once all answers are there, the table is that of the text and the mode in the form. *)
(** False: answers can overtake each other, and the last to arrive stays. *)
Theorem C87_stale_refuted : forall parse decode newer gv addr, js_parser parse -> json_decoder decode ->
  exists st, many (live_step parse decode newer gv addr ex_ideo (Tokenizer ex_dict None true) false) (live_start [] (s2b "Normal")) st /\ lv_pending st = [] /\
    lv_text st = s2b "東a" /\ lv_mode st = s2b "Normal" /\
    ~ shows_words ex_ideo (Tokenizer ex_dict None true) (lv_text st) (lv_mode st) (lv_table st).
Proof. exact (fun parse decode newer gv addr Hp Hd => @table_stale parse decode newer gv addr Hp Hd). Qed.
Print Assumptions C87_stale_refuted.
(** It holds when the answers all come, in the order of the requests. *)
Theorem C87_ordered_partial : forall parse decode newer gv addr ideo d u omit s0 m0 st,
  wf_dict d -> wf_udict u -> wf_data d -> js_parser parse -> json_decoder decode ->
  valid_utf8 s0 = true -> In m0 [s2b "Normal"; s2b "Search"; s2b "Extended"] ->
  many (ordered_step parse decode newer gv addr ideo (Tokenizer d u omit)) (live_start s0 m0) st -> lv_pending st = [] ->
  lv_asked st = [] /\ lv_table st = [] \/ shows_words ideo (Tokenizer d u omit) (lv_text st) (lv_mode st) (lv_table st).
Proof.
  exact (fun parse decode newer gv addr ideo d u omit s0 m0 st Hd Hu Hw Hp Hj =>
    @live_in_order parse decode newer gv addr ideo d u omit Hd Hu Hw Hp Hj s0 m0 st).
Qed.
Print Assumptions C87_ordered_partial.
(** In any order, with lost requests: the table is never a mixture, but that of one text and mode
    that were in the form. *)
Theorem C87_some_partial : forall parse decode newer gv addr ideo d u omit lossy s0 m0 st,
  wf_dict d -> wf_udict u -> wf_data d -> js_parser parse -> json_decoder decode ->
  valid_utf8 s0 = true -> In m0 [s2b "Normal"; s2b "Search"; s2b "Extended"] ->
  many (live_step parse decode newer gv addr ideo (Tokenizer d u omit) lossy) (live_start s0 m0) st ->
  lv_table st = [] \/ exists s m, In (s, m) (lv_asked st) /\ shows_words ideo (Tokenizer d u omit) s m (lv_table st).
Proof.
  exact (fun parse decode newer gv addr ideo d u omit lossy s0 m0 st Hd Hu Hw Hp Hj =>
    @live_any_order parse decode newer gv addr ideo d u omit Hd Hu Hw Hp Hj lossy s0 m0 st).
Qed.
Print Assumptions C87_some_partial.
(** The ordered runs are runs of the page. *)
Theorem C87_runs_partial : forall parse decode newer gv addr ideo d u omit st st',
  ordered_step parse decode newer gv addr ideo (Tokenizer d u omit) st st' -> live_step parse decode newer gv addr ideo (Tokenizer d u omit) false st st'.
Proof. exact (fun parse decode newer gv addr ideo d u omit => @ordered_live parse decode newer gv addr ideo d u omit). Qed.
Print Assumptions C87_runs_partial.
(** A text is typed, and the mode changed before the first answer is there. *)
Definition ex_receive := receive example_parse (example_decoder quote_error) true (Graphviz false None (fun _ => inr [])) (fun _ => []) ex_ideo (Tokenizer ex_dict None true).
Definition ex_ordered := ordered_step example_parse (example_decoder quote_error) true (Graphviz false None (fun _ => inr [])) (fun _ => []) ex_ideo (Tokenizer ex_dict None true).
Example C87_example : exists st, many ex_ordered (live_start [] (s2b "Normal")) st /\ lv_pending st = [] /\
  lv_text st = s2b "東" /\ lv_mode st = s2b "Search" /\ lv_asked st = [(s2b "東", s2b "Normal"); (s2b "東", s2b "Search")] /\
  lv_table st = [s2b "<tr><td>東</td><td>名詞,一般</td><td>東</td><td>ヒガシ</td><td>*</td></tr>"].
Proof.
  pose (p1 := typed_post (s2b "東") (s2b "Normal")). pose (p2 := typed_post (s2b "東") (s2b "Search")). pose (p3 := radio_post (s2b "東") (s2b "Search")).
  exists (Live (s2b "東") (s2b "Search") (ex_receive p3 (ex_receive p2 (ex_receive p1 []))) [] [(s2b "東", s2b "Normal"); (s2b "東", s2b "Search")]).
  split.
  - eapply many_step; [apply (os_type _ _ _ _ _ _ _ [] (s2b "Normal") [] [] [] (s2b "東")); reflexivity|].
    eapply many_step; [apply (os_radio _ _ _ _ _ _ _ (s2b "東") (s2b "Normal") [] _ _ (s2b "Search")); right; left; reflexivity|].
    eapply many_step; [apply os_answer|]. eapply many_step; [apply os_answer|]. eapply many_step; [apply os_answer|]. apply many_refl.
  - split; [reflexivity|]. split; [reflexivity|]. split; [reflexivity|]. split; [reflexivity|]. by_eval.
Qed.
