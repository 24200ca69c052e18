(** Property theorems: the commands (kagome.go, cmd/tokenize, cmd/sentence, cmd/lattice and the
    options of cmd/server). *)
From Verif Require Import CmdExamples Check SpecCmd OptFacts CmdRuns CmdMore CmdMain ScannerFacts TokFacts AnalyzeFacts Example.
Open Scope Z_scope.

(** ** C40 *)
(** Reading line by line: one block per line, in order. *)
Theorem C40_blocks : forall w d u args o mode r t1 t2 t3, wf_dict d -> wf_udict u -> wf_data d ->
  tok_args args o -> tok_uses w o d t1 -> user_uses w (to_udict o) u t2 -> input_uses w (to_file o) r t3 -> mode_of (to_mode o) mode ->
  to_split o = false -> lively r -> rd_end r <> ErrNoProgress ->
  exists tr err, tok_run w args = (tr, Ok (option_map XScan err)) /\
  ((err = scanner_err (Some (rd_end r)) /\ exists raw lines blocks, lines_of (rd_rest r) raw /\ Forall2 without_cr raw lines /\ outs tr = concat blocks /\
      Forall2 (fun line b => exists ts, analyze (w_ideo w) (Tokenizer d u false) line mode = Ok ts /\ block (to_json o) ts b) lines blocks) \/
   (err = Some ErrTooLong /\ exists raw l, lines_of (rd_rest r) raw /\ In l raw /\ (65536 <= N.of_nat (length l))%N)).
Proof. exact tokenize_lines. Qed.
Print Assumptions C40_blocks.
(** Reading sentence by sentence (-split). *)
Theorem C40_sentences : forall w d u args o mode r t1 t2 t3, wf_dict d -> wf_udict u -> wf_data d ->
  tok_args args o -> tok_uses w o d t1 -> user_uses w (to_udict o) u t2 -> input_uses w (to_file o) r t3 -> mode_of (to_mode o) mode ->
  to_split o = true ->
  exists tr texts err r' blocks, tok_run w args = (tr, Ok (option_map XScan err)) /\
    scan_texts (scan_sentences default_splitter) r = Ok (texts, err, r') /\ outs tr = concat blocks /\
    Forall2 (fun text b => exists ts, analyze (w_ideo w) (Tokenizer d u false) text mode = Ok ts /\ block (to_json o) ts b) texts blocks.
Proof. exact tokenize_sentences. Qed.
Print Assumptions C40_sentences.
(** The lines of a text block. *)
Theorem C40_lines : forall ts b, text_block ts b -> Forall printable (no_markers ts) ->
  exists ls, lines_of b (ls ++ [s2b "EOS"]) /\ Forall2 (fun tk l => token_line tk (l ++ [x0a])) (no_markers ts) ls.
Proof. exact text_lines. Qed.
Print Assumptions C40_lines.
Theorem C40_restores : forall d u ideo inp mode ts b, wf_dict d -> wf_udict u -> mode <> mode_extended -> no_loss d u inp mode -> fffd_ok d inp ->
  analyze ideo (Tokenizer d u false) inp mode = Ok ts -> text_block ts b ->
  exists parts, b = concat (map (fun p => fst p ++ [x09] ++ snd p ++ [x0a]) parts) ++ s2b "EOS" ++ [x0a] /\ concat (map fst parts) = inp.
Proof. exact text_restores. Qed.
Print Assumptions C40_restores.
Example C40_example :
  (exists o, tok_args [] o /\ to_split o = false /\ to_json o = false /\ tok_uses (ex_world []) o ex_dict [ESysDict (s2b "ipa") false]) /\
  printed (tok_run (ex_world (s2b "東に" ++ [x0d; x0a; x0a] ++ s2b "ab")) []) =
    Ok (s2b "東" ++ [x09] ++ s2b "名詞,一般,東,ヒガシ" ++ [x0a] ++ s2b "に" ++ [x09] ++ s2b "助詞,に" ++ [x0a] ++ s2b "EOS" ++ [x0a] ++
        s2b "EOS" ++ [x0a] ++ s2b "ab" ++ [x09] ++ s2b "名詞,一般" ++ [x0a] ++ s2b "EOS" ++ [x0a], true).
Proof.
  split; [|by_eval]. exists tok_default. split; [apply tok_parse_ok; reflexivity|]. split; [reflexivity|]. split; [reflexivity|].
  right. split; [reflexivity|]. split; [reflexivity|]. left. auto.
Qed.
Example C40_brisk_example : input_uses (brisk_world (s2b "東に" ++ [x0d; x0a; x0a] ++ s2b "ab")) [] (brisk_input (s2b "東に" ++ [x0d; x0a; x0a] ++ s2b "ab")) [] /\
  lively (brisk_input (s2b "東に" ++ [x0d; x0a; x0a] ++ s2b "ab")) /\
  printed (tok_run (brisk_world (s2b "東に" ++ [x0d; x0a; x0a] ++ s2b "ab")) []) =
    Ok (s2b "東" ++ [x09] ++ s2b "名詞,一般,東,ヒガシ" ++ [x0a] ++ s2b "に" ++ [x09] ++ s2b "助詞,に" ++ [x0a] ++ s2b "EOS" ++ [x0a] ++
        s2b "EOS" ++ [x0a] ++ s2b "ab" ++ [x09] ++ s2b "名詞,一般" ++ [x0a] ++ s2b "EOS" ++ [x0a], true).
Proof. split; [left; repeat split|]. split; [apply brisk_lively|by_eval]. Qed.

(** ** C41 *)
Theorem C41_all_modes_refuted : exists w, world_ok w /\
  printed (tok_run w [s2b "-mode"; s2b "extended"]) = Ok (s2b "a" ++ [x0a] ++ s2b "b" ++ [x0a] ++ s2b "EOS" ++ [x0a], true) /\
  exists b, printed (tok_run w [s2b "-mode"; s2b "extended"; s2b "-json"]) = Ok (b, true) /\ json_text b (JArr []).
Proof. exact json_drops. Qed.
Print Assumptions C41_all_modes_refuted.
Theorem C41_json_partial : forall d u ideo inp mode ts b, wf_dict d -> wf_udict u -> mode <> mode_extended ->
  analyze ideo (Tokenizer d u false) inp mode = Ok ts -> json_block ts b ->
  exists tds, Forall2 (fun tk td => new_token_data tk = Ok td) (no_markers ts) tds /\ json_text b (JArr (map token_value tds)).
Proof. exact json_words. Qed.
Print Assumptions C41_json_partial.
Example C41_example : exists ts, analyze ex_ideo (Tokenizer ex_dict None false) (s2b "東に") mode_normal = Ok ts /\ length (no_markers ts) = 2%nat.
Proof. apply run_ex. vm_compute. reflexivity. Qed.

(** ** C42 *)
Theorem C42_dispatch : forall w prog name run args tr n, run_of w name run ->
  (kagome w (prog :: name :: args) = (tr, Status n) <-> exits (run args) tr n).
Proof. exact kagome_dispatch. Qed.
Print Assumptions C42_dispatch.
Theorem C42_default : forall w prog args o tr n, tok_args args o -> (kagome w (prog :: args) = (tr, Status n) <-> exits (tok_run w args) tr n).
Proof. exact kagome_default. Qed.
Print Assumptions C42_default.
Theorem C42_same : forall w prog args o, tok_args args o -> kagome w (prog :: args) = kagome w (prog :: s2b "tokenize" :: args).
Proof. exact kagome_same. Qed.
Print Assumptions C42_same.
Theorem C42_rejects : forall w prog args, (forall name rest, args = name :: rest -> ~ In name command_names) -> (forall o, ~ tok_args args o) ->
  exists tr, kagome w (prog :: args) = (tr, Status 1) /\ only_messages tr.
Proof. exact kagome_rejects. Qed.
Print Assumptions C42_rejects.
Theorem C42_ends : forall w argv, world_ok w -> argv <> [] -> exists tr n, kagome w argv = (tr, Status n) /\ (n = 0 \/ n = 1).
Proof. exact kagome_total. Qed.
Print Assumptions C42_ends.
Example C42_example : world_ok (ex_world []) /\
  (exists o, tok_args [s2b "-json=false"; s2b "--mode"; s2b "search"] o /\ to_mode o = s2b "search") /\
  (forall o, ~ tok_args [s2b "-mode=fast"] o) /\ (forall o, ~ tok_args [s2b "tokenizer"] o) /\
  run_of (ex_world []) (s2b "lattice") (lat_run (ex_world [])).
Proof.
  split; [apply ex_world_ok|]. split; [eexists; split; [apply tok_parse_ok; reflexivity|reflexivity]|].
  split; [intros o H; apply tok_parse_ok in H; discriminate H|]. split; [intros o H; apply tok_parse_ok in H; discriminate H|].
  right. right. left. auto.
Qed.

(** ** C43 *)
Theorem C43_tokenize_rejects : forall w args, (forall o, ~ tok_args args o) ->
  exists tr, tok_run w args = (tr, Ok (Some XSilent)) /\ only_messages tr.
Proof. exact tokenize_rejects. Qed.
Print Assumptions C43_tokenize_rejects.
Theorem C43_lattice_rejects : forall w args, (forall o, ~ lat_args args o) -> exists tr e, lat_run w args = (tr, Ok (Some e)) /\ only_messages tr.
Proof. exact lattice_rejects. Qed.
Print Assumptions C43_lattice_rejects.
Theorem C43_server_rejects : forall w args, (forall o, ~ srv_args args o) -> exists tr e, srv_run w args = (tr, Ok (Some e)) /\ only_messages tr.
Proof. exact server_rejects. Qed.
Print Assumptions C43_server_rejects.
Theorem C43_sentence_rejects : forall w args, (forall f, ~ sen_args args f) -> exists tr e, sen_run w args = (tr, Ok (Some e)) /\ only_messages tr.
Proof. exact sentence_rejects. Qed.
Print Assumptions C43_sentence_rejects.
(** Accepted arguments fix the options; the dictionary and the mode they name are used (C40, C61 for
    the other commands), and if something named cannot be had nothing is read or written. *)
Theorem C43_one_meaning : forall args o o', tok_args args o -> tok_args args o' -> o = o'.
Proof. exact tok_args_fun. Qed.
Print Assumptions C43_one_meaning.
Theorem C43_tokenize_fails : forall w args o, tok_args args o ->
  ~ (exists d u r t1 t2 t3, tok_uses w o d t1 /\ user_uses w (to_udict o) u t2 /\ input_uses w (to_file o) r t3) ->
  exists tr e, tok_run w args = (tr, Ok (Some e)) /\ quiet tr.
Proof. exact tokenize_fails. Qed.
Print Assumptions C43_tokenize_fails.
Theorem C43_lattice_fails : forall w args o, lat_args args o ->
  ~ (exists d u t1 t2, embedded w (lo_dict o) false d t1 /\ user_uses w (lo_udict o) u t2 /\ (lo_output o = [] \/ w_create w (lo_output o) = true)) ->
  exists tr e, lat_run w args = (tr, Ok (Some e)) /\ quiet tr.
Proof. exact lattice_fails. Qed.
Print Assumptions C43_lattice_fails.
Theorem C43_server_fails : forall w args o, srv_args args o ->
  ~ (exists d u t1 t2, embedded w (so_dict o) false d t1 /\ user_uses w (so_udict o) u t2) ->
  exists tr e, srv_run w args = (tr, Ok (Some e)) /\ quiet tr.
Proof. exact server_fails. Qed.
Print Assumptions C43_server_fails.
Theorem C43_sentence_fails : forall w args f, sen_args args f -> ~ (exists r t, input_uses w f r t) ->
  exists tr e, sen_run w args = (tr, Ok (Some e)) /\ quiet tr.
Proof. exact sentence_fails. Qed.
Print Assumptions C43_sentence_fails.
(** OptionCheck accepts exactly the argument lists the command accepts. *)
Theorem C43_option_check : forall args,
  (tok_check args = None <-> exists o, tok_args args o) /\ (lat_check args = None <-> exists o, lat_args args o) /\
  (srv_check args = None <-> exists o, srv_args args o) /\ (sen_check args = None <-> exists f, sen_args args f).
Proof. exact option_checks. Qed.
Print Assumptions C43_option_check.
Theorem C43_empty_sysdict : forall w args o, tok_args args o -> to_dict o = [] -> to_sysdict o = [] ->
  tok_run w args = ([], Ok (Some (XDictType []))).
Proof. exact tokenize_no_dictionary. Qed.
Print Assumptions C43_empty_sysdict.
Theorem C43_server_serves : forall w args o d u t1 t2, srv_args args o -> embedded w (so_dict o) false d t1 -> user_uses w (so_udict o) u t2 ->
  srv_run w args = ((t1 ++ t2) ++ fst (w_serve w (so_http o) (Tokenizer d u false)), snd (w_serve w (so_http o) (Tokenizer d u false))).
Proof. exact server_serves. Qed.
Print Assumptions C43_server_serves.
Example C43_example :
  (exists o, tok_args [s2b "-dict"; s2b "missing"] o /\ forall d tr, ~ tok_uses (ex_world []) o d tr) /\
  (exists o, tok_args [s2b "-sysdict="] o /\ to_dict o = [] /\ to_sysdict o = []) /\
  (exists o, lat_args [s2b "-dict="; s2b "x"] o /\ forall d tr, ~ embedded (ex_world []) (lo_dict o) false d tr) /\
  (exists o, srv_args [s2b "-userdict"; s2b "missing"] o /\ forall u tr, ~ user_uses (ex_world []) (so_udict o) u tr) /\
  (exists o, srv_args [s2b "-http=:80"; s2b "-dict"; s2b "uni"] o /\ embedded (ex_world []) (so_dict o) false ex_dict [ESysDict (s2b "uni") false]) /\
  (forall o, ~ lat_args [s2b "-v"] o) /\ (forall o, ~ srv_args [s2b "-dict"; s2b "ipadic"] o) /\ (forall f, ~ sen_args [s2b "-v"] f).
Proof.
  split; [|split; [|split; [|split; [|split; [|split; [|split]]]]]].
  - eexists. split; [apply tok_parse_ok; reflexivity|]. intros d tr [(_ & H & _)|(H & _)]; discriminate H.
  - eexists. split; [apply tok_parse_ok; reflexivity|]. split; reflexivity.
  - eexists. split; [apply lat_parse_ok; reflexivity|]. intros d tr (_ & [(H & _)|(H & _)]); discriminate H.
  - eexists. split; [apply srv_parse_ok; reflexivity|]. intros u tr [(H & _)|(_ & ud & H & _)]; discriminate H.
  - eexists. split; [apply srv_parse_ok; reflexivity|]. split; [reflexivity|]. right. auto.
  - intros o H. apply lat_parse_ok in H. discriminate H.
  - intros o H. apply srv_parse_ok in H. discriminate H.
  - intros o H. apply sen_parse_ok in H. discriminate H.
Qed.

(** ** C58 *)
Theorem C58_tokenize_usage_refuted : (usage tok_usage [s2b "-userdict"; s2b "user.txt"] /\ forall o, ~ tok_args [s2b "-userdict"; s2b "user.txt"] o) /\
  (usage tok_usage [s2b "-simple"; s2b "false"] /\ forall o, ~ tok_args [s2b "-simple"; s2b "false"] o).
Proof. exact tokenize_usage_wrong. Qed.
Print Assumptions C58_tokenize_usage_refuted.
Theorem C58_tokenize_usage_partial : forall args, usage tok_usage_good args -> exists o, tok_args args o.
Proof. exact tokenize_usage. Qed.
Print Assumptions C58_tokenize_usage_partial.
Theorem C58_server_usage : forall args, usage srv_usage args -> exists o, srv_args args o.
Proof. exact server_usage. Qed.
Print Assumptions C58_server_usage.
Theorem C58_lattice_usage : forall args sentence, usage lat_usage args -> plain_arg sentence ->
  exists o, lat_args (args ++ [sentence]) o /\ lo_input o = sentence.
Proof. exact lattice_usage. Qed.
Print Assumptions C58_lattice_usage.
Theorem C58_sentence_usage : forall args, usage sen_usage args -> exists f, sen_args args f.
Proof. exact sentence_usage. Qed.
Print Assumptions C58_sentence_usage.
Example C58_example : usage lat_usage [s2b "-mode"; s2b "search"; s2b "-v"] /\ plain_arg (s2b "東") /\
  usage srv_usage [s2b "-http=:80"] /\ length tok_usage_good = 6%nat.
Proof.
  split; [|split; [|split; [|reflexivity]]].
  - exists [[]; []; [s2b "-mode"; s2b "search"]; []; [s2b "-v"]]. split; [|reflexivity].
    repeat (apply Forall2_cons; [first [left; reflexivity|right; eexists; split; [right; left; reflexivity|reflexivity]|right; reflexivity]|]). apply Forall2_nil.
  - right. intros (a & H). discriminate H.
  - exists [[s2b "-http=:80"]; []; []]. split; [|reflexivity].
    repeat (apply Forall2_cons; [first [left; reflexivity|right; exists (s2b ":80"); reflexivity]|]). apply Forall2_nil.
Qed.

(** ** C60 *)
Theorem C60_prompt : forall w d u, wf_dict d -> wf_udict u -> wf_data d -> forall args o mode r t1 t2 t3,
  tok_args args o -> tok_uses w o d t1 -> user_uses w (to_udict o) u t2 -> input_uses w (to_file o) r t3 -> mode_of (to_mode o) mode ->
  to_split o = false ->
  exists tr res, tok_run w args = ((t1 ++ t2 ++ t3) ++ tr, res) /\
  forall ta c tb, tr = ta ++ ERead c :: tb -> exists raw rest lines blocks,
    whole_lines (reads ta) raw rest /\ Forall2 without_cr raw lines /\ outs ta = concat blocks /\
    Forall2 (fun line b => exists ts, analyze (w_ideo w) (Tokenizer d u false) line mode = Ok ts /\ block (to_json o) ts b) lines blocks.
Proof. exact tokenize_prompt. Qed.
Print Assumptions C60_prompt.
(** Two lines in four reads: the answers come as soon as the line feed is read. *)
Definition trace_view (e : event) : nat * bytes := match e with ERead b => (1%nat, b) | EOut b => (2%nat, b) | _ => (0%nat, []) end.
Example C60_example :
  map trace_view (fst (tok_run (ex_world (s2b "a" ++ [x0a] ++ s2b "bc" ++ [x0a])) [])) =
  [(0%nat, []); (1%nat, s2b "a" ++ [x0a] ++ s2b "bc"); (2%nat, s2b "a" ++ [x09] ++ s2b "名詞,一般" ++ [x0a] ++ s2b "EOS" ++ [x0a]);
   (1%nat, []); (1%nat, [x0a]); (2%nat, s2b "bc" ++ [x09] ++ s2b "名詞,一般" ++ [x0a] ++ s2b "EOS" ++ [x0a])].
Proof. by_eval. Qed.

(** ** C61 *)
Theorem C61_lattice : forall w args o d u t1 t2 mode, wf_dict d -> wf_udict u -> wf_data d -> lat_args args o ->
  embedded w (lo_dict o) false d t1 -> user_uses w (lo_udict o) u t2 -> mode_of (lo_mode o) mode ->
  (lo_output o = [] \/ w_create w (lo_output o) = true) ->
  exists ts ss ls, analyze (w_ideo w) (Tokenizer d u false) (lo_input o) mode = Ok ts /\
    graph_stmts (w_ideo w) (Tokenizer d u false) (lo_input o) mode = Ok ss /\
    lat_run w args = (t1 ++ t2 ++ graph_out o (dot_text (w_addr w) ss) ++ map (fun l => EErr (MText l)) ls, Ok None) /\
    (lo_verbose o = true -> Forall2 token_line (tl ts) ls) /\ (lo_verbose o = false -> ls = []).
Proof. exact lattice_draws. Qed.
Print Assumptions C61_lattice.
Definition event_view (e : event) : nat * bytes :=
  match e with ECreate p => (1%nat, p) | EFile p _ => (2%nat, p) | EErr (MText b) => (3%nat, b) | _ => (0%nat, []) end.
Example C61_example : (exists o, lat_args [s2b "-v"; s2b "-output"; s2b "out.dot"; s2b "に"; s2b "a"] o /\ lo_input o = s2b "に a") /\
  map event_view (fst (lat_run (ex_world []) [s2b "-v"; s2b "-output"; s2b "out.dot"; s2b "に"; s2b "a"])) =
  [(0%nat, []); (1%nat, s2b "out.dot"); (2%nat, s2b "out.dot"); (3%nat, s2b "に" ++ [x09] ++ s2b "助詞,に" ++ [x0a]);
   (3%nat, s2b " " ++ [x09] ++ s2b "記号,*" ++ [x0a]); (3%nat, s2b "a" ++ [x09] ++ s2b "名詞,一般" ++ [x0a]); (3%nat, s2b "EOS" ++ [x0a])].
Proof. split; [eexists; split; [apply lat_parse_ok; reflexivity|reflexivity]|by_eval]. Qed.

(** ** C62 *)
Theorem C62_sentence : forall w args file r t, sen_args args file -> input_uses w file r t ->
  exists tr texts err r', sen_run w args = (tr, Ok (option_map XScan err)) /\
    scan_texts (scan_sentences default_splitter) r = Ok (texts, err, r') /\
    outs tr = concat (map (fun s => s ++ [x0a]) texts) /\ lines_of (outs tr) texts.
Proof. exact sentence_prints. Qed.
Print Assumptions C62_sentence.
Example C62_example : sen_args [s2b "--file"; s2b "in.txt"] (s2b "in.txt") /\
  printed (sen_run (ex_world (s2b "東。 に" ++ [x0d; x0a; x0a] ++ s2b "ab")) [s2b "--file"; s2b "in.txt"]) =
    Ok (s2b "東。" ++ [x0a] ++ s2b "に" ++ [x0a] ++ s2b "ab" ++ [x0a], true).
Proof. split; [apply sen_parse_ok; reflexivity|by_eval]. Qed.
