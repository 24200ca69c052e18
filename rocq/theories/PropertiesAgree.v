(** C110, C111: the endpoint and the commands tell the same tokens. *)
From Verif Require Import Example CmdExamples Check OptFacts ServerFacts TokFacts AnalyzeFacts TokenFacts DecodeServe AgreeFacts.
From Verif Require Import SpecAgree.
Open Scope Z_scope.

(** Both are asked about the same text, with the same dictionaries, in the same mode. The command leaves out what Extended mode has split. *)
Theorem C110_agree_partial : forall w d u args o mode r t1 t2 t3 printable newer body v sen m, wf_dict d -> wf_udict u -> wf_data d ->
  tok_args args o -> tok_uses w o d t1 -> user_uses w (to_udict o) u t2 -> input_uses w (to_file o) r t3 -> mode_of (to_mode o) mode ->
  to_split o = false -> to_json o = true -> lively r -> rd_end r = EOF -> one_line sen -> rd_rest r = sen \/ rd_rest r = sen ++ [x0a] ->
  begins_with body v -> decoded v = Some (Request sen m) -> request_mode m mode ->
  exists tr a tds, tok_run w args = (tr, Ok None) /\ serve_tokenize (the_decoder printable) newer (w_ideo w) (Tokenizer d u false) body = Ok a /\ rs_status a = 200 /\
    told (rs_body a) tds /\ json_text (outs tr) (JArr (map token_value (unsplit tds))) /\ (mode <> mode_extended -> unsplit tds = tds).
Proof. exact agree_lemma. Qed.
Print Assumptions C110_agree_partial.

Definition ex_ask (mode sen : string) : bytes := s2b "{""mode"":""" ++ s2b mode ++ s2b """,""sentence"":""" ++ s2b sen ++ s2b """}".
Definition ex_value (mode sen : string) : json := JObj [(s2b "mode", JStr (s2b mode)); (s2b "sentence", JStr (s2b sen))].
Definition ex_tokens (mode : string) : tok_opt := TokOpt [] [] [] (s2b "ipa") false (s2b mode) false true.
(** In Extended mode the endpoint tells two tokens of ab, and the command none. *)
Theorem C110_agree_refuted : exists tr a tds, tok_run (ex_world (s2b "ab")) [s2b "-mode"; s2b "extended"; s2b "-json"] = (tr, Ok None) /\ json_text (outs tr) (JArr []) /\
  serve_tokenize (the_decoder ascii_only) true ex_ideo (Tokenizer ex_dict None false) (ex_ask "Extended" "ab") = Ok a /\ told (rs_body a) tds /\ tds <> [].
Proof.
  destruct (@serve_tokens ex_dict None false ex_ideo true (the_decoder ascii_only) (ex_ask "Extended" "ab") (ex_value "Extended" "ab") (s2b "ab") (s2b "Extended") mode_extended) as (ts & tds & a & _ & Sa & _ & _ & _ & N & J).
  - apply wf_ex.
  - exact I.
  - apply wf_ex_data.
  - apply decoder_contract.
  - split; [reflexivity|]. split; [exists 10%nat, []; reflexivity|cbv; discriminate].
  - reflexivity.
  - discriminate.
  - apply rm_extended.
  - assert (P : printed (tok_run (ex_world (s2b "ab")) [s2b "-mode"; s2b "extended"; s2b "-json"]) = Ok (s2b "[" ++ [x0a; x0a] ++ s2b "]" ++ [x0a], true)) by by_eval.
    unfold printed in P. destruct (tok_run _ _) as (tr & [e| |]); cbn [fst snd] in P; try discriminate P. injection P as P Q. destruct e; [discriminate Q|].
    exists tr, a, tds. split; [reflexivity|]. rewrite P. split; [apply json_empty|]. split; [exact Sa|]. split; [exact J|exact N].
Qed.
Print Assumptions C110_agree_refuted.
(** The text aに in search mode, read in two pieces. *)
Example C110_example :
  ((exists v, begins_with (ex_ask "Search" "aに") v /\ decoded v = Some (Request (s2b "aに") (s2b "Search"))) /\ request_mode (s2b "Search") mode_search /\ one_line (s2b "aに")) /\
  (tok_args [s2b "-mode"; s2b "search"; s2b "-json"] (ex_tokens "search") /\ tok_uses (brisk_world (s2b "aに")) (ex_tokens "search") ex_dict [ESysDict (s2b "ipa") false] /\
   mode_of (to_mode (ex_tokens "search")) mode_search /\ lively (brisk_input (s2b "aに")) /\ rd_end (brisk_input (s2b "aに")) = EOF /\ rd_rest (brisk_input (s2b "aに")) = s2b "aに").
Proof.
  split; [split; [|split]|split; [|split; [|split; [|split; [|split]]]]].
  - exists (ex_value "Search" "aに"). split; [split; [reflexivity|split; [exists 10%nat, []; reflexivity|cbv; discriminate]]|reflexivity].
  - apply rm_search.
  - split; [discriminate|]. split; [intros H; cbn in H; intuition discriminate|]. split; [|reflexivity]. intros (a & E). assert (L : last (s2b "aに") x00 = last (a ++ [x0d]) x00) by (rewrite <- E; reflexivity). rewrite last_last in L. discriminate L.
  - apply tok_parse_ok. reflexivity.
  - right. split; [reflexivity|]. split; [reflexivity|]. left. auto.
  - right. left. auto.
  - apply brisk_lively.
  - reflexivity.
  - reflexivity.
Qed.

(** ** C111: kagome lattice -v writes to the standard error what kagome tokenize writes to the standard output. *)
Theorem C111_verbose : forall w d u args lo t1 t2 args' o mode r t3 t4 t5, wf_dict d -> wf_udict u -> wf_data d ->
  lat_args args lo -> embedded w (lo_dict lo) false d t1 -> user_uses w (lo_udict lo) u t2 -> mode_of (lo_mode lo) mode ->
  lo_verbose lo = true -> lo_output lo = [] \/ w_create w (lo_output lo) = true ->
  tok_args args' o -> tok_uses w o d t3 -> user_uses w (to_udict o) u t4 -> input_uses w (to_file o) r t5 -> mode_of (to_mode o) mode ->
  to_split o = false -> to_json o = false -> lively r -> rd_end r = EOF -> one_line (lo_input lo) -> rd_rest r = lo_input lo \/ rd_rest r = lo_input lo ++ [x0a] ->
  no_loss d u (lo_input lo) mode ->
  exists trl tr, lat_run w args = (trl, Ok None) /\ tok_run w args' = (tr, Ok None) /\ errs trl = outs tr.
Proof. exact lattice_agrees. Qed.
Print Assumptions C111_verbose.

(** The same text, given to lattice as its operand and to tokenize on the standard input. *)
Definition ex_drawn : lat_opt := LatOpt [] (s2b "ipa") (s2b "search") [] true (s2b "aに").
Example C111_example :
  (lat_args [s2b "-v"; s2b "-mode"; s2b "search"; s2b "aに"] ex_drawn /\ embedded (brisk_world (s2b "aに" ++ [x0a])) (lo_dict ex_drawn) false ex_dict [ESysDict (s2b "ipa") false] /\
   no_loss ex_dict None (lo_input ex_drawn) mode_search /\ lively (brisk_input (s2b "aに" ++ [x0a])) /\ rd_rest (brisk_input (s2b "aに" ++ [x0a])) = lo_input ex_drawn ++ [x0a]) /\
  outs (fst (tok_run (brisk_world (s2b "aに" ++ [x0a])) [s2b "-mode"; s2b "search"])) = s2b "a" ++ [x09] ++ s2b "名詞,一般" ++ [x0a] ++ s2b "に" ++ [x09] ++ s2b "助詞,に" ++ [x0a] ++ s2b "EOS" ++ [x0a] /\
  errs (fst (lat_run (brisk_world (s2b "aに" ++ [x0a])) [s2b "-v"; s2b "-mode"; s2b "search"; s2b "aに"])) = s2b "a" ++ [x09] ++ s2b "名詞,一般" ++ [x0a] ++ s2b "に" ++ [x09] ++ s2b "助詞,に" ++ [x0a] ++ s2b "EOS" ++ [x0a].
Proof.
  split; [split; [|split; [|split; [|split]]]|split].
  - apply lat_parse_ok. reflexivity.
  - split; [reflexivity|]. left. auto.
  - left. cbv. discriminate.
  - apply brisk_lively.
  - reflexivity.
  - by_eval.
  - by_eval.
Qed.
