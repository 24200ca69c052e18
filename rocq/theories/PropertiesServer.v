(** Property theorems: the HTTP server (cmd/server). *)
From Verif Require Import Check SpecServer SpecCmd TokFacts AnalyzeFacts TokenFacts DotFacts Example ServerFacts InertFacts.
Open Scope Z_scope.

(** ** C39 *)
Theorem C39_tokens : forall d u omit ideo newer decode body v sen m mode,
  wf_dict d -> wf_udict u -> wf_data d -> json_decoder decode ->
  begins_with body v -> decoded v = Some (Request sen m) -> sen <> [] -> request_mode m mode ->
  exists ts tds r, analyze ideo (Tokenizer d u omit) sen mode = Ok ts /\
    serve_tokenize decode newer ideo (Tokenizer d u omit) body = Ok r /\
    rs_status r = 200 /\ rs_type r = s2b "application/json" /\
    Forall2 (fun tk td => new_token_data tk = Ok td) (no_markers ts) tds /\ tds <> [] /\
    json_text (rs_body r) (JObj [(s2b "status", JBool true); (s2b "tokens", JArr (map token_value tds))]).
Proof. exact serve_tokens. Qed.
Print Assumptions C39_tokens.
(** The answer is one line, and harmless inside a page: no control character, none of < > &. *)
Theorem C39_inert : forall decode newer ideo t body r, serve_tokenize decode newer ideo t body = Ok r -> rs_status r = 200 ->
  Forall (fun b => (32 <= b2n b)%N /\ ~ In b [x3c; x3e; x26]) (rs_body r).
Proof. exact serve_inert. Qed.
Print Assumptions C39_inert.
Theorem C39_empty : forall t ideo newer decode body v m,
  json_decoder decode -> begins_with body v -> decoded v = Some (Request [] m) ->
  exists r, serve_tokenize decode newer ideo t body = Ok r /\ rs_status r = 200 /\ rs_type r = s2b "application/json" /\
    json_text (rs_body r) (JObj [(s2b "status", JBool true); (s2b "tokens", JArr [])]).
Proof. exact serve_empty. Qed.
Print Assumptions C39_empty.
(** No request makes the handler panic, whatever the decoder does. *)
Theorem C39_total : forall d u omit ideo newer decode body, wf_dict d -> wf_udict u -> wf_data d ->
  exists r, serve_tokenize decode newer ideo (Tokenizer d u omit) body = Ok r.
Proof. exact serve_total. Qed.
Print Assumptions C39_total.
Example C39_example : json_decoder (example_decoder quote_error) /\
  begins_with (ex_body "a東" "Extended") (ex_body_value "a東" "Extended") /\
  decoded (ex_body_value "a東" "Extended") = Some (Request (s2b "a東") (s2b "Extended")) /\ request_mode (s2b "Extended") mode_extended /\
  decoded (JObj [(s2b "x", JArr [JNull]); (s2b "ſentence", JStr (s2b "b")); (s2b "Sentence", JNull)]) = Some (Request (s2b "b") []) /\
  decoded (JObj [(s2b "sentence", JInt 1)]) = None /\
  ex_response "a東" "Extended" = Ok (Response 200 (s2b "application/json") (s2b (
    "{""status"":true,""tokens"":[{""id"":4,""start"":0,""end"":1,""surface"":""a"",""class"":""DUMMY"",""pos"":[],""base_form"":"""",""reading"":"""",""pronunciation"":"""",""features"":[]}," ++
    "{""id"":0,""start"":1,""end"":2,""surface"":""東"",""class"":""KNOWN"",""pos"":[""名詞"",""一般""],""base_form"":""東"",""reading"":""ヒガシ"",""pronunciation"":"""",""features"":[""名詞"",""一般"",""東"",""ヒガシ""]}]}"))).
Proof.
  split; [apply example_decoder_ok|]. split.
  { split; [reflexivity|]. split; [|cbv; discriminate]. exists 10%nat, (s2b " x"). reflexivity. }
  split; [reflexivity|]. split; [constructor|]. split; [reflexivity|]. split; [reflexivity|].
  by_eval.
Qed.

(** ** C59 *)
Theorem C59_error_refuted : exists e, forall decode newer ideo t body, decode body = inr e ->
  exists r, serve_tokenize decode newer ideo t body = Ok r /\ rs_type r = s2b "text/plain; charset=utf-8" /\ forall v, ~ json_text (rs_body r) v.
Proof. exact error_refuted. Qed.
Print Assumptions C59_error_refuted.
Theorem C59_error_partial : forall decode newer ideo t body e, decode body = inr e ->
  exists r, serve_tokenize decode newer ideo t body = Ok r /\ rs_status r = 400 /\
    (plain_text e -> json_text (rs_body r) (JObj [(s2b "status", JBool false); (s2b "error", JStr e)])).
Proof. exact error_answers. Qed.
Print Assumptions C59_error_partial.
(** Every mode but Search and Extended, misspelt ones included, is Normal. *)
Theorem C59_modes : forall decode newer ideo t b1 b2 v1 v2 sen m1 m2, json_decoder decode -> begins_with b1 v1 -> begins_with b2 v2 ->
  decoded v1 = Some (Request sen m1) -> decoded v2 = Some (Request sen m2) ->
  ~ In m1 [s2b "Search"; s2b "Extended"] -> ~ In m2 [s2b "Search"; s2b "Extended"] ->
  serve_tokenize decode newer ideo t b1 = serve_tokenize decode newer ideo t b2.
Proof. exact other_modes. Qed.
Print Assumptions C59_modes.
Example C59_example :
  plain_text (s2b "unexpected EOF") /\ ex_response "東京都" "search" = ex_response "東京都" "Normal" /\ ex_response "東京都" "search" <> ex_response "東京都" "Search" /\
  begins_with (ex_body "東京都" "search") (ex_body_value "東京都" "search").
Proof.
  split; [split; [reflexivity|repeat (constructor; [split; [discriminate|split; discriminate]|]); constructor]|].
  split; [by_eval|]. split; [apply by_test_neq; vm_compute; reflexivity|].
  split; [reflexivity|]. split; [|cbv; discriminate]. exists 10%nat, (s2b " x"). reflexivity.
Qed.

(** ** C63 *)
Theorem C63_page : forall dot addr d u omit ideo sen m mode, wf_dict d -> wf_udict u -> wf_data d -> page_mode m mode ->
  exists ts g rs svg, analyze ideo (Tokenizer d u false) sen mode = Ok ts /\
    graph_text addr ideo (Tokenizer d u omit) sen mode = Ok g /\
    serve_demo dot addr ideo (Tokenizer d u omit) sen m = Ok (rs, svg) /\
    Forall2 row (no_markers ts) rs /\ from_svg (dot g) svg.
Proof. exact demo_page. Qed.
Print Assumptions C63_page.
Example C63_example : page_mode (s2b "Extended") mode_search /\
  serve_demo (fun _ => s2b "<?xml ?><svg>..</svg>") (fun _ => []) ex_ideo (Tokenizer ex_dict (Some ex_udict) true) (s2b "東a") (s2b "Extended") =
  Ok ([Rec (s2b "東") (s2b "名詞,一般") (s2b "東") (s2b "ヒガシ") (s2b "*"); Rec (s2b "a") (s2b "名詞,一般") (s2b "*") (s2b "*") (s2b "*")], s2b "<svg>..</svg>").
Proof. split; [constructor|by_eval]. Qed.

(** ** C46 *)
(** Whatever the graph, the handler hangs if dot ends before it has read all of it. *)
Theorem C46_refuted : forall cap buf addr ss, (1 <= cap)%nat -> (1 <= buf)%nat ->
  exists s, many (demo_step cap buf) (demo_start (map (@length byte) (dot_writes addr ss))) s /\
    stuck (demo_step cap buf) s /\ dm_p s = PGone /\ dm_h s <> HDone.
Proof. exact graph_hangs. Qed.
Print Assumptions C46_refuted.
(** What the handler writes is the graph of C18, C19 and C61. *)
Theorem C46_writes_partial : forall addr ss, concat (dot_writes addr ss) = dot_text addr ss.
Proof. exact dot_writes_ok. Qed.
Print Assumptions C46_writes_partial.
(** Every execution is finite; those that end without an answer have lost the process early. *)
Theorem C46_finite_partial : forall cap buf, no_infinite (demo_step cap buf).
Proof. exact demo_finite. Qed.
Print Assumptions C46_finite_partial.
Theorem C46_ends_partial : forall cap buf writes s, (1 <= buf)%nat ->
  many (demo_step cap buf) (demo_start writes) s -> stuck (demo_step cap buf) s ->
  dm_p s = PGone /\ (dm_h s = HDone \/ dm_c s = CEnded false /\ exists n l, dm_h s = HWriting n l /\ (1 <= n)%nat).
Proof. exact demo_ends. Qed.
Print Assumptions C46_ends_partial.
(** If dot reads its whole input, the handler answers. *)
Theorem C46_reads_all_partial : forall cap buf, (1 <= cap)%nat -> (1 <= buf)%nat ->
  no_infinite (reads_all cap buf) /\
  forall writes s, many (reads_all cap buf) (demo_start writes) s -> stuck (reads_all cap buf) s -> dm_h s = HDone /\ dm_c s = CEnded true.
Proof. exact reads_all_answers. Qed.
Print Assumptions C46_reads_all_partial.
Example C46_example : exists s, many (reads_all 2 3) (demo_start [4; 1]%nat) s /\ dm_h s = HDone.
Proof. exact reads_all_example. Qed.

(** ** C47 *)
Theorem C47_returns_partial : forall s, many serve_step serve_start s ->
  (sv_main s = MReturn false -> sv_cancelled s = true) /\
  (sv_main s = MReturn true -> sv_l s = LSent) /\
  (sv_main s = MSelect -> sv_cancelled s = true -> exists t, serve_step s t /\ sv_main t = MReturn false) /\
  (sv_main s = MSelect -> sv_l s = LFailed -> exists t, serve_step s t /\ sv_main t = MReturn true) /\
  (sv_main s = MSelect -> sv_cancelled s = false -> sv_l s = LServing -> forall t, serve_step s t -> sv_main t = MSelect).
Proof. exact serve_returns. Qed.
Print Assumptions C47_returns_partial.
(** A request is answered, then the listener fails and the command returns an error; or the command is cancelled first. *)
Example C47_example :
  many serve_step serve_start (Serve (MReturn true) LSent false 1) /\ many serve_step serve_start (Serve MSelect LServing true 1) /\ many serve_step serve_start (Serve (MReturn false) LServing true 1).
Proof.
  split; [|split]; (eapply many_step; [apply ss_answer|]).
  - eapply many_step; [apply ss_fail|]. eapply many_step; [apply ss_error|apply many_refl].
  - eapply many_step; [apply ss_cancel|apply many_refl].
  - eapply many_step; [apply ss_cancel|]. eapply many_step; [apply ss_done|apply many_refl].
Qed.
(** After the command has returned nil any number of requests may still be answered. *)
Theorem C47_refuted : forall k, exists s t, many serve_step serve_start s /\ sv_main s = MReturn false /\
  many serve_step s t /\ sv_answered t = (sv_answered s + k)%nat.
Proof. exact serves_on. Qed.
Print Assumptions C47_refuted.
(** The goroutine of the listener may stay behind at its send for ever. *)
Theorem C47_leak_refuted : exists s, many serve_step serve_start s /\ sv_main s = MReturn false /\ sv_l s = LFailed /\ stuck serve_step s.
Proof. exact listener_blocked. Qed.
Print Assumptions C47_leak_refuted.
