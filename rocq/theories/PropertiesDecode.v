(** Property theorems: the request body of the tokenize endpoint (cmd/server/api.go, encoding/json). *)
From Verif Require Import Check SpecDecode SpecText ServerFacts TokFacts AnalyzeFacts TokenFacts Example DecodeServe.
Open Scope N_scope.

(** ** C102 *)
Theorem C102_total : forall printable body, exists r, json_decode printable body = Ok r.
Proof. exact decode_ok. Qed.
Print Assumptions C102_total.
Theorem C102_understands : forall printable body r, the_decoder printable body = inl r <-> body_asks body r.
Proof. exact decode_asks. Qed.
Print Assumptions C102_understands.
Theorem C102_one : forall body r1 r2, body_asks body r1 -> body_asks body r2 -> r1 = r2.
Proof. exact asks_one. Qed.
Print Assumptions C102_one.
Theorem C102_tokens : forall printable d u omit ideo newer body sen m mode,
  wf_dict d -> wf_udict u -> wf_data d -> body_asks body (Request sen m) -> sen <> [] -> request_mode m mode ->
  exists ts tds r, analyze ideo (Tokenizer d u omit) sen mode = Ok ts /\
    serve_tokenize (the_decoder printable) newer ideo (Tokenizer d u omit) body = Ok r /\
    rs_status r = 200%Z /\ rs_type r = s2b "application/json" /\
    Forall2 (fun tk td => new_token_data tk = Ok td) (no_markers ts) tds /\ tds <> [] /\
    json_text (rs_body r) (JObj [(s2b "status", JBool true); (s2b "tokens", JArr (map token_value tds))]).
Proof. exact asked_tokens. Qed.
Print Assumptions C102_tokens.
Theorem C102_empty : forall printable t ideo newer body m, body_asks body (Request [] m) ->
  exists r, serve_tokenize (the_decoder printable) newer ideo t body = Ok r /\ rs_status r = 200%Z /\ rs_type r = s2b "application/json" /\
    json_text (rs_body r) (JObj [(s2b "status", JBool true); (s2b "tokens", JArr [])]).
Proof. exact asked_empty. Qed.
Print Assumptions C102_empty.
Theorem C102_others : forall printable newer ideo t body, (forall r, ~ body_asks body r) ->
  exists r, serve_tokenize (the_decoder printable) newer ideo t body = Ok r /\ rs_status r = 400%Z /\ rs_type r = s2b "text/plain; charset=utf-8".
Proof. exact not_asked. Qed.
Print Assumptions C102_others.
(** What is analysed is UTF-8, whatever bytes the body has. *)
Theorem C102_utf8 : forall body sen m, body_asks body (Request sen m) -> valid_utf8 sen = true /\ valid_utf8 m = true.
Proof. exact asks_valid. Qed.
Print Assumptions C102_utf8.
(** The contract that C39, C59, C86 and C100 put on the decoder. *)
Theorem C102_contract : forall printable, json_decoder (the_decoder printable).
Proof. exact decoder_contract. Qed.
Print Assumptions C102_contract.
Definition ex_asked : list (bytes * request) :=
  [(s2b " {""sentence"":""x"" , ""sentence"": ""東😀\ud83d\t"", ""MODE"":""Search"",""mode"":null,""x"":[1e9,{},-0.5]} trailing",
    Request (s2b "東😀�" ++ [x09]) (s2b "Search"));
   (s2b "null", Request [] []); (s2b "{}{", Request [] []);
   ([x7b; x22] ++ s2b "ſEntence" ++ [x22; x3a; x22; xff; x41; xe3; x81; x22; x7d], Request (s2b "�A��") [])].
Example C102_example :
  sober ascii_only /\ Forall (fun br => body_asks (fst br) (snd br)) ex_asked /\ request_mode (s2b "Search") mode_search /\
  forall body, In body [s2b "{""sentence"":""東\u20""}"; s2b "{""sentence"":""a"",}"; s2b "{""sentence"":01}"; s2b "[]"; []; s2b "{""x"":[1,}"] -> forall r, ~ body_asks body r.
Proof.
  split. { intros r [H|H]; unfold ascii_only; lia. }
  split. { repeat (apply Forall_cons; [apply asked_here; vm_compute; reflexivity|]). apply Forall_nil. }
  split; [constructor|].
  intros body H. apply no_request. repeat (destruct H as [<-|H]; [vm_compute; reflexivity|]). destruct H.
Qed.

(** ** C59 *)
(** Single quotes for double ones, a forgotten colon, a wrong digit: the answer is no JSON. *)
Theorem C59_answer_refuted : forall body, In body [s2b "{'sentence':""a""}"; s2b "{""sentence"" ""a""}"; s2b "{""sentence"":""\u12G4""}"] ->
  forall printable newer ideo t, sober printable -> exists r, serve_tokenize (the_decoder printable) newer ideo t body = Ok r /\ rs_status r = 400%Z /\ forall v, ~ json_text (rs_body r) v.
Proof. exact answer_refuted. Qed.
Print Assumptions C59_answer_refuted.
(** Every body that is no request is answered with 400; the answer is JSON unless the first byte that
    cannot be part of a value is one of those, or comes within \u; and it says what is wrong. *)
Theorem C59_answer_partial : forall printable newer ideo t body, sober printable -> (forall r, ~ body_asks body r) ->
  exists r, serve_tokenize (the_decoder printable) newer ideo t body = Ok r /\ rs_status r = 400%Z /\
    ((exists v, json_text (rs_body r) v) <-> ~ exists p c, offends body p c /\ (unquotable c \/ digit_due p)) /\
    (forall v, json_text (rs_body r) v -> exists m, v = JObj [(s2b "status", JBool false); (s2b "error", JStr m)] /\ complains body m).
Proof. exact wrong_answers. Qed.
Print Assumptions C59_answer_partial.
Definition ex_answer (body : string) : res response :=
  serve_tokenize (the_decoder ascii_only) false ex_ideo (Tokenizer ex_dict (Some ex_udict) false) (s2b body).
Definition ex_said (text : string) : res response := Ok (Response 400 (s2b "text/plain; charset=utf-8") (s2b text ++ [x0a])).
Example C59_answer_example :
  (forall r, ~ body_asks (s2b "{""mode"":[],""sentence"":1}") r) /\
  ex_answer "{""mode"":[],""sentence"":1}" = ex_said "{""status"":false,""error"":""json: cannot unmarshal array into Go struct field TokenizerRequestBody.mode of type string""}" /\
  ex_answer "{""sentence"":""a"",}" = ex_said "{""status"":false,""error"":""invalid character '}' looking for beginning of object key string""}" /\
  ex_answer " " = ex_said "{""status"":false,""error"":""EOF""}" /\
  ex_answer "{""sentence"":" = ex_said "{""status"":false,""error"":""unexpected EOF""}" /\
  ex_answer "{'sentence':""a""}" = ex_said "{""status"":false,""error"":""invalid character '\'' looking for beginning of object key string""}" /\
  ex_answer "{""sentence"":""\u12G4""}" = ex_said "{""status"":false,""error"":""invalid character 'G' in \u hexadecimal character escape""}" /\
  offends (s2b "{""sentence"":""a"",}") (s2b "{""sentence"":""a"",") x7d /\ ~ unquotable x7d /\ ~ digit_due (s2b "{""sentence"":""a"",") /\
  offends (s2b "{'sentence':""a""}") (s2b "{") x27 /\ unquotable x27 /\
  offends (s2b "{""sentence"":""\u12G4""}") (s2b "{""sentence"":""\u12") x47 /\ digit_due (s2b "{""sentence"":""\u12").
Proof.
  split. { apply no_request. vm_compute. reflexivity. }
  split; [by_eval|]. split; [by_eval|]. split; [by_eval|]. split; [by_eval|]. split; [by_eval|]. split; [by_eval|].
  split. { apply (@offends_here (s2b "{""sentence"":""a"",") _ nil); vm_compute; reflexivity. }
  split. { intros [H|[H|[H|(H & _)]]]; discriminate H. }
  split. { apply (@due_here (s2b "{""sentence"":""a"",") false). vm_compute. reflexivity. }
  split. { apply (@offends_here (s2b "{") _ (s2b "sentence':""a""}")); vm_compute; reflexivity. }
  split. { right. left. reflexivity. }
  split. { apply (@offends_here (s2b "{""sentence"":""\u12") _ (s2b "4""}")); vm_compute; reflexivity. }
  apply (@due_here (s2b "{""sentence"":""\u12") true). vm_compute. reflexivity.
Qed.
(** JSON or not: the text names the first byte that cannot be part of a value and what was expected
    instead of it, and there is one way only to tell what was expected. *)
Theorem C59_text : forall printable newer ideo t body p c, sober printable -> offends body p c -> exists shown context,
  serve_tokenize (the_decoder printable) newer ideo t body =
    Ok (Response 400 (s2b "text/plain; charset=utf-8") (s2b "{""status"":false,""error"":""invalid character '" ++ shown ++ s2b "' " ++ s2b context ++ s2b """}" ++ [x0a])) /\
  shown_as c shown /\ looking p c context.
Proof. exact offence_text. Qed.
Print Assumptions C59_text.
Theorem C59_phrase : forall p c context context', looking p c context -> looking p c context' -> context = context'.
Proof. exact looking_one. Qed.
Print Assumptions C59_phrase.
Definition ex_complaint (text : string) : res response := ex_said ("{""status"":false,""error"":""invalid character " ++ text ++ """}").
Example C59_text_example :
  offends (s2b "{""a"":[1.x]}") (s2b "{""a"":[1.") x78 /\
  ex_answer "{""a"":[1.x]}" = ex_complaint "'x' after decimal point in numeric literal" /\
  ex_answer "{""a"":-x}" = ex_complaint "'x' in numeric literal" /\
  ex_answer "{""a"":1e+x}" = ex_complaint "'x' in exponent of numeric literal" /\
  ex_answer "{""a"":nul!}" = ex_complaint "'!' in literal null (expecting 'l')" /\
  ex_answer "{""a"":tru1}" = ex_complaint "'1' in literal true (expecting 'e')" /\
  ex_answer "{""a"":[1 2]}" = ex_complaint "'2' after array element" /\
  ex_answer "{""a"":1 ]" = ex_complaint "']' after object key:value pair" /\
  ex_answer "{""a"" 1}" = ex_complaint "'1' after object key" /\
  ex_answer "{""a"":}" = ex_complaint "'}' looking for beginning of value" /\
  ex_answer "{""\x""}" = ex_complaint "'x' in string escape code" /\
  serve_tokenize (the_decoder ascii_only) false ex_ideo (Tokenizer ex_dict (Some ex_udict) false) (s2b "{""" ++ [x0a]) = ex_complaint "'\n' in string literal" /\
  looking (s2b "{""a"":[1.") x78 "after decimal point in numeric literal".
Proof.
  split. { apply (@offends_here (s2b "{""a"":[1.") _ (s2b "]}")); vm_compute; reflexivity. }
  repeat (split; [by_eval|]).
  apply looking_here. vm_compute. reflexivity.
Qed.
