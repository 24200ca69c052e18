(** C128: how long the answers of the tokenize endpoint are. *)
From Verif Require Import Check SpecServer SpecCmd TokFacts AnalyzeFacts TokenFacts Example ServerFacts ApiWork DecodeServe ApiBody.
Open Scope nat_scope.

(** ** C128 *)
(** For each dictionary there is one factor: a sentence of n bytes is answered with at most that many times n log n bytes (n numbers
    below n have n log n digits). *)
Theorem C128_answer : forall d u, wf_dict d -> wf_udict u -> wf_data d -> exists a, forall omit ideo newer decode body req r,
  decode body = inl req -> serve_tokenize decode newer ideo (Tokenizer d u omit) body = Ok r ->
  let n := length (rq_input req) in length (rs_body r) <= a * (n * (Nat.log2 n + 1) + 1).
Proof. exact answer_size. Qed.
Print Assumptions C128_answer.
(** In terms of the body, with the decoder of Decode.v: all bodies, also those that are no requests. *)
Theorem C128_body : forall d u, wf_dict d -> wf_udict u -> wf_data d -> exists a, forall printable omit ideo newer body r,
  serve_tokenize (the_decoder printable) newer ideo (Tokenizer d u omit) body = Ok r ->
  let n := length body in length (rs_body r) <= a * (n * (Nat.log2 n + 1) + 1).
Proof. exact body_size. Qed.
Print Assumptions C128_body.
(** A body that is no request is answered with an error of at most 260 bytes, however long it is. *)
Theorem C128_error : forall printable ideo newer t body r, (forall req, ~ body_asks body req) ->
  serve_tokenize (the_decoder printable) newer ideo t body = Ok r -> length (rs_body r) <= 260.
Proof. exact wrong_size. Qed.
Print Assumptions C128_error.
(** A sentence is at most three times as long as the body that asks for it. *)
Theorem C128_sentence : forall body req, body_asks body req -> length (rq_input req) <= 3 * length body.
Proof. exact asked_size. Qed.
Print Assumptions C128_sentence.
(** ** C11 *)
(** The tokens which Extended mode makes of the runes of unknown words have numbers of entries for unknown words. *)
Theorem C11_runes : forall d u tk, wf_dict d -> wf_udict u -> wf_data d -> from_analyze d u tk -> is_marker tk = false -> t_class tk = DUMMY ->
  (0 <= t_id tk < Z.of_nat (length (d_unk_morphs d)))%Z.
Proof. intros d u tk Hd Hu Hw. exact (@rune_id d u Hd Hu Hw tk). Qed.
Print Assumptions C11_runes.
Example C11_runes_example :
  (let* ts := analyze ex_ideo (Tokenizer ex_dict None true) (s2b "ab") mode_extended in Ok (map (fun t => (t_surface t, t_class t, t_id t)) ts, length (d_unk_morphs ex_dict))) =
  Ok ([(s2b "a", DUMMY, 4%Z); (s2b "b", DUMMY, 4%Z)], 5).
Proof. by_eval. Qed.

Example C128_example : example_decoder quote_error (ex_body "abcd" "Extended") = inl (Request (s2b "abcd") (s2b "Extended")) /\
  map (fun s => match ex_response s "Extended" with Ok r => length (rs_body r) | _ => 0 end) [""; "a"; "ab"; "abcd"]%string = [27; 153; 280; 534].
Proof. split; [vm_compute; reflexivity|by_eval]. Qed.

(** Bytes that are not UTF-8 become three each; a long body that is no request gets a short answer. *)
Definition ex_junk : bytes := s2b "{""sentence"":""" ++ repeat xff 40 ++ s2b """}".
Example C128_met :
  the_decoder ascii_only ex_junk = inl (Request (concat (repeat (encode_rune 65533) 40)) []) /\
  length ex_junk = 55 /\ length (concat (repeat (encode_rune 65533) 40)) = 120 /\
  match serve_tokenize (the_decoder ascii_only) false ex_ideo (Tokenizer ex_dict None true) (repeat x5b 300) with Ok r => length (rs_body r) | _ => 0 end = 42.
Proof. repeat split; by_eval. Qed.
Example C128_error_met : forall req, ~ body_asks (repeat x5b 300) req.
Proof. apply no_request. by_eval. Qed.
