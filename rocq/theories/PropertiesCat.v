(** C113: texts one after another. *)
From Verif Require Import Example CmdExamples Check OptFacts SentenceRuns CatFacts.
From Verif Require Import SpecCat.
Open Scope N_scope.

(** kagome tokenize of two files one after the other prints what it prints of the one and then of the other, as text and as JSON. *)
Theorem C113_lines : forall w d u mode json a1 r1 a2 r2 a3 r3, wf_dict d -> wf_udict u -> wf_data d ->
  alike w d u mode json a1 r1 -> alike w d u mode json a2 r2 -> alike w d u mode json a3 r3 ->
  lively r1 -> lively r2 -> lively r3 -> rd_end r1 = EOF -> rd_end r2 = EOF -> rd_end r3 = EOF ->
  rd_rest r3 = rd_rest r1 ++ rd_rest r2 -> finished (rd_rest r1) -> short_lines (rd_rest r3) ->
  exists tr1 tr2 tr3, tok_run w a1 = (tr1, Ok None) /\ tok_run w a2 = (tr2, Ok None) /\ tok_run w a3 = (tr3, Ok None) /\ outs tr3 = outs tr1 ++ outs tr2.
Proof. exact tokenize_cat. Qed.
Print Assumptions C113_lines.
(** The sentences of two texts one after the other, of which the first ends with a delimiter and the second does not begin with what may follow one. *)
Theorem C113_sentences : forall s r1 t1 r1' r2 t2 r2' r3 t3 r3',
  scan_texts (scan_sentences s) r1 = Ok (t1, None, r1') -> scan_texts (scan_sentences s) r2 = Ok (t2, None, r2') -> scan_texts (scan_sentences s) r3 = Ok (t3, None, r3') ->
  fair s r1 r1' -> fair s r2 r2' -> fair s r3 r3' -> rd_rest r3 = rd_rest r1 ++ rd_rest r2 -> valid_utf8 (rd_rest r1) = true -> closed s (rd_rest r1) -> opening s (rd_rest r2) ->
  nonempty t3 = nonempty t1 ++ nonempty t2.
Proof. exact split_cat. Qed.
Print Assumptions C113_sentences.

Definition three_world : world :=
  let w := ex_world [] in
  World (w_load w) (w_ipa w) (w_uni w) (w_user w)
    (fun p => if bytes_eqb p (s2b "a") then Some (brisk_input (s2b "東に" ++ [x0d; x0a; x0a])) else if bytes_eqb p (s2b "b") then Some (brisk_input (s2b "ab")) else
              if bytes_eqb p (s2b "ab") then Some (brisk_input (s2b "東に" ++ [x0d; x0a; x0a] ++ s2b "ab")) else None)
    (w_create w) (w_stdin w) (w_ideo w) (w_addr w) (w_newer w) (w_serve w).
Lemma three_alike p r : w_open three_world p = Some r -> p <> [] -> tok_args [s2b "-file"; p] (TokOpt p [] [] (s2b "ipa") false (s2b "normal") false false) ->
  alike three_world ex_dict None mode_normal false [s2b "-file"; p] r.
Proof.
  intros E N A. eapply alike_intro; [exact A| | | | |reflexivity|reflexivity].
  - right. split; [reflexivity|]. split; [reflexivity|]. left. auto.
  - left. auto.
  - right. cbn [to_file]. auto.
  - left. auto.
Qed.
Example C113_lines_example :
  alike three_world ex_dict None mode_normal false [s2b "-file"; s2b "a"] (brisk_input (s2b "東に" ++ [x0d; x0a; x0a])) /\
  alike three_world ex_dict None mode_normal false [s2b "-file"; s2b "b"] (brisk_input (s2b "ab")) /\
  alike three_world ex_dict None mode_normal false [s2b "-file"; s2b "ab"] (brisk_input (s2b "東に" ++ [x0d; x0a; x0a] ++ s2b "ab")) /\
  finished (s2b "東に" ++ [x0d; x0a; x0a]) /\
  printed (tok_run three_world [s2b "-file"; s2b "a"]) = Ok (s2b "東" ++ [x09] ++ s2b "名詞,一般,東,ヒガシ" ++ [x0a] ++ s2b "に" ++ [x09] ++ s2b "助詞,に" ++ [x0a] ++ s2b "EOS" ++ [x0a] ++ s2b "EOS" ++ [x0a], true).
Proof.
  split; [apply three_alike; [reflexivity|discriminate|apply tok_parse_ok; reflexivity]|].
  split; [apply three_alike; [reflexivity|discriminate|apply tok_parse_ok; reflexivity]|].
  split; [apply three_alike; [reflexivity|discriminate|apply tok_parse_ok; reflexivity]|].
  split; [right; exists (s2b "東に" ++ [x0d; x0a]); reflexivity|by_eval].
Qed.
Definition whole (t : bytes) : reader := Reader t [] EOF [].
Example C113_sentences_example : let a := s2b "あ い。" in let b := s2b "う。え" in closed default_splitter a /\ opening default_splitter b /\ valid_utf8 a = true /\ valid_utf8 (a ++ b) = true /\
  (exists x, scan_texts (scan_sentences default_splitter) (whole (a ++ b)) = Ok x /\ (fst x, rd_log (snd x)) = ([s2b "あい。"; s2b "う。"; s2b "え"], None, [a ++ b; []])) /\
  one_piece (a ++ b) [a ++ b; []].
Proof.
  split; [exists (removelast (segs (s2b "あ い。"))), (12290, s2b "。"); split; [by_eval|split; [left; reflexivity|intros (_ & H); discriminate H]]|].
  split; [unfold opening; replace (segs (s2b "う。え")) with ((12358, s2b "う") :: segs (s2b "。え")) by (symmetry; by_eval); intros [H|[H|(_ & H)]]; [cbn in H; intuition discriminate|cbn in H; intuition discriminate|discriminate H]|].
  split; [reflexivity|]. split; [reflexivity|]. split; [apply run_ex; vm_compute; reflexivity|]. constructor; [right; reflexivity|constructor; [left; reflexivity|constructor]].
Qed.
