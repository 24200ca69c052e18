(** Property theorems: the time splitting takes (SplitWork.v: sentence_splitter.go with its steps counted, run by bufio.Scanner). *)
From Verif Require Import SplitWork WorkFacts SplitWorkFacts Check.
Open Scope nat_scope.

(** ** C118 *)
(** The counted program is the program. *)
Theorem C118_same : forall s r, result (t_scan_texts (t_scan_sentences s) r) = scan_texts (scan_sentences s) r.
Proof. exact same_texts. Qed.
Print Assumptions C118_same.
(** A call of ScanSentences that yields a sentence takes time linear in what it advances over; one that asks for more data
    takes time linear in the data it was given. *)
Theorem C118_call : forall s data at_eof data' adv tok, scan_sentences s data at_eof = Ok (data', adv, tok) ->
  steps (t_scan_sentences s data at_eof) <= 2 * (2 + length (sp_delim s) + length (sp_follower s)) * (match tok with Some _ => adv | None => length data end).
Proof.
  intros s data e d a t H. rewrite <- same_sentences in H. destruct (call_steps H) as (A & B). destruct t as [t|]; [apply A; discriminate|apply B; reflexivity].
Qed.
Print Assumptions C118_call.
(** A whole text: linear in its bytes, and in the buffer (64 KiB) for each time the reader is asked. *)
Theorem C118_linear : forall s r toks err r', scan_texts (scan_sentences s) r = Ok (toks, err, r') ->
  steps (t_scan_texts (t_scan_sentences s) r) <=
  2 * (2 + length (sp_delim s) + length (sp_follower s)) * (length (rd_rest r) + N.to_nat 65536 * (length (rd_log r') - length (rd_log r) + 1)).
Proof. exact texts_linear. Qed.
Print Assumptions C118_linear.
(** Without SkipWhiteSpace the longest sentence takes the place of the buffer. *)
Theorem C118_short : forall s r toks err r', sp_skip s = false -> scan_texts (scan_sentences s) r = Ok (toks, err, r') ->
  steps (t_scan_texts (t_scan_sentences s) r) <=
  2 * (2 + length (sp_delim s) + length (sp_follower s)) * (length (rd_rest r) + 4 * Z.to_nat (sp_max s) * (length (rd_log r') - length (rd_log r) + 1)).
Proof. exact texts_short. Qed.
Print Assumptions C118_short.

Fixpoint times (k : nat) (s : bytes) : bytes := match k with O => [] | S k' => s ++ times k' s end.
Definition no_skip : splitter := Splitter (sp_delim default_splitter) (sp_follower default_splitter) false (sp_dlf default_splitter) 5.
Definition counts (s : splitter) (r : reader) : res (nat * nat * N) :=
  let* x := scan_texts (scan_sentences s) r in
  let '(toks, err, r') := x in Ok (length toks, length (rd_log r'), N.of_nat (steps (t_scan_texts (t_scan_sentences s) r))).
(** (sentences, Reads, steps).  Twice the text takes twice the steps. *)
Example C118_example :
  counts default_splitter (Reader (times 10 (s2b "あ。 い」。")) [] EOF []) = Ok (20, 2, 583%N) /\
  counts default_splitter (Reader (times 20 (s2b "あ。 い」。")) [] EOF []) = Ok (40, 2, 1183%N).
Proof. split; by_eval. Qed.
(** Read one byte at a time, an unfinished sentence is gone through at every Read, so the Reads cannot be left out of the
    bound; where sentences are short this too is linear. *)
Example C118_reads :
  counts default_splitter (Reader (times 10 (s2b "ab")) [] EOF []) = Ok (1, 2, 280%N) /\
  counts default_splitter (Reader (times 10 (s2b "ab")) (repeat (1, false) 20) EOF []) = Ok (1, 21, 1610%N) /\
  counts default_splitter (Reader (times 20 (s2b "ab")) (repeat (1, false) 40) EOF []) = Ok (1, 41, 6020%N) /\
  sp_skip no_skip = false /\
  counts no_skip (Reader (times 20 (s2b "ab")) (repeat (1, false) 40) EOF []) = Ok (8, 41, 840%N) /\
  counts no_skip (Reader (times 40 (s2b "ab")) (repeat (1, false) 80) EOF []) = Ok (16, 81, 1680%N).
Proof. split; [by_eval|]. split; [by_eval|]. split; [by_eval|]. split; [reflexivity|]. split; by_eval. Qed.
