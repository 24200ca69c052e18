(** C55 for readers that cut runes. *)
From Verif Require Import SpecCuts SentenceRuns Check ValidCuts.
Import ListNotations.

(** Missing: sentences of MaxRuneLen bytes or more, and those right behind them ([C55_valid_refuted] shows one of each). The
    reads may end anywhere; io.ErrNoProgress is the error of a reader that returned nothing a hundred times. *)
Theorem C55_brief_partial : forall s r, sober s -> valid_utf8 (rd_rest r) = true ->
  exists toks err r', scan_texts (scan_sentences s) r = Ok (toks, err, r') /\ (err = Some ErrNoProgress \/ judged s toks).
Proof. intros s r H. exact (@cuts_lemma s H r). Qed.
Print Assumptions C55_brief_partial.
(** The splitter the package exports meets the condition; here four reads end inside a rune. *)
Example C55_brief_example : exists x,
  scan_texts (scan_sentences default_splitter) (Reader (s2b "あ い。 う") [(1, false); (4, false); (3, false); (1, false)]%nat EOF []) = Ok x /\
  (fst x, rd_log (snd x)) =
    ([s2b "あい。"; s2b "う"], None, [[xe3]; [x81; x82; x20; xe3]; [x81; x84; xe3]; [x80]; [x82; x20; xe3; x81; x86]; []]) /\
  sober default_splitter /\ valid_utf8 (s2b "あ い。 う") = true.
Proof.
  apply run_ex_and; [vm_compute; reflexivity|]. split; [|vm_compute; reflexivity].
  split; [|split; [|intros _]]; intros H; cbn in H; repeat (destruct H as [H|H]; [discriminate|]); exact H.
Qed.
(** Both halves of the condition are needed: with U+FFFD, or with a space that is skipped, as delimiter a brief first sentence
    ends inside a rune. *)
Example C55_sober_example :
  (exists x, scan_texts (scan_sentences (Splitter [rune_error] [] false false 128)) (Reader (s2b "あ") [(1, false)]%nat EOF []) = Ok x /\
    fst x = ([[xe3]; [x81; x82]], None)) /\
  (exists x, scan_texts (scan_sentences (Splitter [32%N] [] true false 128)) (Reader (x61 :: x0a :: s2b "あ") [(3, false)]%nat EOF []) = Ok x /\
    fst x = ([[x61; xe3]; [x81; x82]], None)).
Proof. split; apply run_ex; vm_compute; reflexivity. Qed.
