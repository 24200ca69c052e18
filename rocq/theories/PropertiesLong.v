(** C125: however long its input, tokenize holds little of it. *)
From Verif Require Import Example CmdExamples QuotaBusy CmdRuns LongFacts SpecLong SpecQuota.
Open Scope nat_scope.

(** ** C125 *)
(** Reading line by line: with every read, what had been read and not yet answered (C60: what follows the
    last line feed) and what is read now make at most 64 KiB together. *)
Theorem C125_ahead : forall w d u, wf_dict d -> wf_udict u -> wf_data d -> forall args o mode r t1 t2 t3,
  tok_args args o -> tok_uses w o d t1 -> user_uses w (to_udict o) u t2 -> input_uses w (to_file o) r t3 -> mode_of (to_mode o) mode ->
  to_split o = false -> rd_log r = [] ->
  exists tr x, tok_run w args = ((t1 ++ t2 ++ t3) ++ tr, x) /\
  forall ta c tb, tr = ta ++ ERead c :: tb -> forall raw rest, whole_lines (reads ta) raw rest -> short (rest ++ c).
Proof. exact tok_ahead. Qed.
Print Assumptions C125_ahead.
(** Line by line or sentence by sentence, no text that is analyzed is longer than that. *)
Theorem C125_texts : forall w d u, wf_dict d -> wf_udict u -> wf_data d -> forall args o mode r t1 t2 t3,
  tok_args args o -> tok_uses w o d t1 -> user_uses w (to_udict o) u t2 -> input_uses w (to_file o) r t3 -> mode_of (to_mode o) mode ->
  exists tr texts err r' blocks, tok_run w args = (tr, Ok (option_map XScan err)) /\
    scan_texts (if to_split o then scan_sentences default_splitter else scan_lines) r = Ok (texts, err, r') /\ outs tr = concat blocks /\
    Forall2 (fun text b => exists ts, analyze (w_ideo w) (Tokenizer d u false) text mode = Ok ts /\ block (to_json o) ts b) texts blocks /\
    Forall short texts.
Proof. exact tok_short. Qed.
Print Assumptions C125_texts.
(** So for each dictionary there is a number of nodes that such texts, however many, never exceed,
    and one lattice serves them all. *)
Theorem C125_nodes : forall d u, wf_dict d -> wf_udict u -> exists a, forall g0 ideo omit mode texts, left_over g0 -> Forall short texts ->
  forall x, frugal_steps (start g0 ideo [calls (Tokenizer d u omit) mode texts]) x ->
  pooled_nodes x <= Nat.max (length (g_node_pool g0)) (a * N.to_nat 65537) /\ pooled_lats x <= Nat.max (length (g_lat_pool g0)) 1.
Proof. exact tok_nodes. Qed.
Print Assumptions C125_nodes.
(** No line printed by sentence is longer either; nor any text of a Scanner with any splitter. *)
Theorem C125_printed : forall w args file r t, sen_args args file -> input_uses w file r t ->
  forall ls, lines_of (outs (fst (sen_run w args))) ls -> Forall short ls.
Proof. exact sen_short. Qed.
Print Assumptions C125_printed.
Theorem C125_sentences : forall s r toks err r', scan_texts (scan_sentences s) r = Ok (toks, err, r') -> Forall short toks.
Proof. intros s r toks err r'. exact (texts_short (@SentenceFacts.sentences_contract s) (@sentences_modest s)). Qed.
Print Assumptions C125_sentences.

(** Three lines that do not fit the first buffer together: it is refilled, and grows. *)
Definition long_line (n : N) : bytes := N.recursion (@nil byte) (fun _ l => x61 :: l) n.
Definition long_file : bytes := long_line 1500 ++ [x0a] ++ long_line 1500 ++ [x0a] ++ long_line 2500.
Definition sizes (l : list bytes) : list N := map (fun b => N.of_nat (length b)) l.
Example C125_example : (let* x := scan_texts scan_lines (Reader long_file [] EOF []) in let '(toks, _, r) := x in Ok (sizes toks, sizes (rd_log r))) =
  Ok ([1500; 1500; 2500]%N, [4096; 1406; 0]%N).
Proof. by_eval. Qed.
(** The command itself: two lines in three reads; "bc" waits while the line feed is read. *)
Definition two_lines : world := ex_world (s2b "a" ++ [x0a] ++ s2b "bc" ++ [x0a]).
Example C125_met : (exists o, tok_args [] o /\ to_split o = false /\ tok_uses two_lines o ex_dict [ESysDict (s2b "ipa") false] /\
    user_uses two_lines (to_udict o) None [] /\ input_uses two_lines (to_file o) (w_stdin two_lines) [] /\ rd_log (w_stdin two_lines) = []) /\
  map (fun e => match e with ERead b => b | _ => s2b "-" end) (fst (tok_run two_lines [])) = [s2b "-"; s2b "a" ++ [x0a] ++ s2b "bc"; s2b "-"; []; [x0a]; s2b "-"].
Proof.
  split; [|by_eval]. exists tok_default. split; [apply OptFacts.tok_parse_ok; reflexivity|]. split; [reflexivity|].
  split; [right; split; [reflexivity|]; split; [reflexivity|]; left; auto|]. split; [left; repeat split; reflexivity|]. split; [left; repeat split; reflexivity|reflexivity].
Qed.
