(** C126: the time that tokenize takes and the text that it writes are linear in the input. *)
From Verif Require Import Example Work CmdWork CmdJsonWork CmdExamples QuotaBusy CmdRuns SpecCmd.
Open Scope nat_scope.

(** ** C126 *)
(** For each dictionary there is one factor for all inputs: the steps of all the calls of Analyze together are at most
    that many times the bytes of the input. *)
Theorem C126_time : forall d u, wf_dict d -> wf_udict u -> wf_data d -> exists a, forall w args o mode r t1 t2 t3,
  tok_args args o -> tok_uses w o d t1 -> user_uses w (to_udict o) u t2 -> input_uses w (to_file o) r t3 -> mode_of (to_mode o) mode ->
  exists tr texts err r', tok_run w args = (tr, Ok (option_map XScan err)) /\
    scan_texts (if to_split o then scan_sentences default_splitter else scan_lines) r = Ok (texts, err, r') /\
    list_sum (map (fun text => Work.steps (t_analyze (w_ideo w) (Tokenizer d u false) text mode)) texts) <= a * length (rd_rest r).
Proof. exact tok_time. Qed.
Print Assumptions C126_time.
(** And so is what is printed, as text or as JSON. *)
Theorem C126_output : forall d u, wf_dict d -> wf_udict u -> wf_data d -> exists a, forall w args o mode r t1 t2 t3,
  tok_args args o -> tok_uses w o d t1 -> user_uses w (to_udict o) u t2 -> input_uses w (to_file o) r t3 -> mode_of (to_mode o) mode ->
  length (outs (fst (tok_run w args))) <= a * length (rd_rest r).
Proof. exact tok_written. Qed.
Print Assumptions C126_output.
(** sentence prints at most two bytes for each that it reads, whatever the input. *)
Theorem C126_sentence : forall w args file r t, sen_args args file -> input_uses w file r t ->
  length (outs (fst (sen_run w args))) <= 2 * length (rd_rest r).
Proof. exact sen_output. Qed.
Print Assumptions C126_sentence.

(** Twice the input, twice the output. *)
Definition the_lines (n : nat) : bytes := concat (repeat (s2b "a" ++ [x0a]) n).
Example C126_example :
  map (fun n => length (outs (fst (tok_run (ex_world (the_lines n)) [])))) [0; 1; 2; 4] = [0; 20; 40; 80] /\
  map (fun n => length (outs (fst (tok_run (ex_world (the_lines n)) [s2b "-json"])))) [0; 1; 2; 4] = [0; 167; 334; 668] /\
  map (fun n => length (outs (fst (sen_run (ex_world (the_lines n)) [])))) [0; 1; 2; 4] = [0; 2; 3; 6] /\
  length (outs (fst (sen_run (ex_world (s2b "a")) []))) = 2.
Proof. split; [by_eval|]. split; [by_eval|]. split; by_eval. Qed.
Example C126_met : exists o, tok_args [s2b "-json"] o /\ to_json o = true /\ tok_uses (ex_world (the_lines 4)) o ex_dict [ESysDict (s2b "ipa") false] /\
    user_uses (ex_world (the_lines 4)) (to_udict o) None [] /\ input_uses (ex_world (the_lines 4)) (to_file o) (w_stdin (ex_world (the_lines 4))) [] /\ mode_of (to_mode o) mode_normal.
Proof.
  exists (tok_set tok_default (s2b "json", VBool true)). split; [apply OptFacts.tok_parse_ok; reflexivity|]. split; [reflexivity|].
  split; [right; split; [reflexivity|]; split; [reflexivity|]; left; auto|]. split; [left; repeat split; reflexivity|]. split; [left; repeat split; reflexivity|left; split; reflexivity].
Qed.
