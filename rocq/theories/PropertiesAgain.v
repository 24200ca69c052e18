(** C109: splitting sentences that have been split, and printed one a line, leaves them alone. *)
From Verif Require Import CmdExamples Check OptFacts AgainFacts AgainCmd SentenceRuns.
From Verif Require Import SpecAgainCmd.
Open Scope N_scope.

(** The full statement would need no [settled]. *)
Theorem C109_again_partial : forall s r toks err r', sp_skip s = true -> solid_delims s -> rd_log r = [] -> valid_utf8 (rd_rest r) = true ->
  scan_texts (scan_sentences s) r = Ok (toks, err, r') -> whole_runes (rd_log r') -> settled s (nonempty toks) ->
  forall r2 toks2 r2', rd_rest r2 = print_lines toks -> rd_log r2 = [] -> scan_texts (scan_sentences s) r2 = Ok (toks2, None, r2') ->
    one_piece (rd_rest r2) (rd_log r2') \/ clean_cuts s (rd_log r2') -> nonempty toks2 = nonempty toks.
Proof. intros s r toks err r' K D L V E W St r2 toks2 r2' E2 L2 Er2 One. destruct (again_lemma K D L V E W E2 L2 Er2) as (H & _). exact (H One St). Qed.
Print Assumptions C109_again_partial.
(** And no others survive, when no empty line is printed before another sentence. *)
Theorem C109_changed_partial : forall s r toks err r', sp_skip s = true -> solid_delims s -> rd_log r = [] -> valid_utf8 (rd_rest r) = true ->
  scan_texts (scan_sentences s) r = Ok (toks, err, r') -> whole_runes (rd_log r') -> (exists m, toks = nonempty toks ++ repeat [] m) ->
  forall r2 toks2 r2', rd_rest r2 = print_lines toks -> rd_log r2 = [] -> scan_texts (scan_sentences s) r2 = Ok (toks2, None, r2') ->
    one_piece (rd_rest r2) (rd_log r2') -> ~ settled s (nonempty toks) -> nonempty toks2 <> nonempty toks.
Proof. intros s r toks err r' K D L V E W (m & Em) r2 toks2 r2' E2 L2 Er2 One St H. destruct (again_lemma K D L V E W E2 L2 Er2) as (_ & B). exact (St (B m One Em H)). Qed.
Print Assumptions C109_changed_partial.

(** kagome sentence | kagome sentence: the lines that are not empty. *)
Theorem C109_command_partial : forall w w' args args' file r t, sen_args args file -> input_uses w file r t -> rd_log r = [] -> valid_utf8 (rd_rest r) = true ->
  whole_runes (pieces (fst (sen_run w args))) -> sen_args args' [] -> rd_log (w_stdin w') = [] -> rd_rest (w_stdin w') = outs (fst (sen_run w args)) ->
  snd (sen_run w' args') = Ok None ->
  forall ls ls', lines_of (outs (fst (sen_run w args))) ls -> lines_of (outs (fst (sen_run w' args'))) ls' ->
  (one_piece (rd_rest (w_stdin w')) (pieces (fst (sen_run w' args'))) \/ clean_cuts default_splitter (pieces (fst (sen_run w' args'))) ->
   settled default_splitter (nonempty ls) -> nonempty ls' = nonempty ls) /\
  (one_piece (rd_rest (w_stdin w')) (pieces (fst (sen_run w' args'))) -> (exists m, ls = nonempty ls ++ repeat [] m) ->
   nonempty ls' = nonempty ls -> settled default_splitter (nonempty ls)).
Proof. exact again_cmd. Qed.
Print Assumptions C109_command_partial.

Definition whole_reader (t : bytes) : reader := Reader t [] EOF [].
(** The default splitter joins the lines of a heading and of what stands below it, and moves a bracket to the line above. *)
Theorem C109_again_refuted : ~ (forall r toks r', rd_log r = [] -> valid_utf8 (rd_rest r) = true -> one_piece (rd_rest r) (rd_log r') ->
  scan_texts (scan_sentences default_splitter) r = Ok (toks, None, r') ->
  forall r2 toks2 r2', rd_rest r2 = print_lines toks -> rd_log r2 = [] -> scan_texts (scan_sentences default_splitter) r2 = Ok (toks2, None, r2') ->
    one_piece (rd_rest r2) (rd_log r2') -> nonempty toks2 = nonempty toks).
Proof.
  intros H. specialize (H (whole_reader (s2b "a" ++ [x0a; x0a] ++ s2b "b")) [s2b "a"; s2b "b"] (Reader [] [] EOF [s2b "a" ++ [x0a; x0a] ++ s2b "b"; []])).
  specialize (H eq_refl). specialize (H ltac:(vm_compute; reflexivity)). specialize (H ltac:(constructor; [right; reflexivity|constructor; [left; reflexivity|constructor]])). specialize (H ltac:(vm_compute; reflexivity)).
  specialize (H (whole_reader (s2b "a" ++ [x0a] ++ s2b "b" ++ [x0a])) [s2b "ab"] (Reader [] [] EOF [s2b "a" ++ [x0a] ++ s2b "b" ++ [x0a]; []]) eq_refl eq_refl).
  specialize (H ltac:(vm_compute; reflexivity)). specialize (H ltac:(constructor; [right; reflexivity|constructor; [left; reflexivity|constructor]])). discriminate H.
Qed.
Print Assumptions C109_again_refuted.

(** Two sentences and a last one without a full stop, with line feeds between and within. *)
Definition again_text : bytes := s2b "東 に。" ++ [x0a] ++ s2b "a!" ++ [x0a; x0a] ++ s2b " b" ++ [x0a] ++ s2b "c".
Definition again_lines : list bytes := [s2b "東に。"; s2b "a!"; s2b "bc"].
Definition texts_of (t : bytes) : option (list bytes * option scan_err * list bytes) :=
  match scan_texts (scan_sentences default_splitter) (whole_reader t) with Ok (toks, e, r') => Some (toks, e, rd_log r') | _ => None end.
Example C109_example :
  (texts_of again_text = Some (again_lines, None, [again_text; []]) /\ settled default_splitter (nonempty again_lines)) /\
  (texts_of (print_lines again_lines) = Some (again_lines, None, [print_lines again_lines; []]) /\
   solid_delims default_splitter /\ whole_runes [again_text; []] /\ one_piece (print_lines again_lines) [print_lines again_lines; []]).
Proof.
  split; [split; [vm_compute; reflexivity|]|split; [vm_compute; reflexivity|]].
  - intros pre t u post E. unfold closed. destruct pre as [|p [|q [|x pre]]]; cbn in E.
    + injection E as <- <- <-. split; [left; apply Exists_exists; exists (12290, s2b "。"); vm_compute; split; auto 6|vm_compute; intuition discriminate].
    + injection E as _ <- <- <-. split; [left; apply Exists_exists; exists (33, s2b "!"); vm_compute; split; auto 6|vm_compute; intuition discriminate].
    + discriminate E.
    + destruct pre; discriminate E.
  - split; [repeat constructor|]. split; [repeat constructor|]. constructor; [right; reflexivity|constructor; [left; reflexivity|constructor]].
Qed.
(** The same lines read in pieces. *)
Example C109_pieces_example : exists x, scan_texts (scan_sentences default_splitter) (Reader (print_lines again_lines) [(10, false); (3, false); (5, false)]%nat EOF []) = Ok x /\
  (fst x, rd_log (snd x)) = (again_lines, None, [s2b "東に。" ++ [x0a]; s2b "a!" ++ [x0a]; s2b "bc" ++ [x0a]; []]) /\
  clean_cuts default_splitter [s2b "東に。" ++ [x0a]; s2b "a!" ++ [x0a]; s2b "bc" ++ [x0a]; []].
Proof. eexists. split; [vm_compute; reflexivity|]. split; [vm_compute; reflexivity|]. apply clean_b_ok. vm_compute. reflexivity. Qed.
(** A text that changes, and is not settled. *)
Definition bracket_text : bytes := s2b "a。" ++ [x0a; x0a] ++ s2b "」b".
Example C109_changed_example :
  (texts_of bracket_text = Some ([s2b "a。"; s2b "」b"], None, [bracket_text; []]) /\ ~ settled default_splitter (nonempty [s2b "a。"; s2b "」b"])) /\
  (texts_of (print_lines [s2b "a。"; s2b "」b"]) = Some ([s2b "a。」"; s2b "b"], None, [print_lines [s2b "a。"; s2b "」b"]; []]) /\
   [s2b "a。"; s2b "」b"] = nonempty [s2b "a。"; s2b "」b"] ++ repeat [] 0).
Proof.
  split; [split; [vm_compute; reflexivity|]|split; vm_compute; reflexivity].
  intros H. destruct (H [] (s2b "a。") (s2b "」b") [] eq_refl) as (_ & N). apply N. right. vm_compute. tauto.
Qed.
(** The command twice: the first reads a file, the second the lines in pieces. *)
Definition again_in : world := ex_world again_text.
Definition again_out : world :=
  World (w_load again_in) (w_ipa again_in) (w_uni again_in) (w_user again_in) (w_open again_in) (w_create again_in)
    (Reader (print_lines again_lines) [(10, false); (3, false); (5, false)]%nat EOF []) (w_ideo again_in) (w_addr again_in) false (w_serve again_in).
Example C109_command_example :
  (sen_args [s2b "-file"; s2b "in.txt"] (s2b "in.txt") /\ sen_args [] []) /\
  (outs (fst (sen_run again_in [s2b "-file"; s2b "in.txt"])) = print_lines again_lines /\ outs (fst (sen_run again_out [])) = print_lines again_lines /\
   snd (sen_run again_out []) = Ok None /\ whole_runes (pieces (fst (sen_run again_in [s2b "-file"; s2b "in.txt"]))) /\
   clean_cuts default_splitter (pieces (fst (sen_run again_out [])))).
Proof.
  split; [split; apply sen_parse_ok; reflexivity|]. split; [vm_compute; reflexivity|]. split; [vm_compute; reflexivity|]. split; [vm_compute; reflexivity|].
  split; [vm_compute; repeat constructor|apply clean_b_ok; vm_compute; reflexivity].
Qed.
