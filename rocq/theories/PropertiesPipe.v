(** C108: kagome sentence | kagome tokenize prints what kagome tokenize -split prints. *)
From Verif Require Import SpecPipe Example CmdExamples Check OptFacts PipeFacts.
Open Scope Z_scope.

(** The pieces in which the pipe delivers the sentences do not matter, nor whether the dictionaries are sound. The lines the
    second program can read have fewer than 64 KiB. *)
Theorem C108_pipe : forall w w' o o' args args' sargs, same_tools w w' -> split_of o o' ->
  tok_args args o -> tok_args args' o' -> sen_args sargs (to_file o) ->
  delivers (w_stdin w') (outs (fst (sen_run w sargs))) ->
  (forall ls l, lines_of (outs (fst (sen_run w sargs))) ls -> In l ls -> (N.of_nat (length l) < 65536)%N) ->
  outs (fst (tok_run w args)) = outs (fst (tok_run w' args')) /\
  snd (tok_run w args) = pipefail (snd (sen_run w sargs)) (snd (tok_run w' args')).
Proof. intros w w' o o' args args' sargs Ht Ho. exact (@pipe_lemma w w' o o' Ht Ho args args' sargs). Qed.
Print Assumptions C108_pipe.

(** Two sentences, the second without a full stop, and a pipe that cuts a rune. *)
Definition pipe_in : world := ex_world (s2b "東 に。" ++ [x0d; x0a] ++ s2b " a b").
Definition pipe_out : world :=
  World (w_load pipe_in) (w_ipa pipe_in) (w_uni pipe_in) (w_user pipe_in) (w_open pipe_in) (w_create pipe_in)
    (Reader (s2b "東に。" ++ [x0a] ++ s2b "ab" ++ [x0a]) [(1, false); (9, true)]%nat EOF []) (w_ideo pipe_in) (w_addr pipe_in) false (w_serve pipe_in).
Example C108_example :
  (same_tools pipe_in pipe_out /\ (exists o o', split_of o o' /\ tok_args [s2b "-split"] o /\ tok_args [] o' /\ sen_args [] (to_file o))) /\
  delivers (w_stdin pipe_out) (outs (fst (sen_run pipe_in []))) /\
  printed (tok_run pipe_in [s2b "-split"]) = printed (tok_run pipe_out []) /\
  printed (tok_run pipe_out []) = Ok (s2b "東" ++ [x09] ++ s2b "名詞,一般,東,ヒガシ" ++ [x0a] ++ s2b "に" ++ [x09] ++ s2b "助詞,に" ++ [x0a] ++
    s2b "。" ++ [x09] ++ s2b "記号,*" ++ [x0a] ++ s2b "EOS" ++ [x0a] ++ s2b "ab" ++ [x09] ++ s2b "名詞,一般" ++ [x0a] ++ s2b "EOS" ++ [x0a], true).
Proof.
  split; [split|split; [|split; by_eval]].
  - repeat split.
  - exists (TokOpt [] [] [] (s2b "ipa") false (s2b "normal") true false), tok_default.
    split; [repeat split|]. split; [apply tok_parse_ok; reflexivity|]. split; [apply tok_parse_ok; reflexivity|apply sen_parse_ok; reflexivity].
  - split; [by_eval|]. split; [|reflexivity]. unfold lively. cbn.  repeat constructor.
Qed.
