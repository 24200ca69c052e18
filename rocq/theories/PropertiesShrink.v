(** C112: the names of the words do not decide where the words are; -simple only leaves features out. *)
From Verif Require Import Example CmdExamples Check OptFacts ShrinkFacts.
From Verif Require Import SpecShrink.
Open Scope Z_scope.

(** Dictionaries that differ in parts of speech, features and their positions only find the same tokens. *)
Theorem C112_names : forall ideo d d' u u' omit s mode, same_search d d' -> user_index u' = user_index u ->
  same_tokens (analyze ideo (Tokenizer d u omit) s mode) (analyze ideo (Tokenizer d' u' omit) s mode).
Proof. exact (fun ideo d d' u u' omit s mode H U => @search_same_tokens d d' H u u' U ideo omit s mode). Qed.
Print Assumptions C112_names.
(** Without Contents the tokens are the same, and the words of the dictionary keep their part of speech and lose the other features. *)
Theorem C112_simple : forall ideo d u omit s mode, wf_dict d -> wf_udict u -> wf_data d ->
  exists ts ts', analyze ideo (Tokenizer d u omit) s mode = Ok ts /\ analyze ideo (Tokenizer (bare d) u omit) s mode = Ok ts' /\
    Forall2 (fun tk tk' => visible tk = visible tk' /\ cut_token tk tk') ts ts'.
Proof. exact simple_tokens. Qed.
Print Assumptions C112_simple.
(** The lines that tokenize and tokenize -simple print for the same input. *)
Theorem C112_command : forall w d u args o args' o' mode r t1 t2 t3 t1', wf_dict d -> wf_udict u -> wf_data d ->
  tok_args args o -> tok_uses w o d t1 -> tok_args args' o' -> tok_uses w o' (bare d) t1' ->
  to_udict o' = to_udict o -> to_file o' = to_file o -> to_split o' = to_split o -> to_json o = false -> to_json o' = false ->
  user_uses w (to_udict o) u t2 -> input_uses w (to_file o) r t3 -> mode_of (to_mode o) mode -> mode_of (to_mode o') mode ->
  exists tr tr' e ls ls', tok_run w args = (tr, Ok e) /\ tok_run w args' = (tr', Ok e) /\ outs tr = concat ls /\ outs tr' = concat ls' /\ Forall2 cut_line ls ls'.
Proof. exact simple_lines. Qed.
Print Assumptions C112_command.

(** ex_world with a short dictionary. *)
Definition short_world (input : bytes) : world :=
  let w := ex_world input in
  World (w_load w) (fun b => if b then bare ex_dict else ex_dict) (w_uni w) (w_user w) (w_open w) (w_create w) (w_stdin w) (w_ideo w) (w_addr w) (w_newer w) (w_serve w).
Definition plain_opt (simple : bool) : tok_opt := TokOpt [] [] [] (s2b "ipa") simple (s2b "normal") false false.
Example C112_example : same_search ex_dict (bare ex_dict) /\ tok_args [] (plain_opt false) /\ tok_args [s2b "-simple"] (plain_opt true) /\
  tok_uses (short_world (s2b "東に")) (plain_opt false) ex_dict [ESysDict (s2b "ipa") false] /\
  tok_uses (short_world (s2b "東に")) (plain_opt true) (bare ex_dict) [ESysDict (s2b "ipa") true] /\
  printed (tok_run (short_world (s2b "東に")) []) = Ok (s2b "東" ++ [x09] ++ s2b "名詞,一般,東,ヒガシ" ++ [x0a] ++ s2b "に" ++ [x09] ++ s2b "助詞,に" ++ [x0a] ++ s2b "EOS" ++ [x0a], true) /\
  printed (tok_run (short_world (s2b "東に")) [s2b "-simple"]) = Ok (s2b "東" ++ [x09] ++ s2b "名詞,一般" ++ [x0a] ++ s2b "に" ++ [x09] ++ s2b "助詞" ++ [x0a] ++ s2b "EOS" ++ [x0a], true).
Proof.
  split; [constructor; reflexivity|]. split; [apply tok_parse_ok; reflexivity|]. split; [apply tok_parse_ok; reflexivity|].
  split; [right; split; [reflexivity|split; [reflexivity|left; auto]]|]. split; [right; split; [reflexivity|split; [reflexivity|left; auto]]|].
  split; by_eval.
Qed.
