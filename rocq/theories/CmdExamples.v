(** A small world for the examples of PropertiesCmd.v. *)
From Verif Require Import Check SpecCmd Utf8Facts JsonFacts FlagFacts OptFacts CmdFacts TokFacts ScannerFacts CmdRuns CmdMore CmdMain SentenceRuns DotRuns Example.
Open Scope Z_scope.

Definition ex_input (s : bytes) : reader := Reader s [(4%nat, false); (0%nat, false); (9%nat, true)] EOF [].
Definition ex_world (input : bytes) : world :=
  World (fun p b => if bytes_eqb p (s2b "dict.bin") then Some ex_dict else None) (fun _ => ex_dict) (fun _ => ex_dict)
    (fun p => if bytes_eqb p (s2b "user.txt") then Some ex_udict else None)
    (fun p => if bytes_eqb p (s2b "in.txt") then Some (ex_input input) else None)
    (fun p => bytes_eqb p (s2b "out.dot")) (ex_input input) ex_ideo ex_addr false (fun _ _ => ([], Ok (Some XServer))).
Lemma ex_world_ok input : world_ok (ex_world input).
Proof.
  split; [|split; [|split; [|split]]]; cbn [w_ipa w_uni w_load w_user w_serve ex_world].
  - intros _. split; [apply wf_ex|apply wf_ex_data].
  - intros _. split; [apply wf_ex|apply wf_ex_data].
  - intros p b d. destruct (bytes_eqb p (s2b "dict.bin")); [|discriminate]. intros [= <-]. split; [apply wf_ex|apply wf_ex_data].
  - intros p ud. destruct (bytes_eqb p (s2b "user.txt")); [|discriminate]. intros [= <-]. apply wf_ex_udict.
  - intros a t. eexists. eexists. reflexivity.
Qed.
(** What the run printed on the standard output, and its result. *)
(** The same with reads that always bring something. *)
Definition brisk_input (s : bytes) : reader := Reader s [(4%nat, false); (1%nat, false); (9%nat, true)] EOF [].
Definition brisk_world (input : bytes) : world :=
  let w := ex_world input in
  World (w_load w) (w_ipa w) (w_uni w) (w_user w) (w_open w) (w_create w) (brisk_input input) (w_ideo w) (w_addr w) (w_newer w) (w_serve w).
Lemma brisk_lively s : lively (brisk_input s).
Proof. unfold lively. cbn. repeat constructor. Qed.

Definition printed (m : cmd (option cmd_err)) : res (bytes * bool) :=
  match snd m with Ok e => Ok (outs (fst m), match e with None => true | Some _ => false end) | Panic => Panic | Diverge => Diverge end.

Lemma json_empty : json_text (s2b "[" ++ [x0a; x0a] ++ s2b "]" ++ [x0a]) (JArr []).
Proof. split; [reflexivity|]. exists 3%nat, [x0a]. split; reflexivity. Qed.

(** -json in Extended mode leaves the words out that the text output has. *)
Lemma json_drops : exists w, world_ok w /\
  printed (tok_run w [s2b "-mode"; s2b "extended"]) = Ok (s2b "a" ++ [x0a] ++ s2b "b" ++ [x0a] ++ s2b "EOS" ++ [x0a], true) /\
  exists b, printed (tok_run w [s2b "-mode"; s2b "extended"; s2b "-json"]) = Ok (b, true) /\ json_text b (JArr []).
Proof.
  exists (ex_world (s2b "ab")). split; [apply ex_world_ok|]. split; [by_eval|].
  exists (s2b "[" ++ [x0a; x0a] ++ s2b "]" ++ [x0a]). split; [by_eval|apply json_empty].
Qed.
