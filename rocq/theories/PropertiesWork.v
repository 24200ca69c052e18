(** Property theorems: the time an analysis takes (Work.v: tokenizer.go Analyze and lattice.go with
    their steps counted). *)
From Verif Require Import Example SpecWork Work WorkFacts Check.
Open Scope nat_scope.

(** ** C85 *)
(** The counted program is the program. *)
Theorem C85_same : forall ideo t inp mode, result (t_analyze ideo t inp mode) = analyze ideo t inp mode.
Proof. exact same_analyze. Qed.
Print Assumptions C85_same.
(** For each dictionary there is a number of steps per rune that no text exceeds. *)
Theorem C85_linear : forall d u, wf_dict d -> wf_udict u -> exists a, forall ideo omit inp mode,
  steps (t_analyze ideo (Tokenizer d u omit) inp mode) <= a * (rcount inp + 1).
Proof. exact analyze_linear. Qed.
Print Assumptions C85_linear.
(** The lattice has at most so many nodes for each rune as words can begin at one place. *)
Theorem C85_nodes : forall d u k v inp la, wf_dict d -> wf_udict u -> words_bound d u k v -> build d u inp = Ok la ->
  length (concat la) <= 2 + rcount inp * (k + 2 * v).
Proof. exact build_nodes. Qed.
Print Assumptions C85_nodes.

Fixpoint copies (k : nat) (s : bytes) : bytes := match k with O => [] | S k' => s ++ copies k' s end.
(** The hypotheses of C85_nodes hold of the example dictionary; twice the text takes twice the steps. *)
Example C85_example :
  wf_dict ex_dict /\ words_bound ex_dict None (length (d_index ex_dict)) (length (d_unk_morphs ex_dict)) /\
  (exists la, build ex_dict None (copies 10 (s2b "abc川")) = Ok la /\ length (concat la) = 72) /\
  rcount (copies 10 (s2b "abc川")) = 40 /\
  steps (t_analyze ex_ideo (Tokenizer ex_dict None true) (copies 10 (s2b "abc川")) mode_search) = 1282 /\
  steps (t_analyze ex_ideo (Tokenizer ex_dict None true) (copies 20 (s2b "abc川")) mode_search) = 2552.
Proof.
  split; [exact wf_ex|]. split.
  { split; [|split; [exact I|]].
    - intros s. apply filter_length.
    - intros r. pose proof (wf_unk wf_ex r) as H. cbv zeta in H. lia. }
  split; [apply run_ex; vm_compute; reflexivity|]. split; [by_eval|]. split; by_eval.
Qed.
