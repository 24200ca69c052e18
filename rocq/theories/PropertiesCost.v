(** Property theorems: the costs in the Output of a lattice. *)
From Verif Require Import Check Example SpecCost HeapAny HeapRun UseFacts CostFacts CostRuns.
Open Scope Z_scope.

(** ** C90 *)
(** Goroutines that call tokenizers and use lattices of their own.  After New, Build, Forward and
    Backward the Cost of each word in Output is that of the cheapest way to it, the Cost of EOS that
    of the cheapest segmentation. *)
Theorem C90_costs : forall g0 ideo clients g ths, left_over g0 -> (forall ws, In ws clients -> forall w, In w ws -> work_ok w) ->
  steps (h_clients g0 ideo clients) (g, ths) ->
  forall k ws th os i d u inp f b, nth_error clients k = Some ws -> nth_error ths k = Some th -> th_prog th = Ret os ->
  nth_error ws i = Some (Use d u [LBuild inp; LForward f; LBackward b]) -> Z.of_nat (rcount inp) <= cost_limit f ->
  exists out, nth_error os i = Some (Used out) /\ priced ideo d u inp f b out.
Proof. exact clients_costs. Qed.
Print Assumptions C90_costs.
(** One lattice by itself, as a function; it always succeeds. *)
Theorem C90_alone : forall ideo d u inp f b, wf_dict d -> wf_udict u -> Z.of_nat (rcount inp) <= cost_limit f ->
  exists out, best_nodes ideo d u inp (Some f, b) = Ok out /\ priced ideo d u inp f b out.
Proof. exact node_costs. Qed.
Print Assumptions C90_alone.
(** The same text in two modes; in Search mode the way over 東京都 is too dear. *)
Definition cost_client : list work :=
  [Use ex_dict None [LBuild (s2b "東京都に"); LForward LNormal; LBackward LNormal];
   Use ex_dict None [LBuild (s2b "東京都に"); LForward LSearch; LBackward LSearch];
   Call (JAnalyze (Tokenizer ex_dict None false) (s2b "行くに") mode_normal)].
Example C90_example : (forall w, In w cost_client -> work_ok w) /\ left_over start_memory /\
  exists g th os, steps (h_clients start_memory ex_ideo [cost_client]) (g, [th]) /\ th_prog th = Ret os /\
    map (fun o => match o with Used out => map (fun n => (n_surface n, n_cost n)) out | _ => [] end) os =
      [[([], -910); (s2b "に", -920); (s2b "東京都", -990); ([], 0)];
       [([], 570); (s2b "に", 560); (s2b "都", 490); (s2b "東京", 220); ([], 0)]; []].
Proof.
  split.
  { intros w [<-|[<-|[<-|[]]]]; [| |exact (conj wf_ex I)]; (split; [exact wf_ex|]; split; [exact I|]; apply once_check; reflexivity). }
  split; [exact start_left_over|]. eapply run_result. vm_compute. reflexivity.
Qed.
