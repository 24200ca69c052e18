(** C120: how large the drawn lattice is. *)
From Verif Require Import Example Check DotRead WorkFacts PropertiesWork DrawSize.
From Verif Require Import Dot SpecWork SpecDot.
From Coq Require Import Lia.
Open Scope nat_scope.

(** At most k + 2v boxes for each rune, and at most 1 + l(k + 2v) lines into each box, if at most k keywords of either dictionary stand
    at one place, a category has at most v entries and no word has more than l runes. *)
Theorem C120_counts : forall d u k v l ideo omit inp mode ss, wf_dict d -> wf_udict u -> words_bound d u k v -> length_bound d u l ->
  graph_stmts ideo (Tokenizer d u omit) inp mode = Ok ss ->
  length ss = length (declared_list ss) + length (edge_pairs ss) /\ length (declared_list ss) <= 2 + rcount inp * (k + 2 * v) /\
  length (edge_pairs ss) <= (2 + rcount inp * (k + 2 * v)) * (1 + l * (k + 2 * v)).
Proof. exact graph_size. Qed.
Print Assumptions C120_counts.
(** For each dictionary there is a number of boxes and lines per rune that no text exceeds. *)
Theorem C120_linear : forall d u, wf_dict d -> wf_udict u -> exists a, forall ideo omit inp mode ss,
  graph_stmts ideo (Tokenizer d u omit) inp mode = Ok ss -> length ss <= a * (rcount inp + 1).
Proof. exact graph_linear. Qed.
Print Assumptions C120_linear.
(** And a number of bytes per rune that the text written never exceeds, the names of the boxes (addresses) being at most A long. *)
Theorem C120_text : forall d u, wf_dict d -> wf_udict u -> wf_data d -> forall A, exists a, forall addr ideo omit inp mode txt, (forall c, length (addr c) <= A) ->
  graph_text addr ideo (Tokenizer d u omit) inp mode = Ok txt -> length txt <= a * (rcount inp + 1).
Proof. exact text_size. Qed.
Print Assumptions C120_text.

Definition ex_short : coord -> bytes := fun _ => s2b "0xc000014080".
Definition sizes (r : res (list stmt)) : res (nat * nat) := match r with Ok ss => Ok (length (declared_list ss), length (edge_pairs ss)) | Panic => Panic | Diverge => Diverge end.
Definition size (r : res bytes) : res N := match r with Ok s => Ok (N.of_nat (length s)) | Panic => Panic | Diverge => Diverge end.
(** The hypotheses hold of the example dictionary.  Twice the text: twice the boxes, the lines and (the header apart) the bytes. *)
Example C120_example : wf_dict ex_dict /\ wf_data ex_dict /\ words_bound ex_dict None (length (d_index ex_dict)) (length (d_unk_morphs ex_dict)) /\
  length_bound ex_dict None (N.to_nat 1024) /\ (forall c, length (ex_short c) <= 12) /\
  sizes (graph_stmts ex_ideo (Tokenizer ex_dict None true) (copies 4 (s2b "東京都にa")) mode_search) = Ok (34, 45) /\
  sizes (graph_stmts ex_ideo (Tokenizer ex_dict None true) (copies 8 (s2b "東京都にa")) mode_search) = Ok (66, 89) /\
  size (graph_text ex_short ex_ideo (Tokenizer ex_dict None true) (copies 4 (s2b "東京都にa")) mode_search) = Ok 5395%N /\
  size (graph_text ex_short ex_ideo (Tokenizer ex_dict None true) (copies 8 (s2b "東京都にa")) mode_search) = Ok 10335%N.
Proof.
  split; [exact wf_ex|]. split; [exact wf_ex_data|]. split; [|split; [|split]].
  - split; [|split; [exact I|]].
    + intros s. apply filter_length.
    + intros r. pose proof (wf_unk wf_ex r) as H. cbv zeta in H. lia.
  - split; [lia|]. split; [|exact I]. intros key id H.
    assert (F : forallb (fun e => rune_count (fst e) <=? 10) (d_index ex_dict) = true) by by_eval.
    rewrite forallb_forall in F. specialize (F _ H). apply Nat.leb_le in F. cbn [fst] in F. lia.
  - intros c. apply Nat.leb_le. vm_compute. reflexivity.
  - split; [by_eval|]. split; [by_eval|]. split; by_eval.
Qed.
