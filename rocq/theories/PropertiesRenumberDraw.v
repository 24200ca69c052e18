(** C121, continued: the drawn lattice and the accessors that name a feature. *)
From Verif Require Import Example Check DotRead RenumberDraw PropertiesRenumber.
From Verif Require Import Dot SpecFeat SpecRenumber.
From Coq Require Import Lia.
Open Scope Z_scope.

(** With other numbers, and what the entries tell moved with them, the lattice is drawn byte for byte the same. *)
Theorem C121_graph : forall r d d' u u' addr ideo omit inp mode, wf_dict d -> wf_udict u -> renumbered r d d' u u' -> same_contents r d d' u u' ->
  graph_text addr ideo (Tokenizer d' u' omit) inp mode = graph_text addr ideo (Tokenizer d u omit) inp mode.
Proof. exact graph_same. Qed.
Print Assumptions C121_graph.
(** FeatureAt gives the same, and so do BaseForm, Reading and the others if the metadata of the dictionary is the same. *)
Theorem C121_accessors : forall r d d' u u' ideo omit inp mode ts t, wf_dict d -> wf_udict u -> wf_data d -> wf_dict d' -> wf_udict u' -> wf_data d' ->
  renumbered r d d' u u' -> same_contents r d d' u u' -> analyze ideo (Tokenizer d u omit) inp mode = Ok ts -> In t ts ->
  (forall i, feature_at (renumber r d' u' t) i = feature_at t i) /\
  (d_meta d' = d_meta d -> forall f, In f [base_form; reading; pronunciation; inflectional_type; inflectional_form] -> f (renumber r d' u' t) = f t).
Proof. exact named_same. Qed.
Print Assumptions C121_accessors.

Lemma wf_other : wf_dict ex_other.
Proof.
  constructor.
  - apply check_index_ok. vm_compute. reflexivity.
  - exists 3. repeat split; cbn in *; try lia;
      repeat match goal with H : _ \/ _ |- _ => destruct H as [H|H] end; subst; try contradiction; cbn; unfold int16; lia.
  - cbn. intros c H. repeat destruct H as [<-|H]; try contradiction; unfold int16; lia.
  - intros r. cbn [d_category d_invoke d_group ex_other length]. destruct (ex_category_4 r) as [->|[->|[->| ->]]]; lia.
  - intros r. cbv zeta. cbn [d_category d_unk_index d_unk_dup d_unk_morphs ex_other length].
    destruct (ex_category_4 r) as [->|[->|[->| ->]]]; cbn; lia.
Qed.
Lemma wf_other_data : wf_data ex_other.
Proof.
  constructor.
  - vm_compute. repeat constructor.
  - assert (H : forallb (forallb (fun id => (0 <=? id) && (id <? 5))) (d_pos_ids ex_other) = true) by (vm_compute; reflexivity).
    rewrite forallb_forall in H. intros ids id H1 H2. specialize (H _ H1). rewrite forallb_forall in H. specialize (H _ H2).
    change (length (d_pos_names ex_other)) with 5%nat. lia.
  - vm_compute. repeat constructor.
  - vm_compute. repeat constructor.
  - intros v H. vm_compute in H. injection H as <-. discriminate.
Qed.
Definition told_readings (r : res (list token)) : res (list (res (bytes * bool))) := let* ts := r in Ok (map reading ts).
(** The drawing of the two example dictionaries of C121, and the readings; the two dictionaries satisfy all hypotheses. *)
Example C121_drawn : wf_dict ex_other /\ wf_udict (Some ex_uother) /\ wf_data ex_other /\ d_meta ex_other = d_meta ex_dict /\
  (match graph_text ex_addr ex_ideo (Tokenizer ex_other (Some ex_uother) true) (s2b "東京に行く川x京都") mode_search with
   | Ok t => Some (length t) | _ => None end,
   graph_text ex_addr ex_ideo (Tokenizer ex_other (Some ex_uother) true) (s2b "東京に行く川x京都") mode_search,
   told_readings (analyze ex_ideo (Tokenizer ex_other (Some ex_uother) true) (s2b "東京に行く川x京都") mode_search)) =
  (match graph_text ex_addr ex_ideo (Tokenizer ex_dict (Some ex_udict) true) (s2b "東京に行く川x京都") mode_search with
   | Ok t => Some (length t) | _ => None end,
   graph_text ex_addr ex_ideo (Tokenizer ex_dict (Some ex_udict) true) (s2b "東京に行く川x京都") mode_search,
   Ok [Ok (s2b "トウキョウ", true); Ok ([], false); Ok (s2b "イク", true); Ok ([], false); Ok ([], false); Ok ([], false)]).
Proof.
  split; [exact wf_other|]. split; [apply check_index_ok; vm_compute; reflexivity|]. split; [exact wf_other_data|]. split; [reflexivity|].
  by_eval.
Qed.
