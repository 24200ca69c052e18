(** Property theorems: which changes of the dictionaries do not change an analysis. *)
From Verif Require Import Check Example SpecLocal LocalFacts LocalRuns FilterFacts.
From Coq Require Import Lia ZifyBool ZifyNat ZifyN.
Open Scope Z_scope.

(** ** C88: entries whose keyword is not in the text do not matter. *)
(** Any dictionaries, well formed or not; the calls may even panic. *)
Theorem C88_unused : forall ideo d idx u u' omit s mode,
  same_entries s (d_index d) idx -> same_entries s (user_index u) (user_index u') ->
  same_tokens (analyze ideo (Tokenizer d u omit) s mode) (analyze ideo (Tokenizer (with_index idx d) u' omit) s mode).
Proof. exact (fun ideo d idx u u' omit s mode => @analyze_same ideo d idx u u' omit s mode). Qed.
Print Assumptions C88_unused.
Theorem C88_features : forall ideo d idx u u' omit s mode ts ts',
  same_entries s (d_index d) idx -> same_entries s (user_index u) (user_index u') -> user_contents u = user_contents u' ->
  analyze ideo (Tokenizer d u omit) s mode = Ok ts -> analyze ideo (Tokenizer (with_index idx d) u' omit) s mode = Ok ts' ->
  map features ts = map features ts'.
Proof. exact (fun ideo d idx u u' omit s mode ts ts' => @analyze_same_features ideo d idx u u' omit s mode ts ts'). Qed.
Print Assumptions C88_features.
Theorem C88_wakati : forall ideo d idx u u' omit s,
  same_entries s (d_index d) idx -> same_entries s (user_index u) (user_index u') ->
  wakati ideo (Tokenizer (with_index idx d) u' omit) s = wakati ideo (Tokenizer d u omit) s.
Proof. exact (fun ideo d idx u u' omit s => @wakati_same ideo d idx u u' omit s). Qed.
Print Assumptions C88_wakati.
(** The keywords that are not in the text are replaced by another, and there is no user dictionary. *)
Example C88_example : let s := s2b "東京に" in
  let idx := [(s2b "東", 0); (s2b "大阪", 77); (s2b "京", 1); (s2b "東京", 3); (s2b "に", 6)] in
  same_entries s (d_index ex_dict) idx /\ same_entries s (user_index (Some ex_udict)) (user_index None) /\
  exists ts, analyze ex_ideo (Tokenizer (with_index idx ex_dict) None true) s mode_normal = Ok ts /\
    map t_surface ts = [s2b "東京"; s2b "に"].
Proof.
  split; [apply same_entries_check; by_eval|]. split; [apply same_entries_check; by_eval|]. apply run_ex. vm_compute. reflexivity.
Qed.

(** ** C89: alternatives that are not taken do not matter. *)
(** Entries are taken away from the dictionaries so that no new candidate words arise. *)
Theorem C89_alternatives : forall ideo d u d' u' omit s mode ts, wf_dict d -> wf_udict u -> wf_udict u' -> fewer d u d' u' ->
  mode <> mode_extended -> Z.of_nat (rcount s) <= optimal_limit mode -> (forall w, candidate d' u' s w -> candidate d u s w) ->
  analyze ideo (Tokenizer d u omit) s mode = Ok ts -> (forall w, In w (words_of ts) -> candidate d' u' s w) ->
  same_tokens (Ok ts) (analyze ideo (Tokenizer d' u' omit) s mode) /\
  (mode = mode_search -> same_tokens (analyze ideo (Tokenizer d u omit) s mode_extended) (analyze ideo (Tokenizer d' u' omit) s mode_extended)).
Proof. exact (fun ideo d u d' u' omit s mode ts => @alternatives ideo d u d' u' omit s mode ts). Qed.
Print Assumptions C89_alternatives.
(** 東京 and 京都 are taken away; the answer 東京都 stays, as 東 and 京 still begin where they began. *)
Example C89_example : let s := s2b "東京都" in
  let idx := filter (fun e => negb ((snd e =? 3) || (snd e =? 4))) ex_index in
  wf_dict ex_dict /\ fewer ex_dict None (with_index idx ex_dict) None /\ Z.of_nat (rcount s) <= optimal_limit mode_normal /\
  (forall w, candidate (with_index idx ex_dict) None s w -> candidate ex_dict None s w) /\
  exists ts, analyze ex_ideo (Tokenizer ex_dict None true) s mode_normal = Ok ts /\ map t_surface ts = [s] /\
    (forall w, In w (words_of ts) -> candidate (with_index idx ex_dict) None s w).
Proof.
  intros s idx. assert (R : rcount s = 3%nat) by by_eval.
  assert (HP : picked (fun e : bytes * Z => negb ((snd e =? 3) || (snd e =? 4)) = true) (d_index ex_dict) idx) by (apply picked_filter; intros; reflexivity).
  assert (K : forall id i j, (i <? j)%nat && (j <=? 3)%nat && existsb (fun e => test_eq e (text s i j, id)) idx = true -> keyword_at idx s id i j).
  { intros id i j E. rewrite !andb_true_iff, existsb_exists in E. destruct E as [[E1 E2] (e & E3 & E4)]. apply by_test in E4. rewrite E4 in E3.
    split; [rewrite R; lia|exact E3]. }
  split; [exact wf_ex|]. split.
  { exists (fun e : bytes * Z => negb ((snd e =? 3) || (snd e =? 4)) = true), (fun _ => True), idx. split; [exact HP|]. split; [reflexivity|constructor]. }
  split; [rewrite R; vm_compute; discriminate|]. split.
  - apply (candidates_fewer HP). rewrite R. intros [|[|[|i]]] Hi; [| | |lia]; right; left.
    + exists 0, 1%nat. apply K. vm_compute. reflexivity.
    + exists 1, 2%nat. apply K. vm_compute. reflexivity.
    + exists 2, 3%nat. apply K. vm_compute. reflexivity.
  - destruct (@run_ex _ _ _ (analyze ex_ideo (Tokenizer ex_dict None true) s mode_normal) (fun ts => (map t_surface ts, map (fun w => (w_class w, w_id w, w_start w, w_stop w)) (words_of ts)))
      ([s], [(KNOWN, 5, 0%nat, 3%nat)])) as (ts & E & H); [vm_compute; reflexivity|]. exists ts. split; [exact E|]. injection H as H1 H2. split; [exact H1|].
    destruct (words_of ts) as [|w [|]]; try discriminate. injection H2 as H3 H4 H5 H6. intros x [<-|[]]. destruct w as [c id i j]. cbn in H3, H4, H5, H6. subst.
    apply cand_known; [exact I|]. apply K. vm_compute. reflexivity.
Qed.
