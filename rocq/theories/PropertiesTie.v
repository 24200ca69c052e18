(** Property theorems: which of the cheapest segmentations Analyze returns (build and forward of
    tokenizer/lattice/lattice.go), and where the default sentence splitter cuts. *)
From Verif Require Import SpecSent DefaultSplit Example TieFacts AnalyzeFacts LimitFacts Utf8Facts.
Open Scope Z_scope.

(** ** C68 *)
Theorem C68_chosen : forall d u ideo omit inp mode, wf_dict d -> wf_udict u -> mode <> mode_extended ->
  Z.of_nat (rcount inp) <= optimal_limit mode ->
  exists ts, analyze ideo (Tokenizer d u omit) inp mode = Ok ts /\ chosen (to_lmode mode) ideo d u inp (words_of ts).
Proof. exact analyze_chosen. Qed.
Print Assumptions C68_chosen.
(** The rule leaves no choice: the words of the result are determined by the candidates and their costs. *)
Theorem C68_unique : forall m ideo d u inp ws ws', chosen m ideo d u inp ws -> chosen m ideo d u inp ws' -> ws' = ws.
Proof. exact chosen_unique. Qed.
Print Assumptions C68_unique.

(** Known words "a" "b" "b" "ab" "bc" "c" "x", and unknown words of one letter at the cost of "x". *)
Definition tie_dict : dict :=
  Dict [(s2b "a", 0); (s2b "b", 1); (s2b "b", 2); (s2b "ab", 3); (s2b "bc", 4); (s2b "c", 5); (s2b "x", 6)]
       [Morph 0 0 100; Morph 0 0 100; Morph 0 0 100; Morph 0 0 200; Morph 0 0 200; Morph 0 0 100; Morph 0 0 300]
       1 [7] (fun _ => 0%nat) [true] [false] [(0, 0)] [(0, 1)] [Morph 0 0 300; Morph 0 0 300]
       [[0]; [0]; [0]; [0]; [0]; [0]; [0]] [s2b "n"] None [] [] [].
Lemma wf_tie : wf_dict tie_dict.
Proof.
  constructor.
  - apply check_index_ok. vm_compute. reflexivity.
  - exists 1. repeat split; cbn in *; try lia;
      repeat match goal with H : _ \/ _ |- _ => destruct H as [H|H] end; subst; try contradiction; cbn; unfold int16; lia.
  - cbn. intros c H. repeat destruct H as [<-|H]; try contradiction; unfold int16; lia.
  - intros r. cbn [d_category d_invoke d_group tie_dict length]. lia.
  - intros r. cbv zeta. cbn [d_category d_unk_index d_unk_dup d_unk_morphs tie_dict length]. cbn. lia.
Qed.
Lemma tie_known inp id i j : (i < j <= rcount inp)%nat -> In (text inp i j, id) (d_index tie_dict) -> candidate tie_dict None inp (Word KNOWN id i j).
Proof. intros H1 H2. apply cand_known; [exact I|]. split; assumption. Qed.
Definition word_view (w : word) := (w_class w, w_id w, w_start w, w_stop w).
Lemma word_view_ok ws : forall ws', map word_view ws = map word_view ws' -> ws = ws'.
Proof.
  induction ws as [|w ws IH]; intros [|w' ws'] H; try discriminate; [reflexivity|]. cbn [map] in H. injection H as H1 H2 H3 H4 H. f_equal; [|exact (IH _ H)].
  destruct w as [c i s e], w' as [c' i' s' e']. cbn in *. subst. reflexivity.
Qed.
(** "abcb" as a·bc·b, not ab·c·b of the same cost: of two readings that agree from the right up to
    some place, the one with the longer word there. The "b" is the one listed first and not the
    other of the same cost, the "x" is the known word and not the unknown word of the same cost. *)
Example C68_example : wf_dict tie_dict /\
  (exists ts, analyze ex_ideo (Tokenizer tie_dict None true) (s2b "abcbx") mode_normal = Ok ts /\
    words_of ts = [Word KNOWN 0 0 1; Word KNOWN 4 1 3; Word KNOWN 1 3 4; Word KNOWN 6 4 5]) /\
  Forall (fun ws => segmentation tie_dict None (s2b "abcbx") ws /\ seg_cost LNormal ex_ideo tie_dict (s2b "abcbx") ws = 735)
    [[Word KNOWN 0 0 1; Word KNOWN 4 1 3; Word KNOWN 1 3 4; Word KNOWN 6 4 5];
     [Word KNOWN 3 0 2; Word KNOWN 5 2 3; Word KNOWN 1 3 4; Word KNOWN 6 4 5];
     [Word KNOWN 0 0 1; Word KNOWN 4 1 3; Word KNOWN 2 3 4; Word KNOWN 6 4 5];
     [Word KNOWN 0 0 1; Word KNOWN 4 1 3; Word KNOWN 1 3 4; Word UNKNOWN 0 4 5]].
Proof.
  split; [exact wf_tie|]. split.
  - destruct (@run_ex _ _ _ (analyze ex_ideo (Tokenizer tie_dict None true) (s2b "abcbx") mode_normal)
      (fun ts => map word_view (words_of ts))
      [(KNOWN, 0, 0%nat, 1%nat); (KNOWN, 4, 1%nat, 3%nat); (KNOWN, 1, 3%nat, 4%nat); (KNOWN, 6, 4%nat, 5%nat)]) as (ts & E & H); [vm_compute; reflexivity|].
    exists ts. split; [exact E|]. apply word_view_ok. exact H.
  - assert (R : rcount (s2b "abcbx") = 5%nat) by by_eval.
    assert (K : forall id i j, (i <? j)%nat && (j <=? 5)%nat && existsb (fun e => test_eq e (text (s2b "abcbx") i j, id)) (d_index tie_dict) = true ->
      candidate tie_dict None (s2b "abcbx") (Word KNOWN id i j)).
    { intros id i j H. rewrite !andb_true_iff in H. destruct H as [[H1 H2] H3]. apply existsb_exists in H3. destruct H3 as (e & He & Heq).
      apply (proj1 (test_eq_ok _ _)) in Heq. rewrite Heq in He. apply tie_known; [rewrite R; lia|exact He]. }
    repeat constructor; try by_eval; unfold segmentation; rewrite R;
      repeat match goal with
             | |- chain _ _ _ _ (Word ?c ?id ?i ?j :: ?l) _ => apply (@chain_cons tie_dict None (s2b "abcbx") (Word c id i j) l)
             | |- chain _ _ _ _ [] _ => apply chain_nil
             | |- candidate _ _ _ (Word KNOWN _ _ _) => apply K; vm_compute; reflexivity
             end.
    eapply (@cand_unknown tie_dict None (s2b "abcbx") 0 4 5 5); [exact I|right; reflexivity| |left; reflexivity|cbn; lia].
    split; [rewrite R; lia|reflexivity].
Qed.

(** ** C67 *)
Open Scope N_scope.
Theorem C67_cut : forall data, exists o, cut (segs data) o.
Proof. exact default_cut_lemma. Qed.
Print Assumptions C67_cut.
Theorem C67_scan : forall data eof o, data <> [] -> cut (segs data) o ->
  match o with
  | Sentence kept rest => exists data' adv, scan_sentences default_splitter data eof = Ok (data', adv, Some (segs_text kept)) /\
      skipn adv data' = segs_text rest /\ segs (segs_text rest) = rest
  | Unfinished kept =>
      if eof then exists data', scan_sentences default_splitter data eof = Ok (data', length data, Some (segs_text kept))
      else exists data' adv k, scan_sentences default_splitter data eof = Ok (data', adv, None) /\ skipn adv data' = segs_text kept ++ repeat x20 k
  end.
Proof. exact default_scan_lemma. Qed.
Print Assumptions C67_scan.
Lemma quiet_no_feed a : Forall (fun g => ~ In (fst g) marks /\ fst g <> 10) a -> quiet a.
Proof.
  intros H. split; [eapply Forall_impl; [|exact H]; intros g [H1 _]; exact H1|].
  intros x b y c z -> _ _. apply Forall_app in H. destruct H as [_ H]. inversion H as [|? ? [_ H1] _]; subst. apply H1. reflexivity.
Qed.
Definition c67_text : bytes := s2b "  東 京！？」" ++ [x0a] ++ s2b " 。）" ++ [x0a] ++ s2b "。次".
Example C67_example :
  cut (segs c67_text) (Sentence (segs (s2b "東京！？」。）")) (segs (s2b "。次"))) /\
  exists data', scan_sentences default_splitter c67_text false = Ok data' /\
    (snd data', skipn (snd (fst data')) (fst (fst data'))) = (Some (s2b "東京！？」。）"), s2b "。次").
Proof.
  split; [|apply run_ex; vm_compute; reflexivity].
  assert (E : segs c67_text = segs (s2b "  東 京") ++ (65281, s2b "！") :: segs (s2b "？」" ++ [x0a] ++ s2b " 。）" ++ [x0a]) ++ segs (s2b "。次")) by by_eval.
  assert (K : segs (s2b "東京！？」。）") = solid (segs (s2b "  東 京") ++ (65281, s2b "！") :: segs (s2b "？」" ++ [x0a] ++ s2b " 。）" ++ [x0a]))) by by_eval.
  rewrite E, K. apply cut_mark.
  - apply quiet_no_feed.
    assert (H : forallb (fun g => negb (existsb (N.eqb (fst g)) marks) && negb (fst g =? 10)) (segs (s2b "  東 京")) = true) by (vm_compute; reflexivity).
    rewrite forallb_forall in H. apply Forall_forall. intros g Hg. specialize (H g Hg). apply andb_true_iff in H. destruct H as [H1 H2]. split.
    + intros Hm. assert (Hx : existsb (N.eqb (fst g)) marks = true) by (apply existsb_exists; exists (fst g); split; [exact Hm|apply N.eqb_refl]).
      rewrite Hx in H1. discriminate.
    + intros Hx. rewrite Hx in H2. discriminate.
  - apply Nat.ltb_lt. vm_compute. reflexivity.
  - left. vm_compute. tauto.
  - split.
    + assert (H : forallb (fun g => existsb (N.eqb (fst g)) (marks ++ closers) || is_space (fst g)) (segs (s2b "？」" ++ [x0a] ++ s2b " 。）" ++ [x0a])) = true) by (vm_compute; reflexivity).
      rewrite forallb_forall in H. apply Forall_forall. intros g Hg. specialize (H g Hg). apply orb_true_iff in H. unfold trailing. destruct H as [H|H]; [|right; right; exact H].
      apply existsb_exists in H. destruct H as (x & Hx & Heq). apply N.eqb_eq in Heq. rewrite Heq. apply in_app_iff in Hx. destruct Hx as [Hx|Hx]; [left; exact Hx|right; left; exact Hx].
    + right. exists (segs (s2b "？」" ++ [x0a] ++ s2b " 。）")), [x0a]. split; by_eval.
Qed.
