(** C119: a character counts only through the words it is in and its kind. *)
From Verif Require Import Example Check Utf8Facts AlikeFacts.
From Verif Require Import SpecAlike.
From Coq Require Import Lia.
Open Scope Z_scope.

(** Runes that no keyword covers can be replaced by others of their category that no keyword covers: the words stay where they
    are and what they are. *)
Theorem C119_alike : forall ideo d u omit s s' mode, wf_dict d -> wf_udict u -> alike d u ideo s s' -> Z.of_nat (rcount s) <= optimal_limit mode ->
  same_shapes (analyze ideo (Tokenizer d u omit) s mode) (analyze ideo (Tokenizer d u omit) s' mode).
Proof. exact alike_same. Qed.
Print Assumptions C119_alike.
(** In particular it does not matter which bytes they are that are not UTF-8. *)
Theorem C119_malformed : forall ideo d u omit s s' mode, wf_dict d -> wf_udict u -> same_utf8 s s' -> Z.of_nat (rcount s) <= optimal_limit mode ->
  same_shapes (analyze ideo (Tokenizer d u omit) s mode) (analyze ideo (Tokenizer d u omit) s' mode).
Proof. intros ideo d u omit s s' mode Hd Hu S. apply alike_same; [exact Hd|exact Hu|]. exact (malformed_alike ideo Hd Hu S). Qed.
Print Assumptions C119_malformed.

(** Deciding that two texts are alike. *)
Definition uncovered_b (d : dict) (u : option udict) (s : bytes) (i : nat) : bool :=
  forallb (fun a => forallb (fun b => negb (existsb (fun e => bytes_eqb (text s a b) (fst e)) (d_index d ++ user_index u))) (seq (S i) (rcount s - i))) (seq 0 (S i)).
Definition same_kind_b (d : dict) (ideo : ideographic) (s s' : bytes) (i : nat) : bool :=
  Nat.eqb (d_category d (rune_at s' i)) (d_category d (rune_at s i)) && Bool.eqb (ideo (rune_at s' i)) (ideo (rune_at s i)) && negb (rune_at s i =? rune_error)%N && negb (rune_at s' i =? rune_error)%N.
Definition alike_b (d : dict) (u : option udict) (ideo : ideographic) (s s' : bytes) : bool :=
  Nat.eqb (rcount s') (rcount s) && forallb (fun i => bytes_eqb (text s' i (S i)) (text s i (S i)) || (same_kind_b d ideo s s' i && uncovered_b d u s i && uncovered_b d u s' i)) (seq 0 (rcount s)).
Lemma uncovered_ok d u s i : uncovered_b d u s i = true -> uncovered d u s i.
Proof.
  unfold uncovered_b. rewrite forallb_forall. intros H id a b Hab.
  assert (G : forall idx, incl idx (d_index d ++ user_index u) -> ~ keyword_at idx s id a b).
  { intros idx I (L & K). specialize (H a ltac:(apply in_seq; lia)). rewrite forallb_forall in H. specialize (H b ltac:(apply in_seq; lia)). apply negb_true_iff in H.
    rewrite (proj2 (existsb_exists _ _)) in H; [discriminate|]. exists (text s a b, id). split; [apply I; exact K|]. apply bytes_eqb_eq. reflexivity. }
  split; apply G; intros x X; apply in_or_app; auto.
Qed.
Lemma alike_ok d u ideo s s' : alike_b d u ideo s s' = true -> alike d u ideo s s'.
Proof.
  unfold alike_b. rewrite andb_true_iff, forallb_forall. intros (C & H). apply Nat.eqb_eq in C. constructor; [exact C|]. intros i L.
  specialize (H i ltac:(apply in_seq; lia)). apply orb_true_iff in H. destruct H as [H|H]; [left; apply bytes_eqb_eq; exact H|right].
  rewrite !andb_true_iff in H. destruct H as ((K & U) & U'). split; [|split; apply uncovered_ok; assumption].
  unfold same_kind_b in K. rewrite !andb_true_iff in K. destruct K as (((K1 & K2) & K3) & K4). apply Nat.eqb_eq in K1. apply eqb_prop in K2. apply negb_true_iff, N.eqb_neq in K3. apply negb_true_iff, N.eqb_neq in K4.
  split; [exact K1|]. split; [exact K2|]. split; [tauto|].
  assert (G : forall x, rune_at x i <> rune_error -> ~ literal_fffd x i) by (intros x X Q; apply X; unfold literal_fffd in Q; unfold rune_at; rewrite (nth_error_nth _ _ _ Q); reflexivity).
  split; apply G; assumption.
Qed.

Definition shapes_of (d : dict) (u : option udict) (s : bytes) (m : Z) : res (list (Z * nat * nat)) :=
  match analyze ex_ideo (Tokenizer d u true) s m with
  | Ok ts => Ok (map (fun t => (t_id t, t_start t, t_end t)) ts)
  | Panic => Panic
  | Diverge => Diverge
  end.
Definition ex_a : bytes := s2b "東京都に川abcさ京都".
Definition ex_b : bytes := s2b "東京都に山xyzん京都".
(** Four runs of characters exchanged for others of their kind: the same six words in both texts. *)
Example C119_example : wf_dict ex_dict /\ wf_udict (Some ex_udict) /\ alike ex_dict (Some ex_udict) ex_ideo ex_a ex_b /\ Z.of_nat (rcount ex_a) <= optimal_limit mode_normal /\
  shapes_of ex_dict (Some ex_udict) ex_a mode_normal = Ok [(5, 0%nat, 3%nat); (6, 3%nat, 4%nat); (2, 4%nat, 5%nat); (4, 5%nat, 8%nat); (1, 8%nat, 9%nat); (0, 9%nat, 11%nat)] /\
  shapes_of ex_dict (Some ex_udict) ex_b mode_normal = Ok [(5, 0%nat, 3%nat); (6, 3%nat, 4%nat); (2, 4%nat, 5%nat); (4, 5%nat, 8%nat); (1, 8%nat, 9%nat); (0, 9%nat, 11%nat)].
Proof.
  split; [exact wf_ex|]. split; [exact wf_ex_udict|]. split; [apply alike_ok; vm_compute; reflexivity|].
  split; [apply Z.leb_le; vm_compute; reflexivity|]. split; by_eval.
Qed.
(** The conditions are needed.  A character of a word exchanged for one of the same kind: another word.  A character exchanged
    for one of another kind: other words. *)
Example C119_needed : alike_b ex_dict None ex_ideo (s2b "東京都に") (s2b "東京川に") = false /\ alike_b ex_dict None ex_ideo (s2b "abc") (s2b "aBc") = false /\
  shapes_of ex_dict None (s2b "東京都に") mode_normal = Ok [(5, 0%nat, 3%nat); (6, 3%nat, 4%nat)] /\
  shapes_of ex_dict None (s2b "東京川に") mode_normal = Ok [(3, 0%nat, 2%nat); (2, 2%nat, 3%nat); (6, 3%nat, 4%nat)] /\
  shapes_of ex_dict None (s2b "abc") mode_normal = Ok [(4, 0%nat, 3%nat)] /\
  shapes_of ex_dict None (s2b "aBc") mode_normal = Ok [(4, 0%nat, 1%nat); (0, 1%nat, 2%nat); (4, 2%nat, 3%nat)].
Proof. split; [by_eval|]. split; [by_eval|]. split; [by_eval|]. split; [by_eval|]. split; by_eval. Qed.
(** Two bytes that are the start of a character, and two that never are any. *)
Example C119_bytes : same_utf8 (s2b "東京" ++ [xe3; x81] ++ s2b "a") (s2b "東京" ++ [xff; x80] ++ s2b "a") /\
  shapes_of ex_dict None (s2b "東京" ++ [xe3; x81] ++ s2b "a") mode_normal = Ok [(3, 0%nat, 2%nat); (0, 2%nat, 4%nat); (4, 4%nat, 5%nat)] /\
  shapes_of ex_dict None (s2b "東京" ++ [xff; x80] ++ s2b "a") mode_normal = Ok [(3, 0%nat, 2%nat); (0, 2%nat, 4%nat); (4, 4%nat, 5%nat)].
Proof.
  split; [|split; by_eval]. unfold same_utf8.
  assert (A : segs (s2b "東京" ++ [xe3; x81] ++ s2b "a") = segs (s2b "東京") ++ [(rune_error, [xe3]); (rune_error, [x81])] ++ segs (s2b "a")) by by_eval.
  assert (B : segs (s2b "東京" ++ [xff; x80] ++ s2b "a") = segs (s2b "東京") ++ [(rune_error, [xff]); (rune_error, [x80])] ++ segs (s2b "a")) by by_eval.
  rewrite A, B. apply Forall2_app; [|apply Forall2_app].
  - generalize (segs (s2b "東京")) as l. intros l. induction l; constructor; auto.
  - repeat constructor; right; split; split; reflexivity.
  - generalize (segs (s2b "a")) as l. intros l. induction l; constructor; auto.
Qed.
