(** Forward on a lattice on which Forward has run before: only the last mode counts. *)
From Verif Require Export ForwardFacts.
From Coq Require Import ZifyBool ZifyNat.
Set Implicit Arguments.
Unset Strict Implicit.
Open Scope nat_scope.

Lemma best_prev_unique d ideo m prevs t j j' : best_prev d ideo m prevs t j -> best_prev d ideo m prevs t j' -> j = j'.
Proof.
  intros (p & Hp & H) (p' & Hp' & H'). destruct (H _ _ Hp') as [A B], (H' _ _ Hp) as [C D].
  destruct (Nat.lt_trichotomy j j') as [L|[L|L]]; [specialize (D L); lia|assumption|specialize (B L); lia].
Qed.

Lemma relaxed_unique d ideo m la1 la2 t t1 t2 : nth (n_start t) la1 [] = nth (n_start t) la2 [] ->
  relaxed d ideo m la1 t t1 -> relaxed d ideo m la2 t t2 -> t1 = t2.
Proof.
  unfold relaxed. intros E. rewrite E. intros [[H1 ->]|(j & p & H1 & H2 & ->)] [[H3 ->]|(j' & p' & H3 & H4 & ->)]; [reflexivity| | |].
  - rewrite H1 in H3. destruct j'; discriminate.
  - rewrite H3 in H1. destruct j; discriminate.
  - pose proof (best_prev_unique H2 H4) as <-. congruence.
Qed.

Lemma forwarded_unique d ideo m la la1 la2 :
  (forall i t, 0 < i < length la -> In t (nth i la []) -> n_start t < i) ->
  forwarded d ideo m la la1 -> forwarded d ideo m la la2 -> la1 = la2.
Proof.
  intros Hst F1 F2. apply nth_ext with (d := []) (d' := []); [rewrite (fw_len F1), (fw_len F2); reflexivity|].
  rewrite (fw_len F1). intros i. induction i as [i IH] using lt_wf_ind. intros Hi.
  destruct (Nat.eq_dec i 0) as [->|N]; [rewrite (fw_0 F1), (fw_0 F2); reflexivity|].
  assert (Hr : 0 < i < length la) by lia. pose proof (fw_step F1 Hr) as A. pose proof (fw_step F2 Hr) as B. specialize (Hst i).
  revert A B. generalize (nth i la1 []), (nth i la2 []). generalize (Hst) as Hs. clear Hst. generalize (nth i la []) as l. intros l Hs l1 l2 A. revert l2.
  induction A as [|t t1 l l1 R A IHA]; intros l2 B; inversion B as [|? t2 ? l2' R2 B2]; subst; [reflexivity|]. f_equal.
  - assert (n_start t < i) by (apply Hs; [exact Hr|left; reflexivity]).
    eapply relaxed_unique; [|exact R|exact R2]. apply IH; lia.
  - apply IHA; [|exact B2]. intros t' H1 H2. apply Hs; [exact H1|right; exact H2].
Qed.

Lemma forwarded_again d ideo m1 m2 la la1 la2 : forwarded d ideo m1 la la1 -> forwarded d ideo m2 la1 la2 -> forwarded d ideo m2 la la2.
Proof.
  intros F1 F2. pose proof (fw_len F1) as L1. pose proof (fw_len F2) as L2.
  assert (E : forall s, nth s la1 [] = [] <-> nth s la2 [] = []).
  { intros s. destruct (Nat.eq_dec s 0) as [->|N]; [rewrite (fw_0 F2); reflexivity|]. destruct (Nat.lt_ge_cases s (length la1)) as [H|H].
    - assert (Hs : 0 < s < length la1) by lia. destruct (fw_step F2 Hs); split; intros; congruence.
    - rewrite !nth_overflow by lia. reflexivity. }
  split; [congruence|rewrite (fw_0 F2); apply (fw_0 F1)|].
  intros i Hi. assert (Hi1 : 0 < i < length la1) by lia. pose proof (fw_step F1 Hi) as A. pose proof (fw_step F2 Hi1) as B.
  revert A B. generalize (nth i la []), (nth i la1 []), (nth i la2 []). intros l l1 l2 A. revert l2.
  induction A as [|t t1 l l1 R A IH]; intros l2 B; inversion B as [|? t2 ? l2' R2 B2]; subst; constructor; [|exact (IH _ B2)].
  assert (Es : n_start t1 = n_start t) by (destruct R as [[_ ->]|(j & p & _ & _ & ->)]; reflexivity).
  destruct R2 as [[H1 ->]|(j & p & H1 & H2 & ->)]; rewrite Es in *.
  - left. split; [exact H1|]. destruct R as [[_ ->]|(j & p & Hj & _)]; [reflexivity|]. apply E in H1. rewrite H1 in Hj. destruct j; discriminate.
  - right. exists j, p. destruct R as [[_ ->]|(j0 & p0 & _ & _ & ->)]; (split; [exact H1|]; split; [exact H2|reflexivity]).
Qed.

Theorem forward_again d rows ideo m1 m2 la la1 :
  (Z.of_nat (length (d_conn_vec d)) = rows * d_conn_col d)%Z ->
  (forall i t, In t (nth i la []) -> conn_node d rows t) ->
  (forall i t, 0 < i < length la -> In t (nth i la []) -> n_start t < i) ->
  forward d ideo m1 la = Ok la1 -> forward d ideo m2 la1 = forward d ideo m2 la.
Proof.
  intros Hrc Hcn Hst E1. destruct (forward_ok ideo m1 Hrc Hcn Hst) as (la1' & E1' & F1). rewrite E1 in E1'. injection E1' as <-.
  destruct (forward_ok ideo m2 Hrc Hcn Hst) as (la2 & E2 & F2).
  assert (K : forall i t1, In t1 (nth i la1 []) -> exists t, In t (nth i la []) /\ n_start t1 = n_start t /\ n_left t1 = n_left t /\ n_right t1 = n_right t).
  { intros i t1 H. destruct (Nat.eq_dec i 0) as [->|N]; [rewrite (fw_0 F1) in H; eauto|].
    destruct (Nat.lt_ge_cases i (length la)) as [L|L]; [|rewrite nth_overflow in H by (rewrite (fw_len F1); lia); contradiction].
    assert (Hi : 0 < i < length la) by lia. pose proof (fw_step F1 Hi) as A. revert A H. generalize (nth i la []), (nth i la1 []). intros l l1 A.
    induction A as [|t t' l l1 R A IH]; intros H; [contradiction|]. destruct H as [->|H].
    - exists t. split; [left; reflexivity|]. destruct R as [[_ ->]|(j & p & _ & _ & ->)]; auto.
    - destruct (IH H) as (x & Hx & Hy). exists x. split; [right; exact Hx|exact Hy]. }
  assert (Hcn1 : forall i t, In t (nth i la1 []) -> conn_node d rows t).
  { intros i t1 H. destruct (K i t1 H) as (t & Ht & _ & El & Er). destruct (Hcn i t Ht). unfold conn_node. rewrite El, Er. auto. }
  assert (Hst1 : forall i t, 0 < i < length la1 -> In t (nth i la1 []) -> n_start t < i).
  { intros i t1 Hi H. destruct (K i t1 H) as (t & Ht & Es & _). rewrite Es. apply Hst; [rewrite <- (fw_len F1); exact Hi|exact Ht]. }
  destruct (forward_ok ideo m2 Hrc Hcn1 Hst1) as (la3 & E3 & F3). rewrite E2, E3. f_equal.
  exact (forwarded_unique Hst (forwarded_again F1 F3) F2).
Qed.
