(** The memory of the pools and the length of the texts; one execution with thrifty pools. *)
From Verif Require Export QuotaFacts HeapRun.
From Verif Require WorkFacts.
From Coq Require Import ZifyBool ZifyNat.
Set Implicit Arguments.
Unset Strict Implicit.
Open Scope nat_scope.

Lemma short_nodes d u K V R j : wf_dict d -> wf_udict u -> SpecWork.words_bound d u K V -> short_job d u R j -> job_nodes j <= 2 + R * (K + 2 * V).
Proof.
  intros Hd Hu Hb Hs.
  assert (B : forall inp, rcount inp <= R -> match build d u inp with Ok v => length (concat v) | _ => 0 end <= 2 + R * (K + 2 * V)).
  { intros inp Hr. destruct (build d u inp) as [v| |] eqn:E; [|lia|lia]. pose proof (WorkFacts.build_nodes Hd Hu Hb E).
    pose proof (Nat.mul_le_mono_r _ _ (K + 2 * V) Hr). lia. }
  destruct j as [t inp mode|t inp|t inp mode]; cbn in *; destruct Hs as (<- & <- & Hr); exact (B inp Hr).
Qed.

Lemma sum_le (l : list nat) B : (forall x, In x l -> x <= B) -> list_sum l <= length l * B.
Proof.
  induction l as [|x l IH]; intros H; cbn [list_sum fold_right length Nat.mul]; [lia|]. pose proof (H x (or_introl eq_refl)).
  specialize (IH (fun y Hy => H y (or_intror Hy))). unfold list_sum in IH. lia.
Qed.

Lemma text_bound d u : wf_dict d -> wf_udict u -> exists a, forall g0 ideo jobs R, left_over g0 -> (forall js, In js jobs -> forall j, In j js -> job_ok j) ->
  (forall js, In js jobs -> forall j, In j js -> short_job d u R j) ->
  forall x, frugal_steps (start g0 ideo jobs) x -> pooled_nodes x <= Nat.max (length (g_node_pool g0)) (length jobs * (a * (R + 1))).
Proof.
  intros Hd Hu. destruct (WorkFacts.has_bounds u Hd) as (K & V & L & Hb & _). exists (2 + K + 2 * V). intros g0 ideo jobs R Hg Hj Hs x S.
  destruct (pool_bound Hg Hj S) as [B _].
  assert (Q : list_sum (map largest_call jobs) <= length jobs * ((2 + K + 2 * V) * (R + 1))).
  { rewrite <- (map_length largest_call jobs). apply sum_le. intros y Hy. apply in_map_iff in Hy. destruct Hy as (js & <- & Hy).
    apply list_max_le. rewrite Forall_map. apply Forall_forall. intros j I. pose proof (short_nodes Hd Hu Hb (Hs js Hy j I)). lia. }
  lia.
Qed.

Lemma frugal_more A (x y z : memory * list (thread A)) : frugal_step x y -> frugal_steps y z -> frugal_steps x z.
Proof.
  intros H1 H2. revert H1. induction H2 as [y|y z w H IH S]; intros H1; [econstructor; [constructor|exact H1]|]. econstructor; [exact (IH H1)|exact S].
Qed.
Lemma frugal_alone A g (th : thread A) g' th' : tstep g th g' th' -> reuses g th g' -> frugal_step (g, [th]) (g', [th']).
Proof. intros H R. exact (@fs_step A g [] th [] g' th' H R). Qed.

Ltac no_get := split; cbn; intros; try discriminate; try reflexivity; try congruence.
Theorem run_frugal A (p : prog A) : forall g a g' hn hw hl, run p g = Some (a, g') ->
  exists th, frugal_steps (g, [Thread p hn hw hl]) (g', [th]) /\ th_prog th = Ret a.
Proof.
  induction p as [a| |k IH|k IH|a p IH|n k IH|a k IH|a f p IH|k IH|a p IH|a k IH|a f p IH];
    intros [nodes next pool lats lnext lpool] r g' hn hw hl E; cbn [run] in E; try discriminate.
  - injection E as <- <-. eexists. split; [constructor|reflexivity].
  - destruct (IH _ _ _ _ hn hw hl E) as (th & S & H). exists th. split; [|exact H]. eapply frugal_more; [apply frugal_alone; [constructor|no_get]|exact S].
  - destruct pool as [|a pool].
    + destruct (IH _ _ _ _ (next :: hn) hw hl E) as (th & S & H). exists th. split; [|exact H]. eapply frugal_more; [apply frugal_alone; [apply t_node_make|no_get]|exact S].
    + destruct (IH _ _ _ _ (a :: hn) hw hl E) as (th & S & H). exists th. split; [|exact H]. eapply frugal_more; [apply frugal_alone|exact S].
      * exact (@t_node_get A nodes next [] a pool lats lnext lpool k hn hw hl).
      * no_get.
  - destruct (IH _ _ _ (remove_one a hn) hw hl E) as (th & S & H). exists th. split; [|exact H]. eapply frugal_more; [apply frugal_alone; [constructor|no_get]|exact S].
  - destruct (IH _ _ _ _ hn (next :: hw) hl E) as (th & S & H). exists th. split; [|exact H]. eapply frugal_more; [apply frugal_alone; [constructor|no_get]|exact S].
  - destruct (IH _ _ _ _ hn hw hl E) as (th & S & H). exists th. split; [|exact H]. eapply frugal_more; [apply frugal_alone; [apply t_node_read|no_get]|exact S].
  - destruct (IH _ _ _ hn hw hl E) as (th & S & H). exists th. split; [|exact H]. eapply frugal_more; [apply frugal_alone; [constructor|no_get]|exact S].
  - destruct lpool as [|a lpool].
    + destruct (IH _ _ _ _ hn hw (lnext :: hl) E) as (th & S & H). exists th. split; [|exact H]. eapply frugal_more; [apply frugal_alone; [apply t_lat_make|no_get]|exact S].
    + destruct (IH _ _ _ _ hn hw (a :: hl) E) as (th & S & H). exists th. split; [|exact H]. eapply frugal_more; [apply frugal_alone|exact S].
      * exact (@t_lat_get A nodes next pool lats lnext [] a lpool k hn hw hl).
      * no_get.
  - destruct (IH _ _ _ hn hw (remove_one a hl) E) as (th & S & H). exists th. split; [|exact H]. eapply frugal_more; [apply frugal_alone; [constructor|no_get]|exact S].
  - destruct (IH _ _ _ _ hn hw hl E) as (th & S & H). exists th. split; [|exact H]. eapply frugal_more; [apply frugal_alone; [apply t_lat_read|no_get]|exact S].
  - destruct (IH _ _ _ hn hw hl E) as (th & S & H). exists th. split; [|exact H]. eapply frugal_more; [apply frugal_alone; [constructor|no_get]|exact S].
Qed.

(** The execution exists and the memory it leaves passes a test. *)
Lemma run_left A B `{Eqb B} (p : prog A) g (f : memory -> B) b :
  match run p g with Some (_, g') => test_eq (f g') b | None => false end = true ->
  exists g' th, frugal_steps (g, [start_thread p]) (g', [th]) /\ (exists a, th_prog th = Ret a) /\ f g' = b.
Proof.
  destruct (run p g) as [[a g']|] eqn:E; [|discriminate]. intros Hb. destruct (run_frugal [] [] [] E) as (th & S & Ht).
  exists g', th. split; [exact S|]. split; [exists a; exact Ht|apply test_eq_ok; exact Hb].
Qed.
