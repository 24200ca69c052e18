(** C123: the memory kept in the pools is bounded by the largest calls. *)
From Verif Require Import Example QuotaBusy SpecQuota.
Open Scope nat_scope.

(** ** C123 *)
(** At every moment of every run, whatever the pools hand out: a goroutine holds at most as many
    nodes as the largest of its calls has, and at most one lattice. *)
Theorem C123_held : forall g0 ideo jobs, left_over g0 -> (forall js, In js jobs -> forall j, In j js -> job_ok j) ->
  forall g ths, steps (start g0 ideo jobs) (g, ths) -> forall k js th, nth_error jobs k = Some js -> nth_error ths k = Some th ->
  length (th_nodes th) <= largest_call js /\ length (th_lats th) <= 1.
Proof. exact held_bound. Qed.
Print Assumptions C123_held.
(** If Get makes nothing new while the pool has something, then the nodes that exist are never more
    than were there before or than the largest calls of all goroutines have together, and the
    lattices never more than were there or than there are goroutines: however many calls there are. *)
Theorem C123_pools : forall g0 ideo jobs, left_over g0 -> (forall js, In js jobs -> forall j, In j js -> job_ok j) ->
  forall x, frugal_steps (start g0 ideo jobs) x ->
  pooled_nodes x <= Nat.max (length (g_node_pool g0)) (list_sum (map largest_call jobs)) /\
  pooled_lats x <= Nat.max (length (g_lat_pool g0)) (length jobs).
Proof. exact pool_bound. Qed.
Print Assumptions C123_pools.
(** For each dictionary there is a number of nodes per rune: with texts of at most R runes no
    number of calls makes the pool larger than that for each goroutine. *)
Theorem C123_texts : forall d u, wf_dict d -> wf_udict u -> exists a, forall g0 ideo jobs R, left_over g0 ->
  (forall js, In js jobs -> forall j, In j js -> job_ok j) -> (forall js, In js jobs -> forall j, In j js -> short_job d u R j) ->
  forall x, frugal_steps (start g0 ideo jobs) x -> pooled_nodes x <= Nat.max (length (g_node_pool g0)) (length jobs * (a * (R + 1))).
Proof. exact text_bound. Qed.
Print Assumptions C123_texts.

(** The bound is reached: when all calls have returned, the pool has at least what the largest of
    them all needs; with one goroutine exactly that, or what was there before. *)
Theorem C123_kept : forall g0 ideo jobs, left_over g0 -> (forall js, In js jobs -> forall j, In j js -> job_ok j) ->
  forall g ths, steps (start g0 ideo jobs) (g, ths) -> (forall th, In th ths -> finished th) ->
  length (g_node_pool g0) <= length (g_node_pool g) /\ forall js, In js jobs -> largest_call js <= length (g_node_pool g).
Proof. exact finished_pool. Qed.
Print Assumptions C123_kept.
Theorem C123_exact : forall g0 ideo js g th, left_over g0 -> (forall j, In j js -> job_ok j) -> frugal_steps (start g0 ideo [js]) (g, [th]) -> finished th ->
  length (g_node_pool g) = Nat.max (length (g_node_pool g0)) (largest_call js) /\ length (g_lat_pool g) <= Nat.max (length (g_lat_pool g0)) 1.
Proof. exact one_exact. Qed.
Print Assumptions C123_exact.
(** "No new memory will be allocated" (mem/pool.go:11-12): with enough in the pool no call makes a node. *)
Theorem C123_again : forall g0 ideo jobs x, left_over g0 -> (forall js, In js jobs -> forall j, In j js -> job_ok j) ->
  list_sum (map largest_call jobs) <= length (g_node_pool g0) -> frugal_steps (start g0 ideo jobs) x -> pooled_nodes x = length (g_node_pool g0).
Proof. exact nothing_new. Qed.
Print Assumptions C123_again.

(** What counts is what is going on at the same time.  Only goroutines that are inside a call hold
    nodes; so however many goroutines there are (one for each request, say), the nodes that exist
    are never more than were there before or than those inside calls needed together at some moment,
    and the lattices never more than were there or than were inside calls at some moment. *)
Theorem C123_inside : forall g0 ideo jobs, left_over g0 -> (forall js, In js jobs -> forall j, In j js -> job_ok j) ->
  forall g ths, steps (start g0 ideo jobs) (g, ths) -> forall th, In th ths -> inside th = false -> th_nodes th = [].
Proof. exact held_inside. Qed.
Print Assumptions C123_inside.
Theorem C123_busy : forall g0 ideo jobs, left_over g0 -> (forall js, In js jobs -> forall j, In j js -> job_ok j) ->
  forall B n x, frugal_run (fun y => load jobs (snd y) <= B /\ busy (snd y) <= n) (start g0 ideo jobs) x ->
  pooled_nodes x <= Nat.max (length (g_node_pool g0)) B /\ pooled_lats x <= Nat.max (length (g_lat_pool g0)) n.
Proof. exact busy_bound. Qed.
Print Assumptions C123_busy.
(** So for texts of at most R runes, n of them at a time, there is a bound that knows only n and R. *)
Theorem C123_requests : forall d u, wf_dict d -> wf_udict u -> exists a, forall g0 ideo jobs R n, left_over g0 ->
  (forall js, In js jobs -> forall j, In j js -> job_ok j) -> (forall js, In js jobs -> forall j, In j js -> short_job d u R j) ->
  forall x, frugal_run (fun y => busy (snd y) <= n) (start g0 ideo jobs) x -> pooled_nodes x <= Nat.max (length (g_node_pool g0)) (n * (a * (R + 1))).
Proof. exact busy_texts. Qed.
Print Assumptions C123_requests.

(** Five calls of one goroutine, from empty pools: what is there in the end is what the largest of
    them has, and one lattice. *)
Definition ex_calls : list job :=
  [JAnalyze (Tokenizer ex_dict None true) (s2b "東京に") mode_normal;
   JGraph (Tokenizer ex_dict None true) (s2b "東京都に行くab") mode_extended;
   JWakati (Tokenizer ex_dict None false) (s2b "に");
   JAnalyze (Tokenizer ex_dict None true) (s2b "東京都に行く") mode_search;
   JAnalyze (Tokenizer ex_dict None true) (s2b "東京都に行くab") mode_extended].
Example C123_example :
  map job_nodes ex_calls = [6; 15; 3; 12; 15] /\
  exists g th, frugal_steps (start start_memory ex_ideo [ex_calls]) (g, [th]) /\ (exists a, th_prog th = Ret a) /\
    (length (g_node_pool g), length (g_lat_pool g)) = (15, 1).
Proof.
  split; [by_eval|].
  refine (@run_left _ _ _ (h_jobs ex_ideo ex_calls) start_memory (fun g => (length (g_node_pool g), length (g_lat_pool g))) (15, 1) _). by_eval.
Qed.
(** The smaller calls again, with what these have left: nothing is made. *)
Definition ex_pool : memory := Memory (fun _ => HNode 7 3 5 UNKNOWN 99 1 2 3 (s2b "old") (Some 4)) 15 (seq 0 15) (fun _ => zero_hlat) 0 [].
Example C123_pool : left_over ex_pool /\ list_sum (map largest_call [[JWakati (Tokenizer ex_dict None false) (s2b "に")]; [JAnalyze (Tokenizer ex_dict None true) (s2b "東京都に行く") mode_search]]) = 15 /\
  exists g th, frugal_steps (start ex_pool ex_ideo [ex_calls]) (g, [th]) /\ (exists a, th_prog th = Ret a) /\ (length (g_node_pool g), length (g_lat_pool g)) = (15, 1).
Proof.
  split; [|split; [by_eval|]].
  - split; cbn [ex_pool g_node_pool g_node_next g_lat_pool g_lat_next g_lats]; [split; [apply seq_NoDup|intros a Ha; apply in_seq in Ha; lia]|split; [constructor|contradiction]|contradiction].
  - refine (@run_left _ _ _ (h_jobs ex_ideo ex_calls) ex_pool (fun g => (length (g_node_pool g), length (g_lat_pool g))) (15, 1) _). by_eval.
Qed.
(** The hypotheses are met. *)
Example C123_met : left_over start_memory /\ (forall js, In js [ex_calls] -> forall j, In j js -> job_ok j) /\
  (forall js, In js [ex_calls] -> forall j, In j js -> short_job ex_dict None 8 j).
Proof.
  split; [exact start_left_over|]. split.
  - intros js [<-|[]] j Hj. cbn in Hj. intuition subst; cbn [job_ok tk_dict tk_udict]; repeat (split; [first [exact wf_ex|exact I]|]); first [exact I|exact wf_ex_data].
  - intros js [<-|[]] j Hj. cbn in Hj. intuition subst; cbn [short_job tk_dict tk_udict]; (split; [reflexivity|]); (split; [reflexivity|]); apply Nat.leb_le; by_eval.
Qed.
(** The same calls and more, each in a goroutine of its own, one after the other: the run exists, at
    every moment at most one is inside a call, and what is left is what the largest has, not the sum. *)
Definition ex_requests : list (list job) := map (fun j => [j]) (ex_calls ++ ex_calls).
Example C123_sequence :
  list_sum (map largest_call ex_requests) = 102 /\
  exists g ths, frugal_run (fun y => load ex_requests (snd y) <= 15 /\ busy (snd y) <= 1) (start start_memory ex_ideo ex_requests) (g, ths) /\
    (forall th, In th ths -> finished th) /\ (length (g_node_pool g), length (g_lat_pool g)) = (15, 1).
Proof.
  split; [by_eval|]. refine (@each_left start_memory ex_ideo ex_requests 15 start_left_over _ _ _ _ (fun g => (length (g_node_pool g), length (g_lat_pool g))) (15, 1) _).
  - intros js Hjs j Hj. destruct C123_met as (_ & M & _). unfold ex_requests in Hjs. apply in_map_iff in Hjs. destruct Hjs as (j' & <- & I). destruct Hj as [<-|[]].
    apply (M ex_calls); [left; reflexivity|]. apply in_app_or in I. destruct I; assumption.
  - assert (T : forallb (fun js => largest_call js <=? 15) ex_requests = true) by by_eval. rewrite forallb_forall in T. intros js I. apply Nat.leb_le, T, I.
  - by_eval.
Qed.
