(** Theorems C97-C98: what becomes of the output and of the exit status when writes fail. *)
From Verif Require Import Check SpecCmd Utf8Facts CmdFacts Writes SpecWrites WriteFacts Example DotRuns CmdMore CmdMain CmdExamples.
Open Scope Z_scope.

(** ** C97 *)
(** The run says so if its output could not be written. *)
Definition reports (run : list wevent * ending) : Prop := forall q, In (WCall (q, true)) (fst run) -> exists n, snd run = Status n /\ n <> 0.
Definition failed_call (e : wevent) : bool := match e with WCall (_, f) => f | _ => false end.
Definition no_out (b : bytes) : bool := match b with [] => true | _ => false end.
Definition silently (run : list wevent * ending) : bool :=
  existsb failed_call (fst run) && no_out (calls_output (fst run)) && match snd run with Status 0 => true | _ => false end.
Lemma silently_not run : silently run = true -> ~ reports run.
Proof.
  unfold silently, reports. destruct run as [t e]. cbn [fst snd]. intros H R. apply andb_prop in H. destruct H as [H He]. apply andb_prop in H. destruct H as [H _].
  apply existsb_exists in H. destruct H as (x & Hx & Hf). destruct x as [x|[q f]]; [discriminate Hf|]. cbn in Hf. subst f.
  destruct (R q Hx) as (n & E & N). subst e. destruct n as [|n|n]; [exact (N eq_refl)|discriminate He|discriminate He].
Qed.
(** The lines of the graph of the text a, all of them lost. *)
Definition full_disk : sink := repeat (Some 0%nat) 20.
Theorem C97_reported_refuted : exists w, world_ok w /\ forall argv,
  In argv [[s2b "kagome"]; [s2b "kagome"; s2b "tokenize"; s2b "-json"]; [s2b "kagome"; s2b "sentence"]; [s2b "kagome"; s2b "lattice"; s2b "a"]] ->
  exists k, ~ reports (kagome_w true w argv k) /\ calls_output (fst (kagome_w true w argv k)) = [] /\ events_output (fst (kagome w argv)) <> [].
Proof.
  exists (ex_world (s2b "a" ++ [x0a] ++ s2b "b")). split; [apply ex_world_ok|]. intros argv H. exists full_disk.
  assert (B : forallb (fun argv => silently (kagome_w true (ex_world (s2b "a" ++ [x0a] ++ s2b "b")) argv full_disk) &&
      negb (no_out (events_output (fst (kagome (ex_world (s2b "a" ++ [x0a] ++ s2b "b")) argv)))))
      [[s2b "kagome"]; [s2b "kagome"; s2b "tokenize"; s2b "-json"]; [s2b "kagome"; s2b "sentence"]; [s2b "kagome"; s2b "lattice"; s2b "a"]] = true) by by_eval.
  rewrite forallb_forall in B. specialize (B argv H). apply andb_prop in B. destruct B as [B C]. split; [apply silently_not; exact B|].
  unfold silently in B. apply andb_prop in B. destruct B as [B _]. apply andb_prop in B. destruct B as [_ B]. split.
  - destruct (calls_output _); [reflexivity|discriminate B].
  - intros E. rewrite E in C. discriminate C.
Qed.
Print Assumptions C97_reported_refuted.

(** Failed writes change nothing else: the other events and the ending are those of the run whose writes
    all succeed; without a failed call the output is complete. *)
Theorem C97_ending_partial : forall direct w argv k, serves_quietly w ->
  with_losses out_calls (fst (kagome w argv)) (fst (kagome_w direct w argv k)) /\ snd (kagome_w direct w argv k) = snd (kagome w argv).
Proof. exact kagome_losses. Qed.
Print Assumptions C97_ending_partial.
Theorem C97_whole_partial : forall direct w argv k, serves_quietly w -> no_failure (fst (kagome_w direct w argv k)) ->
  calls_output (fst (kagome_w direct w argv k)) = events_output (fst (kagome w argv)).
Proof. exact whole_output. Qed.
Print Assumptions C97_whole_partial.
Example C97_example_quiet input : serves_quietly (ex_world input).
Proof. intros addr t e []. Qed.
(** The kind of an event, or what a call took and whether it failed *)
Definition wview (e : wevent) : nat * bytes := match e with WEvent (ERead b) => (1%nat, b) | WEvent _ => (0%nat, []) | WCall (b, false) => (2%nat, b) | WCall (b, true) => (3%nat, b) end.
Definition answer (s : bytes) : bytes := s ++ [x09] ++ s2b "名詞,一般" ++ [x0a] ++ s2b "EOS" ++ [x0a].
(** The second of three answers is cut short; the third is written, and the status is 0. *)
Example C97_example :
  map wview (fst (kagome_w true (ex_world (s2b "a" ++ [x0a] ++ s2b "b" ++ [x0a] ++ s2b "c")) [s2b "kagome"] [None; Some 3%nat])) =
  [(0%nat, []); (1%nat, s2b "a" ++ [x0a] ++ s2b "b" ++ [x0a]); (2%nat, answer (s2b "a")); (3%nat, firstn 3 (answer (s2b "b")));
   (1%nat, []); (1%nat, s2b "c"); (2%nat, answer (s2b "c"))].
Proof. by_eval. Qed.
(** An answer longer than the buffer: the buffer is written when it is full, and its rest at the end; a
    string longer than the buffer is written directly if the buffer is empty. *)
Definition letters (n : N) : bytes := repeat "a"%byte (N.to_nat n).
Definition call_sizes (m : wcmd unit) (k : sink) : list (N * bool) :=
  map (fun e => match e with WCall (q, f) => (N.of_nat (length q), f) | _ => (0%N, false) end) (fst (fst (m k))).
Example C97_example_long : call_sizes (buffered true [(false, letters 4000); (false, letters 200)]) [] = [(4096%N, false); (104%N, false)] /\
  call_sizes (buffered true [(false, letters 5000); (false, letters 1)]) [] = [(5000%N, false); (1%N, false)] /\
  call_sizes (buffered false [(false, letters 5000); (false, letters 1)]) [] = [(4096%N, false); (905%N, false)] /\
  call_sizes (buffered false [(false, letters 5000); (false, letters 1)]) [Some 7%nat] = [(7%N, true)].
Proof. split; [|split; [|split]]; by_eval. Qed.

(** ** C98 *)
Theorem C98_prefix_refuted : exists w, world_ok w /\ exists argv k,
  ~ is_prefix (calls_output (fst (kagome_w true w argv k))) (events_output (fst (kagome w argv))).
Proof.
  exists (ex_world (s2b "a" ++ [x0a] ++ s2b "b")). split; [apply ex_world_ok|]. exists [s2b "kagome"], [Some 0%nat].
  assert (A : calls_output (fst (kagome_w true (ex_world (s2b "a" ++ [x0a] ++ s2b "b")) [s2b "kagome"] [Some 0%nat])) = answer (s2b "b")) by by_eval.
  assert (B : events_output (fst (kagome (ex_world (s2b "a" ++ [x0a] ++ s2b "b")) [s2b "kagome"])) = answer (s2b "a") ++ answer (s2b "b")) by by_eval.
  rewrite A, B. intros (c & E). discriminate E.
Qed.
Print Assumptions C98_prefix_refuted.
(** If after a failed call no later call takes anything, what was written is a prefix of the output. *)
Theorem C98_prefix_partial : forall direct w argv k, serves_quietly w -> gives_up (fst (kagome_w direct w argv k)) ->
  is_prefix (calls_output (fst (kagome_w direct w argv k))) (events_output (fst (kagome w argv))).
Proof. exact prefix_output. Qed.
Print Assumptions C98_prefix_partial.
(** tokenize: what is lost is the end of an answer, or of several. *)
Theorem C98_tokenize_partial : forall direct w args k, exists t k',
  tok_run_w direct w args k = (t, snd (tok_run w args), k') /\ with_losses block_calls (fst (tok_run w args)) t.
Proof. exact tok_run_lossy. Qed.
Print Assumptions C98_tokenize_partial.
(** sentence and lattice: what is lost is the end of a line, or of several. *)
Theorem C98_sentence_partial : forall w args k, exists t k',
  sen_run_w w args k = (t, snd (sen_run w args), k') /\ with_losses line_calls (fst (sen_run w args)) t.
Proof. exact sen_run_lossy. Qed.
Print Assumptions C98_sentence_partial.
Theorem C98_lattice_partial : forall w args k, exists t k',
  lat_run_w w args k = (t, snd (lat_run w args), k') /\ with_losses line_calls (fst (lat_run w args)) t.
Proof. exact lat_run_lossy. Qed.
Print Assumptions C98_lattice_partial.
Fixpoint giving_up (failed : bool) (t : list wevent) : bool :=
  match t with
  | [] => true
  | WEvent _ :: t' => giving_up failed t'
  | WCall (q, f) :: t' => (negb failed || no_out q) && giving_up (failed || f) t'
  end.
Lemma giving_up_failed t : giving_up true t = true -> forall c, In (WCall c) t -> fst c = [].
Proof.
  induction t as [|[e|[q f]] t IH]; intros H c; [intros []| |].
  - intros [E|E]; [discriminate E|apply IH; assumption].
  - cbn [giving_up negb orb] in H. apply andb_prop in H. destruct H as [H1 H2]. intros [E|E]; [|apply IH; assumption].
    injection E as <-. destruct q; [reflexivity|discriminate H1].
Qed.
Lemma giving_up_ok t : forall b, giving_up b t = true -> gives_up t.
Proof.
  induction t as [|e t IH]; intros b H t1 q t2 c E Hc; [destruct t1; discriminate E|]. destruct t1 as [|e1 t1].
  - injection E as -> ->. cbn [giving_up] in H. apply andb_prop in H. destruct H as [_ H]. rewrite Bool.orb_true_r in H. exact (giving_up_failed _ H c Hc).
  - injection E as _ E. assert (K : exists b', giving_up b' t = true) by (destruct e as [e|[q' f]]; cbn [giving_up] in H; [|apply andb_prop in H; destruct H as [_ H]]; eexists; exact H).
    destruct K as (b' & K). exact (IH b' K t1 q t2 c E Hc).
Qed.
(** A disk that is full after the first answer and three bytes of the second *)
Definition filling : sink := [None; Some 3%nat; Some 0%nat].
Definition three_lines : bytes := s2b "a" ++ [x0a] ++ s2b "b" ++ [x0a] ++ s2b "c".
Example C98_example : gives_up (fst (kagome_w true (ex_world three_lines) [s2b "kagome"] filling)) /\
  calls_output (fst (kagome_w true (ex_world three_lines) [s2b "kagome"] filling)) = answer (s2b "a") ++ firstn 3 (answer (s2b "b")).
Proof. split; [apply (giving_up_ok _ false)|]; by_eval. Qed.
Example C98_example_sentence :
  map wview (fst (kagome_w true (ex_world (s2b "東。に。a")) [s2b "kagome"; s2b "sentence"] [Some 3%nat])) =
  [(1%nat, s2b "東" ++ [xe3]); (1%nat, []); (1%nat, [x80; x82] ++ s2b "に。a"); (3%nat, s2b "東"); (2%nat, s2b "に。" ++ [x0a]); (2%nat, s2b "a" ++ [x0a])].
Proof. by_eval. Qed.
