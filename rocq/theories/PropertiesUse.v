(** Property theorems: concurrent requests to the server, and programs that use lattices
    themselves. *)
From Verif Require Import Check Example SpecServing SpecUse HeapAny HeapRun ServingFacts UseFacts UseCases.
From Verif Require Import SpecServer ServerFacts.
Open Scope Z_scope.

(** ** C71 *)
(** At every moment of every run, each connection has been answered as if each of its requests
    were the only one the server ever got, or its handler can go on. *)
Theorem C71_requests : forall decode newer dot ptr ideo d u omit, wf_dict d -> wf_udict u -> wf_data d ->
  forall g0 conns g ths, left_over g0 ->
  steps (h_server decode newer dot ptr ideo (Tokenizer d u omit) g0 conns) (g, ths) ->
  length ths = length conns /\
  forall k cs th, nth_error conns k = Some cs -> nth_error ths k = Some th ->
    (forall rs, th_prog th = Ret rs -> Forall2 (alone decode newer dot ptr ideo (Tokenizer d u omit)) cs rs) /\
    (finished th \/ exists g' th', tstep g th g' th').
Proof. exact serving_results. Qed.
Print Assumptions C71_requests.
(** Every run can be completed, and every completed run leaves memory from which the theorem
    applies again. *)
Theorem C71_completes : forall decode newer dot ptr ideo d u omit, wf_dict d -> wf_udict u -> wf_data d ->
  forall g0 conns g ths, left_over g0 ->
  steps (h_server decode newer dot ptr ideo (Tokenizer d u omit) g0 conns) (g, ths) ->
  exists g' ths', steps (g, ths) (g', ths') /\ (forall th, In th ths' -> finished th) /\ left_over g'.
Proof. exact serving_completes. Qed.
Print Assumptions C71_completes.
Theorem C71_finite : forall decode newer dot ptr ideo t g0 conns,
  ~ exists f : nat -> memory * list (thread (list reply)),
      f 0%nat = h_server decode newer dot ptr ideo t g0 conns /\ forall n, step (f n) (f (S n)).
Proof. exact serving_finite. Qed.
Print Assumptions C71_finite.
(** Three connections; the answers of the second and the rows of the third. *)
Definition ex_conns : list (list call) :=
  [[]; [Tokenize (ex_body "東" "Normal"); Draw (s2b "東a") (s2b "Extended"); Tokenize (s2b "{")];
   [Draw (s2b "に") []]].
Definition ex_server := h_server (example_decoder quote_error) false (fun g => s2b "<svg>" ++ g) (fun _ => s2b "p") ex_ideo
  (Tokenizer ex_dict (Some ex_udict) true).
Definition ex_replies (rs : list reply) : list (Z * bytes) * list (list bytes) :=
  (concat (map (fun r => match r with Sent a => [(rs_status a, rs_body a)] | Page _ _ => [] end) rs),
   concat (map (fun r => match r with Sent _ => [] | Page rows _ => [map rc_surface rows] end) rs)).
Example C71_example :
  wf_dict ex_dict /\ wf_udict (Some ex_udict) /\ wf_data ex_dict /\ left_over start_memory /\
  (exists g ths, steps (ex_server start_memory ex_conns) (g, ths) /\ forall th, In th ths -> finished th) /\
  (exists g th rs, steps (ex_server start_memory [nth 1 ex_conns []]) (g, [th]) /\ th_prog th = Ret rs /\
     ex_replies rs =
     ([(200, s2b "{""status"":true,""tokens"":[{""id"":0,""start"":0,""end"":1,""surface"":""東"",""class"":""KNOWN"",""pos"":[""名詞"",""一般""],""base_form"":""東"",""reading"":""ヒガシ"",""pronunciation"":"""",""features"":[""名詞"",""一般"",""東"",""ヒガシ""]}]}");
       (400, s2b "{""status"":false,""error"":""invalid character '""' after object key""}" ++ [Byte.x0a])],
      [[s2b "東"; s2b "a"]])).
Proof.
  split; [exact wf_ex|]. split; [exact wf_ex_udict|]. split; [exact wf_ex_data|]. split; [exact start_left_over|]. split.
  - destruct (C71_completes (example_decoder quote_error) false (fun g => s2b "<svg>" ++ g) (fun _ => s2b "p") ex_ideo ex_dict (Some ex_udict) true
      wf_ex wf_ex_udict wf_ex_data start_memory ex_conns _ _ start_left_over (steps_refl _)) as (g & ths & S & F & _). exists g, ths. split; [exact S|exact F].
  - eapply run_result. vm_compute. reflexivity.
Qed.

(** ** C72 *)
(** Programs that use the exported methods of a lattice, Build, Forward and Backward, in any order
    and any number of times between New and Free.  Full statement: whatever they do, no one else
    notices, and what a lattice reports belongs to the input built last.  Both halves are false:
    Build keeps the lists of an earlier Build, which also stay in the pooled lattice after Free.
    [words_there]: the words that an analysis reports are in its input. *)
Theorem C72_others_refuted : ~ forall ideo clients g ths, (forall ws, In ws clients -> forall w, In w ws -> in_order w) ->
  steps (h_clients start_memory ideo clients) (g, ths) ->
  forall k ws th os, nth_error clients k = Some ws -> nth_error ths k = Some th -> th_prog th = Ret os -> Forall2 words_there ws os.
Proof. exact others_notice. Qed.
Print Assumptions C72_others_refuted.
(** The words in Output are in the input of the last Build. *)
Theorem C72_rebuild_refuted : ~ forall ideo d u a b m m' g th out, wf_dict d -> wf_udict u ->
  steps (start_memory, [start_thread (h_use ideo d u [LBuild a; LBuild b; LForward m; LBackward m'])]) (g, [th]) ->
  th_prog th = Ret out -> forall n, In n out -> n_class n <> DUMMY -> occurs (n_surface n) b.
Proof. exact rebuild_stale. Qed.
Print Assumptions C72_rebuild_refuted.
(** With at most one Build for each lattice: at every moment of every run, each goroutine has got
    from all its calls what it would get alone, or it can go on.  Missing: lattices that are built
    more than once. *)
Theorem C72_once_partial : forall g0 ideo clients g ths, left_over g0 ->
  (forall ws, In ws clients -> forall w, In w ws -> work_ok w) ->
  steps (h_clients g0 ideo clients) (g, ths) ->
  length ths = length clients /\
  forall k ws th, nth_error clients k = Some ws -> nth_error ths k = Some th ->
    (forall os, th_prog th = Ret os -> Forall2 (right_outcome ideo) ws os) /\
    (finished th \/ exists g' th', tstep g th g' th').
Proof. exact clients_results. Qed.
Print Assumptions C72_once_partial.
Theorem C72_completes_partial : forall g0 ideo clients g ths, left_over g0 ->
  (forall ws, In ws clients -> forall w, In w ws -> work_ok w) ->
  steps (h_clients g0 ideo clients) (g, ths) ->
  exists g' ths', steps (g, ths) (g', ths') /\ (forall th, In th ths' -> finished th) /\ left_over g'.
Proof. exact clients_completes. Qed.
Print Assumptions C72_completes_partial.
(** Forward twice, Backward in two modes, and an analysis after it. *)
Definition ex_client : list work :=
  [Use ex_dict None [LForward LNormal; LBuild (s2b "東京都"); LForward LSearch; LForward LNormal; LBackward LNormal; LBackward LExtended];
   Call (JAnalyze (Tokenizer ex_dict None false) (s2b "行くに") mode_normal)].
Example C72_example : (forall w, In w ex_client -> work_ok w) /\ left_over start_memory /\
  exists g th os, steps (h_clients start_memory ex_ideo [ex_client]) (g, [th]) /\ th_prog th = Ret os /\
    map (fun o => match o with Used out => map n_surface out | Called (ATokens ts) => map t_surface ts | _ => [] end) os =
      [[[]; s2b "東京都"; []; []; s2b "東京都"; []]; [s2b "BOS"; s2b "行く"; s2b "に"; s2b "EOS"]].
Proof.
  split.
  { intros w [<-|[<-|[]]]; [|exact (conj wf_ex I)].
    split; [exact wf_ex|]. split; [exact I|]. apply once_check. reflexivity. }
  split; [exact start_left_over|]. eapply run_result. vm_compute. reflexivity.
Qed.
