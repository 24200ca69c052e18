(** Property theorems: pooled memory and concurrent calls (tokenizer/lattice/mem/pool.go,
    tokenizer/lattice/lattice.go New, Free, addNode, Dot; tokenizer/tokenizer.go Analyze, Wakati,
    AnalyzeGraph).
    [g0] is any memory earlier calls may have left (SpecHeap.left_over); a run of several
    goroutines is any sequence of steps, each by any goroutine, with any choice of the pools. *)
From Verif Require Import Example HeapProps.
Open Scope Z_scope.

(** ** C14 *)
(** Whatever the pools contain, and whatever calls came before. *)
Theorem C14_history : forall g0 ideo js j g th rs, left_over g0 -> (forall x, In x (js ++ [j]) -> job_ok x) ->
  steps (start g0 ideo [js ++ [j]]) (g, [th]) -> th_prog th = Ret rs ->
  exists a, right_answer ideo j a /\ nth_error rs (length js) = Some a.
Proof. exact after_history. Qed.
Print Assumptions C14_history.

(** ** C15 *)
(** At every moment of every run each goroutine has returned the right results or can go on. *)
Theorem C15_no_interference : forall g0 ideo jobs, left_over g0 -> (forall js, In js jobs -> forall j, In j js -> job_ok j) ->
  forall g ths, steps (start g0 ideo jobs) (g, ths) ->
  length ths = length jobs /\
  forall k js th, nth_error jobs k = Some js -> nth_error ths k = Some th ->
    (forall rs, th_prog th = Ret rs -> Forall2 (right_answer ideo) js rs) /\
    (finished th \/ exists g' th', tstep g th g' th').
Proof. exact no_interference. Qed.
Print Assumptions C15_no_interference.
(** No run goes on for ever, and every run can be completed; what it leaves in the pools is a
    memory from which the same holds again. *)
Theorem C15_terminates : forall g ideo jobs, ~ exists f : nat -> memory * list (thread (list answer)),
  f 0%nat = start g ideo jobs /\ forall n, step (f n) (f (S n)).
Proof. exact no_infinite_run. Qed.
Print Assumptions C15_terminates.
Theorem C15_completes : forall g0 ideo jobs, left_over g0 -> (forall js, In js jobs -> forall j, In j js -> job_ok j) ->
  forall g ths, steps (start g0 ideo jobs) (g, ths) ->
  exists g' ths', steps (g, ths) (g', ths') /\ (forall th, In th ths' -> finished th) /\ left_over g'.
Proof. exact completes. Qed.
Print Assumptions C15_completes.
(** Two goroutines are never about to use the same object, and none is about to use an object
    that is in a pool. *)
Theorem C15_no_race : forall g0 ideo jobs g ths, left_over g0 -> (forall js, In js jobs -> forall j, In j js -> job_ok j) ->
  steps (start g0 ideo jobs) (g, ths) -> forall k k' th th', nth_error ths k = Some th -> nth_error ths k' = Some th' -> k <> k' ->
  (forall a, uses_node (th_prog th) a -> ~ uses_node (th_prog th') a /\ ~ In a (g_node_pool g)) /\
  (forall a, uses_lat (th_prog th) a -> ~ uses_lat (th_prog th') a /\ ~ In a (g_lat_pool g)).
Proof. exact no_shared_use. Qed.
Print Assumptions C15_no_race.

(** The text a graph call has written is that of [graph_text], whatever the run time prints for
    the address of a node. *)
Theorem C15_graph_text : forall g0 ideo jobs g ths, left_over g0 -> (forall js, In js jobs -> forall j, In j js -> job_ok j) ->
  steps (start g0 ideo jobs) (g, ths) -> forall k js th rs i t inp mode, nth_error jobs k = Some js -> nth_error ths k = Some th ->
  th_prog th = Ret rs -> nth_error js i = Some (JGraph t inp mode) ->
  exists ts drawn name, nth_error rs i = Some (AGraph ts drawn) /\ analyze_graph ideo t inp mode = Ok ts /\
    forall ptr : addr -> bytes, graph_text (fun c => ptr (name c)) ideo t inp mode = Ok (dot_text ptr drawn).
Proof. exact graph_written. Qed.
Print Assumptions C15_graph_text.

(** ** C45 *)
Theorem C45_one_owner : forall g0 ideo jobs, left_over g0 -> (forall js, In js jobs -> forall j, In j js -> job_ok j) ->
  forall g ths, steps (start g0 ideo jobs) (g, ths) ->
  NoDup (g_node_pool g ++ flat_map (fun th => th_nodes th ++ th_new th) ths) /\
  NoDup (g_lat_pool g ++ flat_map th_lats ths) /\
  (forall th, In th ths ->
     (forall a, uses_node (th_prog th) a -> In a (th_nodes th ++ th_new th)) /\
     (forall a k, th_prog th = NodePut a k -> In a (th_nodes th)) /\
     (forall a, uses_lat (th_prog th) a -> In a (th_lats th)) /\
     (finished th -> th_nodes th = [] /\ th_lats th = [])) /\
  (forall a, In a (g_lat_pool g) -> freed (g_lats g a)).
Proof. exact one_owner. Qed.
Print Assumptions C45_one_owner.

(** Three goroutines with one, four and no calls in different modes and with different
    dictionaries, started with a node full of stale data and a used lattice in the pools; every
    run of them can be completed, and then the results are these. *)
Definition ex_jobs : list (list job) :=
  [[JAnalyze (Tokenizer ex_dict None true) (s2b "東京に") mode_normal];
   [JAnalyze (Tokenizer ex_dict (Some ex_udict) false) (s2b "行くab") mode_extended; JGraph (Tokenizer ex_dict (Some ex_udict) true) (s2b "行くab") mode_extended;
    JWakati (Tokenizer ex_dict None false) (s2b "東京に"); JAnalyze (Tokenizer ex_dict None true) (s2b "に") mode_search];
   []].
Definition ex_memory : memory :=
  Memory (fun _ => HNode 7 3 5 UNKNOWN 99 1 2 3 (s2b "old") (Some 4%nat)) 5%nat [4%nat; 2%nat]
         (fun _ => HLat [] (GSlice [None; None] 0%nat) (GSlice [GSlice [None] 0%nat; gs_nil; GSlice [None; None; None] 0%nat] 0%nat) (Some ex_dict) None) 1%nat [0%nat].
Definition ex_view (ideo : ideographic) (j : job) : list (nat * bytes * Z) :=
  match j with
  | JAnalyze t inp mode => match analyze ideo t inp mode with Ok ts => map (fun t => (t_index t, t_surface t, t_id t)) ts | _ => [] end
  | JWakati t inp => match wakati ideo t inp with Ok ws => map (fun w => (0%nat, w, 0)) ws | _ => [] end
  | JGraph t inp mode =>
    match graph_stmts ideo t inp mode with
    | Ok ss => flat_map (fun s => match s with SNode c surf _ w best => [(fst c, surf, w)] | SEdge _ _ _ _ => [] end) ss
    | _ => []
    end
  end.
Example C14_C15_C45_example :
  left_over ex_memory /\ (forall js, In js ex_jobs -> forall j, In j js -> job_ok j) /\
  (exists g ths, steps (start ex_memory ex_ideo ex_jobs) (g, ths) /\ (forall th, In th ths -> finished th)) /\
  map (map (ex_view ex_ideo)) ex_jobs =
  [[[(0%nat, s2b "東京", 3); (1%nat, s2b "に", 6)]];
   [[(0%nat, s2b "BOS", -1); (1%nat, s2b "行く", 7); (2%nat, s2b "a", 4); (3%nat, s2b "b", 4); (4%nat, s2b "EOS", -1)];
    [(0%nat, s2b "BOS", 0); (2%nat, s2b "行く", 120); (2%nat, s2b "行く", 130); (5%nat, s2b "EOS", 0)];
    [(0%nat, s2b "東京", 0); (0%nat, s2b "に", 0)]; [(0%nat, s2b "に", 6)]];
   []].
Proof.
  assert (L : left_over ex_memory).
  { split; cbn.
    - split; [|lia]. constructor; [cbn; lia|]. constructor; [cbn; lia|constructor].
    - split; [|lia]. constructor; [cbn; lia|constructor].
    - intros a _. split; cbn; try reflexivity.
      + split; [reflexivity|]. intros p [<-|[<-|[]]]; reflexivity.
      + intros r [<-|[<-|[<-|[]]]]; (split; [reflexivity|]); cbn; intuition congruence. }
  assert (J : forall js, In js ex_jobs -> forall j, In j js -> job_ok j).
  { intros js [<-|[<-|[<-|[]]]] j Hj; cbn in Hj; intuition subst; cbn [job_ok tk_dict tk_udict];
      repeat (split; [first [exact wf_ex|exact I|exact wf_ex_udict]|]); first [exact I|exact wf_ex_udict|exact wf_ex_data]. }
  split; [exact L|]. split; [exact J|]. split.
  - destruct (C15_completes ex_memory ex_ideo ex_jobs L J _ _ (steps_refl _)) as (g & ths & S & F & _). exists g, ths. split; [exact S|exact F].
  - by_eval.
Qed.
