(** Property theorems: calls that panic, with any dictionaries. *)
From Verif Require Import Check Example SpecRecover HeapAny HeapRun RecoverFacts.
From Verif Require Import SpecServer ServerFacts.
Open Scope Z_scope.

Definition panicked {A} (r : res A) : bool := match r with Panic => true | _ => false end.
Lemma panics {A} (r : res A) : panicked r = true -> r = Panic.
Proof. destruct r; cbn; congruence. Qed.

(** ** C75 *)
(** Whatever the dictionaries contain, the loops of an analysis end: a call returns or panics. *)
Theorem C75_calls_end : forall ideo t input mode,
  analyze ideo t input mode <> Diverge /\ wakati ideo t input <> Diverge /\
  analyze_graph ideo t input mode <> Diverge /\ graph_stmts ideo t input mode <> Diverge.
Proof.
  exact (fun ideo t input mode => conj (@ends_analyze ideo t input mode) (conj (@ends_wakati ideo t input)
    (conj (@ends_graph ideo t input mode) (@ends_graph_stmts ideo t input mode)))).
Qed.
Print Assumptions C75_calls_end.
Theorem C75_handlers_end : forall decode newer dot name ideo t body sen mode,
  serve_tokenize decode newer ideo t body <> Diverge /\ serve_demo dot name ideo t sen mode <> Diverge.
Proof.
  exact (fun decode newer dot name ideo t body sen mode => conj (@ends_tokenize decode newer ideo t body) (@ends_demo dot name ideo t sen mode)).
Qed.
Print Assumptions C75_handlers_end.

(** A dictionary without the last entry of its connection table: some sentences panic inside
    Forward, when the lattice is full of nodes. *)
Definition ex_broken : dict :=
  Dict ex_index (d_morphs ex_dict) 2 [10; 20; -30] ex_category (d_invoke ex_dict)
       (d_group ex_dict) (d_unk_index ex_dict) (d_unk_dup ex_dict) (d_unk_morphs ex_dict)
       (d_pos_ids ex_dict) (d_pos_names ex_dict) (d_contents ex_dict) (d_meta ex_dict) (d_unk_contents ex_dict) (d_unk_meta ex_dict).
Definition ex_bad : tokenizer := Tokenizer ex_broken None true.
Definition ex_good : tokenizer := Tokenizer ex_dict (Some ex_udict) true.
Example C75_example : analyze ex_ideo ex_bad (s2b "東京行く") mode_search = Panic /\
  graph_stmts ex_ideo ex_bad (s2b "東京行く") mode_normal = Panic /\
  wakati ex_ideo ex_bad (s2b "に") = Ok [s2b "に"] /\
  serve_tokenize (example_decoder quote_error) false ex_ideo ex_bad (ex_body "東京行く" "Search") = Panic.
Proof. split; [|split; [|split]]; first [by_eval | apply panics; vm_compute; reflexivity]. Qed.

(** ** C76 *)
(** Goroutines that recover from the panics of their calls: at every moment of every run, one that
    has finished got from each call what the call gives alone, an answer or the panic, and has
    handed back every lattice; one that has not finished can go on. *)
Theorem C76_panics : forall g0 ideo work g ths, left_over g0 ->
  steps (d_workers ideo g0 work) (g, ths) ->
  length ths = length work /\
  forall k js th, nth_error work k = Some js -> nth_error ths k = Some th ->
    (forall rs, th_prog th = Ret rs -> Forall2 (attempt ideo) js rs /\ th_lats th = []) /\
    (finished th \/ exists g' th', tstep g th g' th').
Proof. exact workers_results. Qed.
Print Assumptions C76_panics.
(** Every run can be completed, and leaves memory from which the theorem applies again. *)
Theorem C76_completes : forall g0 ideo work g ths, left_over g0 ->
  steps (d_workers ideo g0 work) (g, ths) ->
  exists g' ths', steps (g, ths) (g', ths') /\ (forall th, In th ths' -> finished th) /\ left_over g'.
Proof. exact workers_complete. Qed.
Print Assumptions C76_completes.
Theorem C76_finite : forall g0 ideo work,
  ~ exists f : nat -> memory * list (thread (list (option answer))),
      f 0%nat = d_workers ideo g0 work /\ forall n, step (f n) (f (S n)).
Proof. exact (fun g0 ideo work => @any_finite _ (d_workers ideo g0 work)). Qed.
Print Assumptions C76_finite.
Definition ex_work : list job :=
  [JAnalyze ex_bad (s2b "東京行く") mode_search; JAnalyze ex_good (s2b "行くに") mode_normal;
   JGraph ex_bad (s2b "東京行く") mode_normal; JWakati ex_bad (s2b "に"); JWakati ex_good (s2b "東京都")].
Definition ex_seen (rs : list (option answer)) : list (option (list bytes)) :=
  map (option_map (fun a => match a with ATokens ts => map t_surface ts | AWords ws => ws | AGraph ts _ => map t_surface ts end)) rs.
Example C76_example : left_over start_memory /\
  (exists g ths, steps (d_workers ex_ideo start_memory [ex_work; []; ex_work]) (g, ths) /\ forall th, In th ths -> finished th) /\
  exists g th rs, steps (d_workers ex_ideo start_memory [ex_work]) (g, [th]) /\ th_prog th = Ret rs /\
    ex_seen rs = [None; Some [s2b "行く"; s2b "に"]; None; Some [s2b "に"]; Some [s2b "東京都"]].
Proof.
  split; [exact start_left_over|]. split.
  - destruct (C76_completes start_memory ex_ideo [ex_work; []; ex_work] _ _ start_left_over (steps_refl _)) as (g & ths & S & F & _).
    exists g, ths. split; [exact S|exact F].
  - eapply run_result. vm_compute. reflexivity.
Qed.

(** ** C77 *)
(** The server with any dictionaries, a tokenizer for each connection: a connection gets the
    answers that its requests get alone, up to the first one whose handler panics; what happens on
    one connection is not noticed on another. *)
Theorem C77_connections : forall decode newer dot ptr ideo g0 conns g ths, left_over g0 ->
  steps (d_server decode newer dot ptr ideo g0 conns) (g, ths) ->
  length ths = length conns /\
  forall k t cs th, nth_error conns k = Some (t, cs) -> nth_error ths k = Some th ->
    (forall rs, th_prog th = Ret rs -> handled decode newer dot ptr ideo t cs rs /\ th_lats th = []) /\
    (finished th \/ exists g' th', tstep g th g' th').
Proof. exact conns_results. Qed.
Print Assumptions C77_connections.
Theorem C77_completes : forall decode newer dot ptr ideo g0 conns g ths, left_over g0 ->
  steps (d_server decode newer dot ptr ideo g0 conns) (g, ths) ->
  exists g' ths', steps (g, ths) (g', ths') /\ (forall th, In th ths' -> finished th) /\ left_over g'.
Proof. exact conns_complete. Qed.
Print Assumptions C77_completes.
Theorem C77_finite : forall decode newer dot ptr ideo g0 conns,
  ~ exists f : nat -> memory * list (thread (list (option reply))),
      f 0%nat = d_server decode newer dot ptr ideo g0 conns /\ forall n, step (f n) (f (S n)).
Proof. exact (fun decode newer dot ptr ideo g0 conns => @any_finite _ (d_server decode newer dot ptr ideo g0 conns)). Qed.
Print Assumptions C77_finite.
(** The second connection breaks at its second request; the first one is served to the end. *)
Definition ex_mixed : list (tokenizer * list call) :=
  [(ex_good, [Draw (s2b "東a") (s2b "Extended"); Tokenize (s2b "{")]);
   (ex_bad, [Tokenize (ex_body "に" "Normal"); Tokenize (ex_body "東京行く" "Search"); Tokenize (ex_body "に" "Normal")])].
Definition ex_d_server := d_server (example_decoder quote_error) false (fun g => s2b "<svg>" ++ g) (fun _ => s2b "p") ex_ideo.
Definition ex_codes (rs : list (option reply)) : list (option Z) :=
  map (option_map (fun r => match r with Sent a => rs_status a | Page _ _ => 0 end)) rs.
Example C77_example : left_over start_memory /\
  (exists g ths, steps (ex_d_server start_memory ex_mixed) (g, ths) /\ forall th, In th ths -> finished th) /\
  (exists g th rs, steps (ex_d_server start_memory [nth 0 ex_mixed (ex_good, [])]) (g, [th]) /\ th_prog th = Ret rs /\ ex_codes rs = [Some 0; Some 400]) /\
  (exists g th rs, steps (ex_d_server start_memory [nth 1 ex_mixed (ex_good, [])]) (g, [th]) /\ th_prog th = Ret rs /\ ex_codes rs = [Some 200; None]).
Proof.
  split; [exact start_left_over|]. split; [|split].
  - destruct (C77_completes (example_decoder quote_error) false (fun g => s2b "<svg>" ++ g) (fun _ => s2b "p") ex_ideo start_memory ex_mixed _ _
      start_left_over (steps_refl _)) as (g & ths & S & F & _). exists g, ths. split; [exact S|exact F].
  - eapply run_result. vm_compute. reflexivity.
  - eapply run_result. vm_compute. reflexivity.
Qed.
