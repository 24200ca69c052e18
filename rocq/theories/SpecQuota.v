(** What the property of the memory kept in the pools speaks about. *)
From Verif Require Export Heap SpecTok.
Open Scope nat_scope.

(** The nodes a call needs: those of the table of its text. *)
Definition job_nodes (j : job) : nat :=
  match j with
  | JAnalyze t input _ | JWakati t input | JGraph t input _ =>
    match build (tk_dict t) (tk_udict t) input with Ok v => length (concat v) | _ => 0 end
  end.
(** A goroutine makes its calls one after the other: what counts is the largest. *)
Definition largest_call (js : list job) : nat := list_max (map job_nodes js).

(** The objects of the pools that exist: those in the pool and those some goroutine holds. *)
Definition pooled_nodes {A} (x : memory * list (thread A)) : nat :=
  length (g_node_pool (fst x)) + length (flat_map th_nodes (snd x)).
Definition pooled_lats {A} (x : memory * list (thread A)) : nat :=
  length (g_lat_pool (fst x)) + length (flat_map th_lats (snd x)).

(** A step in which Get makes no new object while the pool has one: "newF is a constructor of T,
    and it is called when the memory pool is empty", tokenizer/lattice/mem/pool.go:20-21
    (sync.Pool promises less, but aims at this). *)
Definition reuses {A} (g : memory) (th : thread A) (g' : memory) : Prop :=
  (forall k, th_prog th = NodeGet k -> g_node_pool g <> [] -> g_node_next g' = g_node_next g) /\
  (forall k, th_prog th = LatGet k -> g_lat_pool g <> [] -> g_lat_next g' = g_lat_next g).
Inductive frugal_step {A} : memory * list (thread A) -> memory * list (thread A) -> Prop :=
| fs_step g t1 th t2 g' th' : tstep g th g' th' -> reuses g th g' -> frugal_step (g, t1 ++ th :: t2) (g', t1 ++ th' :: t2).
Inductive frugal_steps {A} : memory * list (thread A) -> memory * list (thread A) -> Prop :=
| fss_refl x : frugal_steps x x
| fss_step x y z : frugal_steps x y -> frugal_step y z -> frugal_steps x z.

(** A call with these dictionaries on a text of at most R runes. *)
Definition short_job (d : dict) (u : option udict) (R : nat) (j : job) : Prop :=
  match j with
  | JAnalyze t input _ | JWakati t input | JGraph t input _ =>
    tk_dict t = d /\ tk_udict t = u /\ rcount input <= R
  end.

(** A goroutine is inside a call while it holds a lattice (from New to the end of Free).  What the
    goroutines that are inside calls may need together; and how many they are. *)
Definition inside {A} (th : thread A) : bool := match th_lats th with [] => false | _ => true end.
Definition load {A} (jobs : list (list job)) (ths : list (thread A)) : nat :=
  list_sum (map (fun jt => if inside (snd jt) then largest_call (fst jt) else 0) (combine jobs ths)).
Definition busy {A} (ths : list (thread A)) : nat := length (filter inside ths).
(** A run all of whose moments are P. *)
Inductive frugal_run {A} (P : memory * list (thread A) -> Prop) : memory * list (thread A) -> memory * list (thread A) -> Prop :=
| fr_refl x : P x -> frugal_run P x x
| fr_step x y z : frugal_run P x y -> frugal_step y z -> P z -> frugal_run P x z.
