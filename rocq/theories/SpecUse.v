(** What programs that use lattices themselves should see, in terms of single lattices that are
    built once, relaxed at most once and walked once. *)
From Verif Require Export SpecHeap LatticeUse.
Open Scope nat_scope.

(** A node without the pointer and the cost of the way to it, which a later Forward changes. *)
Definition shown (n : node) : node :=
  Node (n_id n) (n_position n) (n_start n) (n_class n) 0%Z (n_left n) (n_right n) (n_weight n) (n_surface n) None.

Definition no_build (ops : list lop) : Prop := forall inp, ~ In (LBuild inp) ops.

(** The calls of Backward, each with the mode of the last Forward before it. *)
Fixpoint walks (f : option lmode) (ops : list lop) : list (option lmode * lmode) :=
  match ops with
  | [] => []
  | LBuild _ :: r => walks f r
  | LForward m :: r => walks (Some m) r
  | LBackward m :: r => (f, m) :: walks f r
  end.

(** Build, at most one Forward, one Backward. *)
Definition best_nodes (ideo : ideographic) (d : dict) (u : option udict) (inp : bytes) (w : option lmode * lmode) : res (list node) :=
  let* la := build d u inp in
  let* la := match fst w with Some f => forward d ideo f la | None => Ok la end in
  backward (snd w) la.

(** Output when Build is called at most once: without Build nothing; with it, what each Backward
    appends is what it would give on a lattice of its own. *)
Inductive use_result (ideo : ideographic) (d : dict) (u : option udict) : list lop -> list node -> Prop :=
| ur_none ops : no_build ops -> use_result ideo d u ops []
| ur_once pre inp post outs out : no_build pre -> no_build post ->
    Forall2 (fun w o => best_nodes ideo d u inp w = Ok o) (walks None post) outs ->
    map shown out = map shown (concat outs) ->
    use_result ideo d u (pre ++ LBuild inp :: post) out.

(** Dictionaries are well formed and no lattice is built twice. *)
Definition built_once (ops : list lop) : Prop :=
  forall pre inp post, ops = pre ++ LBuild inp :: post -> no_build pre.
Definition work_ok (w : work) : Prop :=
  match w with
  | Call j => job_ok j
  | Use d u ops => wf_dict d /\ wf_udict u /\ built_once ops
  end.
Inductive right_outcome (ideo : ideographic) : work -> outcome -> Prop :=
| ro_call j a : right_answer ideo j a -> right_outcome ideo (Call j) (Called a)
| ro_use d u ops out : use_result ideo d u ops out -> right_outcome ideo (Use d u ops) (Used out).

Definition occurs (w s : bytes) : Prop := exists p q, s = p ++ w ++ q.

(** Well-formed dictionaries, any calls. *)
Definition in_order (w : work) : Prop :=
  match w with Call j => job_ok j | Use d u _ => wf_dict d /\ wf_udict u end.
(** The words that an analysis reports are in its input. *)
Definition words_there (w : work) (o : outcome) : Prop :=
  forall t inp mode ts tk, w = Call (JAnalyze t inp mode) -> o = Called (ATokens ts) -> In tk ts -> t_class tk <> DUMMY ->
  occurs (t_surface tk) inp.
