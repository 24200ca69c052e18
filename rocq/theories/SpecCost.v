(** What the Cost of a node in Output should be. *)
From Verif Require Export SpecUse.
Open Scope Z_scope.

(** Cost of the words ws after a word of class c with entry e, and then w.  What follows w pays
    the penalty of w. *)
Fixpoint way_from (m : lmode) (ideo : N -> bool) (d : dict) (inp : bytes) (c : node_class) (e : morph) (ws : list word) (w : word) : Z :=
  match ws with
  | [] => connection d c e (w_class w) (entry d (w_class w) (w_id w)) + m_weight (entry d (w_class w) (w_id w))
  | x :: r =>
    let e' := entry d (w_class x) (w_id x) in
    connection d c e (w_class x) e' + m_weight e' + penalty m ideo inp x + way_from m ideo d inp (w_class x) e' r w
  end.
Definition way_cost (m : lmode) (ideo : N -> bool) (d : dict) (inp : bytes) (ws : list word) (w : word) : Z :=
  way_from m ideo d inp DUMMY zero_morph ws w.

(** c is the cost of the cheapest way from the beginning of the text to the word w. *)
Definition cheapest_way (m : lmode) (ideo : N -> bool) (d : dict) (u : option udict) (inp : bytes) (w : word) (c : Z) : Prop :=
  (exists ws, chain d u inp 0 ws (w_start w) /\ c = way_cost m ideo d inp ws w) /\
  (forall ws, chain d u inp 0 ws (w_start w) -> c <= way_cost m ideo d inp ws w).

(** The node of a word. *)
Definition stands_for (d : dict) (n : node) (w : word) : Prop :=
  n_class n = w_class w /\ n_id n = w_id w /\ n_start n = w_start w /\
  Morph (n_left n) (n_right n) (n_weight n) = entry d (w_class w) (w_id w).
(** A node without any cost. *)
Definition free_node (n : node) : Prop := n_class n = DUMMY /\ n_cost n = 0 /\ n_left n = 0 /\ n_right n = 0 /\ n_weight n = 0.

(** Number of runes up to which 32 bits are enough. *)
Definition cost_limit (f : lmode) : Z := match f with LNormal => 32767 | _ => 31333 end.

(** Output after Build, Forward in mode f and Backward in mode b: EOS, the words of the cheapest
    segmentation from the last to the first, BOS.  In mode Extended an unknown word is replaced by
    nodes without cost. *)
Definition priced (ideo : N -> bool) (d : dict) (u : option udict) (inp : bytes) (f b : lmode) (out : list node) : Prop :=
  exists eos pieces bos ws,
    out = eos :: concat (rev pieces) ++ [bos] /\ n_class eos = DUMMY /\ free_node bos /\
    segmentation d u inp ws /\ n_cost eos = seg_cost f ideo d inp ws /\
    (forall ws', segmentation d u inp ws' -> n_cost eos <= seg_cost f ideo d inp ws') /\
    Forall2 (fun w piece =>
      (b = LExtended /\ w_class w = UNKNOWN /\ forall n, In n piece -> free_node n) \/
      (~ (b = LExtended /\ w_class w = UNKNOWN) /\
       exists n, piece = [n] /\ stands_for d n w /\ cheapest_way f ideo d u inp w (n_cost n))) ws pieces.
