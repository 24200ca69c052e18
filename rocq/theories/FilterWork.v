(** How often filter/feature.go compares features: the iterations of the loop of has. *)
From Verif Require Export Filter.
Open Scope nat_scope.

(** feature.go:32-39 has: the edges looked at. *)
Fixpoint has_steps (es : list (bytes * fnode)) (s : bytes) : nat :=
  match es with
  | [] => 0
  | (v, _) :: es' => if bytes_eqb v any_feature || bytes_eqb v s then 1 else S (has_steps es' s)
  end.
(** feature.go:79-92 Match *)
Fixpoint match_steps (n : fnode) (fs : list bytes) : nat :=
  match fs with
  | [] => 0
  | v :: rest =>
    has_steps (fanout n) v +
    match has n v with
    | Some k => if is_leaf (child n k) then 0 else match_steps (child n k) rest
    | None => 0
    end
  end.
(** feature.go:55-76 add *)
Fixpoint add_steps (n : fnode) (fs : list bytes) : nat :=
  match fs with
  | [] => 0
  | v :: rest =>
    has_steps (fanout n) v +
    match has n v with
    | Some k => if is_leaf (child n k) then 0 else match rest with [] => 0 | _ => add_steps (child n k) rest end
    | None => add_steps (FNode []) rest
    end
  end.
(** feature.go:42-53 NewFeaturesFilter *)
Fixpoint build_steps (n : fnode) (pats : list (list bytes)) : nat :=
  match pats with
  | [] => 0
  | p :: pats' => add_steps n p + build_steps (add_features n p) pats'
  end.
