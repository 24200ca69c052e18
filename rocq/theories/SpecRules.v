(** What the property of the patterns a features filter keeps speaks about. *)
From Verif Require Export SpecFilter.
Open Scope nat_scope.

(** The pattern p with some of the features of q replaced by Any. *)
Definition weaker (p q : list bytes) : Prop := Forall2 (fun a b => a = any_feature \/ a = b) p q.
(** The features fit a pattern that, wherever patterns that agree so far go on differently, goes on
    with the feature itself if one of them does. *)
Definition chosen (kept : list (list bytes)) (fs : list bytes) : Prop :=
  exists p, In p kept /\ covers p fs /\
    forall common v r w r', p = common ++ v :: r -> In (common ++ w :: r') kept -> nth_error fs (length common) = Some w -> v = w.
(** No pattern begins with another. *)
Definition prefix_free (kept : list (list bytes)) : Prop := forall p q r, In p kept -> In q kept -> q = p ++ r -> r = [].
Definition total_length (pats : list (list bytes)) : nat := list_sum (map (@length bytes) pats).
