(** Specification for C115: dictionaries that differ in one price. *)
From Verif Require Export SpecTok SpecOut.
Open Scope Z_scope.

(** The same words at the same places. *)
Record same_words (d d' : dict) : Prop := {
  sw_index : d_index d' = d_index d;
  sw_category : forall c, d_category d' c = d_category d c;
  sw_invoke : d_invoke d' = d_invoke d;
  sw_group : d_group d' = d_group d;
  sw_unk_index : d_unk_index d' = d_unk_index d;
  sw_unk_dup : d_unk_dup d' = d_unk_dup d;
  sw_col : d_conn_col d' = d_conn_col d
}.
Arguments sw_index {d d'}.
Arguments sw_category {d d'}.
Arguments sw_invoke {d d'}.
Arguments sw_group {d d'}.
Arguments sw_unk_index {d d'}.
Arguments sw_unk_dup {d d'}.
Arguments sw_col {d d'}.

(** d' is d, but the entry id of this class costs x less. *)
Definition cheaper_word (d d' : dict) (c : node_class) (id x : Z) : Prop :=
  same_words d d' /\ d_conn_vec d' = d_conn_vec d /\ 0 < x /\
  forall c' id', 0 <= id' ->
    m_left (entry d' c' id') = m_left (entry d c' id') /\ m_right (entry d' c' id') = m_right (entry d c' id') /\
    (c' = c /\ id' = id -> m_weight (entry d' c' id') = m_weight (entry d c' id') - x) /\
    (~ (c' = c /\ id' = id) -> m_weight (entry d' c' id') = m_weight (entry d c' id')).

(** d' is d, but joining right id r to left id l costs x less. *)
Definition cheaper_join (d d' : dict) (r l x : Z) : Prop :=
  same_words d d' /\ d_morphs d' = d_morphs d /\ d_unk_morphs d' = d_unk_morphs d /\ 0 < x /\ 0 <= r /\ 0 <= l < d_conn_col d /\
  forall r' l', 0 <= r' -> 0 <= l' < d_conn_col d ->
    (r' = r /\ l' = l -> nth (Z.to_nat (d_conn_col d * r' + l')) (d_conn_vec d') 0 = nth (Z.to_nat (d_conn_col d * r' + l')) (d_conn_vec d) 0 - x) /\
    (~ (r' = r /\ l' = l) -> nth (Z.to_nat (d_conn_col d * r' + l')) (d_conn_vec d') 0 = nth (Z.to_nat (d_conn_col d * r' + l')) (d_conn_vec d) 0).

(** How often the entry is used. *)
Definition times (c : node_class) (id : Z) (ws : list word) : nat :=
  length (filter (fun w => class_eqb (w_class w) c && (w_id w =? id)) ws).

(** How often right id r meets left id l, user words aside; the markers at both ends have the ids 0. *)
Fixpoint joints_from (d : dict) (r l : Z) (c : node_class) (e : morph) (ws : list word) : nat :=
  let meets c' e' := if negb (class_eqb c USER) && negb (class_eqb c' USER) && (m_right e =? r) && (m_left e' =? l) then 1%nat else 0%nat in
  match ws with
  | [] => meets DUMMY zero_morph
  | w :: ws' => (meets (w_class w) (entry d (w_class w) (w_id w)) + joints_from d r l (w_class w) (entry d (w_class w) (w_id w)) ws')%nat
  end.
Definition joints (d : dict) (r l : Z) (ws : list word) : nat := joints_from d r l DUMMY zero_morph ws.
