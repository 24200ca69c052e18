(** Specification for C117: dictionaries whose costs are written differently. *)
From Verif Require Export SpecPrice SpecLocal.
Open Scope Z_scope.

(** d' tells the costs of d on another scale, k times as large, and shifts costs between words and connections:
    every connection to left id l costs f l more and every connection from right id r costs g r more, and the
    words with these ids cost as much less. *)
Record rescaled (k : Z) (f g : Z -> Z) (d d' : dict) : Prop := {
  rs_words : same_words d d';
  rs_scale : 0 < k;
  rs_left : forall c id, 0 <= id -> m_left (entry d' c id) = m_left (entry d c id);
  rs_right : forall c id, 0 <= id -> m_right (entry d' c id) = m_right (entry d c id);
  rs_known : forall id, 0 <= id < Z.of_nat (length (d_morphs d)) ->
    m_weight (entry d' KNOWN id) = k * m_weight (entry d KNOWN id) - f (m_left (entry d KNOWN id)) - g (m_right (entry d KNOWN id));
  rs_unknown : forall id, 0 <= id < Z.of_nat (length (d_unk_morphs d)) ->
    m_weight (entry d' UNKNOWN id) = k * m_weight (entry d UNKNOWN id) - f (m_left (entry d UNKNOWN id)) - g (m_right (entry d UNKNOWN id));
  rs_conn : forall r l, 0 <= r -> 0 <= l < d_conn_col d -> d_conn_col d * r + l < Z.of_nat (length (d_conn_vec d)) ->
    nth (Z.to_nat (d_conn_col d * r + l)) (d_conn_vec d') 0 = k * nth (Z.to_nat (d_conn_col d * r + l)) (d_conn_vec d) 0 + f l + g r
}.
Arguments rs_words {k f g d d'}.
Arguments rs_scale {k f g d d'}.
Arguments rs_left {k f g d d'}.
Arguments rs_right {k f g d d'}.
Arguments rs_known {k f g d d'}.
Arguments rs_unknown {k f g d d'}.
Arguments rs_conn {k f g d d'}.

(** User words are joined to their neighbours without cost: nothing can be shifted to their connections. *)
Definition no_user_word (u : option udict) (s : bytes) : Prop := forall key id, In (key, id) (user_index u) -> ~ inside key s.
(** A way to write such a dictionary. *)
Definition rewrite_morph (k : Z) (f g : Z -> Z) (e : morph) : morph := Morph (m_left e) (m_right e) (k * m_weight e - f (m_left e) - g (m_right e)).
Definition rewritten (k : Z) (f g : Z -> Z) (d : dict) : dict :=
  Dict (d_index d) (map (rewrite_morph k f g) (d_morphs d)) (d_conn_col d)
    (map (fun i => k * nth i (d_conn_vec d) 0 + f (Z.of_nat i mod d_conn_col d) + g (Z.of_nat i / d_conn_col d)) (seq 0 (length (d_conn_vec d))))
    (d_category d) (d_invoke d) (d_group d) (d_unk_index d) (d_unk_dup d)
    (map (rewrite_morph k f g) (d_unk_morphs d)) (d_pos_ids d) (d_pos_names d) (d_contents d) (d_meta d) (d_unk_contents d) (d_unk_meta d).
