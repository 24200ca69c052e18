(** Which changes of the dictionaries cannot change an analysis. *)
From Verif Require Export SpecTie SpecOut SpecFilter.
Open Scope Z_scope.

(** w is somewhere in s. *)
Definition inside (w s : bytes) : Prop := exists p q, s = p ++ w ++ q.
(** The two tables have the same entries, in the same order, for the keywords that are in the text. *)
Definition same_entries (s : bytes) (a b : index_table) : Prop :=
  exists l, picked (fun e => inside (fst e) s) a l /\ picked (fun e => inside (fst e) s) b l.
(** No user dictionary is like one without keywords. *)
Definition user_index (u : option udict) : index_table := match u with Some ud => u_index ud | None => [] end.
(** The dictionary with another table of keywords. *)
Definition with_index (idx : index_table) (d : dict) : dict :=
  Dict idx (d_morphs d) (d_conn_col d) (d_conn_vec d) (d_category d) (d_invoke d) (d_group d) (d_unk_index d) (d_unk_dup d)
    (d_unk_morphs d) (d_pos_ids d) (d_pos_names d) (d_contents d) (d_meta d) (d_unk_contents d) (d_unk_meta d).
(** The exported fields of a token. *)
Definition visible (t : token) : nat * Z * node_class * nat * nat * nat * bytes :=
  (t_index t, t_id t, t_class t, t_position t, t_start t, t_end t, t_surface t).
(** Two calls end in the same way. *)
Definition same_tokens (r r' : res (list token)) : Prop :=
  match r, r' with
  | Ok ts, Ok ts' => map visible ts = map visible ts'
  | Panic, Panic | Diverge, Diverge => True
  | _, _ => False
  end.

(** Entries are taken away. *)
Definition fewer (d : dict) (u : option udict) (d' : dict) (u' : option udict) : Prop :=
  exists P Q idx, picked P (d_index d) idx /\ d' = with_index idx d /\ picked Q (user_index u) (user_index u').
Definition user_contents (u : option udict) : list user_content := match u with Some ud => u_contents ud | None => [] end.
