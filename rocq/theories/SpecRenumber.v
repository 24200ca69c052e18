(** Specification for C121: the same dictionary with other numbers. *)
From Verif Require Export Tokenizer SpecTok.
From Coq Require Export Permutation.
Open Scope Z_scope.

(** New numbers for the entries of the three kinds, for the two sides of the connection matrix and for the categories. *)
Record renumbering := Renumbering {
  rn_known : Z -> Z; rn_unknown : Z -> Z; rn_user : Z -> Z;
  rn_left : Z -> Z; rn_right : Z -> Z; rn_category : nat -> nat
}.

(** The entries of a keyword, in their order. *)
Definition ids_of (idx : index_table) (key : bytes) : list Z := map snd (filter (fun e => bytes_eqb (fst e) key) idx).
(** The entry of a number. *)
Definition row {A : Type} (l : list A) (id : Z) : option A := if id <? 0 then None else nth_error l (Z.to_nat id).

(** Numbers that are in use. *)
Definition known_id (d : dict) (id : Z) : Prop := exists key, In (key, id) (d_index d).
Definition user_id (ud : udict) (id : Z) : Prop := exists key, In (key, id) (u_index ud).
Definition first_unknown (d : dict) (c : nat) : Z := map_get (d_unk_index d) (Z.of_nat c).
Definition more_unknown (d : dict) (c : nat) : Z := map_get (d_unk_dup d) (Z.of_nat c).
Definition unknown_id (d : dict) (id : Z) : Prop :=
  exists ch k, 0 <= k <= more_unknown d (d_category d ch) /\ id = first_unknown d (d_category d ch) + k.
(** The entries whose connections count: those of the dictionary, and that of BOS, EOS and user words. *)
Definition in_use (d : dict) (m : morph) : Prop := m = zero_morph \/ In m (d_morphs d) \/ In m (d_unk_morphs d).

Definition moved (r : renumbering) (m : morph) : morph := Morph (rn_left r (m_left m)) (rn_right r (m_right m)) (m_weight m).

(** d' and u' are d and u with these numbers. *)
Record renumbered (r : renumbering) (d d' : dict) (u u' : option udict) : Prop := {
  rn_words : forall key, ids_of (d_index d') key = map (rn_known r) (ids_of (d_index d) key);
  rn_entries : forall id, known_id d id -> 0 <= rn_known r id /\ row (d_morphs d') (rn_known r id) = option_map (moved r) (row (d_morphs d) id);
  rn_users : match u, u' with
             | Some ud, Some ud' => (forall key, ids_of (u_index ud') key = map (rn_user r) (ids_of (u_index ud) key)) /\
                                    (forall id, user_id ud id -> 0 <= rn_user r id)
             | None, None => True
             | _, _ => False
             end;
  rn_categories : forall ch, d_category d' ch = rn_category r (d_category d ch);
  rn_distinct : forall ch ch', rn_category r (d_category d ch) = rn_category r (d_category d ch') -> d_category d ch = d_category d ch';
  rn_lists : forall ch, let c := d_category d ch in
             nth_error (d_invoke d') (rn_category r c) = nth_error (d_invoke d) c /\ nth_error (d_group d') (rn_category r c) = nth_error (d_group d) c;
  rn_unknowns : forall ch, let c := d_category d ch in more_unknown d' (rn_category r c) = more_unknown d c /\
             forall k, 0 <= k <= more_unknown d c -> rn_unknown r (first_unknown d c + k) = first_unknown d' (rn_category r c) + k;
  rn_unknown_entries : forall id, unknown_id d id -> 0 <= rn_unknown r id /\ row (d_unk_morphs d') (rn_unknown r id) = option_map (moved r) (row (d_unk_morphs d) id);
  rn_zero : rn_left r 0 = 0 /\ rn_right r 0 = 0;
  rn_connections : forall m m', in_use d m -> in_use d m' ->
             row (d_conn_vec d') (d_conn_col d' * rn_right r (m_right m) + rn_left r (m_left m')) = row (d_conn_vec d) (d_conn_col d * m_right m + m_left m')
}.
Arguments rn_words {r d d' u u'}.
Arguments rn_entries {r d d' u u'}.
Arguments rn_users {r d d' u u'}.
Arguments rn_categories {r d d' u u'}.
Arguments rn_distinct {r d d' u u'}.
Arguments rn_lists {r d d' u u'}.
Arguments rn_unknowns {r d d' u u'}.
Arguments rn_unknown_entries {r d d' u u'}.
Arguments rn_zero {r d d' u u'}.
Arguments rn_connections {r d d' u u'}.

(** What the entries tell has moved with them. *)
Definition names_of (d : dict) (id : Z) : option (list (option bytes)) := option_map (map (row (d_pos_names d))) (row (d_pos_ids d) id).
Record same_contents (r : renumbering) (d d' : dict) (u u' : option udict) : Prop := {
  sc_names : forall id, known_id d id -> names_of d' (rn_known r id) = names_of d id;
  sc_contents : match d_contents d, d_contents d' with
                | Some cs, Some cs' => forall id, known_id d id -> row cs' (rn_known r id) = row cs id
                | None, None => True
                | _, _ => False
                end;
  sc_unknown : forall id, unknown_id d id -> row (d_unk_contents d') (rn_unknown r id) = row (d_unk_contents d) id;
  sc_meta : d_unk_meta d' = d_unk_meta d;
  sc_user : match u, u' with
            | Some ud, Some ud' => forall id, user_id ud id -> row (u_contents ud') (rn_user r id) = row (u_contents ud) id
            | _, _ => True
            end
}.
Arguments sc_names {r d d' u u'}.
Arguments sc_contents {r d d' u u'}.
Arguments sc_unknown {r d d' u u'}.
Arguments sc_meta {r d d' u u'}.
Arguments sc_user {r d d' u u'}.

(** The same token with the new number and dictionaries.  The runes of an unknown word in Extended mode, of class DUMMY, have its number. *)
Definition new_id (r : renumbering) (c : node_class) (id : Z) : Z :=
  if id =? -1 then -1 else match c with KNOWN => rn_known r id | USER => rn_user r id | _ => rn_unknown r id end.
Definition renumber (r : renumbering) (d' : dict) (u' : option udict) (t : token) : token :=
  Token (t_index t) (new_id r (t_class t) (t_id t)) (t_class t) (t_position t) (t_start t) (t_end t) (t_surface t) d' u'.

(** ud' lists the words of ud in another order, f telling the new places. *)
Record reordered (f : Z -> Z) (ud ud' : udict) : Prop := {
  ro_words : Permutation (map (fun e => (fst e, f (snd e))) (u_index ud)) (u_index ud');
  ro_once : NoDup (map fst (u_index ud));
  ro_places : forall id, user_id ud id -> 0 <= f id /\ row (u_contents ud') (f id) = row (u_contents ud) id
}.
Arguments ro_words {f ud ud'}.
Arguments ro_once {f ud ud'}.
Arguments ro_places {f ud ud'}.
(** All numbers but those of the user words stay. *)
Definition user_order (f : Z -> Z) : renumbering := Renumbering (fun x => x) (fun x => x) f (fun x => x) (fun x => x) (fun x => x).
