(** How long an analysis may take, in terms of the dictionaries and of the length of the text. *)
From Verif Require Export SpecTok.
Open Scope nat_scope.

(** The entries whose keyword begins the text s. *)
Definition begins (s : bytes) (e : bytes * Z) : bool := bytes_eqb (fst e) (firstn (length (fst e)) s).
(** No text begins with more than k keywords. *)
Definition matches_bound (idx : index_table) (k : nat) : Prop :=
  forall s, length (filter (begins s) idx) <= k.
(** At most k keywords of either dictionary at one place, at most v entries for unknown words of one
    category. *)
Definition words_bound (d : dict) (u : option udict) (k v : nat) : Prop :=
  matches_bound (d_index d) k /\
  match u with Some ud => matches_bound (u_index ud) k | None => True end /\
  forall r, (map_get (d_unk_dup d) (Z.of_nat (d_category d r)) < Z.of_nat v)%Z.
(** No keyword is longer than l runes, nor is an unknown word. *)
Definition length_bound (d : dict) (u : option udict) (l : nat) : Prop :=
  (1024 <= N.of_nat l)%N /\
  (forall key id, In (key, id) (d_index d) -> rune_count key <= l) /\
  match u with Some ud => forall key id, In (key, id) (u_index ud) -> rune_count key <= l | None => True end.
