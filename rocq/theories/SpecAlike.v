(** Specification for C119: texts whose characters do not matter. *)
From Verif Require Export SpecTok SpecLocal.
Open Scope nat_scope.

(** No keyword of either dictionary that stands in the text covers rune i. *)
Definition uncovered (d : dict) (u : option udict) (s : bytes) (i : nat) : Prop :=
  forall id a b, a <= i < b -> ~ keyword_at (d_index d) s id a b /\ ~ keyword_at (user_index u) s id a b.
(** Rune i of the one text and rune i of the other are of one category, both or none of them ideographs, and both or none of them
    bytes that are not UTF-8 (U+FFFD itself, which the code mistakes for such a byte, has to stay). *)
Definition same_kind (d : dict) (ideo : ideographic) (s s' : bytes) (i : nat) : Prop :=
  d_category d (rune_at s' i) = d_category d (rune_at s i) /\ ideo (rune_at s' i) = ideo (rune_at s i) /\
  (rune_at s' i = rune_error <-> rune_at s i = rune_error) /\ ~ literal_fffd s i /\ ~ literal_fffd s' i.
(** The texts have the same number of runes and are the same but for runes that are covered by no keyword in either text, and of
    the same kind. *)
Record alike (d : dict) (u : option udict) (ideo : ideographic) (s s' : bytes) : Prop := {
  al_count : rcount s' = rcount s;
  al_runes : forall i, i < rcount s -> text s' i (S i) = text s i (S i) \/ (same_kind d ideo s s' i /\ uncovered d u s i /\ uncovered d u s' i)
}.
Arguments al_count {d u ideo s s'}.
Arguments al_runes {d u ideo s s'}.

(** What a token tells but for its text: all but Surface and Position (and so all its features). *)
Definition shape (t : token) : nat * Z * node_class * nat * nat * dict * option udict :=
  (t_index t, t_id t, t_class t, t_start t, t_end t, t_dict t, t_udict t).
(** Two calls end in the same way, and the tokens have the same shapes. *)
Definition same_shapes (r r' : res (list token)) : Prop :=
  match r, r' with
  | Ok ts, Ok ts' => map shape ts' = map shape ts
  | Panic, Panic | Diverge, Diverge => True
  | _, _ => False
  end.

(** The texts are the same but for bytes that are not UTF-8 in either. *)
Definition malformed (g : N * bytes) : Prop := fst g = rune_error /\ length (snd g) = 1.
Definition same_utf8 (s s' : bytes) : Prop := Forall2 (fun g g' => g' = g \/ (malformed g /\ malformed g')) (segs s) (segs s').
