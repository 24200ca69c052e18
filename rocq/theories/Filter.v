(** Model of filter/feature.go, filter/filter.go, filter/pos.go, filter/word.go and
    filter/ja/filter.go. *)
From Verif Require Export Token.

(** ** filter/feature.go *)
(** feature.go:16-17 *)
Definition any_feature : bytes := [x00].

(** feature.go:19-26: a node holds its outgoing edges in order.  fanout is nil exactly when it is
    empty (edges are only appended, and clearing sets it to nil), so a list is enough; nodes are
    reached from one edge only, so the pointers form a tree. *)
Inductive fnode := FNode (fanout : list (bytes * fnode)).
Definition fanout (n : fnode) : list (bytes * fnode) := let 'FNode es := n in es.

(** feature.go:28-30 *)
Definition is_leaf (n : fnode) : bool := match fanout n with [] => true | _ => false end.

(** feature.go:32-39 has: index of the first edge, None for -1. *)
Fixpoint has_from (es : list (bytes * fnode)) (s : bytes) (i : nat) : option nat :=
  match es with
  | [] => None
  | (v, _) :: es' => if bytes_eqb v any_feature || bytes_eqb v s then Some i else has_from es' s (S i)
  end.
Definition has (n : fnode) (s : bytes) : option nat := has_from (fanout n) s 0.

(** n.fanout[k].to *)
Definition child (n : fnode) (k : nat) : fnode :=
  match nth_error (fanout n) k with Some (_, c) => c | None => FNode [] end.
(** the node with n.fanout[k].to replaced (the code updates it in place) *)
Definition set_child (n : fnode) (k : nat) (c : fnode) : fnode :=
  FNode (update_nth (fanout n) k (fun e => (fst e, c))).

(** feature.go:55-76 add, recursive on the remaining features; the pointer n of the loop is the
    node the recursion works on. *)
Fixpoint add_features (n : fnode) (fs : list bytes) : fnode :=
  match fs with
  | [] => n
  | v :: rest =>
    match has n v with
    | Some k =>
      if is_leaf (child n k) then n
      else match rest with
           | [] => set_child n k (FNode [])
           | _ => set_child n k (add_features (child n k) rest)
           end
    | None => FNode (fanout n ++ [(v, add_features (FNode []) rest)])
    end
  end.

(** feature.go:42-53 NewFeaturesFilter; the filter is its root node. *)
Definition new_features_filter (pats : list (list bytes)) : fnode :=
  fold_left add_features pats (FNode []).

(** feature.go:79-92 Match *)
Fixpoint features_match (n : fnode) (fs : list bytes) : bool :=
  match fs with
  | [] => false
  | v :: rest =>
    match has n v with
    | Some k => if is_leaf (child n k) then true else features_match (child n k) rest
    | None => false
    end
  end.

(** feature.go:95-109 String, filterString: one line per edge, indented by its depth; an edge is
    printed before the edges below it (edge.to is never nil). *)
Fixpoint filter_string (indent : nat) (n : fnode) : bytes :=
  let 'FNode es := n in
  concat (map (fun e => concat (repeat (s2b "  ") indent) ++ fst e ++ [x0a] ++ filter_string (S indent) (snd e)) es).
Definition features_string (f : fnode) : bytes := filter_string 0 f.

(** ** filter/filter.go *)
(** filter.go:17-32: the loop of applyFilter.  [arr] is the backing array, rewritten in place;
    element i is read when the loop reaches it.  The predicate may panic and may change a state
    (a Go closure).  Result: the predicate's state, the array and tail. *)
Fixpoint apply_loop {S : Type} (pred : S -> token -> res (S * bool)) (drop : bool)
    (k i tail : nat) (s : S) (arr : list token) : res (S * list token * nat) :=
  match k with
  | O => Ok (s, arr, tail)
  | Datatypes.S k' =>
    let* v := index arr i in
    let* sb := pred s v in
    let (s', b) := sb in
    if Bool.eqb b drop then apply_loop pred drop k' (Datatypes.S i) tail s' arr
    else
      let* arr' := if negb (i =? tail)%nat then update arr tail (fun _ => v) else Ok arr in
      apply_loop pred drop k' (Datatypes.S i) (Datatypes.S tail) s' arr'
  end.

(** filter.go:17-32 applyFilter: None is a nil pointer; the new slice is the first [tail]
    elements of the array. *)
Definition apply_filter {S : Type} (pred : S -> token -> res (S * bool)) (drop : bool)
    (tokens : option (list token)) (s : S) : res (S * option (list token)) :=
  match tokens with
  | None => Ok (s, None)
  | Some ts =>
    let* r := apply_loop pred drop (length ts) 0 0 s ts in
    let '(s', arr, tail) := r in
    let* out := slice arr 0 tail in
    Ok (s', Some out)
  end.

(** filter.go:7-10, 12-15 *)
Definition filter_drop {S : Type} tokens (pred : S -> token -> res (S * bool)) s := apply_filter pred true tokens s.
Definition filter_keep {S : Type} tokens (pred : S -> token -> res (S * bool)) s := apply_filter pred false tokens s.

(** ** filter/pos.go *)
(** pos.go:17-22 NewPOSFilter, 25-27 Match *)
Definition new_pos_filter (p : list (list bytes)) : fnode := new_features_filter p.
Definition pos_match (f : fnode) (p : strings) : bool := features_match f (strings_list p).

(** pos.go:39-54 apply, a copy of the loop of filter.go *)
Fixpoint pos_apply_loop (f : fnode) (drop : bool) (k i tail : nat) (arr : list token) : res (list token * nat) :=
  match k with
  | O => Ok (arr, tail)
  | S k' =>
    let* v := index arr i in
    let* p := token_pos v in
    if Bool.eqb (pos_match f p) drop then pos_apply_loop f drop k' (S i) tail arr
    else
      let* arr' := if negb (i =? tail)%nat then update arr tail (fun _ => v) else Ok arr in
      pos_apply_loop f drop k' (S i) (S tail) arr'
  end.
Definition pos_apply (f : fnode) (drop : bool) (tokens : option (list token)) : res (option (list token)) :=
  match tokens with
  | None => Ok None
  | Some ts =>
    let* r := pos_apply_loop f drop (length ts) 0 0 ts in
    let (arr, tail) := r : list token * nat in
    let* out := slice arr 0 tail in
    Ok (Some out)
  end.
(** pos.go:30-32, 35-37 *)
Definition pos_drop f tokens := pos_apply f true tokens.
Definition pos_keep f tokens := pos_apply f false tokens.

(** ** filter/word.go *)
(** word.go:13-21 NewWordFilter: the map as the list of its keys. *)
Definition map_has (m : list bytes) (w : bytes) : bool := existsb (bytes_eqb w) m.
Definition map_put (m : list bytes) (w : bytes) : list bytes := if map_has m w then m else w :: m.
Definition new_word_filter (words : list bytes) : list bytes := fold_left map_put words [].
(** word.go:24-27 *)
Definition word_match (f : list bytes) (w : bytes) : bool := map_has f w.

(** word.go:39-54 apply *)
Fixpoint word_apply_loop (f : list bytes) (drop : bool) (k i tail : nat) (arr : list token) : res (list token * nat) :=
  match k with
  | O => Ok (arr, tail)
  | S k' =>
    let* v := index arr i in
    if Bool.eqb (word_match f (t_surface v)) drop then word_apply_loop f drop k' (S i) tail arr
    else
      let* arr' := if negb (i =? tail)%nat then update arr tail (fun _ => v) else Ok arr in
      word_apply_loop f drop k' (S i) (S tail) arr'
  end.
Definition word_apply (f : list bytes) (drop : bool) (tokens : option (list token)) : res (option (list token)) :=
  match tokens with
  | None => Ok None
  | Some ts =>
    let* r := word_apply_loop f drop (length ts) 0 0 ts in
    let (arr, tail) := r : list token * nat in
    let* out := slice arr 0 tail in
    Ok (Some out)
  end.
(** word.go:30-32, 35-37 *)
Definition word_drop f tokens := word_apply f true tokens.
Definition word_keep f tokens := word_apply f false tokens.

(** ** filter/ja/filter.go *)
(** ja/filter.go:13-17 *)
Record ja_filter := JaFilter { jf_base_form : fnode; jf_stop_tags : fnode; jf_stop_words : list bytes }.

(** ja/filter.go:19-41: the option constructors, and their effect on the filter *)
Inductive ja_option :=
| BaseFormFilterOption (p : list (list bytes))
| StopTagsFilterOption (p : list (list bytes))
| StopWordsFilterOption (p : list bytes).
Definition ja_apply_option (f : ja_filter) (o : ja_option) : ja_filter :=
  match o with
  | BaseFormFilterOption p => JaFilter (new_pos_filter p) (jf_stop_tags f) (jf_stop_words f)
  | StopTagsFilterOption p => JaFilter (jf_base_form f) (new_pos_filter p) (jf_stop_words f)
  | StopWordsFilterOption p => JaFilter (jf_base_form f) (jf_stop_tags f) (new_word_filter p)
  end.

(** ja/filter.go:108-126 Yield (ret is nil when empty) *)
Fixpoint ja_yield_loop (f : ja_filter) (ts : list token) (ret : list bytes) : res (list bytes) :=
  match ts with
  | [] => Ok ret
  | v :: ts' =>
    let* p := token_pos v in
    if pos_match (jf_stop_tags f) p then ja_yield_loop f ts' ret
    else if word_match (jf_stop_words f) (t_surface v) then ja_yield_loop f ts' ret
    else
      let* p := token_pos v in
      if pos_match (jf_base_form f) p then
        let* b := base_form v in
        let (b, ok) := b : bytes * bool in
        if ok then ja_yield_loop f ts' (ret ++ [b]) else ja_yield_loop f ts' ret
      else ja_yield_loop f ts' (ret ++ [t_surface v])
  end.
Definition ja_yield (f : ja_filter) (ts : list token) : res (list bytes) := ja_yield_loop f ts [].

(** ja/filter.go:129-132 Drop *)
Definition ja_drop (f : ja_filter) (tokens : option (list token)) : res (option (list token)) :=
  let* t1 := pos_drop (jf_stop_tags f) tokens in
  word_drop (jf_stop_words f) t1.

(** strings.Split(s, sep) for a separator of one byte *)
Fixpoint split_byte (sep : byte) (cur s : bytes) : list bytes :=
  match s with
  | [] => [rev cur]
  | b :: s' => if Byte.eqb b sep then rev cur :: split_byte sep [] s' else split_byte sep (b :: cur) s'
  end.
Definition string_split (s : bytes) (sep : byte) : list bytes := split_byte sep [] s.

(** ja/filter.go:62-65 *)
Definition pos_hierarchy : nat := 4.
Definition default_pos_feature : bytes := s2b "*".
(** ja/filter.go:89-95: a stop tag as a POS pattern *)
Definition stop_tag_pos (v : bytes) : list bytes :=
  let pos := string_split v x2d in
  pos ++ repeat default_pos_feature (pos_hierarchy - length pos).
(** ja/filter.go:83-97, 99-105, given the loaded lines *)
Definition stop_tag_filter (t : list bytes) : fnode := new_pos_filter (map stop_tag_pos t).
Definition stop_word_filter (t : list bytes) : list bytes := new_word_filter t.
