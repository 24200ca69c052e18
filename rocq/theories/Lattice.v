(** Model of tokenizer/lattice/lattice.go and node.go (one lattice, used by one goroutine; see
    Heap.v for pools and sharing).  A *Node pointer into la.list is represented by its
    coordinates (list index, position in that list). *)
From Verif Require Export Dict.
Open Scope Z_scope.

(** node.go:11-19 *)
Inductive node_class := DUMMY | KNOWN | UNKNOWN | USER.

Definition class_eqb (a b : node_class) : bool :=
  match a, b with
  | DUMMY, DUMMY | KNOWN, KNOWN | UNKNOWN, UNKNOWN | USER, USER => true
  | _, _ => false
  end.

(** lattice.go:24-33, the three modes. *)
Inductive lmode := LNormal | LSearch | LExtended.

(** lattice.go:14-21 *)
Definition maximum_cost : Z := 2147483647.
Definition max_unk_len : N := 1024.
Definition kanji_length : Z := 2.
Definition kanji_penalty : Z := 3000.
Definition other_length : Z := 7.
Definition other_penalty : Z := 1700.

(** node.go:8 *)
Definition bos_eos_id : Z := -1.

(** node.go:37-48; [n_prev] is the prev pointer as coordinates in la.list. *)
Record node := Node {
  n_id : Z; n_position : nat; n_start : nat; n_class : node_class;
  n_cost : Z; n_left : Z; n_right : Z; n_weight : Z;
  n_surface : bytes; n_prev : option (nat * nat)
}.

Definition set_cost_prev (c : Z) (p : option (nat * nat)) (n : node) : node :=
  Node (n_id n) (n_position n) (n_start n) (n_class n) c (n_left n) (n_right n) (n_weight n)
       (n_surface n) p.
Definition set_cost (c : Z) (n : node) : node := set_cost_prev c (n_prev n) n.

(** The lists la.list. *)
Definition table := list (list node).

(** lattice.go:76-86, the morph whose costs the node takes. *)
Definition node_morph (d : dict) (id : Z) (class : node_class) : res morph :=
  match class with
  | DUMMY => Ok zero_morph
  | KNOWN => indexZ (d_morphs d) id
  | UNKNOWN => indexZ (d_unk_morphs d) id
  | USER => Ok zero_morph
  end.

(** lattice.go:75-98 addNode *)
Definition add_node (d : dict) (la : table) (pos : nat) (id : Z) (position start : nat)
    (class : node_class) (surface : bytes) : res table :=
  let* m := node_morph d id class in
  let n := Node id position start class 0 (m_left m) (m_right m) (m_weight m) surface None in
  let p := (pos + rune_count surface)%nat in
  update la p (fun l => l ++ [n]).

(** lattice.go:120-126 and 131-136: the callback loop adding one node per match. *)
Definition add_matches (d : dict) (inp : bytes) (runePos pos : nat) (class : node_class)
    (ms : list (Z * nat)) (la : table) : res table :=
  foldM (fun la m => let '(id, l) := m in
           let* surface := slice inp pos (pos + l) in
           add_node d la runePos id pos runePos class surface) ms la.

(** lattice.go:148-159, the loop extending an unknown word; returns endPos.
    [i] and [end_pos] are the Go variables i and endPos. *)
Fixpoint group_loop (fuel : nat) (d : dict) (inp : bytes) (class : nat) (i end_pos : nat)
    (unk_len : N) : res nat :=
  match fuel with
  | O => Diverge
  | S f =>
    if (i <? length inp)%nat then
      let* rest := slice inp i (length inp) in
      let '(c, w) := decode_rune rest in
      if negb (d_category d c =? class)%nat then Ok end_pos
      else
        let end_pos := (end_pos + w)%nat in
        let unk_len := N.succ unk_len in
        if (max_unk_len <=? unk_len)%N then Ok end_pos
        else group_loop f d inp class (i + w) end_pos unk_len
    else Ok end_pos
  end.

(** lattice.go:168-174, the loop over duplicated unknown-word entries. *)
Definition add_unknowns (d : dict) (inp : bytes) (runePos pos prev end_pos : nat) (id dup : Z)
    (la : table) : res table :=
  foldM (fun la x =>
           let* la := if (pos <? prev)%nat then
                        let* s := slice inp pos prev in
                        add_node d la runePos (id + Z.of_nat x) pos runePos UNKNOWN s
                      else Ok la in
           let* s := slice inp pos end_pos in
           add_node d la runePos (id + Z.of_nat x) pos runePos UNKNOWN s)
        (seq 0 (Z.to_nat (dup + 1))) la.

(** lattice.go:140-160: where the unknown word starting at pos with rune ch ends. *)
Definition unknown_end (d : dict) (inp : bytes) (pos : nat) (ch : N) (class : nat) : res nat :=
  let end_pos := if negb (ch =? rune_error)%N then (pos + rune_len ch)%nat else (pos + 1)%nat in
  let* group := index (d_group d) class in
  if group then group_loop (S (length inp)) d inp class end_pos end_pos 1%N else Ok end_pos.

(** lattice.go:162-165: start of the last rune of the unknown word, or pos. *)
Definition unknown_prev (inp : bytes) (pos end_pos : nat) : res nat :=
  let* w := slice inp pos end_pos in
  let '(c, size) := decode_last_rune w in
  Ok (if negb (c =? rune_error)%N then (end_pos - size)%nat else pos).

(** lattice.go:137-175, part (3). *)
Definition build_unknown (d : dict) (inp : bytes) (runePos pos : nat) (ch : N)
    (any_matches : bool) (la : table) : res table :=
  let class := d_category d ch in
  let* go := if negb any_matches then Ok true else index (d_invoke d) class in
  if go then
    let* end_pos := unknown_end d inp pos ch class in
    let* prev := unknown_prev inp pos end_pos in
    let id := map_get (d_unk_index d) (Z.of_nat class) in
    let dup := map_get (d_unk_dup d) (Z.of_nat class) in
    add_unknowns d inp runePos pos prev end_pos id dup la
  else Ok la.

(** lattice.go:114-176, the loop body for one rune. *)
Definition build_step (d : dict) (u : option udict) (inp : bytes) (la : table)
    (runePos pos : nat) (ch : N) : res table :=
  let* rest := slice inp pos (length inp) in
  (* (1) USER DIC *)
  let user := match u with
              | Some ud => common_prefix_search (u_index ud) rest
              | None => []
              end in
  let* la := add_matches d inp runePos pos USER user la in
  if negb (length user =? 0)%nat then Ok la
  else
    (* (2) KNOWN DIC *)
    let known := common_prefix_search (d_index d) rest in
    let* la := add_matches d inp runePos pos KNOWN known la in
    (* (3) UNKNOWN DIC *)
    build_unknown d inp runePos pos ch (negb (length known =? 0)%nat) la.

(** lattice.go:113-177, the loop over the runes of the input; the counter is runePos. *)
Fixpoint build_loop (d : dict) (u : option udict) (inp : bytes) (runePos : nat)
    (l : list (nat * N)) (la : table) : res table :=
  match l with
  | [] => Ok la
  | (pos, ch) :: l' =>
    let* la := build_step d u inp la runePos pos ch in
    build_loop d u inp (S runePos) l' la
  end.

(** lattice.go:102-177 Build on a lattice whose la.list[0:rc+2] holds empty slices (as after New,
    see Heap.v). *)
Definition build (d : dict) (u : option udict) (inp : bytes) : res table :=
  let rc := rune_count inp in
  let la := repeat [] (rc + 2) in
  let* s0 := slice inp 0 0 in
  let* la := add_node d la 0 bos_eos_id 0 0 DUMMY s0 in
  let* s1 := slice inp rc rc in
  let* la := add_node d la (rc + 1) bos_eos_id (length inp) rc DUMMY s1 in
  build_loop d u inp 0 (range_string inp) la.

(** unicode.In(r, unicode.Ideographic): library data, a parameter of the model. *)
Definition ideographic := N -> bool.

(** lattice.go:192-199 kanjiOnly *)
Definition kanji_only (ideo : ideographic) (s : bytes) : bool :=
  forallb (fun g => ideo (fst g)) (segs s) && negb (length s =? 0)%nat.

(** lattice.go:201-210 additionalCost (of a node's surface) *)
Definition additional_cost (ideo : ideographic) (surface : bytes) : Z :=
  let l := Z.of_nat (rune_count surface) in
  if (kanji_length <? l) && kanji_only ideo surface then (l - kanji_length) * kanji_penalty
  else if other_length <? l then (l - other_length) * other_penalty
  else 0.

(** Reading la.list[i][j]. *)
Definition get2 (la : table) (i j : nat) : res node :=
  let* l := index la i in index l j.

(** Writing through the pointer la.list[i][j]. *)
Definition upd2 (la : table) (i j : nat) (f : node -> node) : res table :=
  update la i (fun l => update_nth l j f).

(** lattice.go:223-233: cost of reaching target from n (int64, capped). *)
Definition total_cost (d : dict) (ideo : ideographic) (m : lmode) (n target : node) : res Z :=
  let* c := if negb (class_eqb (n_class n) USER) && negb (class_eqb (n_class target) USER)
            then conn_at d (n_right n) (n_left target) else Ok 0 in
  let total := c + n_weight target + n_cost n in
  let total := match m with
               | LNormal => total
               | _ => total + additional_cost ideo (n_surface n)
               end in
  Ok (if maximum_cost <? total then maximum_cost else total).

(** lattice.go:222-238, the loop over prevList; [k] is the length of prevList, j counts up. *)
Fixpoint relax_loop (d : dict) (ideo : ideographic) (m : lmode) (i idx start j k : nat) (la : table)
    : res table :=
  match k with
  | O => Ok la
  | S k' =>
    let* n := get2 la start j in
    let* target := get2 la i idx in
    let* total := total_cost d ideo m n target in
    let* la :=
       if (j =? 0)%nat || (wrap32 total <? n_cost target)
       then upd2 la i idx (set_cost_prev (wrap32 total) (Some (start, j)))
       else Ok la in
    relax_loop d ideo m i idx start (S j) k' la
  end.

(** lattice.go:216-239, the body for one target. *)
Definition forward_target (d : dict) (ideo : ideographic) (m : lmode) (i : nat) (la : table)
    (idx : nat) : res table :=
  let* target := get2 la i idx in
  let* prev_list := index la (n_start target) in
  if (length prev_list =? 0)%nat then upd2 la i idx (set_cost maximum_cost)
  else relax_loop d ideo m i idx (n_start target) 0 (length prev_list) la.

(** lattice.go:215-239, all targets of one position. *)
Definition forward_pos (d : dict) (ideo : ideographic) (m : lmode) (la : table) (i : nat) : res table :=
  let* current := index la i in
  foldM (forward_target d ideo m i) (seq 0 (length current)) la.

(** lattice.go:213-241 Forward *)
Definition forward (d : dict) (ideo : ideographic) (m : lmode) (la : table) : res table :=
  foldM (forward_pos d ideo m) (seq 1 (length la - 1)) la.

(** lattice.go:254-266: the single-rune nodes an unknown node is split into. *)
Fixpoint split_from (p : node) (i : nat) (l : list (nat * N)) : list node :=
  match l with
  | [] => []
  | (k, r) :: l' =>
    Node (n_id p) (n_position p + k) (n_start p + i) DUMMY 0 0 0 0 (encode_rune r) None
      :: split_from p (S i) l'
  end.

(** lattice.go:254-269: what Backward appends for one node of the best path. *)
Definition output_of (m : lmode) (p : node) : res (list node) :=
  match m, n_class p with
  | LExtended, UNKNOWN =>
    let runeLen := rune_count (n_surface p) in
    let stack := split_from p 0 (range_string (n_surface p)) in
    mapM (fun j => index stack (runeLen - 1 - j)) (seq 0 (length stack))
  | _, _ => Ok [p]
  end.

(** lattice.go:249-270, the walk along prev pointers; appends to la.Output. *)
Fixpoint walk (fuel : nat) (m : lmode) (la : table) (p : node) (out : list node) : res (list node) :=
  match fuel with
  | O => Diverge
  | S f =>
    let* o := output_of m p in
    match n_prev p with
    | None => Ok (out ++ o)
    | Some (i, j) => let* q := get2 la i j in walk f m la q (out ++ o)
    end
  end.

(** lattice.go:244-271 Backward. Fuel: a walk without a cycle visits at most one node per
    position. *)
Definition backward (m : lmode) (la : table) : res (list node) :=
  match length la with
  | O => Ok []
  | S k => let* p := get2 la k 0 in walk (S (length la)) m la p []
  end.
