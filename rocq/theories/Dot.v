(** Model of the graph writer: tokenizer/lattice/lattice.go posFeature and Lattice.Dot, and
    tokenizer/tokenizer.go Dot and AnalyzeGraph.  A *Node that is in la.list is its coordinates;
    printing a pointer with %p is a parameter [addr] of the renderer (distinct nodes of one
    lattice have distinct addresses; see Heap.v).  The writer never fails; errors of the
    io.Writer are ignored by the code. *)
From Verif Require Export Tokenizer.
Open Scope Z_scope.

(** Coordinates of a node in la.list. *)
Definition coord : Type := (nat * nat)%type.
Definition coord_eqb (a b : coord) : bool := (fst a =? fst b)%nat && (snd a =? snd b)%nat.

(** lattice.go:244-271: the pointers Backward puts in la.Output, last first as there: a node of
    la.list, or None for a node Backward allocates (one per rune of an unknown word in Extended
    mode).  The same walk as [walk] in Lattice.v, keeping pointers instead of values. *)
Definition output_ptrs (m : lmode) (c : coord) (p : node) : res (list (option coord)) :=
  match m, n_class p with
  | LExtended, UNKNOWN => let* o := output_of m p in Ok (map (fun _ => None) o)
  | _, _ => Ok [Some c]
  end.

Fixpoint walk_ptrs (fuel : nat) (m : lmode) (la : table) (c : coord) (out : list (option coord))
    : res (list (option coord)) :=
  match fuel with
  | O => Diverge
  | S f =>
    let* p := get2 la (fst c) (snd c) in
    let* o := output_ptrs m c p in
    match n_prev p with
    | None => Ok (out ++ o)
    | Some c' => walk_ptrs f m la c' (out ++ o)
    end
  end.

Definition backward_ptrs (m : lmode) (la : table) : res (list (option coord)) :=
  match length la with
  | O => Ok []
  | S k => walk_ptrs (S (length la)) m la (k, 0%nat) []
  end.

(** lattice.go:313-316: the set bests, restricted to nodes of la.list. *)
Definition best_set (out : list (option coord)) : list coord :=
  flat_map (fun o => match o with Some c => [c] | None => [] end) out.
Definition is_best (bests : list coord) (c : coord) : bool := existsb (coord_eqb c) bests.

Definition star : bytes := s2b "*".
Definition dashes : bytes := s2b "---".

(** lattice.go:273-308 posFeature *)
Definition pos_feature (d : dict) (u : option udict) (n : node) : res bytes :=
  let finish (ret : list bytes) : bytes :=
    if (length ret =? 0)%nat then dashes else join (s2b "/") ret in
  match n_class n with
  | KNOWN =>
    let* ids := indexZ (d_pos_ids d) (n_id n) in
    let* vs := mapM (fun id => indexZ (d_pos_names d) id) ids in
    Ok (finish (filter (fun v => negb (bytes_eqb v star)) vs))
  | UNKNOWN =>
    let s := match meta_get (d_unk_meta d) key_pos_start with Some v => v | None => 0 end in
    let e := match meta_get (d_unk_meta d) key_pos_hierarchy with Some v => s + v | None => 1 end in
    let* feature := indexZ (d_unk_contents d) (n_id n) in
    if (e <=? s) || (Z.of_nat (length feature) <? e) then Ok dashes
    else
      let* vs := mapM (fun k => indexZ feature (s + Z.of_nat k)) (seq 0 (Z.to_nat (e - s))) in
      Ok (finish (filter (fun v => negb (bytes_eqb v star)) vs))
  | USER =>
    match u with
    | None => Panic
    | Some ud => let* uc := indexZ (u_contents ud) (n_id n) in Ok (finish [uc_pos uc])
    end
  | DUMMY => Ok (finish [])
  end.

(** The lists of the lattice with coordinates. *)
Fixpoint enum {A : Type} (k : nat) (l : list A) : list (nat * A) :=
  match l with
  | [] => []
  | x :: l' => (k, x) :: enum (S k) l'
  end.
Definition cells_of (i : nat) (l : list node) : list (coord * node) :=
  map (fun jn => ((i, fst jn), snd jn)) (enum 0 l).
Definition cells (la : table) : list (coord * node) :=
  flat_map (fun il => cells_of (fst il) (snd il)) (enum 0 la).

(** lattice.go:325-329, 335-339, 351-355: unknown words outside the best path are skipped. *)
Definition skipped (bests : list coord) (cn : coord * node) : bool :=
  class_eqb (n_class (snd cn)) UNKNOWN && negb (is_best bests (fst cn)).

(** lattice.go:321-343: the edges, as pairs (from, to).  (The test len(prevs) == 0 of the code
    changes nothing: the loop over an empty list does nothing.) *)
Definition edges_to (bests : list coord) (la : table) (to : coord * node)
    : res (list ((coord * node) * (coord * node))) :=
  if skipped bests to then Ok []
  else
    let* prevs := index la (n_start (snd to)) in
    Ok (map (fun from => (from, to))
            (filter (fun from => negb (skipped bests from)) (cells_of (n_start (snd to)) prevs))).
Definition edge_list (bests : list coord) (la : table) : res (list ((coord * node) * (coord * node))) :=
  let* l := mapM (edges_to bests la) (filter (fun cn => (1 <=? fst (fst cn))%nat) (cells la)) in
  Ok (concat l).

(** The statements printed after the header, over any notion P of pointer (coordinates here,
    addresses in Heap.v): a node with its label's three lines and whether it
    is drawn as part of the best path; an edge with its label and whether it is drawn bold. *)
Inductive gstmt (P : Type) :=
| SNode (c : P) (surf pos : bytes) (weight : Z) (best : bool)
| SEdge (from to : P) (cost : Z) (best : bool).
Arguments SNode {P}.
Arguments SEdge {P}.
Notation stmt := (gstmt coord).

(** lattice.go:349-371, one node. *)
Definition node_stmt (d : dict) (u : option udict) (bests : list coord) (cn : coord * node)
    : res (list stmt) :=
  if skipped bests cn then Ok []
  else
    let '(c, n) := cn in
    let surf := if n_id n =? bos_eos_id then (if (fst c =? 0)%nat then s2b "BOS" else s2b "EOS")
                else n_surface n in
    let* pos := pos_feature d u n in
    if is_best bests c then Ok [SNode c surf pos (n_weight n) true]
    else if negb (class_eqb (n_class n) UNKNOWN) then Ok [SNode c surf pos (n_weight n) false]
    else Ok [].

(** lattice.go:372-386, one edge. *)
Definition edge_stmt (d : dict) (bests : list coord) (e : (coord * node) * (coord * node)) : res stmt :=
  let '((cf, from), (ct, to)) := e in
  let* c := if negb (class_eqb (n_class from) USER) && negb (class_eqb (n_class to) USER)
            then conn_at d (n_right from) (n_left to) else Ok 0 in
  Ok (SEdge cf ct c (is_best bests cf && is_best bests ct)).

(** lattice.go:312-389 Dot, up to printing. *)
Definition dot_stmts (d : dict) (u : option udict) (la : table) (out : list (option coord))
    : res (list stmt) :=
  let bests := best_set out in
  let* es := edge_list bests la in
  let* ns := mapM (node_stmt d u bests) (cells la) in
  let* ss := mapM (edge_stmt d bests) es in
  Ok (concat ns ++ ss).

(** ** Printing *)
(** %d *)
Definition digit (n : N) : byte := n2b (48 + n).
Fixpoint digits (fuel : nat) (n : N) (acc : bytes) : bytes :=
  match fuel with
  | O => acc
  | S f =>
    let acc := digit (n mod 10)%N :: acc in
    if (n <? 10)%N then acc else digits f (n / 10)%N acc
  end.
Definition itoa (z : Z) : bytes :=
  let n := Z.abs_N z in
  (if z <? 0 then s2b "-" else []) ++ digits (S (N.to_nat (N.log2 n))) n [].

Definition tab : bytes := [x09].
Definition nl : bytes := [x0a].
Definition quote : bytes := [x22].
(** The two characters \n written inside a label. *)
Definition esc_n : bytes := [x5c; x6e].

(** lattice.go:344-348 *)
Definition header : bytes :=
  s2b "graph lattice {" ++ nl ++
  s2b "dpi=48;" ++ nl ++
  s2b "graph [style=filled, splines=true, overlap=false, fontsize=30, rankdir=LR]" ++ nl ++
  s2b "edge [fontname=Helvetica, fontcolor=red, color=""#606060""]" ++ nl ++
  s2b "node [shape=box, style=filled, fillcolor=""#e8e8f0"", fontname=Helvetica]" ++ nl.

(** lattice.go:366, 368, 380-384: one line. *)
Definition render {P} (addr : P -> bytes) (s : gstmt P) : bytes :=
  match s with
  | SNode c surf pos weight best =>
    tab ++ quote ++ addr c ++ quote ++ s2b " [label=" ++ quote ++ surf ++ esc_n ++ pos ++ esc_n ++ itoa weight ++ quote ++
    (if best then s2b ",shape=ellipse, peripheries=2];" else s2b "];") ++ nl
  | SEdge f t cost best =>
    tab ++ quote ++ addr f ++ quote ++ s2b " -- " ++ quote ++ addr t ++ quote ++ s2b " [label=" ++ quote ++ itoa cost ++ quote ++
    (if best then s2b ", style=bold, color=blue, fontcolor=blue];" else s2b "];") ++ nl
  end.

(** lattice.go:312-389, the text written. *)
Definition dot_text {P} (addr : P -> bytes) (ss : list (gstmt P)) : bytes :=
  header ++ concat (map (render addr) ss) ++ s2b "}" ++ nl.

(** tokenizer.go:134-173 AnalyzeGraph: the statements and the text it writes; its tokens are
    [analyze_graph] in Tokenizer.v. *)
Definition graph_stmts (ideo : ideographic) (t : tokenizer) (input : bytes) (mode : Z) : res (list stmt) :=
  let m := to_lmode mode in
  let* la := build (tk_dict t) (tk_udict t) input in
  let* la := forward (tk_dict t) ideo m la in
  let* out := backward_ptrs m la in
  dot_stmts (tk_dict t) (tk_udict t) la out.

Definition graph_text (addr : coord -> bytes) (ideo : ideographic) (t : tokenizer) (input : bytes) (mode : Z)
    : res bytes :=
  let* ss := graph_stmts ideo t input mode in Ok (dot_text addr ss).
