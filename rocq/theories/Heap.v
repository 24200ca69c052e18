(** Model of the shared memory of the tokenizer: tokenizer/lattice/mem/pool.go, the pools of
    lattice.go:35 and node.go:50, and the methods of Lattice and Tokenizer.Analyze, Wakati and
    AnalyzeGraph as programs whose steps are single memory accesses, run by any number of
    goroutines in any order.

    The functions below follow the same lines of Go as Lattice.v, Tokenizer.v and Dot.v, with
    nodes and lattices behind pointers.  Computations that touch no pooled object (slices of the input, the
    dictionary lookups, costs) are shared with those files. *)
From Verif Require Export Tokenizer Dot.
Open Scope Z_scope.

(** ** Objects *)
Definition addr := nat.

(** node.go:37-48 *)
Record hnode := HNode {
  h_id : Z; h_position : nat; h_start : nat; h_class : node_class;
  h_cost : Z; h_left : Z; h_right : Z; h_weight : Z;
  h_surface : bytes; h_prev : option addr
}.
(** new(Node), node.go:50-52 *)
Definition zero_hnode : hnode := HNode 0 0 0 DUMMY 0 0 0 0 [] None.

(** The fields of a node as a value of Lattice.v, with given coordinates for prev. *)
Definition h_val (h : hnode) (p : option (nat * nat)) : node :=
  Node (h_id h) (h_position h) (h_start h) (h_class h) (h_cost h) (h_left h) (h_right h) (h_weight h)
       (h_surface h) p.

(** Assignments to single fields. *)
Definition set_h_id v h := HNode v (h_position h) (h_start h) (h_class h) (h_cost h) (h_left h) (h_right h) (h_weight h) (h_surface h) (h_prev h).
Definition set_h_position v h := HNode (h_id h) v (h_start h) (h_class h) (h_cost h) (h_left h) (h_right h) (h_weight h) (h_surface h) (h_prev h).
Definition set_h_start v h := HNode (h_id h) (h_position h) v (h_class h) (h_cost h) (h_left h) (h_right h) (h_weight h) (h_surface h) (h_prev h).
Definition set_h_class v h := HNode (h_id h) (h_position h) (h_start h) v (h_cost h) (h_left h) (h_right h) (h_weight h) (h_surface h) (h_prev h).
Definition set_h_cost v h := HNode (h_id h) (h_position h) (h_start h) (h_class h) v (h_left h) (h_right h) (h_weight h) (h_surface h) (h_prev h).
Definition set_h_left v h := HNode (h_id h) (h_position h) (h_start h) (h_class h) (h_cost h) v (h_right h) (h_weight h) (h_surface h) (h_prev h).
Definition set_h_right v h := HNode (h_id h) (h_position h) (h_start h) (h_class h) (h_cost h) (h_left h) v (h_weight h) (h_surface h) (h_prev h).
Definition set_h_weight v h := HNode (h_id h) (h_position h) (h_start h) (h_class h) (h_cost h) (h_left h) (h_right h) v (h_surface h) (h_prev h).
Definition set_h_surface v h := HNode (h_id h) (h_position h) (h_start h) (h_class h) (h_cost h) (h_left h) (h_right h) (h_weight h) v (h_prev h).
Definition set_h_prev v h := HNode (h_id h) (h_position h) (h_start h) (h_class h) (h_cost h) (h_left h) (h_right h) (h_weight h) (h_surface h) v.

(** A Go slice: the backing array from the slice's start to its capacity, and the length.  The
    slices of a lattice never share a backing array: each is made by make, by append to nil or by
    reslicing the field it is stored in. *)
Record gslice (A : Type) := GSlice { gs_arr : list A; gs_len : nat }.
Arguments GSlice {A}.
Arguments gs_arr {A}.
Arguments gs_len {A}.
Definition gs_nil {A} : gslice A := GSlice [] 0.
(** make([]T, 0, cap) *)
Definition gs_make {A} (zero : A) (cap : nat) : gslice A := GSlice (repeat zero cap) 0.
(** The elements visible through the slice. *)
Definition gs_list {A} (s : gslice A) : list A := firstn (gs_len s) (gs_arr s).
(** s[i] *)
Definition gs_index {A} (s : gslice A) (i : nat) : res A :=
  if (i <? gs_len s)%nat then index (gs_arr s) i else Panic.
(** s[i] = x, for i < len *)
Definition gs_put {A} (s : gslice A) (i : nat) (x : A) : gslice A :=
  GSlice (update_nth (gs_arr s) i (fun _ => x)) (gs_len s).
(** s[0:j] *)
Definition gs_reslice {A} (s : gslice A) (j : nat) : res (gslice A) :=
  if (j <=? length (gs_arr s))%nat then Ok (GSlice (gs_arr s) j) else Panic.
(** append(s, x); extra is the spare capacity the run time chooses when it must grow. *)
Definition gs_append {A} (zero : A) (extra : nat) (s : gslice A) (x : A) : gslice A :=
  if (gs_len s <? length (gs_arr s))%nat
  then GSlice (update_nth (gs_arr s) (gs_len s) (fun _ => x)) (S (gs_len s))
  else GSlice (gs_list s ++ x :: repeat zero extra) (S (gs_len s)).

(** lattice.go:40-46; a nil pointer is None. *)
Definition row := gslice (option addr).
Record hlat := HLat {
  l_input : bytes; l_output : row; l_list : gslice row;
  l_dic : option dict; l_udic : option udict
}.
(** new(Lattice), lattice.go:35-37 *)
Definition zero_hlat : hlat := HLat [] gs_nil gs_nil None None.
Definition set_l_input v l := HLat v (l_output l) (l_list l) (l_dic l) (l_udic l).
Definition set_l_output v l := HLat (l_input l) v (l_list l) (l_dic l) (l_udic l).
Definition set_l_list v l := HLat (l_input l) (l_output l) v (l_dic l) (l_udic l).
Definition set_l_dic v l := HLat (l_input l) (l_output l) (l_list l) v (l_udic l).
Definition set_l_udic v l := HLat (l_input l) (l_output l) (l_list l) (l_dic l) v.

(** ** Programs of one goroutine *)
(** One constructor per access to shared memory.  Stop is a run-time panic (or exhausted fuel).
    Choose is a choice of the run time (the spare capacity of append). *)
Inductive prog (A : Type) : Type :=
| Ret (a : A)
| Stop
| Choose (k : nat -> prog A)
| NodeGet (k : addr -> prog A)                       (* nodePool.Get() *)
| NodePut (a : addr) (k : prog A)                    (* nodePool.Put(a) *)
| NodeNew (n : hnode) (k : addr -> prog A)           (* &Node{...} *)
| NodeRead (a : addr) (k : hnode -> prog A)          (* read fields of *a *)
| NodeSet (a : addr) (f : hnode -> hnode) (k : prog A) (* a.field = v *)
| LatGet (k : addr -> prog A)                        (* latticePool.Get() *)
| LatPut (a : addr) (k : prog A)                     (* latticePool.Put(a) *)
| LatRead (a : addr) (k : hlat -> prog A)
| LatSet (a : addr) (f : hlat -> hlat) (k : prog A).
Arguments Ret {A}.
Arguments Stop {A}.
Arguments Choose {A}.
Arguments NodeGet {A}.
Arguments NodePut {A}.
Arguments NodeNew {A}.
Arguments NodeRead {A}.
Arguments NodeSet {A}.
Arguments LatGet {A}.
Arguments LatPut {A}.
Arguments LatRead {A}.
Arguments LatSet {A}.

Fixpoint pbind {A B} (p : prog A) (f : A -> prog B) : prog B :=
  match p with
  | Ret a => f a
  | Stop => Stop
  | Choose k => Choose (fun n => pbind (k n) f)
  | NodeGet k => NodeGet (fun a => pbind (k a) f)
  | NodePut a k => NodePut a (pbind k f)
  | NodeNew n k => NodeNew n (fun a => pbind (k a) f)
  | NodeRead a k => NodeRead a (fun h => pbind (k h) f)
  | NodeSet a g k => NodeSet a g (pbind k f)
  | LatGet k => LatGet (fun a => pbind (k a) f)
  | LatPut a k => LatPut a (pbind k f)
  | LatRead a k => LatRead a (fun h => pbind (k h) f)
  | LatSet a g k => LatSet a g (pbind k f)
  end.

Notation "'do' x <- p ; q" := (pbind p (fun x => q))
  (at level 200, x pattern, p at level 100, q at level 200, right associativity).
Notation "p ;; q" := (pbind p (fun _ : unit => q)) (at level 150, right associativity).

Definition lift {A} (r : res A) : prog A := match r with Ok a => Ret a | _ => Stop end.
(** Dereference of a pointer that may be nil. *)
Definition deref {A} (p : option A) : prog A := match p with Some a => Ret a | None => Stop end.
Fixpoint pfold {A B} (f : A -> B -> prog A) (l : list B) (a : A) : prog A :=
  match l with
  | [] => Ret a
  | x :: l' => do a' <- f a x; pfold f l' a'
  end.
Definition peach {B} (f : B -> prog unit) (l : list B) : prog unit := pfold (fun _ x => f x) l tt.

Definition node_get : prog addr := NodeGet Ret.
Definition node_put (a : addr) : prog unit := NodePut a (Ret tt).
Definition node_new (n : hnode) : prog addr := NodeNew n Ret.
Definition node_read (a : addr) : prog hnode := NodeRead a Ret.
Definition node_set (a : addr) (f : hnode -> hnode) : prog unit := NodeSet a f (Ret tt).
Definition lat_get : prog addr := LatGet Ret.
Definition lat_put (a : addr) : prog unit := LatPut a (Ret tt).
Definition lat_read (a : addr) : prog hlat := LatRead a Ret.
Definition lat_set (a : addr) (f : hlat -> hlat) : prog unit := LatSet a f (Ret tt).

(** append on a slice of node pointers. *)
Definition p_append (s : row) (x : option addr) : prog row :=
  Choose (fun extra => Ret (gs_append None extra s x)).

(** ** The methods *)
(** lattice.go:49-54 New *)
Definition h_new (d : dict) (u : option udict) : prog addr :=
  do la <- lat_get;
  lat_set la (set_l_dic (Some d));;
  lat_set la (set_l_udic u);;
  Ret la.

(** lattice.go:75-98 addNode *)
Definition h_add_node (la : addr) (pos : nat) (id : Z) (position start : nat) (class : node_class)
    (surface : bytes) : prog unit :=
  do l <- lat_read la;
  do d <- deref (l_dic l);
  do m <- lift (node_morph d id class);
  do n <- node_get;
  node_set n (set_h_id id);;
  node_set n (set_h_position position);;
  node_set n (set_h_start start);;
  node_set n (set_h_class class);;
  node_set n (set_h_cost 0);;
  node_set n (set_h_left (m_left m));;
  node_set n (set_h_right (m_right m));;
  node_set n (set_h_weight (m_weight m));;
  node_set n (set_h_surface surface);;
  node_set n (set_h_prev None);;
  let p := (pos + rune_count surface)%nat in
  do l <- lat_read la;
  do s <- lift (gs_index (l_list l) p);
  do s' <- p_append s (Some n);
  lat_set la (fun l => set_l_list (gs_put (l_list l) p s') l).

(** lattice.go:120-126 and 131-136 *)
Definition h_add_matches (la : addr) (inp : bytes) (runePos pos : nat) (class : node_class)
    (ms : list (Z * nat)) : prog unit :=
  peach (fun m => let '(id, l) := m in
           do surface <- lift (slice inp pos (pos + l));
           h_add_node la runePos id pos runePos class surface) ms.

(** lattice.go:168-174 *)
Definition h_add_unknowns (la : addr) (inp : bytes) (runePos pos prev end_pos : nat) (id dup : Z) : prog unit :=
  peach (fun x =>
           (if (pos <? prev)%nat then
              do s <- lift (slice inp pos prev);
              h_add_node la runePos (id + Z.of_nat x) pos runePos UNKNOWN s
            else Ret tt);;
           do s <- lift (slice inp pos end_pos);
           h_add_node la runePos (id + Z.of_nat x) pos runePos UNKNOWN s)
        (seq 0 (Z.to_nat (dup + 1))).

(** lattice.go:137-175 *)
Definition h_build_unknown (la : addr) (inp : bytes) (runePos pos : nat) (ch : N) (any_matches : bool) : prog unit :=
  do l <- lat_read la;
  do d <- deref (l_dic l);
  let class := d_category d ch in
  do go <- lift (if negb any_matches then Ok true else index (d_invoke d) class);
  if go : bool then
    do end_pos <- lift (unknown_end d inp pos ch class);
    do prev <- lift (unknown_prev inp pos end_pos);
    let id := map_get (d_unk_index d) (Z.of_nat class) in
    let dup := map_get (d_unk_dup d) (Z.of_nat class) in
    h_add_unknowns la inp runePos pos prev end_pos id dup
  else Ret tt.

(** lattice.go:114-176, the loop body for one rune. *)
Definition h_build_step (la : addr) (inp : bytes) (runePos pos : nat) (ch : N) : prog unit :=
  do rest <- lift (slice inp pos (length inp));
  (* (1) USER DIC *)
  do l <- lat_read la;
  let user := match l_udic l with
              | Some ud => common_prefix_search (u_index ud) rest
              | None => []
              end in
  h_add_matches la inp runePos pos USER user;;
  if negb (length user =? 0)%nat then Ret tt
  else
    (* (2) KNOWN DIC *)
    do l <- lat_read la;
    do d <- deref (l_dic l);
    let known := common_prefix_search (d_index d) rest in
    h_add_matches la inp runePos pos KNOWN known;;
    (* (3) UNKNOWN DIC *)
    h_build_unknown la inp runePos pos ch (negb (length known =? 0)%nat).

(** lattice.go:113-177 *)
Fixpoint h_build_loop (la : addr) (inp : bytes) (runePos : nat) (l : list (nat * N)) : prog unit :=
  match l with
  | [] => Ret tt
  | (pos, ch) :: l' =>
    h_build_step la inp runePos pos ch;;
    h_build_loop la inp (S runePos) l'
  end.

(** lattice.go:102-177 Build *)
Definition h_build (la : addr) (inp : bytes) : prog unit :=
  let rc := rune_count inp in
  lat_set la (set_l_input inp);;
  do l <- lat_read la;
  (if (length (gs_arr (l_list l)) <? rc + 2)%nat
   then lat_set la (set_l_list (gs_make gs_nil (rc + 2)))
   else Ret tt);;
  do l <- lat_read la;
  do s <- lift (gs_reslice (l_list l) (rc + 2));
  lat_set la (set_l_list s);;
  do s0 <- lift (slice inp 0 0);
  h_add_node la 0 bos_eos_id 0 0 DUMMY s0;;
  do s1 <- lift (slice inp rc rc);
  h_add_node la (rc + 1) bos_eos_id (length inp) rc DUMMY s1;;
  h_build_loop la inp 0 (range_string inp).

(** The pointer la.list[i][j]. *)
Definition h_cell (la : addr) (i j : nat) : prog addr :=
  do l <- lat_read la;
  do s <- lift (gs_index (l_list l) i);
  do p <- lift (gs_index s j);
  deref p.

(** lattice.go:222-238, one turn of the loop over prevList. *)
Definition h_relax (ideo : ideographic) (m : lmode) (la : addr) (i idx : nat) (target : addr)
    (jn : nat * option addr) : prog unit :=
  let '(j, n) := jn in
  do n <- deref n;
  do nn <- node_read n;
  do tn <- node_read target;
  do l <- lat_read la;
  do d <- deref (l_dic l);
  do total <- lift (total_cost d ideo m (h_val nn None) (h_val tn None));
  do c <- h_cell la i idx;
  do cn <- node_read c;
  if (j =? 0)%nat || (wrap32 total <? h_cost cn) then
    node_set c (set_h_cost (wrap32 total));;
    do tn <- node_read target;
    do q <- h_cell la (h_start tn) j;
    node_set c (set_h_prev (Some q))
  else Ret tt.

(** lattice.go:216-239, the body for one target; range evaluates the slices prevList and
    currentList once, and nothing writes to them during the loops. *)
Definition with_index {A} (l : list A) : list (nat * A) := combine (seq 0 (length l)) l.
Definition h_forward_target (ideo : ideographic) (m : lmode) (la : addr) (i : nat) (xt : nat * option addr) : prog unit :=
  let '(idx, target) := xt in
  do target <- deref target;
  do tn <- node_read target;
  do l <- lat_read la;
  do prev_list <- lift (gs_index (l_list l) (h_start tn));
  if (gs_len prev_list =? 0)%nat then
    do c <- h_cell la i idx; node_set c (set_h_cost maximum_cost)
  else peach (h_relax ideo m la i idx target) (with_index (gs_list prev_list)).

(** lattice.go:213-241 Forward *)
Definition h_forward_pos (ideo : ideographic) (m : lmode) (la : addr) (i : nat) : prog unit :=
  do l <- lat_read la;
  do current <- lift (gs_index (l_list l) i);
  peach (h_forward_target ideo m la i) (with_index (gs_list current)).
Definition h_forward (ideo : ideographic) (m : lmode) (la : addr) : prog unit :=
  do l <- lat_read la;
  peach (h_forward_pos ideo m la) (seq 1 (gs_len (l_list l) - 1)).

(** la.Output = append(la.Output, x) *)
Definition h_output (la : addr) (x : addr) : prog unit :=
  do l <- lat_read la;
  do s <- p_append (l_output l) (Some x);
  lat_set la (set_l_output s).

(** lattice.go:255-266: the stack of new nodes. *)
Fixpoint h_stack (p : hnode) (i : nat) (l : list (nat * N)) : prog (list addr) :=
  match l with
  | [] => Ret []
  | (k, r) :: l' =>
    do a <- node_new (HNode (h_id p) (h_position p + k) (h_start p + i) DUMMY 0 0 0 0 (encode_rune r) None);
    do rest <- h_stack p (S i) l';
    Ret (a :: rest)
  end.

(** lattice.go:250-269, the body of the walk. *)
Definition h_visit (m : lmode) (la : addr) (a : addr) : prog unit :=
  do p <- node_read a;
  match m, h_class p with
  | LExtended, UNKNOWN =>
    let runeLen := rune_count (h_surface p) in
    do stack <- h_stack p 0 (range_string (h_surface p));
    peach (fun j => do x <- lift (index stack (runeLen - 1 - j)); h_output la x) (seq 0 (length stack))
  | _, _ => h_output la a
  end.

(** lattice.go:249-270 *)
Fixpoint h_walk (fuel : nat) (m : lmode) (la : addr) (p : option addr) : prog unit :=
  match p with
  | None => Ret tt
  | Some a =>
    match fuel with
    | O => Stop
    | S f =>
      h_visit m la a;;
      do n <- node_read a;
      h_walk f m la (h_prev n)
    end
  end.

(** lattice.go:244-271 Backward *)
Definition h_backward (m : lmode) (la : addr) : prog unit :=
  do l <- lat_read la;
  match gs_len (l_list l) with
  | O => Ret tt
  | S k => do p <- h_cell la k 0; h_walk (S (S k)) m la (Some p)
  end.

(** tokenizer.go:98-124 *)
Definition h_tokens (t : tokenizer) (la : addr) : prog (list token) :=
  do l <- lat_read la;
  let size := gs_len (l_output l) in
  pfold (fun tokens i =>
           do l <- lat_read la;
           do p <- lift (gs_index (l_output l) (size - 1 - i));
           do a <- deref p;
           do n <- node_read a;
           if tk_omit t && (h_id n =? bos_eos_id) then Ret tokens
           else Ret (tokens ++ [make_token t i (length tokens) (h_val n None)]))
        (seq 0 size) [].

(** lattice.go:57-73 Free *)
Definition h_free_row (la : addr) (i : nat) : prog unit :=
  do l <- lat_read la;
  do s <- lift (gs_index (l_list l) i);
  peach (fun j =>
           do l <- lat_read la;
           do s <- lift (gs_index (l_list l) i);
           do p <- lift (gs_index s j);
           do a <- deref p;
           node_put a;;
           lat_set la (fun l => set_l_list (gs_put (l_list l) i (gs_put s j None)) l))
        (seq 0 (gs_len s));;
  do l <- lat_read la;
  do s <- lift (gs_index (l_list l) i);
  do s' <- lift (gs_reslice s 0);
  lat_set la (fun l => set_l_list (gs_put (l_list l) i s') l).
Definition h_free (la : addr) : prog unit :=
  lat_set la (set_l_input []);;
  do l <- lat_read la;
  peach (fun i => lat_set la (fun l => set_l_output (gs_put (l_output l) i None) l)) (seq 0 (gs_len (l_output l)));;
  do l <- lat_read la;
  do o <- lift (gs_reslice (l_output l) 0);
  lat_set la (set_l_output o);;
  do l <- lat_read la;
  peach (h_free_row la) (seq 0 (gs_len (l_list l)));;
  do l <- lat_read la;
  do s <- lift (gs_reslice (l_list l) 0);
  lat_set la (set_l_list s);;
  lat_set la (set_l_udic None);;
  lat_put la.

(** tokenizer.go:83-126 Analyze; the deferred Free runs after the tokens are made.  (Here
    nothing runs after a panic; the deferred Free of a panicking call is modelled in Recover.v.) *)
Definition h_analyze (ideo : ideographic) (t : tokenizer) (input : bytes) (mode : Z) : prog (list token) :=
  do la <- h_new (tk_dict t) (tk_udict t);
  h_build la input;;
  let m := to_lmode mode in
  h_forward ideo m la;;
  h_backward m la;;
  do tokens <- h_tokens t la;
  h_free la;;
  Ret tokens.

(** tokenizer.go:67-77 Wakati *)
Definition h_wakati (ideo : ideographic) (t : tokenizer) (input : bytes) : prog (list bytes) :=
  do ts <- h_analyze ideo t input mode_normal;
  Ret (map t_surface (filter (fun v => negb (class_eqb (t_class v) DUMMY) &&
                                       negb (length (t_surface v) =? 0)%nat) ts)).

(** tokenizer.go:149-170: the tokens of AnalyzeGraph. *)
Definition h_graph_tokens (t : tokenizer) (la : addr) : prog (list token) :=
  do l <- lat_read la;
  let size := gs_len (l_output l) in
  pfold (fun tokens i =>
           do l <- lat_read la;
           do p <- lift (gs_index (l_output l) (size - 1 - i));
           do a <- deref p;
           do n <- node_read a;
           Ret (tokens ++ [make_graph_token t i (h_val n None)]))
        (seq 0 size) [].

(** lattice.go:313-316: membership in the map bests, whose keys are the pointers of la.Output. *)
Definition h_best (bests : list (option addr)) (a : addr) : bool :=
  existsb (fun p => match p with Some b => (a =? b)%nat | None => false end) bests.
(** lattice.go:325-329, 335-339, 351-355 *)
Definition h_skipped (bests : list (option addr)) (a : addr) : prog bool :=
  do n <- node_read a;
  Ret (class_eqb (h_class n) UNKNOWN && negb (h_best bests a)).

(** lattice.go:324-342, the body for one node to. *)
Definition h_edges_to (la : addr) (bests : list (option addr)) (edges : list (addr * addr)) (to : option addr)
    : prog (list (addr * addr)) :=
  do to <- deref to;
  do skip <- h_skipped bests to;
  if skip : bool then Ret edges
  else
    do tn <- node_read to;
    do l <- lat_read la;
    do prevs <- lift (gs_index (l_list l) (h_start tn));
    pfold (fun edges from =>
             do from <- deref from;
             do skip <- h_skipped bests from;
             if skip : bool then Ret edges else Ret (edges ++ [(from, to)]))
          (gs_list prevs) edges.
(** lattice.go:321-343 *)
Definition h_edges (la : addr) (bests : list (option addr)) : prog (list (addr * addr)) :=
  do l <- lat_read la;
  pfold (fun edges i =>
           do l <- lat_read la;
           do currents <- lift (gs_index (l_list l) i);
           pfold (h_edges_to la bests) (gs_list currents) edges)
        (seq 1 (gs_len (l_list l) - 1)) [].

(** lattice.go:350-370, the body for one node; out is what has been written to w so far. *)
Definition h_node_stmt (la : addr) (bests : list (option addr)) (i : nat) (out : list (gstmt addr)) (p : option addr)
    : prog (list (gstmt addr)) :=
  do a <- deref p;
  do skip <- h_skipped bests a;
  if skip : bool then Ret out
  else
    do n <- node_read a;
    let surf := if h_id n =? bos_eos_id then (if (i =? 0)%nat then s2b "BOS" else s2b "EOS")
                else h_surface n in
    do l <- lat_read la;
    do d <- deref (l_dic l);
    do pos <- lift (pos_feature d (l_udic l) (h_val n None));
    do n <- node_read a;
    if h_best bests a then Ret (out ++ [SNode a surf pos (h_weight n) true])
    else if negb (class_eqb (h_class n) UNKNOWN) then Ret (out ++ [SNode a surf pos (h_weight n) false])
    else Ret out.

(** lattice.go:372-386, one edge. *)
Definition h_edge_stmt (la : addr) (bests : list (option addr)) (out : list (gstmt addr)) (e : addr * addr)
    : prog (list (gstmt addr)) :=
  let '(from, to) := e in
  do f <- node_read from;
  do t <- node_read to;
  do c <- (if negb (class_eqb (h_class f) USER) && negb (class_eqb (h_class t) USER) then
             do l <- lat_read la;
             do d <- deref (l_dic l);
             lift (conn_at d (h_right f) (h_left t))
           else Ret 0);
  Ret (out ++ [SEdge from to c (h_best bests from && h_best bests to)]).

(** lattice.go:312-389 Dot, up to printing: the pointer of a node is its address. *)
Definition h_dot (la : addr) : prog (list (gstmt addr)) :=
  do l <- lat_read la;
  let bests := gs_list (l_output l) in
  do edges <- h_edges la bests;
  do l <- lat_read la;
  do out <- pfold (fun out il => let '(i, list) := il in pfold (h_node_stmt la bests i) (gs_list list) out)
                  (with_index (gs_list (l_list l))) [];
  pfold (h_edge_stmt la bests) edges out.

(** tokenizer.go:134-173 AnalyzeGraph: the tokens returned and the statements written to w. *)
Definition h_graph (ideo : ideographic) (t : tokenizer) (input : bytes) (mode : Z)
    : prog (list token * list (gstmt addr)) :=
  do la <- h_new (tk_dict t) (tk_udict t);
  h_build la input;;
  let m := to_lmode mode in
  h_forward ideo m la;;
  h_backward m la;;
  do tokens <- h_graph_tokens t la;
  do drawn <- h_dot la;
  h_free la;;
  Ret (tokens, drawn).

(** ** Goroutines *)
(** A call: Analyze (Tokenize is Analyze with Normal, tokenizer.go:62-64), Wakati, or AnalyzeGraph
    (Dot is AnalyzeGraph with Normal, tokenizer.go:129-131) with a writer of the caller's own. *)
Inductive job :=
| JAnalyze (t : tokenizer) (input : bytes) (mode : Z)
| JWakati (t : tokenizer) (input : bytes)
| JGraph (t : tokenizer) (input : bytes) (mode : Z).
(** What a call returns and, for AnalyzeGraph, what it writes. *)
Inductive answer :=
| ATokens (ts : list token)
| AWords (ws : list bytes)
| AGraph (ts : list token) (drawn : list (gstmt addr)).
Definition h_job (ideo : ideographic) (j : job) : prog answer :=
  match j with
  | JAnalyze t input mode => do ts <- h_analyze ideo t input mode; Ret (ATokens ts)
  | JWakati t input => do ws <- h_wakati ideo t input; Ret (AWords ws)
  | JGraph t input mode => do r <- h_graph ideo t input mode; Ret (AGraph (fst r) (snd r))
  end.
(** A goroutine that makes several calls one after the other. *)
Fixpoint h_jobs (ideo : ideographic) (js : list job) : prog (list answer) :=
  match js with
  | [] => Ret []
  | j :: js' =>
    do a <- h_job ideo j;
    do rest <- h_jobs ideo js';
    Ret (a :: rest)
  end.

(** Memory shared by all goroutines.  An address below the counter has been allocated. *)
Record memory := Memory {
  g_nodes : addr -> hnode; g_node_next : addr; g_node_pool : list addr;
  g_lats : addr -> hlat; g_lat_next : addr; g_lat_pool : list addr
}.

(** A goroutine: what it still has to do, and the record of the pooled objects it has obtained
    and not returned and of the nodes it has allocated itself. *)
Record thread (A : Type) := Thread {
  th_prog : prog A;
  th_nodes : list addr;
  th_new : list addr;
  th_lats : list addr
}.
Arguments Thread {A}.
Arguments th_prog {A}.
Arguments th_nodes {A}.
Arguments th_new {A}.
Arguments th_lats {A}.

Definition set_at {V} (f : addr -> V) (a : addr) (v : V) : addr -> V := fun x => if (x =? a)%nat then v else f x.

Fixpoint remove_one (a : addr) (l : list addr) : list addr :=
  match l with
  | [] => []
  | x :: l' => if (x =? a)%nat then l' else x :: remove_one a l'
  end.

(** One step of a goroutine.  pool.go:33-40: Get takes any object out of the pool or makes a new
    one, as sync.Pool may choose (an object dropped by the garbage collector is one that Get never
    chooses); Put adds the object. *)
Inductive tstep {A} : memory -> thread A -> memory -> thread A -> Prop :=
| t_choose g k n hn hw hl :
    tstep g (Thread (Choose k) hn hw hl) g (Thread (k n) hn hw hl)
| t_node_get nodes next p1 a p2 lats lnext lpool k hn hw hl :
    tstep (Memory nodes next (p1 ++ a :: p2) lats lnext lpool) (Thread (NodeGet k) hn hw hl)
          (Memory nodes next (p1 ++ p2) lats lnext lpool) (Thread (k a) (a :: hn) hw hl)
| t_node_make nodes next pool lats lnext lpool k hn hw hl :
    tstep (Memory nodes next pool lats lnext lpool) (Thread (NodeGet k) hn hw hl)
          (Memory (set_at nodes next zero_hnode) (S next) pool lats lnext lpool) (Thread (k next) (next :: hn) hw hl)
| t_node_put nodes next pool lats lnext lpool a k hn hw hl :
    tstep (Memory nodes next pool lats lnext lpool) (Thread (NodePut a k) hn hw hl)
          (Memory nodes next (a :: pool) lats lnext lpool) (Thread k (remove_one a hn) hw hl)
| t_node_new nodes next pool lats lnext lpool n k hn hw hl :
    tstep (Memory nodes next pool lats lnext lpool) (Thread (NodeNew n k) hn hw hl)
          (Memory (set_at nodes next n) (S next) pool lats lnext lpool) (Thread (k next) hn (next :: hw) hl)
| t_node_read g a k hn hw hl :
    tstep g (Thread (NodeRead a k) hn hw hl) g (Thread (k (g_nodes g a)) hn hw hl)
| t_node_set nodes next pool lats lnext lpool a f k hn hw hl :
    tstep (Memory nodes next pool lats lnext lpool) (Thread (NodeSet a f k) hn hw hl)
          (Memory (set_at nodes a (f (nodes a))) next pool lats lnext lpool) (Thread k hn hw hl)
| t_lat_get nodes next pool lats lnext p1 a p2 k hn hw hl :
    tstep (Memory nodes next pool lats lnext (p1 ++ a :: p2)) (Thread (LatGet k) hn hw hl)
          (Memory nodes next pool lats lnext (p1 ++ p2)) (Thread (k a) hn hw (a :: hl))
| t_lat_make nodes next pool lats lnext lpool k hn hw hl :
    tstep (Memory nodes next pool lats lnext lpool) (Thread (LatGet k) hn hw hl)
          (Memory nodes next pool (set_at lats lnext zero_hlat) (S lnext) lpool) (Thread (k lnext) hn hw (lnext :: hl))
| t_lat_put nodes next pool lats lnext lpool a k hn hw hl :
    tstep (Memory nodes next pool lats lnext lpool) (Thread (LatPut a k) hn hw hl)
          (Memory nodes next pool lats lnext (a :: lpool)) (Thread k hn hw (remove_one a hl))
| t_lat_read g a k hn hw hl :
    tstep g (Thread (LatRead a k) hn hw hl) g (Thread (k (g_lats g a)) hn hw hl)
| t_lat_set nodes next pool lats lnext lpool a f k hn hw hl :
    tstep (Memory nodes next pool lats lnext lpool) (Thread (LatSet a f k) hn hw hl)
          (Memory nodes next pool (set_at lats a (f (lats a))) lnext lpool) (Thread k hn hw hl).

(** The system: any goroutine takes the next step. *)
Inductive step {A} : memory * list (thread A) -> memory * list (thread A) -> Prop :=
| s_step g t1 th t2 g' th' :
    tstep g th g' th' ->
    step (g, t1 ++ th :: t2) (g', t1 ++ th' :: t2).

Inductive steps {A} : memory * list (thread A) -> memory * list (thread A) -> Prop :=
| steps_refl x : steps x x
| steps_step x y z : steps x y -> step y z -> steps x z.

(** Program start: empty pools. *)
Definition start_memory : memory := Memory (fun _ => zero_hnode) 0%nat [] (fun _ => zero_hlat) 0%nat [].
Definition start_thread {A} (p : prog A) : thread A := Thread p [] [] [].
(** Goroutines with these calls to make, started with memory g. *)
Definition start (g : memory) (ideo : ideographic) (jobs : list (list job)) : memory * list (thread (list answer)) :=
  (g, map (fun js => start_thread (h_jobs ideo js)) jobs).
