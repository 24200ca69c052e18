(** What the properties of pooled memory and of concurrent calls speak about, independent of the
    proofs in HeapSound.v and HeapFacts.v. *)
From Verif Require Export Heap SpecTok SpecFeat.
Open Scope nat_scope.

(** A call on a tokenizer with well-formed dictionaries; the graph also prints features, so the
    tables of parts of speech must match the morphs. *)
Definition job_ok (j : job) : Prop :=
  match j with
  | JAnalyze t _ _ | JWakati t _ => wf_dict (tk_dict t) /\ wf_udict (tk_udict t)
  | JGraph t _ _ => wf_dict (tk_dict t) /\ wf_udict (tk_udict t) /\ wf_data (tk_dict t)
  end.

(** A statement with other names for the nodes, and the nodes a statement speaks of. *)
Definition renamed {P P'} (name : P -> P') (s : gstmt P) : gstmt P' :=
  match s with
  | SNode c surf pos w b => SNode (name c) surf pos w b
  | SEdge f t c b => SEdge (name f) (name t) c b
  end.
Definition speaks_of {P} (s : gstmt P) (c : P) : Prop :=
  match s with SNode c' _ _ _ _ => c = c' | SEdge f t _ _ => c = f \/ c = t end.

(** What the call returns (and draws) when nothing else ever runs.  The graph is the same up to
    the names of the nodes, which are their addresses; different nodes have different names. *)
Inductive right_answer (ideo : ideographic) : job -> answer -> Prop :=
| ra_analyze t input mode ts :
    analyze ideo t input mode = Ok ts -> right_answer ideo (JAnalyze t input mode) (ATokens ts)
| ra_wakati t input ws :
    wakati ideo t input = Ok ws -> right_answer ideo (JWakati t input) (AWords ws)
| ra_graph t input mode ts ss name :
    analyze_graph ideo t input mode = Ok ts -> graph_stmts ideo t input mode = Ok ss ->
    (forall c c', (exists s, In s ss /\ speaks_of s c) -> (exists s, In s ss /\ speaks_of s c') -> name c = name c' -> c = c') ->
    right_answer ideo (JGraph t input mode) (AGraph ts (map (renamed name) ss)).

(** A goroutine that has returned. *)
Definition finished {A} (th : thread A) : Prop := exists r, th_prog th = Ret r.

(** The next step of the program reads, writes or gives back this node (lattice). *)
Inductive uses_node {A} : prog A -> addr -> Prop :=
| un_put a k : uses_node (NodePut a k) a
| un_read a k : uses_node (NodeRead a k) a
| un_set a f k : uses_node (NodeSet a f k) a.
Inductive uses_lat {A} : prog A -> addr -> Prop :=
| ul_put a k : uses_lat (LatPut a k) a
| ul_read a k : uses_lat (LatRead a k) a
| ul_set a f k : uses_lat (LatSet a f k) a.

(** A lattice as an analysis must leave it in the pool: nothing visible, and no pointer to a node
    anywhere in the arrays behind its slices. *)
Record freed (l : hlat) : Prop := {
  fd_input : l_input l = [];
  fd_udic : l_udic l = None;
  fd_output : gs_len (l_output l) = 0 /\ forall p, In p (gs_arr (l_output l)) -> p = None;
  fd_list : gs_len (l_list l) = 0;
  fd_rows : forall r, In r (gs_arr (l_list l)) -> gs_len r = 0 /\ forall p, In p (gs_arr r) -> p = None
}.

(** A memory that earlier calls may have left: the pools hold allocated objects, each once; the
    nodes in the pool have any contents, the lattices are freed. *)
Record left_over (g : memory) : Prop := {
  lo_nodes : NoDup (g_node_pool g) /\ forall a, In a (g_node_pool g) -> a < g_node_next g;
  lo_lats : NoDup (g_lat_pool g) /\ forall a, In a (g_lat_pool g) -> a < g_lat_next g;
  lo_freed : forall a, In a (g_lat_pool g) -> freed (g_lats g a)
}.
