(** Property theorems: the lattice graph (tokenizer/lattice/lattice.go Dot, tokenizer.go
    AnalyzeGraph). *)
From Verif Require Import DotRead.
Open Scope Z_scope.

(** ** C18 *)
Theorem C18_closed : forall d u omit ideo inp mode, wf_dict d -> wf_udict u -> wf_data d ->
  exists ss, graph_stmts ideo (Tokenizer d u omit) inp mode = Ok ss /\
    (forall a b k f, In (SEdge a b k f) ss -> declared ss a /\ declared ss b) /\
    NoDup (flat_map (fun s => match s with SNode c _ _ _ _ => [c] | _ => [] end) ss).
Proof. exact c18_closed_lemma. Qed.
Print Assumptions C18_closed.
(** The tokens are the highlighted nodes, in order; the highlighted edges join consecutive ones. *)
Theorem C18_best_path : forall d u omit ideo inp mode, wf_dict d -> wf_udict u -> wf_data d -> mode <> mode_extended ->
  exists ts ss cs, analyze_graph ideo (Tokenizer d u omit) inp mode = Ok ts /\
    graph_stmts ideo (Tokenizer d u omit) inp mode = Ok ss /\
    Forall2 (fun tk c => exists p w, In (SNode c (t_surface tk) p w true) ss) ts cs /\ NoDup cs /\
    (forall c s p w, In (SNode c s p w true) ss -> In c cs) /\
    (forall a b, (exists k, In (SEdge a b k true) ss) <-> consecutive cs a b).
Proof. exact c18_path_lemma. Qed.
Print Assumptions C18_best_path.
Theorem C18_bos_eos : forall d u omit ideo inp mode ts, wf_dict d -> wf_udict u -> Z.of_nat (rcount inp) <= lossless_limit mode ->
  analyze_graph ideo (Tokenizer d u omit) inp mode = Ok ts ->
  exists bos mid eos, ts = bos :: mid ++ [eos] /\ t_id bos = -1 /\ t_surface bos = s2b "BOS" /\ t_id eos = -1 /\ t_surface eos = s2b "EOS" /\
    forall tk, In tk mid -> t_id tk <> -1.
Proof. exact graph_framing. Qed.
Print Assumptions C18_bos_eos.
Example C18_example : wf_data ex_dict /\
  graph_stmts ex_ideo (Tokenizer ex_dict (Some ex_udict) true) (s2b "東京都a") mode_search =
  Ok [SNode (0, 0)%nat (s2b "BOS") (s2b "---") 0 true; SNode (1, 0)%nat (s2b "東") (s2b "名詞/一般") 600 false;
      SNode (2, 0)%nat (s2b "東京") (s2b "名詞/固有名詞") 200 true; SNode (3, 0)%nat (s2b "東京都") (s2b "名詞/固有名詞") (-1000) false;
      SNode (3, 1)%nat (s2b "京都") (s2b "カスタム名詞") 0 false; SNode (3, 2)%nat (s2b "都") (s2b "名詞/一般") 300 true;
      SNode (4, 0)%nat (s2b "a") (s2b "名詞/一般") 700 true; SNode (5, 0)%nat (s2b "EOS") (s2b "---") 0 true;
      SEdge (0, 0)%nat (1, 0)%nat 10 false; SEdge (0, 0)%nat (2, 0)%nat 20 true; SEdge (0, 0)%nat (3, 0)%nat 10 false;
      SEdge (1, 0)%nat (3, 1)%nat 0 false; SEdge (2, 0)%nat (3, 2)%nat (-30) true; SEdge (3, 0)%nat (4, 0)%nat 20 false;
      SEdge (3, 1)%nat (4, 0)%nat 0 false; SEdge (3, 2)%nat (4, 0)%nat 20 true; SEdge (4, 0)%nat (5, 0)%nat 10 true] /\
  exists ts, analyze_graph ex_ideo (Tokenizer ex_dict (Some ex_udict) true) (s2b "東京都a") mode_search = Ok ts /\
    map t_surface ts = [s2b "BOS"; s2b "東京"; s2b "都"; s2b "a"; s2b "EOS"].
Proof. split; [exact wf_ex_data|]. split; [by_eval|]. apply run_ex. vm_compute. reflexivity. Qed.
(** In Extended mode an unknown word of the best path is not drawn: no path from BOS to EOS. *)
Example C18_extended_no_path :
  graph_stmts ex_ideo (Tokenizer ex_dict None false) (s2b "ab") mode_extended =
  Ok [SNode (0, 0)%nat (s2b "BOS") (s2b "---") 0 true; SNode (3, 0)%nat (s2b "EOS") (s2b "---") 0 true].
Proof. by_eval. Qed.

(** ** C57 *)
(** The graph draws BOS, EOS, every candidate of the dictionaries and the unknown words of the
    best path, labelled with surface, part of speech and cost, and joins exactly the adjacent ones
    by edges labelled with their connection cost. C18_example is a case. *)
Theorem C57_graph : forall d u omit ideo inp mode, wf_dict d -> wf_udict u -> wf_data d ->
  exists ss g, graph_stmts ideo (Tokenizer d u omit) inp mode = Ok ss /\
    (forall c s p w b, In (SNode c s p w b) ss ->
       match g c with GWord x => candidate d u inp x | _ => True end /\
       g_surf d inp (g c) s /\ p = g_pos d u (g c) /\ w = m_weight (g_entry d (g c)) /\ (g_class (g c) = UNKNOWN -> b = true)) /\
    (exists a, declared ss a /\ forall c, declared ss c -> (g c = GBos <-> c = a)) /\
    (exists a, declared ss a /\ forall c, declared ss c -> (g c = GEos <-> c = a)) /\
    (forall x, candidate d u inp x -> w_class x <> UNKNOWN -> exists c, declared ss c /\ g c = GWord x) /\
    (forall a b, (exists k f, In (SEdge a b k f) ss) <-> declared ss a /\ declared ss b /\ adjacent inp (g a) (g b)) /\
    (forall a b k f, In (SEdge a b k f) ss -> k = connection d (g_class (g a)) (g_entry d (g a)) (g_class (g b)) (g_entry d (g b))).
Proof. exact c57_graph_lemma. Qed.
Print Assumptions C57_graph.

(** ** C19 *)
(** False of the code: a quotation mark of the input is copied into the label. *)
Theorem C19_refuted : exists d ideo inp, wf_dict d /\ wf_data d /\ valid_utf8 inp = true /\
  forall addr, (forall c, plain (addr c)) -> exists txt,
  graph_text addr ideo (Tokenizer d None false) inp mode_normal = Ok txt /\ ~ dot_document txt.
Proof. exact c19_refuted_lemma. Qed.
Print Assumptions C19_refuted.
(** Without quotation marks in the input and in the dictionary's parts of speech it holds. *)
Theorem C19_document_partial : forall addr d u omit ideo inp mode, wf_dict d -> wf_udict u -> wf_data d -> (forall c, plain (addr c)) ->
  no_quote inp -> quote_free d u ->
  exists txt, graph_text addr ideo (Tokenizer d u omit) inp mode = Ok txt /\ dot_document txt.
Proof. exact c19_partial_lemma. Qed.
Print Assumptions C19_document_partial.
Example C19_example : no_quote (s2b "に\\") /\ quote_free ex_dict (Some ex_udict) /\
  (forall c, plain (ex_addr c)) /\
  graph_text ex_addr ex_ideo (Tokenizer ex_dict None false) (s2b "に") mode_normal =
  Ok (s2b "graph lattice {
dpi=48;
graph [style=filled, splines=true, overlap=false, fontsize=30, rankdir=LR]
edge [fontname=Helvetica, fontcolor=red, color=""#606060""]
node [shape=box, style=filled, fillcolor=""#e8e8f0"", fontname=Helvetica]
	""0xc0a0"" [label=""BOS\n---\n0"",shape=ellipse, peripheries=2];
	""0xc1a0"" [label=""に\n助詞\n50"",shape=ellipse, peripheries=2];
	""0xc2a0"" [label=""EOS\n---\n0"",shape=ellipse, peripheries=2];
	""0xc0a0"" -- ""0xc1a0"" [label=""20"", style=bold, color=blue, fontcolor=blue];
	""0xc1a0"" -- ""0xc2a0"" [label=""10"", style=bold, color=blue, fontcolor=blue];
}
").
Proof.
  split; [apply check_no_quote; reflexivity|]. split; [apply ex_quote_free|]. split; [apply ex_addr_plain|by_eval].
Qed.

(** ** C69 *)
(** False of the code: a backslash of the input is copied into the label and takes the line
    break after it for itself (and \N in the input is the node's name). *)
Theorem C69_refuted : exists d ideo inp addr ss txt, wf_dict d /\ wf_data d /\ valid_utf8 inp = true /\ (forall c, plain (addr c)) /\ no_quote inp /\ quote_free d None /\
  graph_stmts ideo (Tokenizer d None false) inp mode_normal = Ok ss /\ graph_text addr ideo (Tokenizer d None false) inp mode_normal = Ok txt /\
  dot_document txt /\ read_drawing txt <> Some (map (name_stmt addr) ss).
Proof. exact c69_refuted_lemma. Qed.
Print Assumptions C69_refuted.
(** Without quotation marks, backslashes and ampersands in the input and in the parts of speech, a
    reader of the document sees exactly the nodes and edges of C18 and C57, with their
    labels and highlights. *)
Theorem C69_read_partial : forall addr d u omit ideo inp mode, wf_dict d -> wf_udict u -> wf_data d -> (forall c, plain (addr c)) -> literal_input d u inp ->
  exists ss txt, graph_stmts ideo (Tokenizer d u omit) inp mode = Ok ss /\ graph_text addr ideo (Tokenizer d u omit) inp mode = Ok txt /\
    read_drawing txt = Some (map (name_stmt addr) ss).
Proof. exact c69_read_lemma. Qed.
Print Assumptions C69_read_partial.
Example C69_example : literal_input ex_dict (Some ex_udict) (s2b "東京都a") /\
  exists txt, graph_text ex_addr ex_ideo (Tokenizer ex_dict (Some ex_udict) true) (s2b "都a") mode_search = Ok txt /\
    read_drawing txt =
    Some [SNode (s2b "0xc0a0") (s2b "BOS") (s2b "---") 0 true; SNode (s2b "0xc1a0") (s2b "都") (s2b "名詞/一般") 300 true;
          SNode (s2b "0xc2a0") (s2b "a") (s2b "名詞/一般") 700 true; SNode (s2b "0xc3a0") (s2b "EOS") (s2b "---") 0 true;
          SEdge (s2b "0xc0a0") (s2b "0xc1a0") 10 true; SEdge (s2b "0xc1a0") (s2b "0xc2a0") 20 true; SEdge (s2b "0xc2a0") (s2b "0xc3a0") 10 true].
Proof. split; [apply check_literal; vm_compute; reflexivity|]. apply run_ex. vm_compute. reflexivity. Qed.
