(** Proofs: a reader of the text written by Dot sees the drawing (C69). *)
From Verif Require Export SpecRead DotRuns.
From Verif Require Import Text TextFacts JsonFacts.
From Coq Require Import ZifyBool ZifyNat ZifyN.
Set Implicit Arguments.
Unset Strict Implicit.
Open Scope nat_scope.

Definition literal (s : bytes) : Prop := lacks x22 s /\ lacks x5c s /\ lacks x26 s.

(** ** Labels *)
Lemma label_lines_app s : forall acc r, literal s -> label_lines (s ++ r) acc = label_lines r (acc ++ s).
Proof.
  induction s as [|b s IH]; intros acc r (H1 & H2 & H3); cbn [app]; [rewrite app_nil_r; reflexivity|]. cbn [label_lines].
  rewrite (@byte_eqb_neq b x5c) by (intros ->; apply H2; left; reflexivity).
  rewrite (@byte_eqb_neq b x26) by (intros ->; apply H3; left; reflexivity).
  rewrite IH, <- app_assoc; [reflexivity|].
  split; [|split]; intros X; [apply H1|apply H2|apply H3]; right; assumption.
Qed.
Lemma label_lines_break r acc : label_lines (esc_n ++ r) acc = let? l := label_lines r [] in Some (acc :: l).
Proof. reflexivity. Qed.

Lemma digit_not_amp k : (k < 10)%N -> digit k <> x26.
Proof. intros H. assert (D := digit_val H). intros E. rewrite E in D. discriminate D. Qed.
Lemma digits_lack_amp fuel : forall k acc, lacks x26 acc -> lacks x26 (digits fuel k acc).
Proof.
  induction fuel as [|f IH]; intros k acc H; cbn [digits]; [assumption|].
  assert (L : lacks x26 (digit (k mod 10) :: acc)).
  { intros [E|E]; [|apply (H E)]. revert E. apply digit_not_amp. apply N.mod_lt. discriminate. }
  destruct (k <? 10)%N; [exact L|apply IH; exact L].
Qed.
Lemma itoa_literal z : literal (itoa z).
Proof.
  destruct (itoa_plain z) as (A & B). split; [exact A|split; [exact B|]]. unfold itoa. intros E. apply in_app_iff in E. destruct E as [E|E].
  - destruct (z <? 0)%Z; [|destruct E]. destruct E as [E|[]]. discriminate E.
  - revert E. apply digits_lack_amp. intros [].
Qed.
Lemma node_label_lines s p w : literal s -> literal p -> label_lines (s ++ esc_n ++ p ++ esc_n ++ itoa w) [] = Some [s; p; itoa w].
Proof.
  intros Hs Hp. rewrite label_lines_app by assumption. cbn [app]. rewrite label_lines_break, label_lines_app by assumption.
  cbn [app]. rewrite label_lines_break. rewrite <- (app_nil_r (itoa w)) at 1. rewrite label_lines_app by apply itoa_literal. reflexivity.
Qed.
Lemma edge_label_lines k : label_lines (itoa k) [] = Some [itoa k].
Proof. rewrite <- (app_nil_r (itoa k)) at 1. rewrite label_lines_app by apply itoa_literal. reflexivity. Qed.
Lemma number_itoa z : number (itoa z) = Some z.
Proof. unfold number. rewrite <- (app_nil_r (itoa z)), read_integer_ok by exact I. reflexivity. Qed.

(** ** Tokens of one line *)
Lemma runs_esc acc : runs (LStr acc) esc_n [] (LStr (acc ++ esc_n)).
Proof. reflexivity. Qed.
Lemma literal_plain s : literal s -> plain s.
Proof. intros (A & B & _). split; assumption. Qed.

Lemma render_node_exact (addr : coord -> bytes) c s p w best : (forall c, plain (addr c)) -> literal s -> literal p ->
  runs LOut (render addr (SNode c s p w best))
    (TStr (addr c) :: pn x5b :: node_attrs best (s ++ esc_n ++ p ++ esc_n ++ itoa w) ++ [pn x5d; pn x3b]) LOut.
Proof.
  intros Ha Hs Hp. cbn [render].
  assert (R : runs (LStr []) (s ++ esc_n ++ p ++ esc_n ++ itoa w) ([] ++ [] ++ [] ++ [] ++ []) (LStr (((([] ++ s) ++ esc_n) ++ p) ++ esc_n ++ itoa w))).
  { eapply runs_app; [apply runs_plain, literal_plain, Hs|]. eapply runs_app; [apply runs_esc|].
    eapply runs_app; [apply runs_plain, literal_plain, Hp|]. eapply runs_app; [apply runs_esc|].
    rewrite app_assoc. apply runs_plain, itoa_plain. }
  rewrite <- !app_assoc in R. cbn [app] in R.
  set (lab := s ++ esc_n ++ p ++ esc_n ++ itoa w) in *.
  replace (tab ++ quote ++ addr c ++ quote ++ s2b " [label=" ++ quote ++ s ++ esc_n ++ p ++ esc_n ++ itoa w ++ quote ++
      (if best then s2b ",shape=ellipse, peripheries=2];" else s2b "];") ++ nl)
    with (tab ++ (quote ++ addr c ++ quote) ++ (s2b " [label=" ++ quote) ++ lab ++
      (quote ++ (if best then s2b ",shape=ellipse, peripheries=2];" else s2b "];") ++ nl)) by (unfold lab; rewrite <- !app_assoc; reflexivity).
  replace (TStr (addr c) :: pn x5b :: node_attrs best lab ++ [pn x5d; pn x3b]) with
    ([] ++ [TStr (addr c)] ++ [pn x5b; kw "label"; eq_tok] ++ [] ++ (TStr lab :: (if best then [pn x2c; kw "shape"; eq_tok; kw "ellipse"; pn x2c; kw "peripheries"; eq_tok; kw "2"] else []) ++ [pn x5d; pn x3b]))
    by (unfold node_attrs; destruct best; reflexivity).
  eapply runs_app; [reflexivity|]. eapply runs_app; [apply runs_addr, Ha|]. eapply runs_app; [reflexivity|].
  eapply runs_app; [exact R|]. destruct best; reflexivity.
Qed.

Lemma render_edge_exact (addr : coord -> bytes) a b k best : (forall c, plain (addr c)) ->
  runs LOut (render addr (SEdge a b k best))
    (TStr (addr a) :: TEdge :: TStr (addr b) :: pn x5b :: edge_attrs best (itoa k) ++ [pn x5d; pn x3b]) LOut.
Proof.
  intros Ha. cbn [render].
  pose proof (runs_plain [] (itoa_plain k)) as R. cbn [app] in R.
  replace (tab ++ quote ++ addr a ++ quote ++ s2b " -- " ++ quote ++ addr b ++ quote ++ s2b " [label=" ++ quote ++ itoa k ++ quote ++
      (if best then s2b ", style=bold, color=blue, fontcolor=blue];" else s2b "];") ++ nl)
    with (tab ++ (quote ++ addr a ++ quote) ++ s2b " -- " ++ (quote ++ addr b ++ quote) ++ (s2b " [label=" ++ quote) ++ itoa k ++
      (quote ++ (if best then s2b ", style=bold, color=blue, fontcolor=blue];" else s2b "];") ++ nl)) by (rewrite <- !app_assoc; reflexivity).
  replace (TStr (addr a) :: TEdge :: TStr (addr b) :: pn x5b :: edge_attrs best (itoa k) ++ [pn x5d; pn x3b]) with
    ([] ++ [TStr (addr a)] ++ [TEdge] ++ [TStr (addr b)] ++ [pn x5b; kw "label"; eq_tok] ++ [] ++
     (TStr (itoa k) :: (if best then [pn x2c; kw "style"; eq_tok; kw "bold"; pn x2c; kw "color"; eq_tok; kw "blue"; pn x2c; kw "fontcolor"; eq_tok; kw "blue"] else []) ++ [pn x5d; pn x3b]))
    by (unfold edge_attrs; destruct best; reflexivity).
  eapply runs_app; [reflexivity|]. eapply runs_app; [apply runs_addr, Ha|]. eapply runs_app; [reflexivity|].
  eapply runs_app; [apply runs_addr, Ha|]. eapply runs_app; [reflexivity|]. eapply runs_app; [exact R|]. destruct best; reflexivity.
Qed.

(** ** The reader *)
Definition stmt_toks (addr : coord -> bytes) (s : stmt) : list gtok :=
  match s with
  | SNode c a p w best => TStr (addr c) :: pn x5b :: node_attrs best (a ++ esc_n ++ p ++ esc_n ++ itoa w) ++ [pn x5d; pn x3b]
  | SEdge a b k best => TStr (addr a) :: TEdge :: TStr (addr b) :: pn x5b :: edge_attrs best (itoa k) ++ [pn x5d; pn x3b]
  end.
Definition lit_stmt (s : stmt) : Prop := match s with SNode _ a b _ _ => literal a /\ literal b | _ => True end.

Definition node_pairs (best : bool) (lab : bytes) : attr_list :=
  (s2b "label", lab) :: (if best then [(s2b "shape", s2b "ellipse"); (s2b "peripheries", s2b "2")] else []).
Definition edge_pairs_of (best : bool) (lab : bytes) : attr_list :=
  (s2b "label", lab) :: (if best then [(s2b "style", s2b "bold"); (s2b "color", s2b "blue"); (s2b "fontcolor", s2b "blue")] else []).
Definition stmt_item (addr : coord -> bytes) (s : stmt) : item :=
  match s with
  | SNode c a p w best => INode (addr c) (node_pairs best (a ++ esc_n ++ p ++ esc_n ++ itoa w))
  | SEdge a b k best => IEdge (addr a) (addr b) (edge_pairs_of best (itoa k))
  end.

Lemma render_toks addr ss : (forall c, plain (addr c)) -> (forall s, In s ss -> lit_stmt s) ->
  runs LOut (concat (map (render addr) ss)) (concat (map (stmt_toks addr) ss)) LOut.
Proof.
  intros Ha. induction ss as [|s ss IH]; intros H; cbn [map concat]; [reflexivity|].
  apply runs_app with (st1 := LOut); [|apply IH; intros; apply H; right; assumption].
  assert (Hs := H s (or_introl eq_refl)). destruct s as [c a b w best|f t k best]; cbn [lit_stmt stmt_toks] in *.
  - apply render_node_exact; [assumption|apply Hs|apply Hs].
  - apply render_edge_exact. assumption.
Qed.

Lemma read_item_stmt addr s r : read_item (stmt_toks addr s ++ r) = Some (stmt_item addr s, pn x3b :: r).
Proof. destruct s as [c a p w best|a b k best]; cbn [stmt_toks stmt_item]; destruct best; reflexivity. Qed.

Lemma read_items_stmts addr ss : forall fuel, length (concat (map (stmt_toks addr) ss)) + 1 <= fuel ->
  read_items fuel (concat (map (stmt_toks addr) ss) ++ [pn x7d]) = Some (map (stmt_item addr) ss).
Proof.
  induction ss as [|s ss IH]; intros fuel Hf; cbn [map concat] in *.
  - destruct fuel as [|f]; [cbn in Hf; lia|]. reflexivity.
  - rewrite app_length in Hf. rewrite <- app_assoc.
    assert (L : 2 <= length (stmt_toks addr s)) by (destruct s; cbn [stmt_toks length]; lia).
    destruct fuel as [|[|f]]; [lia|lia|].
    assert (X : forall t, read_items (S (S f)) (stmt_toks addr s ++ t) =
      let? (i, r) := read_item (stmt_toks addr s ++ t) in let? l := read_items (S f) r in Some (i :: l)).
    { intros t. destruct s; reflexivity. }
    rewrite X, read_item_stmt. cbn [obind].
    assert (Y : forall t, read_items (S f) (pn x3b :: t) = read_items f t) by (intros [|? [|]]; reflexivity).
    rewrite Y, IH by lia. reflexivity.
Qed.

Definition header_items : list item :=
  [IOther; IOther;
   IEdges [(s2b "fontname", s2b "Helvetica"); (s2b "fontcolor", s2b "red"); (s2b "color", s2b "#606060")];
   INodes [(s2b "shape", s2b "box"); (s2b "style", s2b "filled"); (s2b "fillcolor", s2b "#e8e8f0"); (s2b "fontname", s2b "Helvetica")]].
Lemma read_items_header fuel ts : read_items (5 + fuel) (header_stmts ++ ts) =
  let? l := read_items fuel ts in Some (header_items ++ l).
Proof.
  unfold header_stmts. rewrite <- !app_assoc. cbn [Nat.add].
  assert (S1 : forall f r, read_items (S (S f)) ([kw "dpi"; eq_tok; kw "48"; pn x3b] ++ r) = let? l := read_items f r in Some (IOther :: l)) by reflexivity.
  assert (S2 : forall f k l r i, In k [kw "graph"; kw "edge"; kw "node"] ->
     read_item ((k :: pn x5b :: l ++ [pn x5d]) ++ r) = Some (i, r) ->
     read_items (S f) ((k :: pn x5b :: l ++ [pn x5d]) ++ r) = let? l := read_items f r in Some (i :: l)).
  { intros f k l r i Hk E.
    assert (X : read_items (S f) ((k :: pn x5b :: l ++ [pn x5d]) ++ r) =
       let? (i, r) := read_item ((k :: pn x5b :: l ++ [pn x5d]) ++ r) in let? l := read_items f r in Some (i :: l))
      by (destruct Hk as [<-|[<-|[<-|[]]]]; reflexivity).
    rewrite X, E. reflexivity. }
  rewrite S1.
  rewrite (@S2 _ _ _ _ IOther) by (first [left; reflexivity|reflexivity]).
  rewrite (@S2 _ _ _ _ (nth 2 header_items IOther)) by (first [right; left; reflexivity|reflexivity]).
  rewrite (@S2 _ _ _ _ (nth 3 header_items IOther)) by (first [right; right; left; reflexivity|reflexivity]).
  destruct (read_items fuel ts); reflexivity.
Qed.

Definition node_defaults : attr_list := [(s2b "shape", s2b "box"); (s2b "style", s2b "filled"); (s2b "fillcolor", s2b "#e8e8f0"); (s2b "fontname", s2b "Helvetica")].
Definition edge_defaults : attr_list := [(s2b "fontname", s2b "Helvetica"); (s2b "fontcolor", s2b "red"); (s2b "color", s2b "#606060")].

Lemma see_stmt addr s : lit_stmt s -> see_item node_defaults edge_defaults (stmt_item addr s) = Some [name_stmt addr s].
Proof.
  destruct s as [c a p w best|a b k best]; cbn [lit_stmt stmt_item see_item name_stmt]; intros H.
  - change (attr (s2b "label") (node_pairs best (a ++ esc_n ++ p ++ esc_n ++ itoa w) ++ node_defaults)) with (a ++ esc_n ++ p ++ esc_n ++ itoa w).
    rewrite node_label_lines, number_itoa by apply H. destruct best; reflexivity.
  - change (attr (s2b "label") (edge_pairs_of best (itoa k) ++ edge_defaults)) with (itoa k).
    rewrite edge_label_lines, number_itoa. destruct best; reflexivity.
Qed.
Lemma see_stmts addr ss : (forall s, In s ss -> lit_stmt s) ->
  see_items node_defaults edge_defaults (map (stmt_item addr) ss) = Some (map (name_stmt addr) ss).
Proof.
  induction ss as [|s ss IH]; intros H; cbn [map]; [reflexivity|].
  assert (X : see_items node_defaults edge_defaults (stmt_item addr s :: map (stmt_item addr) ss) =
    let? x := see_item node_defaults edge_defaults (stmt_item addr s) in
    let? r := see_items node_defaults edge_defaults (map (stmt_item addr) ss) in Some (x ++ r)) by (destruct s; reflexivity).
  rewrite X, see_stmt, IH; [reflexivity|intros; apply H; right; assumption|apply H; left; reflexivity].
Qed.

Theorem read_text addr ss : (forall c, plain (addr c)) -> (forall s, In s ss -> lit_stmt s) ->
  read_drawing (dot_text addr ss) = Some (map (name_stmt addr) ss).
Proof.
  intros Ha H. unfold read_drawing, lex, dot_text.
  assert (R : runs LOut (header ++ concat (map (render addr) ss) ++ s2b "}" ++ nl)
     ((kw "graph" :: kw "lattice" :: pn x7b :: header_stmts) ++ concat (map (stmt_toks addr) ss) ++ [pn x7d]) LOut).
  { eapply runs_app; [apply runs_header|]. eapply runs_app; [apply (render_toks Ha H)|]. reflexivity. }
  unfold runs in R. rewrite R. cbn [obind]. cbn [app].
  set (ts := concat (map (stmt_toks addr) ss)).
  assert (B : forall r, read_body (kw "graph" :: kw "lattice" :: pn x7b :: r) = read_items (length r) r) by reflexivity.
  rewrite B.
  replace (length (header_stmts ++ ts ++ [pn x7d])) with (5 + (length (skipn 5 header_stmts) + (length ts + 1)))
    by (rewrite !app_length; reflexivity).
  rewrite read_items_header. unfold ts. rewrite read_items_stmts by lia. cbn [obind].
  change (see_items [] [] (header_items ++ map (stmt_item addr) ss)) with
    (let? r := let? r := see_items node_defaults edge_defaults (map (stmt_item addr) ss) in Some ([] ++ r) in Some ([] ++ r)).
  rewrite see_stmts by assumption. reflexivity.
Qed.

Lemma special_not_fixed b : In b [x22; x5c; x26] -> not_fixed b.
Proof.
  intros [<-|[<-|[<-|[]]]] E; repeat destruct E as [E|E]; try discriminate; contradiction.
Qed.

Theorem c69_read_lemma addr d u omit ideo inp mode : wf_dict d -> wf_udict u -> wf_data d -> (forall c, plain (addr c)) -> literal_input d u inp ->
  exists ss txt, graph_stmts ideo (Tokenizer d u omit) inp mode = Ok ss /\ graph_text addr ideo (Tokenizer d u omit) inp mode = Ok txt /\
    read_drawing txt = Some (map (name_stmt addr) ss).
Proof.
  intros Hd Hu Hw Ha L. destruct (@c57_graph_lemma d u omit ideo inp mode Hd Hu Hw) as (ss & g & E & H & _).
  exists ss, (dot_text addr ss). split; [exact E|]. split; [unfold graph_text; rewrite E; reflexivity|]. apply read_text; [assumption|].
  intros s Hs. destruct s as [c a b w best|]; [|exact I]. destruct (H _ _ _ _ _ Hs) as (_ & S & -> & _). cbn [lit_stmt].
  assert (F : forall x, In x [x22; x5c; x26] -> lacks x a /\ lacks x (g_pos d u (g c))).
  { intros x Hx. destruct (L x Hx) as (L1 & L2). split; [apply (g_surf_lacks (special_not_fixed Hx) L1 S)|apply (@g_pos_lacks x d u _ (special_not_fixed Hx) L2)]. }
  assert (F1 := F x22 (or_introl eq_refl)). assert (F2 := F x5c (or_intror (or_introl eq_refl))).
  assert (F3 := F x26 (or_intror (or_intror (or_introl eq_refl)))).
  split; split; [apply F1|split; [apply F2|apply F3]|apply F1|split; [apply F2|apply F3]].
Qed.

(** ** Concrete graphs *)
Definition lacks_b (b : byte) (s : bytes) : bool := forallb (fun c => negb (Byte.eqb c b)) s.
Lemma check_lacks b s : lacks_b b s = true -> lacks b s.
Proof.
  unfold lacks_b, lacks. rewrite forallb_forall. intros H Hin. specialize (H _ Hin). replace (Byte.eqb b b) with true in H by (symmetry; apply Byte.byte_dec_lb; reflexivity). discriminate H.
Qed.
Definition pos_lacks_b (b : byte) (d : dict) (u : option udict) : bool :=
  forallb (lacks_b b) (d_pos_names d) && forallb (forallb (lacks_b b)) (d_unk_contents d) &&
  match u with Some ud => forallb (fun e => lacks_b b (uc_pos e)) (u_contents ud) | None => true end.
Lemma check_pos_lacks b d u : pos_lacks_b b d u = true -> pos_lacks b d u.
Proof.
  unfold pos_lacks_b. intros H. apply andb_prop in H. destruct H as (H & H3). apply andb_prop in H. destruct H as (H1 & H2).
  rewrite forallb_forall in H1. rewrite forallb_forall in H2. split; [|split].
  - intros s Hs. apply check_lacks, H1, Hs.
  - intros fs s Hf Hs. specialize (H2 _ Hf). rewrite forallb_forall in H2. apply check_lacks, H2, Hs.
  - destruct u as [ud|]; [|exact I]. rewrite forallb_forall in H3. intros e He. apply check_lacks, H3, He.
Qed.
Definition literal_input_b (d : dict) (u : option udict) (inp : bytes) : bool :=
  forallb (fun b => lacks_b b inp && pos_lacks_b b d u) [x22; x5c; x26].
Lemma check_literal d u inp : literal_input_b d u inp = true -> literal_input d u inp.
Proof.
  unfold literal_input_b. rewrite forallb_forall. intros H b Hb. specialize (H b Hb). apply andb_prop in H.
  split; [apply check_lacks, H|apply check_pos_lacks, H].
Qed.

Definition bstmt_code (s : gstmt bytes) : (bytes * bytes * bytes * Z * bool) + (bytes * bytes * Z * bool) :=
  match s with SNode c a b w f => inl (c, a, b, w, f) | SEdge a b k f => inr (a, b, k, f) end.
Definition bstmt_test (a b : gstmt bytes) : bool := test_eq (bstmt_code a) (bstmt_code b).
Lemma bstmt_test_ok a b : bstmt_test a b = true <-> a = b.
Proof.
  unfold bstmt_test. rewrite test_eq_ok. destruct a, b; cbn; split; intros H; try discriminate; injection H; intros; subst; reflexivity.
Qed.
#[export] Instance Eqb_bstmt : Eqb (gstmt bytes) := {| test_eq := bstmt_test; test_eq_ok := bstmt_test_ok |}.

(** The label of a backslash swallows the line break after it. *)
Theorem c69_refuted_lemma : exists d ideo inp addr ss txt, wf_dict d /\ wf_data d /\ valid_utf8 inp = true /\ (forall c, plain (addr c)) /\ no_quote inp /\ quote_free d None /\
  graph_stmts ideo (Tokenizer d None false) inp mode_normal = Ok ss /\ graph_text addr ideo (Tokenizer d None false) inp mode_normal = Ok txt /\
  dot_document txt /\ read_drawing txt <> Some (map (name_stmt addr) ss).
Proof.
  assert (Q : no_quote (s2b "\")) by (apply check_no_quote; reflexivity).
  assert (QF : quote_free ex_dict None) by (apply check_pos_lacks; vm_compute; reflexivity).
  destruct (@c19_partial_lemma ex_addr ex_dict None false ex_ideo (s2b "\") mode_normal wf_ex I wf_ex_data ex_addr_plain Q QF) as (txt & E & D).
  destruct (@c57_graph_lemma ex_dict None false ex_ideo (s2b "\") mode_normal wf_ex I wf_ex_data) as (ss & _ & E2 & _).
  exists ex_dict, ex_ideo, (s2b "\"), ex_addr, ss, txt.
  split; [exact wf_ex|]. split; [exact wf_ex_data|]. split; [reflexivity|]. split; [exact ex_addr_plain|]. split; [exact Q|]. split; [exact QF|].
  split; [exact E2|]. split; [exact E|]. split; [exact D|].
  assert (N : match graph_text ex_addr ex_ideo (Tokenizer ex_dict None false) (s2b "\") mode_normal with Ok t => match read_drawing t with None => true | _ => false end | _ => false end = true)
    by (vm_compute; reflexivity).
  rewrite E in N. destruct (read_drawing txt); [discriminate N|]. discriminate.
Qed.
