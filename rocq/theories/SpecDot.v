(** Specification of the lattice graph: the words drawn and joined, and the syntax of graphviz
    documents. *)
From Verif Require Export SpecFeat Dot.
Open Scope Z_scope.

(** ** The drawing *)
(** What a node of the drawing stands for. *)
Inductive gnode := GBos | GEos | GWord (w : word).

Definition g_class (g : gnode) : node_class := match g with GWord w => w_class w | _ => DUMMY end.
Definition g_id (g : gnode) : Z := match g with GWord w => w_id w | _ => -1 end.
Definition g_entry (d : dict) (g : gnode) : morph := match g with GWord w => entry d (w_class w) (w_id w) | _ => zero_morph end.

(** The rune positions where it begins and ends; EOS ends and BOS begins nowhere. *)
Definition g_stop (g : gnode) : option nat := match g with GBos => Some 0%nat | GWord w => Some (w_stop w) | GEos => None end.
Definition g_start (inp : bytes) (g : gnode) : option nat :=
  match g with GBos => None | GWord w => Some (w_start w) | GEos => Some (rcount inp) end.

(** b begins where a ends. *)
Definition adjacent (inp : bytes) (a b : gnode) : Prop := exists k, g_stop a = Some k /\ g_start inp b = Some k.

(** First line of the label (a literal U+FFFD of an ungrouped category is cut to one byte). *)
Definition g_surf (d : dict) (inp : bytes) (g : gnode) (s : bytes) : Prop :=
  match g with
  | GBos => s = s2b "BOS"
  | GEos => s = s2b "EOS"
  | GWord w => s = word_text inp w \/ odd_fffd d inp w /\ s = firstn 1 (word_text inp w)
  end.

(** Second line of the label: the part of speech without its "*" levels, "---" if nothing is left. *)
Definition pos_label (ps : strings) : bytes :=
  match filter (fun v => negb (bytes_eqb v (s2b "*"))) (strings_list ps) with
  | [] => s2b "---"
  | l => join (s2b "/") l
  end.
(** A user word shows its part of speech as it is. *)
Definition g_pos (d : dict) (u : option udict) (g : gnode) : bytes :=
  match g_class g with
  | USER => join (s2b "/") (strings_list (spec_pos d u USER (g_id g)))
  | c => pos_label (spec_pos d u c (g_id g))
  end.

(** Declared in the statements. *)
Definition declared (ss : list stmt) (c : coord) : Prop := exists s p w b, In (SNode c s p w b) ss.
Definition declared_list (ss : list stmt) : list coord :=
  flat_map (fun s => match s with SNode c _ _ _ _ => [c] | _ => [] end) ss.
Definition edge_pairs (ss : list stmt) : list (coord * coord) :=
  flat_map (fun s => match s with SEdge f t _ _ => [(f, t)] | _ => [] end) ss.

(** Consecutive elements of a list. *)
Definition consecutive {A : Type} (l : list A) (a b : A) : Prop := exists l1 l2, l = l1 ++ a :: b :: l2.

(** ** Graphviz syntax *)
(** Tokens: a quoted string, an identifier or number, or punctuation.  Comments, HTML strings
    and string concatenation with + are left out (accepting them too would not save the
    refuted documents: in them a character outside every string is no token at all). *)
Inductive gtok := TStr (s : bytes) | TId (s : bytes) | TPunct (b : byte) | TEdge.

Definition is_space (b : byte) : bool := existsb (Byte.eqb b) [x20; x09; x0a; x0d].
Definition is_punct (b : byte) : bool := existsb (Byte.eqb b) (s2b "{}[];,=:").
(** Letters, digits, underscore, dot, and bytes from 0x80 on. *)
Definition is_id_byte (b : byte) : bool :=
  let n := b2n b in
  ((48 <=? n) && (n <=? 57) || (65 <=? n) && (n <=? 90) || (97 <=? n) && (n <=? 122) || (n =? 95) || (n =? 46) || (128 <=? n))%N.

(** The lexer's state: between tokens, after "-", in an identifier, in a string, in a string
    after a backslash. *)
Inductive lstate := LOut | LMinus | LId (acc : bytes) | LStr (acc : bytes) | LEsc (acc : bytes).

(** One byte read between tokens. *)
Definition lex_out (b : byte) : option (list gtok * lstate) :=
  if is_space b then Some ([], LOut)
  else if Byte.eqb b x22 then Some ([], LStr [])
  else if is_punct b then Some ([TPunct b], LOut)
  else if Byte.eqb b x2d then Some ([], LMinus)
  else if is_id_byte b then Some ([], LId [b])
  else None.

Definition lex_step (st : lstate) (b : byte) : option (list gtok * lstate) :=
  match st with
  | LOut => lex_out b
  | LMinus => if Byte.eqb b x2d then Some ([TEdge], LOut)
              else if is_id_byte b then Some ([], LId [x2d; b]) else None
  | LId acc => if is_id_byte b then Some ([], LId (acc ++ [b]))
               else match lex_out b with Some (ts, st') => Some (TId acc :: ts, st') | None => None end
  | LStr acc => if Byte.eqb b x22 then Some ([TStr acc], LOut)
                else if Byte.eqb b x5c then Some ([], LEsc acc)
                else Some ([], LStr (acc ++ [b]))
  | LEsc acc => Some ([], LStr (acc ++ [x5c; b]))
  end.

Fixpoint lex_run (st : lstate) (s : bytes) : option (list gtok * lstate) :=
  match s with
  | [] => Some ([], st)
  | b :: s' =>
    match lex_step st b with
    | None => None
    | Some (ts, st') =>
      match lex_run st' s' with
      | None => None
      | Some (us, st'') => Some (ts ++ us, st'')
      end
    end
  end.

(** The tokens of a text; None if it is not a sequence of tokens (or a string is left open). *)
Definition lex (s : bytes) : option (list gtok) :=
  match lex_run LOut s with
  | Some (ts, LOut) => Some ts
  | Some (ts, LId acc) => Some (ts ++ [TId acc])
  | _ => None
  end.

Definition kw (s : string) : gtok := TId (s2b s).
Definition pn (b : byte) : gtok := TPunct b.
Definition ident (t : gtok) : Prop :=
  match t with
  | TStr _ => True
  | TId s => ~ In s [s2b "graph"; s2b "node"; s2b "edge"; s2b "digraph"; s2b "subgraph"; s2b "strict"]
  | _ => False
  end.

(** a_list : ID '=' ID [ (';' | ',') ] [ a_list ] *)
Inductive a_list : list gtok -> Prop :=
| al_nil : a_list []
| al_cons k v l : ident k -> ident v -> a_list l -> a_list (k :: pn x3d :: v :: l)
| al_sep k v s l : ident k -> ident v -> s = pn x2c \/ s = pn x3b -> a_list l -> a_list (k :: pn x3d :: v :: s :: l).
(** attr_list : '[' [ a_list ] ']' (at most one) *)
Inductive attrs : list gtok -> Prop :=
| at_none : attrs []
| at_some l : a_list l -> attrs (pn x5b :: l ++ [pn x5d]).
(** stmt : ID '=' ID | (graph | node | edge) attr_list | node_stmt | edge_stmt *)
Inductive g_stmt : list gtok -> Prop :=
| gs_set k v : ident k -> ident v -> g_stmt [k; pn x3d; v]
| gs_attr k l : In k [kw "graph"; kw "node"; kw "edge"] -> attrs l -> l <> [] -> g_stmt (k :: l)
| gs_node k l : ident k -> attrs l -> g_stmt (k :: l)
| gs_edge k k' l : ident k -> ident k' -> attrs l -> g_stmt (k :: TEdge :: k' :: l).
(** stmt_list : [ stmt [ ';' ] stmt_list ] *)
Inductive g_stmts : list gtok -> Prop :=
| gl_nil : g_stmts []
| gl_cons s l : g_stmt s -> g_stmts l -> g_stmts (s ++ l)
| gl_semi s l : g_stmt s -> g_stmts l -> g_stmts (s ++ pn x3b :: l).
(** graph : graph ID '{' stmt_list '}' *)
Definition dot_document (s : bytes) : Prop :=
  exists ts name body, lex s = Some ts /\ ts = kw "graph" :: name :: pn x7b :: body ++ [pn x7d] /\
    ident name /\ g_stmts body.

(** A byte does not occur; no quotation mark; neither a quotation mark nor a backslash. *)
Definition lacks (b : byte) (s : bytes) : Prop := ~ In b s.
Definition no_quote (s : bytes) : Prop := lacks x22 s.
Definition plain (s : bytes) : Prop := ~ In x22 s /\ ~ In x5c s.

(** A byte does not occur in the parts of speech of the dictionaries. *)
Definition pos_lacks (b : byte) (d : dict) (u : option udict) : Prop :=
  (forall s, In s (d_pos_names d) -> lacks b s) /\
  (forall fs s, In fs (d_unk_contents d) -> In s fs -> lacks b s) /\
  match u with Some ud => forall e, In e (u_contents ud) -> lacks b (uc_pos e) | None => True end.
(** No quotation mark in the parts of speech of the dictionaries. *)
Definition quote_free (d : dict) (u : option udict) : Prop := pos_lacks x22 d u.
