(** Specification: reading a graphviz document back as a drawing (C69).  The reader works on the
    tokens of SpecDot.v; it knows nothing of how Dot writes. *)
From Verif Require Export SpecDot SpecText.
Open Scope Z_scope.

(** ** Items *)
Definition attr_list : Type := list (bytes * bytes).
Definition tok_text (t : gtok) : option bytes := match t with TStr s | TId s => Some s | _ => None end.

(** a_list ']' : the attributes and the tokens after it. *)
Fixpoint read_attrs (ts : list gtok) : option (attr_list * list gtok) :=
  match ts with
  | TPunct x5d :: r => Some ([], r)
  | k :: TPunct x3d :: v :: r =>
    let? kt := tok_text k in
    let? vt := tok_text v in
    let? (l, r') := match r with
                    | TPunct x2c :: r' => read_attrs r'
                    | TPunct x3b :: r' => read_attrs r'
                    | _ => read_attrs r
                    end in
    Some ((kt, vt) :: l, r')
  | _ => None
  end.
Definition read_opt_attrs (ts : list gtok) : option (attr_list * list gtok) :=
  match ts with TPunct x5b :: r => read_attrs r | _ => Some ([], ts) end.

(** A statement of the body: a default for nodes or for edges, a node, an edge, or something
    else (attributes of the graph). *)
Inductive item :=
| INodes (l : attr_list) | IEdges (l : attr_list)
| INode (id : bytes) (l : attr_list) | IEdge (a b : bytes) (l : attr_list) | IOther.

Definition is_kw (k : string) (t : gtok) : bool := match t with TId s => bytes_eqb s (s2b k) | _ => false end.

Definition read_item (ts : list gtok) : option (item * list gtok) :=
  match ts with
  | k :: TPunct x3d :: v :: r => let? _ := tok_text k in let? _ := tok_text v in Some (IOther, r)
  | a :: TEdge :: b :: r =>
    let? x := tok_text a in
    let? y := tok_text b in
    let? (l, r') := read_opt_attrs r in
    Some (IEdge x y l, r')
  | k :: r =>
    let? x := tok_text k in
    let? (l, r') := read_opt_attrs r in
    Some (if is_kw "graph" k then IOther else if is_kw "node" k then INodes l else if is_kw "edge" k then IEdges l else INode x l, r')
  | [] => None
  end.

(** The statements up to the closing brace, which ends the document.  The fuel is the number of tokens. *)
Fixpoint read_items (fuel : nat) (ts : list gtok) : option (list item) :=
  match fuel with
  | O => None
  | S f =>
    match ts with
    | [TPunct x7d] => Some []
    | TPunct x3b :: r => read_items f r
    | _ =>
      let? (i, r) := read_item ts in
      let? l := read_items f r in
      Some (i :: l)
    end
  end.
Definition read_body (ts : list gtok) : option (list item) :=
  match ts with
  | g :: name :: TPunct x7b :: r => if is_kw "graph" g then let? _ := tok_text name in read_items (length r) r else None
  | _ => None
  end.

(** ** Labels *)
(** The lines of a label: \n, \l and \r end a line, \\ is a backslash.  None if it has an escape
    that stands for something else (\N, \G, ...) or an ampersand (a character reference). *)
Fixpoint label_lines (s : bytes) (acc : bytes) : option (list bytes) :=
  match s with
  | [] => Some [acc]
  | b :: s' =>
    if Byte.eqb b x5c then
      match s' with
      | c :: r =>
        if existsb (Byte.eqb c) (s2b "nlr") then let? l := label_lines r [] in Some (acc :: l)
        else if Byte.eqb c x5c then label_lines r (acc ++ [x5c])
        else None
      | [] => None
      end
    else if Byte.eqb b x26 then None
    else label_lines s' (acc ++ [b])
  end.

Definition number (s : bytes) : option Z :=
  match read_integer s with Some (z, []) => Some z | _ => None end.

(** ** The drawing *)
Fixpoint attr (k : bytes) (l : attr_list) : bytes :=
  match l with
  | [] => []
  | (k', v) :: l' => if bytes_eqb k k' then v else attr k l'
  end.

(** What is seen of a node and of an edge: label, and whether the node has a double border and
    the edge is bold.  An attribute of the statement comes before the defaults. *)
Definition see_item (nd ed : attr_list) (i : item) : option (list (gstmt bytes)) :=
  match i with
  | INode id l =>
    let l := l ++ nd in
    match label_lines (attr (s2b "label") l) [] with
    | Some [surf; pos; w] => let? z := number w in Some [SNode id surf pos z (bytes_eqb (attr (s2b "peripheries") l) (s2b "2"))]
    | _ => None
    end
  | IEdge a b l =>
    let l := l ++ ed in
    match label_lines (attr (s2b "label") l) [] with
    | Some [c] => let? z := number c in Some [SEdge a b z (bytes_eqb (attr (s2b "style") l) (s2b "bold"))]
    | _ => None
    end
  | _ => Some []
  end.
Fixpoint see_items (nd ed : attr_list) (l : list item) : option (list (gstmt bytes)) :=
  match l with
  | [] => Some []
  | INodes a :: l' => see_items (a ++ nd) ed l'
  | IEdges a :: l' => see_items nd (a ++ ed) l'
  | i :: l' =>
    let? x := see_item nd ed i in
    let? r := see_items nd ed l' in
    Some (x ++ r)
  end.

(** The nodes and edges that a reader of the document sees, in order. *)
Definition read_drawing (txt : bytes) : option (list (gstmt bytes)) :=
  let? ts := lex txt in
  let? l := read_body ts in
  see_items [] [] l.

(** A drawing with its pointers replaced by names. *)
Definition name_stmt {P Q} (f : P -> Q) (s : gstmt P) : gstmt Q :=
  match s with
  | SNode c a b w best => SNode (f c) a b w best
  | SEdge a b k best => SEdge (f a) (f b) k best
  end.

(** No quotation mark, backslash or ampersand in the input and in the parts of speech. *)
Definition literal_input (d : dict) (u : option udict) (inp : bytes) : Prop :=
  forall b, In b [x22; x5c; x26] -> lacks b inp /\ pos_lacks b d u.
