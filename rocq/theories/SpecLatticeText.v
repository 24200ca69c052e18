(** What the text of a lattice should show. *)
From Verif Require Export SpecCost SpecTie Dot.
Open Scope Z_scope.

(** A line for a candidate word of the text, with a cost and the address of a preceding word. *)
Definition word_line (d : dict) (inp : bytes) (w : word) (cost : Z) (prev : bytes) : bytes :=
  let e := entry d (w_class w) (w_id w) in
  s2b "&{" ++ itoa (w_id w) ++ s2b " " ++ itoa (Z.of_nat (offset inp (w_start w))) ++ s2b " " ++ itoa (Z.of_nat (w_start w)) ++ s2b " " ++
  match w_class w with DUMMY => s2b "DUMMY" | KNOWN => s2b "KNOWN" | UNKNOWN => s2b "UNKNOWN" | USER => s2b "USER" end ++ s2b " " ++ itoa cost ++ s2b " " ++
  itoa (m_left e) ++ s2b " " ++ itoa (m_right e) ++ s2b " " ++ itoa (m_weight e) ++ s2b " " ++ word_text inp w ++ s2b " " ++ prev ++ s2b "}" ++ [x0a].
(** A line for BOS or EOS. *)
Definition end_line (position start : nat) (cost : Z) (prev : bytes) : bytes :=
  s2b "&{-1 " ++ itoa (Z.of_nat position) ++ s2b " " ++ itoa (Z.of_nat start) ++ s2b " DUMMY " ++ itoa cost ++ s2b " 0 0 0  " ++ prev ++ s2b "}" ++ [x0a].
(** The paragraph of a position. *)
Definition paragraph (p : nat) (lines : list bytes) : bytes := s2b "[" ++ itoa (Z.of_nat p) ++ s2b "] :" ++ [x0a] ++ concat lines ++ [x0a].

(** A word as the text shows it: with cost and address of the preceding word. *)
Definition shown : Type := word * Z * bytes.
Definition shown_line (d : dict) (inp : bytes) (s : shown) : bytes := word_line d inp (fst (fst s)) (snd (fst s)) (snd s).
(** The text: a paragraph for BOS, one for each position where a word may end, one for EOS.  Each shows
    the candidates that end there.  If the dictionaries list nothing twice, each candidate has one line, and
    the lines are in the order of preference of SpecTie. *)
Definition shows (d : dict) (u : option udict) (inp : bytes) (cells : nat -> list shown) (eos : Z * bytes) (text : bytes) : Prop :=
  text = paragraph 0 [end_line 0 0 0 (s2b "<nil>")] ++
         concat (map (fun p => paragraph p (map (shown_line d inp) (cells p))) (seq 1 (rcount inp))) ++
         paragraph (S (rcount inp)) [end_line (length inp) (rcount inp) (fst eos) (snd eos)] /\
  forall p, (0 < p <= rcount inp)%nat ->
    (forall w, In w (map (fun s => fst (fst s)) (cells p)) <-> candidate d u inp w /\ w_stop w = p) /\
    (NoDup (d_index d) -> (forall ud, u = Some ud -> NoDup (u_index ud)) -> ForallOrdPairs (preferred d u inp) (map (fun s => fst (fst s)) (cells p))).

(** prev is the address of the node before position s on some way ws with a given property: that of BOS or that
    of the line of the last word of ws.  addr tells the address of a node from its paragraph and its line in it. *)
Definition leads (addr : nat * nat -> bytes) (d : dict) (u : option udict) (inp : bytes) (cells : nat -> list shown)
    (s : nat) (prev : bytes) (good : list word -> Prop) : Prop :=
  exists ws j, chain d u inp 0 ws s /\ good ws /\ prev = addr (s, j) /\
    match rev ws with [] => j = 0%nat | v :: _ => exists c a, nth_error (cells s) j = Some (v, c, a) end.
