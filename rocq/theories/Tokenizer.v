(** Model of tokenizer/tokenizer.go and tokenizer_option.go. *)
From Verif Require Export Token.
Open Scope Z_scope.

(** tokenizer.go:45-49 *)
Record tokenizer := Tokenizer { tk_dict : dict; tk_udict : option udict; tk_omit : bool }.

(** tokenizer.go:33-39: the mode is an int. *)
Definition mode_normal : Z := 1.
Definition mode_search : Z := 2.
Definition mode_extended : Z := 3.

(** tokenizer.go:87-95 / 138-146 *)
Definition to_lmode (mode : Z) : lmode :=
  if mode =? mode_normal then LNormal
  else if mode =? mode_search then LSearch
  else if mode =? mode_extended then LExtended
  else LNormal.

(** tokenizer_option.go:10-36: options; None for a nil user dictionary. *)
Inductive option_fn :=
| OptNop
| OptUserDict (u : option udict)
| OptOmitBosEos.

Inductive new_error := EmptyDictionary | EmptyUserDictionary.

(** tokenizer_option.go:13-36: applying one option. *)
Definition apply_option (o : option_fn) (t : tokenizer) : tokenizer + new_error :=
  match o with
  | OptNop => inl t
  | OptUserDict None => inr EmptyUserDictionary
  | OptUserDict (Some u) => inl (Tokenizer (tk_dict t) (Some u) (tk_omit t))
  | OptOmitBosEos => inl (Tokenizer (tk_dict t) (tk_udict t) true)
  end.

(** tokenizer.go:57-61 *)
Fixpoint apply_options (opts : list option_fn) (t : tokenizer) : tokenizer + new_error :=
  match opts with
  | [] => inl t
  | o :: opts' =>
    match apply_option o t with
    | inl t' => apply_options opts' t'
    | inr e => inr e
    end
  end.

(** tokenizer.go:52-63 New; None is a nil dictionary. *)
Definition new_tokenizer (d : option dict) (opts : list option_fn) : tokenizer + new_error :=
  match d with
  | None => inr EmptyDictionary
  | Some d => apply_options opts (Tokenizer d None false)
  end.

(** tokenizer.go:105-122: the token for one node; [i] is the loop index, [idx] is len(tokens). *)
Definition make_token (t : tokenizer) (i idx : nat) (n : node) : token :=
  Token idx (n_id n) (n_class n) (n_position n) (n_start n)
    (n_start n + rune_count (n_surface n))%nat
    (if n_id n =? bos_eos_id then (if (i =? 0)%nat then s2b "BOS" else s2b "EOS") else n_surface n)
    (tk_dict t) (tk_udict t).

(** tokenizer.go:100-124: the loop over la.Output from its end. *)
Definition analyze_tokens (t : tokenizer) (out : list node) : res (list token) :=
  let size := length out in
  foldM (fun tokens i =>
           let* n := index out (size - 1 - i) in
           if tk_omit t && (n_id n =? bos_eos_id) then Ok tokens
           else Ok (tokens ++ [make_token t i (length tokens) n]))
        (seq 0 size) [].

(** The analysis shared by Analyze and AnalyzeGraph (tokenizer.go:84-97, 135-148): the lattice
    and la.Output. *)
Definition run_lattice (ideo : ideographic) (t : tokenizer) (input : bytes) (mode : Z)
    : res (table * list node) :=
  let m := to_lmode mode in
  let* la := build (tk_dict t) (tk_udict t) input in
  let* la := forward (tk_dict t) ideo m la in
  let* out := backward m la in
  Ok (la, out).

(** tokenizer.go:83-126 Analyze *)
Definition analyze (ideo : ideographic) (t : tokenizer) (input : bytes) (mode : Z) : res (list token) :=
  let* lo := run_lattice ideo t input mode in
  analyze_tokens t (snd lo).

(** tokenizer.go:66-68 Tokenize *)
Definition tokenize (ideo : ideographic) (t : tokenizer) (input : bytes) : res (list token) :=
  analyze ideo t input mode_normal.

(** tokenizer.go:71-80 Wakati *)
Definition wakati (ideo : ideographic) (t : tokenizer) (input : bytes) : res (list bytes) :=
  let* ts := analyze ideo t input mode_normal in
  Ok (map t_surface (filter (fun v => negb (class_eqb (t_class v) DUMMY) &&
                                      negb (length (t_surface v) =? 0)%nat) ts)).

(** tokenizer.go:153-170: AnalyzeGraph leaves Index and Position at zero. *)
Definition make_graph_token (t : tokenizer) (i : nat) (n : node) : token :=
  Token 0 (n_id n) (n_class n) 0 (n_start n)
    (n_start n + rune_count (n_surface n))%nat
    (if n_id n =? bos_eos_id then (if (i =? 0)%nat then s2b "BOS" else s2b "EOS") else n_surface n)
    (tk_dict t) (tk_udict t).

(** tokenizer.go:134-173 AnalyzeGraph (the tokens; the graph text is in Dot.v) *)
Definition analyze_graph (ideo : ideographic) (t : tokenizer) (input : bytes) (mode : Z)
    : res (list token) :=
  let* lo := run_lattice ideo t input mode in
  let out := snd lo in
  let size := length out in
  foldM (fun tokens i =>
           let* n := index out (size - 1 - i) in
           Ok (tokens ++ [make_graph_token t i n]))
        (seq 0 size) [].
