(** The program of Lattice.v and of Analyze (tokenizer/lattice/lattice.go, tokenizer/tokenizer.go)
    with its steps counted.  A step is one turn of a loop written in kagome's own code, one node
    taken from the pool or given back, one rune looked at by utf8.RuneCountInString or by a range
    over a string, or one element of la.list made or reset.  Each function here is the function of
    the same name in Lattice.v or Tokenizer.v with counts; WorkFacts.v proves that the results are
    the same.  Not counted: the time inside the library functions CommonPrefixSearchCallback (the
    words it reports are counted), CharacterCategory and Connection.At, map lookups, and copying
    when append grows a slice (amortised constant). *)
From Verif Require Export Tokenizer.
Open Scope nat_scope.

Definition timed (A : Type) : Type := (nat * res A)%type.
Definition steps {A} (t : timed A) : nat := fst t.
Definition result {A} (t : timed A) : res A := snd t.
Definition free_of_charge {A} (r : res A) : timed A := (0, r).
Definition charge {A} (k : nat) (t : timed A) : timed A := (k + steps t, result t).
Definition tbind {A B} (t : timed A) (f : A -> timed B) : timed B :=
  match result t with
  | Ok a => charge (steps t) (f a)
  | Panic => (steps t, Panic)
  | Diverge => (steps t, Diverge)
  end.
Notation "'let+' x := t 'in' f" := (tbind t (fun x => f)) (at level 200, x pattern, t at level 100, f at level 200).

Fixpoint tfold {A B} (f : A -> B -> timed A) (l : list B) (a : A) : timed A :=
  match l with
  | [] => (0, Ok a)
  | b :: l' => let+ a' := f a b in tfold f l' a'
  end.

(** lattice.go:75-98 addNode: the node and the runes of its surface. *)
Definition t_add_node (d : dict) (la : table) (pos : nat) (id : Z) (position start : nat)
    (class : node_class) (surface : bytes) : timed table :=
  (1 + rune_count surface, add_node d la pos id position start class surface).

(** lattice.go:120-126, 131-136 *)
Definition t_add_matches (d : dict) (inp : bytes) (runePos pos : nat) (class : node_class)
    (ms : list (Z * nat)) (la : table) : timed table :=
  tfold (fun la m => let '(id, l) := m in
           let+ surface := free_of_charge (slice inp pos (pos + l)) in
           t_add_node d la runePos id pos runePos class surface) ms la.

(** lattice.go:148-159 *)
Fixpoint t_group_loop (fuel : nat) (d : dict) (inp : bytes) (class : nat) (i end_pos : nat)
    (unk_len : N) : timed nat :=
  match fuel with
  | O => (0, Diverge)
  | S f =>
    if i <? length inp then
      charge 1
        (let+ rest := free_of_charge (slice inp i (length inp)) in
         let '(c, w) := decode_rune rest in
         if negb (d_category d c =? class) then (0, Ok end_pos)
         else
           let end_pos := end_pos + w in
           let unk_len := N.succ unk_len in
           if (max_unk_len <=? unk_len)%N then (0, Ok end_pos)
           else t_group_loop f d inp class (i + w) end_pos unk_len)
    else (0, Ok end_pos)
  end.

(** lattice.go:168-174 *)
Definition t_add_unknowns (d : dict) (inp : bytes) (runePos pos prev end_pos : nat) (id dup : Z)
    (la : table) : timed table :=
  tfold (fun la x =>
           charge 1
           (let+ la := if pos <? prev then
                         let+ s := free_of_charge (slice inp pos prev) in
                         t_add_node d la runePos (id + Z.of_nat x)%Z pos runePos UNKNOWN s
                       else (0, Ok la) in
            let+ s := free_of_charge (slice inp pos end_pos) in
            t_add_node d la runePos (id + Z.of_nat x)%Z pos runePos UNKNOWN s))
        (seq 0 (Z.to_nat (dup + 1))) la.

(** lattice.go:140-160 *)
Definition t_unknown_end (d : dict) (inp : bytes) (pos : nat) (ch : N) (class : nat) : timed nat :=
  let end_pos := if negb (ch =? rune_error)%N then pos + rune_len ch else pos + 1 in
  let+ group := free_of_charge (index (d_group d) class) in
  if group then t_group_loop (S (length inp)) d inp class end_pos end_pos 1%N else (0, Ok end_pos).

(** lattice.go:137-175 *)
Definition t_build_unknown (d : dict) (inp : bytes) (runePos pos : nat) (ch : N)
    (any_matches : bool) (la : table) : timed table :=
  let class := d_category d ch in
  let+ go := free_of_charge (if negb any_matches then Ok true else index (d_invoke d) class) in
  if go then
    let+ end_pos := t_unknown_end d inp pos ch class in
    let+ prev := (1, unknown_prev inp pos end_pos) in
    let id := map_get (d_unk_index d) (Z.of_nat class) in
    let dup := map_get (d_unk_dup d) (Z.of_nat class) in
    t_add_unknowns d inp runePos pos prev end_pos id dup la
  else (0, Ok la).

(** lattice.go:114-176 *)
Definition t_build_step (d : dict) (u : option udict) (inp : bytes) (la : table)
    (runePos pos : nat) (ch : N) : timed table :=
  let+ rest := free_of_charge (slice inp pos (length inp)) in
  let user := match u with
              | Some ud => common_prefix_search (u_index ud) rest
              | None => []
              end in
  let+ la := t_add_matches d inp runePos pos USER user la in
  if negb (length user =? 0) then (0, Ok la)
  else
    let known := common_prefix_search (d_index d) rest in
    let+ la := t_add_matches d inp runePos pos KNOWN known la in
    t_build_unknown d inp runePos pos ch (negb (length known =? 0)) la.

(** lattice.go:113-177; one step for each rune of the input. *)
Fixpoint t_build_loop (d : dict) (u : option udict) (inp : bytes) (runePos : nat)
    (l : list (nat * N)) (la : table) : timed table :=
  match l with
  | [] => (0, Ok la)
  | (pos, ch) :: l' =>
    charge 1 (let+ la := t_build_step d u inp la runePos pos ch in
              t_build_loop d u inp (S runePos) l' la)
  end.

(** lattice.go:102-177: the runes of the input are counted, la.list is made. *)
Definition t_build (d : dict) (u : option udict) (inp : bytes) : timed table :=
  let rc := rune_count inp in
  charge (rc + (rc + 2))
    (let la := repeat [] (rc + 2) in
     let+ s0 := free_of_charge (slice inp 0 0) in
     let+ la := t_add_node d la 0 bos_eos_id 0 0 DUMMY s0 in
     let+ s1 := free_of_charge (slice inp rc rc) in
     let+ la := t_add_node d la (rc + 1) bos_eos_id (length inp) rc DUMMY s1 in
     t_build_loop d u inp 0 (range_string inp) la).

(** lattice.go:223-233: outside the normal mode additionalCost counts the runes of the surface and
    kanjiOnly ranges over it. *)
Definition t_total_cost (d : dict) (ideo : ideographic) (m : lmode) (n target : node) : timed Z :=
  (match m with LNormal => 0 | _ => rune_count (n_surface n) + rune_count (n_surface n) end,
   total_cost d ideo m n target).

(** lattice.go:222-238 *)
Fixpoint t_relax_loop (d : dict) (ideo : ideographic) (m : lmode) (i idx start j k : nat) (la : table)
    : timed table :=
  match k with
  | O => (0, Ok la)
  | S k' =>
    charge 1
      (let+ n := free_of_charge (get2 la start j) in
       let+ target := free_of_charge (get2 la i idx) in
       let+ total := t_total_cost d ideo m n target in
       let+ la := free_of_charge
          (if (j =? 0) || (wrap32 total <? n_cost target)%Z
           then upd2 la i idx (set_cost_prev (wrap32 total) (Some (start, j)))
           else Ok la) in
       t_relax_loop d ideo m i idx start (S j) k' la)
  end.

(** lattice.go:216-239 *)
Definition t_forward_target (d : dict) (ideo : ideographic) (m : lmode) (i : nat) (la : table)
    (idx : nat) : timed table :=
  charge 1
    (let+ target := free_of_charge (get2 la i idx) in
     let+ prev_list := free_of_charge (index la (n_start target)) in
     if length prev_list =? 0 then free_of_charge (upd2 la i idx (set_cost maximum_cost))
     else t_relax_loop d ideo m i idx (n_start target) 0 (length prev_list) la).
Definition t_forward_pos (d : dict) (ideo : ideographic) (m : lmode) (la : table) (i : nat) : timed table :=
  charge 1
    (let+ current := free_of_charge (index la i) in
     tfold (t_forward_target d ideo m i) (seq 0 (length current)) la).
Definition t_forward (d : dict) (ideo : ideographic) (m : lmode) (la : table) : timed table :=
  tfold (t_forward_pos d ideo m) (seq 1 (length la - 1)) la.

(** lattice.go:254-269: an unknown word in extended mode has its runes counted, then a node made
    and one appended for each. *)
Definition t_output_of (m : lmode) (p : node) : timed (list node) :=
  (1 + match m, n_class p with
       | LExtended, UNKNOWN => rune_count (n_surface p) + rune_count (n_surface p) + rune_count (n_surface p)
       | _, _ => 0
       end,
   output_of m p).

(** lattice.go:249-270 *)
Fixpoint t_walk (fuel : nat) (m : lmode) (la : table) (p : node) (out : list node) : timed (list node) :=
  match fuel with
  | O => (0, Diverge)
  | S f =>
    let+ o := t_output_of m p in
    match n_prev p with
    | None => (0, Ok (out ++ o))
    | Some (i, j) => let+ q := free_of_charge (get2 la i j) in t_walk f m la q (out ++ o)
    end
  end.
Definition t_backward (m : lmode) (la : table) : timed (list node) :=
  match length la with
  | O => (0, Ok [])
  | S k => let+ p := free_of_charge (get2 la k 0) in t_walk (S (length la)) m la p []
  end.

(** tokenizer.go:100-124: one step for each node of la.Output and for each rune of its surface. *)
Definition t_analyze_tokens (t : tokenizer) (out : list node) : timed (list token) :=
  let size := length out in
  tfold (fun tokens i =>
           let+ n := free_of_charge (index out (size - 1 - i)) in
           charge (1 + rune_count (n_surface n))
             (free_of_charge
               (if tk_omit t && (n_id n =? bos_eos_id)%Z then Ok tokens
                else Ok (tokens ++ [make_token t i (length tokens) n]))))
        (seq 0 size) [].

(** lattice.go:57-73 Free: every node goes back to the pool, every list and every element of
    la.Output is reset. *)
Definition free_steps (la : table) (out : list node) : nat := length la + length (concat la) + length out.

(** tokenizer.go:83-126 Analyze, with the deferred Free. *)
Definition t_analyze (ideo : ideographic) (t : tokenizer) (input : bytes) (mode : Z) : timed (list token) :=
  let m := to_lmode mode in
  let+ la := t_build (tk_dict t) (tk_udict t) input in
  let+ la := t_forward (tk_dict t) ideo m la in
  let+ out := t_backward m la in
  charge (free_steps la out) (t_analyze_tokens t out).
