(** Specification of tokenization, independent of the algorithm: the runes of the input, the
    candidate words at each position, segmentations and their costs over unbounded integers.
    Nothing here uses the model's lattice functions; [segs] (the runes of a Go string with their
    bytes) and the dictionary data are the only imports. *)
From Verif Require Export Lattice.
Open Scope Z_scope.

(** Number of runes of the input. *)
Definition rcount (inp : bytes) : nat := length (segs inp).

(** The bytes of runes i..j-1. *)
Definition text (inp : bytes) (i j : nat) : bytes :=
  concat (map snd (firstn (j - i) (skipn i (segs inp)))).

(** Byte offset of rune i. *)
Definition offset (inp : bytes) (i : nat) : nat := length (text inp 0 i).

(** Rune i (0 beyond the end). *)
Definition rune_at (inp : bytes) (i : nat) : N := fst (nth i (segs inp) (0%N, [])).

(** Rune i is a literal U+FFFD (three bytes), not an invalid byte. *)
Definition literal_fffd (inp : bytes) (i : nat) : Prop :=
  nth_error (segs inp) i = Some (rune_error, [xef; xbf; xbd]).

(** A keyword of the index with this id is the text of runes i..j-1. *)
Definition keyword_at (idx : index_table) (inp : bytes) (id : Z) (i j : nat) : Prop :=
  (i < j <= rcount inp)%nat /\ In (text inp i j, id) idx.

Definition no_keyword (idx : index_table) (inp : bytes) (i : nat) : Prop :=
  forall id j, ~ keyword_at idx inp id i j.

Definition no_user_keyword (u : option udict) (inp : bytes) (i : nat) : Prop :=
  match u with
  | None => True
  | Some ud => no_keyword (u_index ud) inp i
  end.

(** Category of rune i, and whether that category invokes/groups unknown words. *)
Definition cat (d : dict) (inp : bytes) (i : nat) : nat := d_category d (rune_at inp i).
Definition invokes (d : dict) (c : nat) : bool := nth c (d_invoke d) false.
Definition groups (d : dict) (c : nat) : bool := nth c (d_group d) false.

(** Longest unknown word in runes: 1024, two less if it begins with a literal U+FFFD (whose two
    continuation bytes are counted as well). *)
Definition run_limit (inp : bytes) (i : nat) (l : N) : Prop :=
  (literal_fffd inp i /\ l = 1022%N) \/ (~ literal_fffd inp i /\ l = 1024%N).

(** The unknown word at i extends to e: one rune, or the longest run of runes of one category. *)
Definition unknown_stop (d : dict) (inp : bytes) (i e : nat) : Prop :=
  (i < e <= rcount inp)%nat /\
  if groups d (cat d inp i) then
    (forall k, (i <= k < e)%nat -> cat d inp k = cat d inp i) /\
    exists l, run_limit inp i l /\ (N.of_nat (e - i) <= l)%N /\
      (e = rcount inp \/ N.of_nat (e - i) = l \/ cat d inp e <> cat d inp i)
  else e = S i.

(** A word: runes w_start..w_stop-1 of the input taken as an entry of a dictionary. *)
Record word := Word { w_class : node_class; w_id : Z; w_start : nat; w_stop : nat }.

(** The candidate words of an input. *)
Inductive candidate (d : dict) (u : option udict) (inp : bytes) : word -> Prop :=
| cand_user ud id i j :
    u = Some ud -> keyword_at (u_index ud) inp id i j ->
    candidate d u inp (Word USER id i j)
| cand_known id i j :
    no_user_keyword u inp i -> keyword_at (d_index d) inp id i j ->
    candidate d u inp (Word KNOWN id i j)
| cand_unknown id i j e :
    no_user_keyword u inp i ->
    (no_keyword (d_index d) inp i \/ invokes d (cat d inp i) = true) ->
    unknown_stop d inp i e ->
    (j = e \/ (S j = e /\ (i < j)%nat /\ rune_at inp j <> rune_error)) ->
    (map_get (d_unk_index d) (Z.of_nat (cat d inp i)) <= id
       <= map_get (d_unk_index d) (Z.of_nat (cat d inp i)) + map_get (d_unk_dup d) (Z.of_nat (cat d inp i))) ->
    candidate d u inp (Word UNKNOWN id i j).

(** The text a word stands for in the output; the exception is the one-byte surface the code
    gives to a literal U+FFFD of a category that is not grouped. *)
Definition word_text (inp : bytes) (w : word) : bytes := text inp (w_start w) (w_stop w).
Definition odd_fffd (d : dict) (inp : bytes) (w : word) : Prop :=
  w_class w = UNKNOWN /\ literal_fffd inp (w_start w) /\ groups d (cat d inp (w_start w)) = false.

(** A segmentation of runes i..j-1 into candidate words. *)
Inductive chain (d : dict) (u : option udict) (inp : bytes) : nat -> list word -> nat -> Prop :=
| chain_nil i : chain d u inp i [] i
| chain_cons w ws j :
    candidate d u inp w -> chain d u inp (w_stop w) ws j ->
    chain d u inp (w_start w) (w :: ws) j.

Definition segmentation (d : dict) (u : option udict) (inp : bytes) (ws : list word) : Prop :=
  chain d u inp 0 ws (rcount inp).

(** ** Costs *)
(** Dictionary entry of a word: user words and the BOS/EOS markers have zero costs. *)
Definition entry (d : dict) (c : node_class) (id : Z) : morph :=
  match c with
  | KNOWN => nth (Z.to_nat id) (d_morphs d) zero_morph
  | UNKNOWN => nth (Z.to_nat id) (d_unk_morphs d) zero_morph
  | _ => zero_morph
  end.

(** Connection cost: rows by right id, columns by left id, none next to user words. *)
Definition connection (d : dict) (c1 : node_class) (e1 : morph) (c2 : node_class) (e2 : morph) : Z :=
  match c1, c2 with
  | USER, _ | _, USER => 0
  | _, _ => nth (Z.to_nat (d_conn_col d * m_right e1 + m_left e2)) (d_conn_vec d) 0
  end.

(** Penalty of a word in search mode: 3000 per rune beyond two if all its runes are ideographs,
    else 1700 per rune beyond seven. *)
Definition length_penalty (ideo : N -> bool) (inp : bytes) (w : word) : Z :=
  let l := Z.of_nat (w_stop w - w_start w) in
  let ideographs := forallb (fun g => ideo (fst g))
                      (firstn (w_stop w - w_start w) (skipn (w_start w) (segs inp))) in
  if (2 <? l) && ideographs then 3000 * (l - 2) else if 7 <? l then 1700 * (l - 7) else 0.

Definition penalty (m : lmode) (ideo : N -> bool) (inp : bytes) (w : word) : Z :=
  match m with LNormal => 0 | _ => length_penalty ideo inp w end.

(** Cost of the words ws after a word of class c with entry e, up to and including EOS. *)
Fixpoint cost_from (m : lmode) (ideo : N -> bool) (d : dict) (inp : bytes)
    (c : node_class) (e : morph) (ws : list word) : Z :=
  match ws with
  | [] => connection d c e DUMMY zero_morph
  | w :: ws' =>
    let e' := entry d (w_class w) (w_id w) in
    connection d c e (w_class w) e' + m_weight e' + penalty m ideo inp w +
    cost_from m ideo d inp (w_class w) e' ws'
  end.

(** Total cost of a segmentation, from BOS to EOS. *)
Definition seg_cost (m : lmode) (ideo : N -> bool) (d : dict) (inp : bytes) (ws : list word) : Z :=
  cost_from m ideo d inp DUMMY zero_morph ws.

(** ** Well-formed dictionaries *)
Definition int16 (x : Z) : Prop := -32768 <= x <= 32767.

Definition wf_index (idx : index_table) (size : nat) : Prop :=
  forall key id, In (key, id) idx ->
    key <> [] /\ valid_utf8 key = true /\ 0 <= id < Z.of_nat size.

Definition wf_morph (rows cols : Z) (m : morph) : Prop :=
  0 <= m_left m < cols /\ 0 <= m_right m < rows /\ int16 (m_weight m).

Record wf_dict (d : dict) : Prop := {
  wf_idx : wf_index (d_index d) (length (d_morphs d));
  wf_conn : exists rows, 0 < rows /\ 0 < d_conn_col d /\
      Z.of_nat (length (d_conn_vec d)) = rows * d_conn_col d /\
      (forall m, In m (d_morphs d) -> wf_morph rows (d_conn_col d) m) /\
      (forall m, In m (d_unk_morphs d) -> wf_morph rows (d_conn_col d) m);
  wf_conn16 : forall c, In c (d_conn_vec d) -> int16 c;
  wf_cat : forall r, (d_category d r < length (d_invoke d))%nat /\ (d_category d r < length (d_group d))%nat;
  wf_unk : forall r,
      let c := Z.of_nat (d_category d r) in
      0 <= map_get (d_unk_index d) c /\ 0 <= map_get (d_unk_dup d) c /\
      map_get (d_unk_index d) c + map_get (d_unk_dup d) c < Z.of_nat (length (d_unk_morphs d))
}.

Arguments wf_idx {d}.
Arguments wf_conn {d}.
Arguments wf_conn16 {d}.
Arguments wf_cat {d}.
Arguments wf_unk {d}.

Definition wf_udict (u : option udict) : Prop :=
  match u with
  | None => True
  | Some ud => wf_index (u_index ud) (length (u_contents ud))
  end.
