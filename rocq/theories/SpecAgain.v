(** Sentences that have been printed, one a line, and are split again. *)
From Verif Require Export SpecSplit.
Open Scope N_scope.

(** What `kagome sentence` prints. *)
Definition print_lines (ts : list bytes) : bytes := concat (map (fun t => t ++ [x0a]) ts).
(** The sentence has a delimiter, or is as long as a sentence may be. *)
Definition closed (s : splitter) (t : bytes) : Prop := Exists (delim_rune s) (segs t) \/ (sp_max s <= Z.of_nat (length (segs t)))%Z.
(** Every sentence but the last is closed, and none but the first begins with what would continue a closed one. *)
Definition settled (s : splitter) (ts : list bytes) : Prop := forall pre t u post, ts = pre ++ t :: u :: post ->
  closed s t /\ match segs u with [] => True | g :: _ => ~ tail_rune s g end.
Definition solid_delims (s : splitter) : Prop := Forall (fun r => is_space r = false) (sp_delim s).
