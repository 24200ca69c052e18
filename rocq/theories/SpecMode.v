(** What search mode looks at: long words. *)
From Verif Require Export SpecTie.
Open Scope Z_scope.

(** At most two runes, or at most seven that are not all ideographs. *)
Definition short (ideo : N -> bool) (inp : bytes) (w : word) : Prop :=
  (w_stop w - w_start w <= 2)%nat \/
  (w_stop w - w_start w <= 7)%nat /\ exists k, (w_start w <= k < w_stop w)%nat /\ ideo (rune_at inp k) = false.
(** The penalties of all words together. *)
Definition excess (ideo : N -> bool) (inp : bytes) (ws : list word) : Z := fold_right (fun w z => length_penalty ideo inp w + z) 0 ws.
