(** Specification for C116: how what comes before bears on what follows. *)
From Verif Require Export SpecTok SpecOut.
Open Scope Z_scope.

(** The right id with which a beginning of a segmentation ends: none after a user word, 0 at the beginning of the text. *)
Definition leaving (d : dict) (ws : list word) : option Z :=
  match rev ws with
  | [] => Some 0
  | w :: _ => match w_class w with USER => None | c => Some (m_right (entry d c (w_id w))) end
  end.
(** It ends at rune k. *)
Definition ends_at (ws : list word) (k : nat) : Prop := match rev ws with [] => k = 0%nat | w :: _ => w_stop w = k end.
(** The word k runes further on. *)
Definition moved (k : nat) (w : word) : word := Word (w_class w) (w_id w) (k + w_start w) (k + w_stop w).

(** The left id with which the rest of a segmentation begins: none before a user word, 0 at the end of the text. *)
Definition entering (d : dict) (ws : list word) : option Z :=
  match ws with
  | [] => Some 0
  | w :: _ => match w_class w with USER => None | c => Some (m_left (entry d c (w_id w))) end
  end.
(** Nothing in the dictionaries reaches across rune k of the text, and no group of characters goes on there. *)
Record clear_cut (d : dict) (u : option udict) (x : bytes) (k : nat) : Prop := {
  cc_known : forall id i j, (i < k < j)%nat -> ~ keyword_at (d_index d) x id i j;
  cc_user : forall ud id i j, u = Some ud -> (i < k < j)%nat -> ~ keyword_at (u_index ud) x id i j;
  cc_group : (0 < k < rcount x)%nat -> groups d (cat d x (k - 1)) = false \/ cat d x (k - 1) <> cat d x k
}.
Arguments cc_known {d u x k}.
Arguments cc_user {d u x k}.
Arguments cc_group {d u x k}.
