(** Specification for C114: texts made of words of the user dictionary. *)
From Verif Require Export SpecTok SpecOut.
Open Scope Z_scope.

(** The only keyword of the user dictionary at rune i is this one. *)
Definition sole (ud : udict) (s : bytes) (id : Z) (i j : nat) : Prop :=
  keyword_at (u_index ud) s id i j /\ forall id' j', keyword_at (u_index ud) s id' i j' -> id' = id /\ j' = j.

(** Runes i..j-1 are read as keywords one after another, each the only one where it begins. *)
Inductive spelled (ud : udict) (s : bytes) : nat -> list word -> nat -> Prop :=
| spelled_nil i : spelled ud s i [] i
| spelled_cons id i k ws j : sole ud s id i k -> spelled ud s k ws j -> spelled ud s i (Word USER id i k :: ws) j.
