(** Specification for C127: what the default sentence splitter may keep waiting. *)
From Verif Require Import SpecSent.
Open Scope nat_scope.

(** The beginning of a sentence: fewer than 128 runes, and after a delimiter only delimiters and followers. *)
Definition begun (held : bytes) : Prop := exists rs : list (N * bytes),
  held = concat (map snd rs) /\ length rs < 128 /\ Forall (fun g => decode_rune (snd g) = (fst g, length (snd g))) rs /\
  forall b1 g b2, rs = b1 ++ g :: b2 -> delim_rune default_splitter g -> Forall (tail_rune default_splitter) b2.

(** Of what has been read ([seen]) the texts have been answered; [held] is left. *)
Definition answered (seen : bytes) (texts : list bytes) (held : bytes) : Prop :=
  exists left, drops_space (segs seen) left /\ concat (map snd left) = concat texts ++ held.
