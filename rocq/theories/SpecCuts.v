(** Which sentences are valid UTF-8 however the reader cuts the input. *)
From Verif Require Export SpecSent.
Open Scope Z_scope.

(** Fewer bytes than MaxRuneLen *)
Definition brief (s : splitter) (t : bytes) : Prop := Z.of_nat (length t) < sp_max s.
(** U+FFFD, which stands for a byte of a cut rune, is neither delimiter nor follower, and if white space is skipped the
    space, which the splitter writes over bytes it has moved, is no delimiter. *)
Definition sober (s : splitter) : Prop :=
  ~ In rune_error (sp_delim s) /\ ~ In rune_error (sp_follower s) /\ (sp_skip s = true -> ~ In 32%N (sp_delim s)).
(** A sentence is valid if it and the one before it, if any, are brief. *)
Definition judged (s : splitter) (ts : list bytes) : Prop :=
  forall before t after, ts = before ++ t :: after -> brief s t -> (forall b p, before = b ++ [p] -> brief s p) -> valid_utf8 t = true.
