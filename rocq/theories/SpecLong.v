(** What the property of long inputs speaks about. *)
From Verif Require Export Heap SpecCmd.
Open Scope nat_scope.

(** At most 64 KiB (bufio.MaxScanTokenSize). *)
Definition short (t : bytes) : Prop := (N.of_nat (length t) <= 65536)%N.
(** The texts analyzed one after the other. *)
Definition calls (t : tokenizer) (mode : Z) (texts : list bytes) : list job := map (fun x => JAnalyze t x mode) texts.
