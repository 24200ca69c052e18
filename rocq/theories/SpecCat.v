(** Files one after another. *)
From Verif Require Export SpecCmd SpecSplit.
Open Scope N_scope.

(** The text is empty or ends with a line feed. *)
Definition finished (t : bytes) : Prop := t = [] \/ exists a, t = a ++ [x0a].
(** Every line fits into the buffer of a bufio.Scanner. *)
Definition short_lines (t : bytes) : Prop := forall raw l, lines_of t raw -> In l raw -> N.of_nat (length l) < 65536.
(** Calls of tokenize without -split that differ in their input only. *)
Inductive alike (w : world) (d : dict) (u : option udict) (mode : Z) (json : bool) (args : list bytes) (r : reader) : Prop :=
| alike_intro o t1 t2 t3 : tok_args args o -> tok_uses w o d t1 -> user_uses w (to_udict o) u t2 -> input_uses w (to_file o) r t3 ->
    mode_of (to_mode o) mode -> to_json o = json -> to_split o = false -> alike w d u mode json args r.

(** The text ends with a delimiter that is kept. *)
Definition closed (s : splitter) (t : bytes) : Prop := exists x m, segs t = x ++ [m] /\ In (fst m) (sp_delim s) /\ ~ dropped s m.
(** The text begins with a rune that cannot belong to the sentence before. *)
Definition opening (s : splitter) (t : bytes) : Prop := match segs t with [] => True | g :: _ => ~ trailing s g end.
(** The reader delivers the text in one piece, or in pieces as C38 asks. *)
Definition fair (s : splitter) (r r' : reader) : Prop := rd_log r = [] /\
  (((sp_skip s = false \/ ~ In 32 (sp_delim s)) /\ valid_utf8 (rd_rest r) = true /\ one_piece (rd_rest r) (rd_log r')) \/
   ((sp_skip s = false \/ (~ In 32 (sp_delim s) /\ (sp_dlf s = false \/ lone_feeds s (segs (rd_rest r))))) /\ clean_cuts s (rd_log r'))).
