(** What a caller sees of calls that may panic, independent of the proofs. *)
From Verif Require Export SpecServing Recover.
Open Scope nat_scope.

(** The outcome of a call that may panic: the answer of the call when nothing else ever runs, or
    None when the call alone panics. *)
Inductive attempt (ideo : ideographic) : job -> option answer -> Prop :=
| at_answer j a : right_answer ideo j a -> attempt ideo j (Some a)
| at_analyze t input mode : analyze ideo t input mode = Panic -> attempt ideo (JAnalyze t input mode) None
| at_wakati t input : wakati ideo t input = Panic -> attempt ideo (JWakati t input) None
| at_graph t input mode : analyze_graph ideo t input mode = Panic \/ graph_stmts ideo t input mode = Panic ->
    attempt ideo (JGraph t input mode) None.

Section Serving.
Variables (decode : bytes -> request + bytes) (newer : bool) (dot : bytes -> bytes) (ptr : addr -> bytes).
Variables (ideo : ideographic) (t : tokenizer).
(** A request whose handler panics when nothing else ever runs. *)
Definition breaks (c : call) : Prop :=
  match c with
  | Tokenize body => serve_tokenize decode newer ideo t body = Panic
  | Draw sen mode => forall name, serve_demo dot name ideo t sen mode = Panic
  end.
(** What the client of a connection gets: the answers up to the first request that panics, where
    the connection is closed. *)
Inductive handled : list call -> list (option reply) -> Prop :=
| hd_none : handled [] []
| hd_answer c r cs rs : alone decode newer dot ptr ideo t c r -> handled cs rs -> handled (c :: cs) (Some r :: rs)
| hd_panic c cs : breaks c -> handled (c :: cs) [None].
End Serving.
