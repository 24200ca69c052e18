(** kagome sentence | kagome tokenize, and kagome tokenize -split. *)
From Verif Require Export SpecCmd.
Open Scope Z_scope.

(** The two programs find the same dictionaries and were built from the same sources. *)
Definition same_tools (w w' : world) : Prop :=
  w_load w = w_load w' /\ w_ipa w = w_ipa w' /\ w_uni w = w_uni w' /\ w_user w = w_user w' /\ w_ideo w = w_ideo w' /\ w_newer w = w_newer w'.
(** [o] is [o'] with -split added, and names a file where [o'] does not. *)
Definition split_of (o o' : tok_opt) : Prop :=
  to_split o = true /\ to_split o' = false /\ to_file o' = [] /\
  to_dict o = to_dict o' /\ to_udict o = to_udict o' /\ to_sysdict o = to_sysdict o' /\ to_simple o = to_simple o' /\
  to_mode o = to_mode o' /\ to_json o = to_json o'.
(** The reader delivers these bytes, in whatever pieces, and then EOF. *)
Definition delivers (r : reader) (b : bytes) : Prop := rd_rest r = b /\ lively r /\ rd_end r = EOF.
(** How a pipeline fails: as its last program or, if that one succeeds, as the first (the option pipefail of a shell). *)
Definition pipefail (first last : res (option cmd_err)) : res (option cmd_err) :=
  match last with Ok None => first | _ => last end.
