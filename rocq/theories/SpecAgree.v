(** The tokenize endpoint and kagome tokenize -json, asked about the same text. *)
From Verif Require Export SpecCmd SpecDecode.
Open Scope N_scope.

(** A text that the command reads as one line. *)
Definition one_line (t : bytes) : Prop := t <> [] /\ ~ In x0a t /\ (~ exists a, t = a ++ [x0d]) /\ N.of_nat (length t) < 65536.
(** The tokens that are not runes of an unknown word that Extended mode has split. *)
Definition unsplit (l : list token_data) : list token_data := filter (fun td => negb (bytes_eqb (td_class td) (s2b "DUMMY"))) l.
(** The answer of the endpoint. *)
Definition told (answer : bytes) (tds : list token_data) : Prop :=
  json_text answer (JObj [(s2b "status", JBool true); (s2b "tokens", JArr (map token_value tds))]).
(** What a command writes to the standard error. *)
Definition errs (tr : list event) : bytes := concat (map (fun e => match e with EErr (MText b) => b | _ => [] end) tr).
