(** kagome sentence | kagome sentence. *)
From Verif Require Export SpecPipe SpecAgain.

(** What a program got from each of its reads. *)
Definition pieces (tr : list event) : list bytes := flat_map (fun e => match e with ERead b => [b] | _ => [] end) tr.
