(** Property theorems: the body of a request to /tokenize arrives in pieces, late, or not to its end
    (cmd/server/api.go:31). *)
From Verif Require Import Check Example Server SpecStream Stream DecodeContract DecodeServe StreamFacts.
Open Scope Z_scope.

(** ** C104: the answer to a body that arrives in pieces. *)
(** Every sequence of reads delivers some bytes and ends in one way. *)
Theorem C104_reads : forall script, (exists b e, delivers script b e) /\
  forall b e b' e', delivers script b e -> delivers script b' e' -> b = b' /\ e = e'.
Proof. exact (fun script => conj (delivers_total script) (fun b e b' e' D D' => delivers_one D D')). Qed.
Print Assumptions C104_reads.
(** How the bytes are cut into pieces does not matter. *)
Theorem C104_pieces : forall printable newer ideo t script script' b e, delivers script b e -> delivers script' b e ->
  serve_arriving printable newer ideo t script = serve_arriving printable newer ideo t script'.
Proof. exact (fun pr newer ideo t script script' b e D D' => proj2 (stream_pieces pr newer ideo t D D')). Qed.
Print Assumptions C104_pieces.
(** If the body has come to its end, or what has come of it settles the answer, the answer is the one
    to the bytes that have come. *)
Theorem C104_answer : forall printable newer ideo t script b e, delivers script b e -> e = Some REof \/ settled b ->
  serve_arriving printable newer ideo t script = Some (serve_tokenize (the_decoder printable) newer ideo t b).
Proof. exact (fun pr newer ideo t script b e D H => arriving_same pr newer ideo t D H). Qed.
Print Assumptions C104_answer.
(** Otherwise the handler waits for more, and if the connection fails it answers 400 with that error. *)
Theorem C104_waits : forall printable newer ideo t script b, delivers script b None -> ~ settled b ->
  serve_arriving printable newer ideo t script = None.
Proof. exact (fun pr newer ideo t script b D H => arriving_other pr newer ideo t D H). Qed.
Print Assumptions C104_waits.
Theorem C104_fails : forall printable newer ideo t script b x, delivers script b (Some (RFail x)) -> ~ settled b ->
  exists r, serve_arriving printable newer ideo t script = Some (Ok r) /\ rs_status r = 400 /\
    rs_body r = s2b "{""status"":false,""error"":""" ++ x ++ s2b """}" ++ [x0a].
Proof. exact (fun pr newer ideo t script b x D H => arriving_other pr newer ideo t D H). Qed.
Print Assumptions C104_fails.
(** The answer is settled as soon as the object is closed; a settled answer is not changed by what
    follows, and as long as it is not settled the bytes can be continued to a value. *)
Theorem C104_settled : (forall b l, begins b (TObj l) -> settled b) /\
  (forall b q, settled b -> settled (b ++ q) /\ forall printable, the_decoder printable (b ++ q) = the_decoder printable b) /\
  (forall b, ~ settled b -> viable b).
Proof. exact (conj begins_object_settled (conj (fun b q H => conj (settled_app q H) (fun pr => settled_stays pr q H)) unsettled_viable)). Qed.
Print Assumptions C104_settled.

Definition ex_tok : tokenizer := Tokenizer ex_dict None true.
Definition arrive (script : arrivals) : option (res response) := serve_arriving ascii_only true ex_ideo ex_tok script.
(** The sentence 東 in three pieces, cut inside the character, with the connection left open; the same
    without the closing bracket; the same broken off; ended; and with a stray byte after which nothing
    is waited for. *)
Definition three (last : string) (e : option read_error) : arrivals := [(s2b "{""senten", None); (s2b "ce"":""" ++ [xe6], None); ([x9d; xb1] ++ s2b """" ++ s2b last, e)].
Definition status_of (o : option (res response)) : Z := match o with None => 0 | Some (Ok r) => rs_status r | _ => -1 end.
Example C104_example : map (fun p => status_of (arrive (three (fst p) (snd p))))
    [("}", None); ("", None); ("", Some (RFail (s2b "reset"))); ("", Some REof); ("x", None); ("} x", Some (RFail (s2b "reset")))]%string = [200; 0; 400; 400; 400; 200] /\
  arrive (three "}" None) = Some (serve_tokenize (the_decoder ascii_only) true ex_ideo ex_tok (s2b "{""sentence"":""東""}")).
Proof.
  split; [by_eval|]. apply (@C104_answer ascii_only true ex_ideo ex_tok (three "}" None) (s2b "{""sentence"":""東""}") None).
  - change (s2b "{""sentence"":""東""}") with (s2b "{""senten" ++ (s2b "ce"":""" ++ [xe6]) ++ (([x9d; xb1] ++ s2b """" ++ s2b "}") ++ [])). repeat constructor.
  - right. apply settled_here; vm_compute; reflexivity.
Qed.
Example C104_example_settled : settled (s2b "{""sentence"":""東""}") /\ ~ settled (s2b "{""sentence"":""東""") /\ settled (s2b "nul ") /\ ~ settled (s2b "nul") /\ ~ settled (s2b "null") /\ ~ settled (s2b " 12e").
Proof.
  split; [apply settled_here; vm_compute; reflexivity|]. split; [apply unsettled_here; vm_compute; reflexivity|]. split; [apply settled_here; vm_compute; reflexivity|].
  repeat split; apply unsettled_here; vm_compute; reflexivity.
Qed.
