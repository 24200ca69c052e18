(** Model of the handlers of cmd/server as programs on the shared memory of Heap.v: net/http runs
    each connection in a goroutine of its own, and all of them use the one tokenizer that
    cmd.go:100-108 makes.  The functions follow the same lines as serve_tokenize and serve_demo of
    Server.v, with the analyses replaced by the programs of Heap.v. *)
From Verif Require Export Heap Server.
Open Scope Z_scope.

(** A request that reaches the analyzer: POST /tokenize with a body (api.go:28), or the demo page
    with a lattice value (demo.go:114-130).  The demo page without one runs no analysis. *)
Inductive call := Tokenize (body : bytes) | Draw (sen mode : bytes).
Inductive reply := Sent (r : response) | Page (rows : list record) (svg : bytes).

Section Handlers.
Variables (decode : bytes -> request + bytes) (newer : bool) (dot : bytes -> bytes).
(** What %p prints for a node. *)
Variable (ptr : addr -> bytes).
Variables (ideo : ideographic) (t : tokenizer).

(** api.go:28-64 *)
Definition h_tokenize (body : bytes) : prog reply :=
  match decode body with
  | inr err => Ret (Sent (http_error (error_body err) 400))
  | inl req =>
    if bytes_eqb (rq_input req) [] then Ret (Sent (Response 200 json_type (s2b "{""status"":true,""tokens"":[]}")))
    else
      do tokens <- h_analyze ideo t (rq_input req) (api_mode (rq_mode req));
      do data <- lift (collect tokens None);
      Ret (Sent (Response 200 json_type (marshal_response newer true data)))
  end.

(** demo.go:97, 104-109, 131-136: AnalyzeGraph has returned its lattice before dot is waited for. *)
Definition h_draw (sen mode : bytes) : prog reply :=
  do r <- h_graph ideo t sen (demo_mode mode);
  do rows <- lift (to_records (fst r));
  Ret (Page rows (svg_part (dot (dot_text ptr (snd r))))).

Definition h_call (c : call) : prog reply :=
  match c with Tokenize body => h_tokenize body | Draw sen mode => h_draw sen mode end.

(** One connection: its requests are handled one after the other. *)
Fixpoint h_connection (cs : list call) : prog (list reply) :=
  match cs with
  | [] => Ret []
  | c :: cs' =>
    do r <- h_call c;
    do rs <- h_connection cs';
    Ret (r :: rs)
  end.

(** The server with these connections, started with memory g. *)
Definition h_server (g : memory) (conns : list (list call)) : memory * list (thread (list reply)) :=
  (g, map (fun cs => start_thread (h_connection cs)) conns).
End Handlers.
