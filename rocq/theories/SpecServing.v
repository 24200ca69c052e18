(** What it means that a request is answered as if it were the only one, independent of the
    proofs about interleavings. *)
From Verif Require Export SpecHeap ServerHeap.
Open Scope nat_scope.

(** The answer of the handler of Server.v, which knows nothing of other requests.  The graph given
    to dot may use other names for the nodes, different ones for different nodes. *)
Inductive alone (decode : bytes -> request + bytes) (newer : bool) (dot : bytes -> bytes) (ptr : addr -> bytes)
    (ideo : ideographic) (t : tokenizer) : call -> reply -> Prop :=
| al_tokenize body r :
    serve_tokenize decode newer ideo t body = Ok r -> alone decode newer dot ptr ideo t (Tokenize body) (Sent r)
| al_draw sen mode name rows svg :
    (forall ss c c', graph_stmts ideo t sen (demo_mode mode) = Ok ss ->
       (exists s, In s ss /\ speaks_of s c) -> (exists s, In s ss /\ speaks_of s c') -> name c = name c' -> c = c') ->
    serve_demo dot (fun c => ptr (name c)) ideo t sen mode = Ok (rows, svg) ->
    alone decode newer dot ptr ideo t (Draw sen mode) (Page rows svg).
