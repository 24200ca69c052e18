(** Panics.  Tokenizer.Analyze and AnalyzeGraph defer la.Free (tokenizer.go:85, 136), so the
    lattice goes back to the pool on a panic as well; net/http recovers from the panic of a handler
    and closes the connection, the other connections go on.  The programs below are those of Heap.v
    and ServerHeap.v with the deferred call and the recovery; they say what happens with any
    dictionary, also one that makes the analysis panic. *)
From Verif Require Export ServerHeap.
Open Scope Z_scope.

(** p, with a panic (Stop) turned into None. *)
Fixpoint catch {A} (p : prog A) : prog (option A) :=
  match p with
  | Ret a => Ret (Some a)
  | Stop => Ret None
  | Choose k => Choose (fun n => catch (k n))
  | NodeGet k => NodeGet (fun a => catch (k a))
  | NodePut a k => NodePut a (catch k)
  | NodeNew n k => NodeNew n (fun a => catch (k a))
  | NodeRead a k => NodeRead a (fun h => catch (k h))
  | NodeSet a g k => NodeSet a g (catch k)
  | LatGet k => LatGet (fun a => catch (k a))
  | LatPut a k => LatPut a (catch k)
  | LatRead a k => LatRead a (fun h => catch (k h))
  | LatSet a g k => LatSet a g (catch k)
  end.
(** p with the deferred call q: q runs when p returns and when p panics, and the panic goes on
    after it. *)
Definition deferring {A} (p : prog A) (q : prog unit) : prog A :=
  do r <- catch p;
  q;;
  match r with Some a => Ret a | None => Stop end.

(** tokenizer.go:83-126 *)
Definition d_analyze (ideo : ideographic) (t : tokenizer) (input : bytes) (mode : Z) : prog (list token) :=
  do la <- h_new (tk_dict t) (tk_udict t);
  deferring
    (h_build la input;;
     let m := to_lmode mode in
     h_forward ideo m la;;
     h_backward m la;;
     h_tokens t la)
    (h_free la).
(** tokenizer.go:134-173 *)
Definition d_graph (ideo : ideographic) (t : tokenizer) (input : bytes) (mode : Z)
    : prog (list token * list (gstmt addr)) :=
  do la <- h_new (tk_dict t) (tk_udict t);
  deferring
    (h_build la input;;
     let m := to_lmode mode in
     h_forward ideo m la;;
     h_backward m la;;
     do tokens <- h_graph_tokens t la;
     do drawn <- h_dot la;
     Ret (tokens, drawn))
    (h_free la).

(** ** A goroutine that recovers from the panics of its calls and goes on *)
(** tokenizer.go:67-77 *)
Definition d_wakati (ideo : ideographic) (t : tokenizer) (input : bytes) : prog (list bytes) :=
  do ts <- d_analyze ideo t input mode_normal;
  Ret (map t_surface (filter (fun v => negb (class_eqb (t_class v) DUMMY) &&
                                       negb (length (t_surface v) =? 0)%nat) ts)).
Definition d_job (ideo : ideographic) (j : job) : prog answer :=
  match j with
  | JAnalyze t input mode => do ts <- d_analyze ideo t input mode; Ret (ATokens ts)
  | JWakati t input => do ws <- d_wakati ideo t input; Ret (AWords ws)
  | JGraph t input mode => do r <- d_graph ideo t input mode; Ret (AGraph (fst r) (snd r))
  end.
(** Each call is made in a function that defers a recover; None is a call that panicked. *)
Fixpoint d_worker (ideo : ideographic) (js : list job) : prog (list (option answer)) :=
  match js with
  | [] => Ret []
  | j :: js' =>
    do r <- catch (d_job ideo j);
    do rs <- d_worker ideo js';
    Ret (r :: rs)
  end.
Definition d_workers (ideo : ideographic) (g : memory) (work : list (list job)) : memory * list (thread (list (option answer))) :=
  (g, map (fun js => start_thread (d_worker ideo js)) work).

(** ** cmd/server *)
Section Handlers.
Variables (decode : bytes -> request + bytes) (newer : bool) (dot : bytes -> bytes).
Variable (ptr : addr -> bytes).
Variables (ideo : ideographic) (t : tokenizer).

(** api.go:28-64 *)
Definition d_tokenize (body : bytes) : prog reply :=
  match decode body with
  | inr err => Ret (Sent (http_error (error_body err) 400))
  | inl req =>
    if bytes_eqb (rq_input req) [] then Ret (Sent (Response 200 json_type (s2b "{""status"":true,""tokens"":[]}")))
    else
      do tokens <- d_analyze ideo t (rq_input req) (api_mode (rq_mode req));
      do data <- lift (collect tokens None);
      Ret (Sent (Response 200 json_type (marshal_response newer true data)))
  end.
(** demo.go:97, 104-109, 131-136 *)
Definition d_draw (sen mode : bytes) : prog reply :=
  do r <- d_graph ideo t sen (demo_mode mode);
  do rows <- lift (to_records (fst r));
  Ret (Page rows (svg_part (dot (dot_text ptr (snd r))))).
Definition d_call (c : call) : prog reply :=
  match c with Tokenize body => d_tokenize body | Draw sen mode => d_draw sen mode end.

(** One connection: its requests are handled one after the other; None is a request whose handler
    panicked, after which net/http closes the connection. *)
Fixpoint d_connection (cs : list call) : prog (list (option reply)) :=
  match cs with
  | [] => Ret []
  | c :: cs' =>
    do r <- catch (d_call c);
    match r with
    | None => Ret [None]
    | Some a => do rs <- d_connection cs'; Ret (Some a :: rs)
    end
  end.
End Handlers.

(** The server with these connections, started with memory g.  Every connection may have a
    tokenizer of its own here, so that a sound and a broken dictionary can be in use at once. *)
Definition d_server (decode : bytes -> request + bytes) (newer : bool) (dot : bytes -> bytes) (ptr : addr -> bytes)
    (ideo : ideographic) (g : memory) (conns : list (tokenizer * list call)) : memory * list (thread (list (option reply))) :=
  (g, map (fun c => start_thread (d_connection decode newer dot ptr ideo (fst c) (snd c))) conns).
