(** Model of how a request reaches the handlers of cmd/server: the two Handle calls of
    cmd/server/cmd.go:106-108 and net/http's ServeMux (the rules of Go before 1.22, which go.mod
    asks for). *)
From Verif Require Export Server Page.
Open Scope Z_scope.

(** What the mux and the handlers look at.  [hq_path] is URL.Path, with the escapes decoded;
    [hq_s], [hq_r] and [hq_lattice] are the form values of those names. *)
Record http_request := HttpRequest {
  hq_method : bytes; hq_uri : bytes; hq_path : bytes; hq_query : bytes;
  hq_s : bytes; hq_r : bytes; hq_lattice : bytes; hq_body : bytes
}.

(** ** package path, Clean, of a path that begins with a slash; the buffer is kept reversed. *)
Definition slash : byte := x2f.
Definition dot : byte := x2e.
(** The next byte ends an element. *)
Definition at_end (s : bytes) : bool := match s with [] => true | b :: _ => Byte.eqb b slash end.
(** Remove to the last slash. *)
Fixpoint remove_last (out : bytes) : bytes :=
  match out with
  | [] => []
  | [c] => [c]
  | b :: out' => if Byte.eqb b slash then out' else remove_last out'
  end.
(** Copy an element to the buffer. *)
Fixpoint copy_element (s out : bytes) : bytes * bytes :=
  match s with
  | [] => ([], out)
  | b :: s' => if Byte.eqb b slash then (s, out) else copy_element s' (b :: out)
  end.
Fixpoint clean_loop (fuel : nat) (s out : bytes) : res bytes :=
  match fuel with
  | O => Diverge
  | S f =>
    match s with
    | [] => Ok (rev out)
    | b :: r =>
      if Byte.eqb b slash then clean_loop f r out
      else if Byte.eqb b dot && at_end r then clean_loop f r out
      else if Byte.eqb b dot && match r with c :: r' => Byte.eqb c dot && at_end r' | [] => false end
      then clean_loop f (match r with _ :: r' => r' | [] => [] end) (remove_last out)
      else
        let out := if (length out =? 1)%nat then out else slash :: out in
        let '(r, out) := copy_element s out in
        clean_loop f r out
    end
  end.
(** [p] without its first slash *)
Definition path_clean (p : bytes) : res bytes := clean_loop (S (length p)) p [slash].

(** net/http cleanPath *)
Definition clean_path (p : bytes) : res bytes :=
  let p := match p with [] => [slash] | b :: _ => if Byte.eqb b slash then p else slash :: p end in
  let* np := path_clean (skipn 1 p) in
  Ok (if Byte.eqb (last p slash) slash && negb (bytes_eqb np [slash])
      then if (length p =? length np + 1)%nat && bytes_eqb (firstn (length np) p) np then p else np ++ [slash]
      else np).

(** ** The mux *)
Inductive target := TTokenize | TDemo | TNotFound.
(** ServeMux.match with the patterns "/" and "/tokenize": the longest that fits; a pattern without a
    slash at its end fits only itself. *)
Definition mux_match (p : bytes) : target :=
  if bytes_eqb p (s2b "/tokenize") then TTokenize
  else match p with b :: _ => if Byte.eqb b slash then TDemo else TNotFound | [] => TNotFound end.

(** The answer: what a handler makes, or what net/http does by itself.  The Location of a
    redirection is given as the path before it is escaped and the query. *)
Inductive http_answer :=
| AJson (r : response)
| APage (html : bytes)
| ARedirect (code : Z) (path query : bytes)
| ANotFound
| ABadRequest.

Section Mux.
Variables (decode : bytes -> request + bytes) (newer : bool) (gv : graphviz) (addr : coord -> bytes) (ideo : ideographic) (t : tokenizer).
(** cmd.go:107-108 *)
Definition run_target (x : target) (q : http_request) : res http_answer :=
  match x with
  | TTokenize => let* r := serve_tokenize decode newer ideo t (hq_body q) in Ok (AJson r)
  | TDemo => let* h := serve_root gv addr ideo t (hq_s q) (hq_r q) (hq_lattice q) in Ok (APage h)
  | TNotFound => Ok ANotFound
  end.
(** ServeMux.ServeHTTP and ServeMux.Handler.  No pattern ends in a slash but the root, so that no
    slash is added to a path. *)
Definition serve_http (q : http_request) : res http_answer :=
  if bytes_eqb (hq_uri q) (s2b "*") then Ok ABadRequest
  else if bytes_eqb (hq_method q) (s2b "CONNECT") then run_target (mux_match (hq_path q)) q
  else
    let* p := clean_path (hq_path q) in
    if bytes_eqb p (hq_path q) then run_target (mux_match p) q
    else Ok (ARedirect 301 p (hq_query q)).
End Mux.
