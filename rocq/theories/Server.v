(** Model of cmd/server: the tokenize endpoint, the records of the demo page, and the goroutines of
    the demo page and of the command. *)
From Verif Require Export Tokenizer Token Dot Json.
Open Scope Z_scope.

(** ** cmd/server/api.go *)
(** api.go:17-20 TokenizerRequestBody *)
Record request := Request { rq_input : bytes; rq_mode : bytes }.
(** What the handler sends: status code, Content-Type, body.  Other headers are not modelled. *)
Record response := Response { rs_status : Z; rs_type : bytes; rs_body : bytes }.
Definition json_type : bytes := s2b "application/json".
Definition plain_type : bytes := s2b "text/plain; charset=utf-8".

(** net/http Error: it replaces the Content-Type and adds a line feed. *)
Definition http_error (msg : bytes) (code : Z) : response := Response code plain_type (msg ++ [x0a]).

(** api.go:32, 59: fmt.Sprintf("{\"status\":false,\"error\":\"%v\"}", err) *)
Definition error_body (err : bytes) : bytes := s2b "{""status"":false,""error"":""" ++ err ++ s2b """}".

(** api.go:39-45 *)
Definition api_mode (m : bytes) : Z :=
  if bytes_eqb m (s2b "Search") then mode_search
  else if bytes_eqb m (s2b "Extended") then mode_extended
  else mode_normal.

(** api.go:47-53: the loop; a nil slice (None) until the first append *)
Fixpoint collect (ts : list token) (acc : option (list token_data)) : res (option (list token_data)) :=
  match ts with
  | [] => Ok acc
  | v :: ts' =>
    if t_id v =? bos_eos_id then collect ts' acc
    else
      let* td := new_token_data v in
      collect ts' (Some (match acc with None => [td] | Some l => l ++ [td] end))
  end.

(** api.go:28-64 TokenizeHandler.ServeHTTP.  [decode] is json.NewDecoder(r.Body).Decode: the request
    or the text of the error.  json.Marshal does not fail on this type. *)
Definition serve_tokenize (decode : bytes -> request + bytes) (newer : bool) (ideo : ideographic) (t : tokenizer) (body : bytes) : res response :=
  match decode body with
  | inr err => Ok (http_error (error_body err) 400)
  | inl req =>
    if bytes_eqb (rq_input req) [] then Ok (Response 200 json_type (s2b "{""status"":true,""tokens"":[]}"))
    else
      let* tokens := analyze ideo t (rq_input req) (api_mode (rq_mode req)) in
      let* data := collect tokens None in
      Ok (Response 200 json_type (marshal_response newer true data))
  end.

(** ** cmd/server/demo.go *)
(** demo.go:40-46 record *)
Record record := Rec { rc_surface : bytes; rc_pos : bytes; rc_base : bytes; rc_reading : bytes; rc_pron : bytes }.
Definition star : bytes := s2b "*".
Definition or_star (v : bytes * bool) : bytes := if snd v then fst v else star.
(** demo.go:48-69 newRecord *)
Definition new_record (t : token) : res record :=
  let* p := token_pos t in
  let v := join (s2b ",") (strings_list p) in
  let* b := base_form t in
  let* r := reading t in
  let* q := pronunciation t in
  Ok (Rec (t_surface t) (if bytes_eqb v [] then star else v) (or_star b) (or_star r) (or_star q)).
(** demo.go:71-80 toRecords *)
Fixpoint to_records (ts : list token) : res (list record) :=
  match ts with
  | [] => Ok []
  | t :: ts' =>
    if t_id t =? bos_eos_id then to_records ts'
    else let* r := new_record t in let* rs := to_records ts' in Ok (r :: rs)
  end.
(** demo.go:131-135: the mode of the page's graph *)
Definition demo_mode (m : bytes) : Z :=
  if bytes_eqb m (s2b "Search") || bytes_eqb m (s2b "Extended") then mode_search else mode_normal.
(** demo.go:104-107: what dot printed, from <svg on *)
Fixpoint str_index (pat s : bytes) : option nat :=
  if bytes_eqb (firstn (length pat) s) pat then Some 0%nat
  else match s with [] => None | _ :: s' => option_map S (str_index pat s') end.
Definition svg_part (s : bytes) : bytes :=
  match str_index (s2b "<svg") s with
  | Some pos => if (0 <? pos)%nat then skipn pos s else s
  | None => s
  end.
(** demo.go:97, 104-109: analyzeGraph when dot runs and succeeds; [dot] gives what it prints. *)
Definition demo_graph (dot : bytes -> bytes) (addr : coord -> bytes) (ideo : ideographic) (t : tokenizer) (sen : bytes) (mode : Z)
    : res (list record * bytes) :=
  let* g := graph_text addr ideo t sen mode in
  let* ts := analyze_graph ideo t sen mode in
  let* rs := to_records ts in
  Ok (rs, svg_part (dot g)).
(** demo.go:113-158 ServeHTTP with a lattice value: the records and the picture put into the page *)
Definition serve_demo (dot : bytes -> bytes) (addr : coord -> bytes) (ideo : ideographic) (t : tokenizer) (sen mode : bytes)
    : res (list record * bytes) := demo_graph dot addr ideo t sen (demo_mode mode).

(** lattice.go:344-388: each Fprintln and Fprintf is one call of Write. *)
Definition dot_writes (addr : coord -> bytes) (ss : list stmt) : list bytes :=
  [s2b "graph lattice {" ++ nl; s2b "dpi=48;" ++ nl;
   s2b "graph [style=filled, splines=true, overlap=false, fontsize=30, rankdir=LR]" ++ nl;
   s2b "edge [fontname=Helvetica, fontcolor=red, color=""#606060""]" ++ nl;
   s2b "node [shape=box, style=filled, fillcolor=""#e8e8f0"", fontname=Helvetica]" ++ nl] ++
  map (render addr) ss ++ [s2b "}" ++ nl].

(** ** demo.go:82-105: the handler, the goroutine of os/exec that copies standard input, the dot
    process and the two pipes between them.  Bytes are counted, not shown. *)
Inductive handler :=
| HWriting (now : nat) (later : list nat)  (* inside w0.Write with [now] bytes left; the sizes of the writes to come *)
| HWaiting                                 (* w0 closed, in cmd.Wait *)
| HDone.
Inductive copier :=
| CReading                                 (* in r0.Read *)
| CWriting (n : nat)                       (* has [n] bytes to put in the pipe of the process *)
| CEnded (ok : bool).                      (* io.Copy returned; the pipe of the process is closed *)
Inductive process := PRunning | PGone.     (* exited, or killed by the context *)
Record demo := Demo { dm_h : handler; dm_c : copier; dm_fill : nat; dm_p : process }.

(** One step; [cap] is the size of the process's pipe, [buf] that of io.Copy's buffer. *)
Inductive demo_step (cap buf : nat) : demo -> demo -> Prop :=
| ds_next n l f c p :                       (* Write returns, the next one begins *)
    demo_step cap buf (Demo (HWriting 0 (n :: l)) c f p) (Demo (HWriting n l) c f p)
| ds_close c f p :                          (* w0.Close *)
    demo_step cap buf (Demo (HWriting 0 []) c f p) (Demo HWaiting c f p)
| ds_move n l f p : (1 <= n)%nat -> (1 <= buf)%nat ->  (* io.Pipe: a Read takes what fits of a Write *)
    demo_step cap buf (Demo (HWriting n l) CReading f p) (Demo (HWriting (n - buf) l) (CWriting (Nat.min n buf)) f p)
| ds_eof f p :                              (* r0.Read returns io.EOF once w0 is closed *)
    demo_step cap buf (Demo HWaiting CReading f p) (Demo HWaiting (CEnded true) f p)
| ds_copy h n k f : (1 <= k <= n)%nat -> (f + k <= cap)%nat ->
    demo_step cap buf (Demo h (CWriting n) f PRunning) (Demo h (if (n - k =? 0)%nat then CReading else CWriting (n - k)) (f + k) PRunning)
| ds_epipe h n f :                          (* the process is gone: EPIPE *)
    demo_step cap buf (Demo h (CWriting n) f PGone) (Demo h (CEnded false) f PGone)
| ds_read h c f k : (1 <= k <= f)%nat ->    (* dot reads *)
    demo_step cap buf (Demo h c f PRunning) (Demo h c (f - k) PRunning)
| ds_exit h c f :                           (* dot ends or is killed *)
    demo_step cap buf (Demo h c f PRunning) (Demo h c f PGone)
| ds_wait f ok :                            (* cmd.Wait returns *)
    demo_step cap buf (Demo HWaiting (CEnded ok) f PGone) (Demo HDone (CEnded ok) f PGone).
Definition demo_start (writes : list nat) : demo := Demo (HWriting 0 writes) CReading 0 PRunning.

(** ** cmd/server/cmd.go:87-128 command, from the go statement on, and Run:131-147 *)
Inductive main_state := MSelect | MReturn (err : bool).
Inductive listener := LServing | LFailed | LSent.   (* LFailed: at [ch <- err] *)
Record serve := Serve { sv_main : main_state; sv_l : listener; sv_cancelled : bool; sv_answered : nat }.
Inductive serve_step : serve -> serve -> Prop :=
| ss_cancel m l n : serve_step (Serve m l false n) (Serve m l true n)                      (* signal, or the caller's context *)
| ss_answer m c n : serve_step (Serve m LServing c n) (Serve m LServing c (S n))           (* a request is answered *)
| ss_fail m c n : serve_step (Serve m LServing c n) (Serve m LFailed c n)                  (* ListenAndServe returns *)
| ss_done l n : serve_step (Serve MSelect l true n) (Serve (MReturn false) l true n)       (* <-ctx.Done() *)
| ss_error c n : serve_step (Serve MSelect LFailed c n) (Serve (MReturn true) LSent c n).  (* <-ch *)
Definition serve_start : serve := Serve MSelect LServing false 0.
