(** Model of how the body of a request reaches the JSON decoder: encoding/json's Decoder.readValue and
    refill (stream.go, library code, from its source) over any sequence of reads, for
    cmd/server/api.go:31.  [Decode.read_loop] is the case that the body arrives at once. *)
From Verif Require Export Decode.
Open Scope N_scope.

(** What a Read returns: bytes and no error, io.EOF, or another error with its text.  After the last
    one the reader blocks: the client sends no more. *)
Inductive read_error := REof | RFail (text : bytes).
Definition arrivals := list (bytes * option read_error).

(** readValue, the loop over the buffer: [n] bytes have been scanned, [rest] is what is left. *)
Inductive scanned := Found (n : nat) | Wrong (e : bytes) | More (s : jscan) (n : nat).
Fixpoint scan_buf (printable : N -> bool) (s : jscan) (n : nat) (rest : bytes) : scanned :=
  match rest with
  | [] => More s n
  | c :: rest' =>
    let (s', o) := json_scan s c in
    match o with
    | OEnd => Found n
    | OEndObject | OEndArray =>
      let (s'', o') := end_value (sc_stack s') x20 in
      match o' with OEnd => Found (S n) | _ => scan_buf printable s'' (S n) rest' end
    | OError => Wrong (scan_error printable s')
    | _ => scan_buf printable s' (S n) rest'
    end
  end.
(** readValue, the outer loop: the buffer [buf] is scanned, the last read had no error.  A value is
    the length of its text in the buffer and the buffer. *)
Inductive outcome := Waits | Value (n : nat) (buf : bytes) | Fails (e : bytes).
Fixpoint read_stream (printable : N -> bool) (s : jscan) (n : nat) (buf : bytes) (script : arrivals) : outcome :=
  match script with
  | [] => Waits
  | (chunk, err) :: script' =>
    let buf' := buf ++ chunk in
    match scan_buf printable s n chunk with
    | Found m => Value m buf'
    | Wrong e => Fails e
    | More s' m =>
      match err with
      | None => read_stream printable s' m buf' script'
      | Some REof =>
        match snd (json_scan s' x20) with
        | OEnd => Value m buf'
        | _ => Fails (if existsb (fun c => negb (json_space c)) buf' then s2b "unexpected EOF" else s2b "EOF")
        end
      | Some (RFail e) => Fails e
      end
    end
  end.
(** Decoder.Decode; None: it does not return. *)
Definition stream_decode (printable : N -> bool) (script : arrivals) : option (res (request + bytes)) :=
  match read_stream printable (Scan SBeginValue []) 0 [] script with
  | Waits => None
  | Fails e => Some (Ok (inr e))
  | Value n buf => Some (unmarshal (firstn n buf))
  end.
(** TokenizeHandler.ServeHTTP (api.go:28-64) on a body that arrives so. *)
Definition serve_arriving (printable : N -> bool) (newer : bool) (ideo : ideographic) (t : tokenizer) (script : arrivals) : option (res response) :=
  match stream_decode printable script with
  | None => None
  | Some r => Some (let* x := r in serve_tokenize (fun _ => x) newer ideo t [])
  end.
