(** Model of the commands tokenize, sentence and lattice with a standard output (or output file) whose
    writes may fail.  Writes to the standard error and the server are left as in Cmd.v. *)
From Verif Require Export Cmd.
Open Scope Z_scope.

(** What an io.Writer does with the calls of Write to come: None, it takes everything; Some n, it takes
    the first n bytes and returns an error.  After the end of the list it takes everything. *)
Definition sink : Type := list (option nat).
(** A call: what was taken, and whether an error was returned. *)
Definition call : Type := bytes * bool.
Definition sink_write (k : sink) (p : bytes) : call * sink :=
  match k with
  | [] => ((p, false), [])
  | None :: k' => ((p, false), k')
  | Some n :: k' => ((firstn n p, true), k')
  end.

(** ** bufio.Writer (Go's library): the bytes in its buffer and whether it holds an error *)
Record bufw := Bufw { bw_buf : bytes; bw_err : bool }.
Definition buf_size : nat := N.to_nat 4096.
(** bufio.NewWriter *)
Definition new_bufw : bufw := Bufw [] false.
(** Writer.Flush *)
Definition buf_flush (b : bufw) (k : sink) : list call * bufw * sink :=
  if bw_err b then ([], b, k)
  else match bw_buf b with
       | [] => ([], b, k)
       | _ => let '(c, k) := sink_write k (bw_buf b) in
              ([c], if snd c then Bufw (skipn (length (fst c)) (bw_buf b)) true else Bufw [] false, k)
       end.
(** Writer.Write and Writer.WriteString: with an empty buffer long data go to the writer directly
    ([direct]; WriteString does so if the writer is an io.StringWriter and Go is 1.18 or newer). *)
Fixpoint buf_write (fuel : nat) (direct : bool) (p : bytes) (b : bufw) (k : sink) : res (list call * bufw * sink) :=
  match fuel with
  | O => Diverge
  | S f =>
    if (buf_size - length (bw_buf b) <? length p)%nat && negb (bw_err b) then
      if (length (bw_buf b) =? 0)%nat && direct then
        let '(c, k) := sink_write k p in
        let* r := buf_write f direct (skipn (length (fst c)) p) (Bufw [] (snd c)) k in
        let '(l, b, k) := r in Ok (c :: l, b, k)
      else
        let n := (buf_size - length (bw_buf b))%nat in
        let '(l1, b, k) := buf_flush (Bufw (bw_buf b ++ firstn n p) false) k in
        let* r := buf_write f direct (skipn n p) b k in
        let '(l, b, k) := r in Ok (l1 ++ l, b, k)
    else if bw_err b then Ok ([], b, k)
    else Ok ([], Bufw (bw_buf b ++ p) false, k)
  end.
(** A call of Write (true) or WriteString (false) with its argument *)
Definition piece : Type := bool * bytes.
Fixpoint buf_writes (direct : bool) (ps : list piece) (b : bufw) (k : sink) : res (list call * bufw * sink) :=
  match ps with
  | [] => Ok ([], b, k)
  | (whole, p) :: ps' =>
    let* r := buf_write (S (S (length p))) (whole || direct) p b k in
    let '(l, b, k) := r in
    let* r := buf_writes direct ps' b k in
    let '(l', b, k) := r in Ok (l ++ l', b, k)
  end.

(** ** Commands *)
(** An event, or a call of Write for the output. *)
Inductive wevent := WEvent (e : event) | WCall (c : call).
Definition wcmd (A : Type) := sink -> (list wevent * res A * sink)%type.
Definition wret {A} (a : A) : wcmd A := fun k => ([], Ok a, k).
Definition wbind {A B} (m : wcmd A) (f : A -> wcmd B) : wcmd B := fun k =>
  match m k with
  | (t, Ok a, k) => let '(t', r, k) := f a k in (t ++ t', r, k)
  | (t, Panic, k) => (t, Panic, k)
  | (t, Diverge, k) => (t, Diverge, k)
  end.
Notation "'dow' x '<-' m ';' f" := (wbind m (fun x => f)) (at level 200, x pattern, m at level 100, f at level 200, right associativity).
(** The parts that write no output. *)
Definition quiet {A} (m : cmd A) : wcmd A := fun k => let (t, r) := m in (map WEvent t, r, k).
(** w := bufio.NewWriter(Stdout); the calls; the deferred Flush, whose error is lost. *)
Definition buffered (direct : bool) (ps : list piece) : wcmd unit := fun k =>
  match buf_writes direct ps new_bufw k with
  | Ok (l, b, k) => let '(l', _, k) := buf_flush b k in (map WCall (l ++ l'), Ok tt, k)
  | Panic => ([], Panic, k)
  | Diverge => ([], Diverge, k)
  end.
(** Calls of fmt.Fprint and the like: one Write each, whose error is dropped. *)
Fixpoint unbuffered (ps : list bytes) : wcmd unit := fun k =>
  match ps with
  | [] => ([], Ok tt, k)
  | p :: ps' => let '(c, k) := sink_write k p in
                let '(t, r, k) := unbuffered ps' k in (WCall c :: t, r, k)
  end.

(** tokenize/cmd.go:178-193 printTokens: the calls of WriteString *)
Fixpoint token_pieces (tokens : list token) : list piece * res unit :=
  match tokens with
  | [] => ([(false, s2b "EOS" ++ nl)], Ok tt)
  | v :: tokens' =>
    if t_id v =? bos_eos_id then token_pieces tokens'
    else if class_eqb (t_class v) DUMMY then
      let (ps, r) := token_pieces tokens' in ((false, t_surface v) :: (false, nl) :: ps, r)
    else
      match features v with
      | Ok f => let (ps, r) := token_pieces tokens' in
                ((false, t_surface v) :: (false, tab) :: (false, join (s2b ",") (strings_list f)) :: (false, nl) :: ps, r)
      | Panic => ([(false, t_surface v); (false, tab)], Panic)
      | Diverge => ([(false, t_surface v); (false, tab)], Diverge)
      end
  end.
(** tokenize/cmd.go:195-219 printTokensJSON *)
Definition json_pieces (newer : bool) (tokens : list token) : list piece * res unit :=
  let head := if (0 <? length tokens)%nat then [(false, s2b "[" ++ nl)] else [] in
  match mapM new_token_data (filter (fun v => negb (class_eqb (t_class v) DUMMY)) tokens) with
  | Ok l => (head ++ [(true, join (s2b "," ++ nl) (map (marshal_token newer) l))] ++
             (if (0 <? length tokens)%nat then [(false, nl ++ s2b "]" ++ nl)] else []), Ok tt)
  | Panic => (head, Panic)
  | Diverge => (head, Diverge)
  end.
(** tokenize/cmd.go:166-173 *)
Definition tok_line_w (direct : bool) (w : world) (t : tokenizer) (mode : Z) (json : bool) (text : bytes) : wcmd (option cmd_err) :=
  dow tokens <- quiet (lift (analyze (w_ideo w) t text mode));
  let (ps, r) := if json then json_pieces (w_newer w) tokens else token_pieces tokens in
  dow _ <- buffered direct ps;
  dow _ <- quiet (lift r);
  wret None.
(** [scan_each] of Cmd.v *)
Fixpoint scan_each_w (fuel : nat) (split : split_func) (s : scanner) (r : reader)
    (body : bytes -> wcmd (option cmd_err)) : wcmd (option cmd_err) :=
  match fuel with
  | O => quiet (lift Diverge)
  | S f =>
    dow o <- quiet (lift (scan_step split s r));
    match o with
    | ScanToken t s' =>
      dow e <- body t;
      match e with
      | Some x => wret (Some x)
      | None => scan_each_w f split s' r body
      end
    | ScanMore s' r' =>
      dow _ <- quiet (map ERead (skipn (length (rd_log r)) (rd_log r')), Ok tt);
      scan_each_w f split s' r' body
    | ScanStop e => wret (option_map XScan (scanner_err e))
    end
  end.
Definition scan_file_w (split : split_func) (r : reader) (body : bytes -> wcmd (option cmd_err)) : wcmd (option cmd_err) :=
  scan_each_w (scan_fuel new_scanner r) split new_scanner r body.
(** tokenize/cmd.go:131-176 command *)
Definition tok_command_w (direct : bool) (w : world) (o : tok_opt) : wcmd (option cmd_err) :=
  dow d <- quiet (tok_dict w (to_dict o) (to_sysdict o) (to_simple o));
  match d with
  | inr e => wret (Some e)
  | inl d =>
    dow t <- quiet (make_tokenizer w d (to_udict o));
    match t with
    | inr e => wret (Some e)
    | inl t =>
      dow r <- quiet (open_input w (to_file o));
      match r with
      | inr e => wret (Some e)
      | inl r =>
        scan_file_w (if to_split o then scan_sentences default_splitter else scan_lines) r
                    (tok_line_w direct w t (select_mode (to_mode o)) (to_json o))
      end
    end
  end.
(** sentence/cmd.go:66-84: Fprintln makes one call. *)
Definition sen_line_w (text : bytes) : wcmd (option cmd_err) := dow _ <- unbuffered [text ++ nl]; wret None.
Definition sen_command_w (w : world) (file : bytes) : wcmd (option cmd_err) :=
  dow r <- quiet (open_input w file);
  match r with
  | inr e => wret (Some e)
  | inl r => scan_file_w (scan_sentences default_splitter) r sen_line_w
  end.
(** lattice.go:344-388: one call per line *)
Definition graph_lines {P} (addr : P -> bytes) (ss : list (gstmt P)) : list bytes :=
  [s2b "graph lattice {" ++ nl; s2b "dpi=48;" ++ nl;
   s2b "graph [style=filled, splines=true, overlap=false, fontsize=30, rankdir=LR]" ++ nl;
   s2b "edge [fontname=Helvetica, fontcolor=red, color=""#606060""]" ++ nl;
   s2b "node [shape=box, style=filled, fillcolor=""#e8e8f0"", fontname=Helvetica]" ++ nl] ++
  map (render addr) ss ++ [s2b "}" ++ nl].
(** lattice/cmd.go:105-148 command *)
Definition lat_command_w (w : world) (o : lat_opt) : wcmd (option cmd_err) :=
  dow d <- quiet (select_sysdict XNameType w (lo_dict o) false);
  match d with
  | inr e => wret (Some e)
  | inl d =>
    dow t <- quiet (make_tokenizer w d (lo_udict o));
    match t with
    | inr e => wret (Some e)
    | inl t =>
      dow ok <- quiet (if negb (bempty (lo_output o)) then do _ <- emit (ECreate (lo_output o)); cret (w_create w (lo_output o)) else cret true);
      if negb ok then wret (Some (XOpen (lo_output o)))
      else
        let mode := select_mode (lo_mode o) in
        dow tokens <- quiet (lift (analyze_graph (w_ideo w) t (lo_input o) mode));
        dow ss <- quiet (lift (graph_stmts (w_ideo w) t (lo_input o) mode));
        dow _ <- unbuffered (graph_lines (w_addr w) ss);
        dow _ <- (if lo_verbose o then quiet (lat_tokens (tl tokens)) else wret tt);
        wret None
    end
  end.
(** The Run functions; the messages for bad arguments are those of Cmd.v. *)
Definition tok_run_w (direct : bool) (w : world) (args : list bytes) : wcmd (option cmd_err) :=
  match tok_parse args with inr _ => quiet (tok_run w args) | inl o => tok_command_w direct w o end.
Definition sen_run_w (w : world) (args : list bytes) : wcmd (option cmd_err) :=
  match sen_parse args with inr _ => quiet (sen_run w args) | inl o => sen_command_w w o end.
Definition lat_run_w (w : world) (args : list bytes) : wcmd (option cmd_err) :=
  match lat_parse args with inr _ => quiet (lat_run w args) | inl o => lat_command_w w o end.

(** kagome.go:30-74, 117-144 *)
Definition subcommands_w (direct : bool) (w : world) : list (bytes * (list bytes -> wcmd (option cmd_err))) :=
  [(s2b "tokenize", tok_run_w direct w); (s2b "server", fun a => quiet (srv_run w a)); (s2b "lattice", lat_run_w w);
   (s2b "sentence", sen_run_w w); (s2b "version", fun a => quiet (version_run w a))].
Definition finish_w (m : wcmd (option cmd_err)) (k : sink) : list wevent * ending :=
  match m k with
  | (t, Ok None, _) => (t, Status 0)
  | (t, Ok (Some e), _) => (t ++ [WEvent (EErr (MError e))], Status 1)
  | (t, Panic, _) => (t, Crash)
  | (t, Diverge, _) => (t, Hang)
  end.
Definition kagome_w (direct : bool) (w : world) (argv : list bytes) (k : sink) : list wevent * ending :=
  let run := match argv with
             | _ :: name :: _ =>
               fold_left (fun run sc => if bytes_eqb name (fst sc) then Some (snd sc) else run) (subcommands_w direct w) None
             | _ => None
             end in
  match run with
  | Some run => finish_w (run (skipn 2 argv)) k
  | None =>
    match argv with
    | [] => ([], Crash)
    | _ :: options =>
      match tok_check options with
      | Some _ =>
        (map WEvent [EErr MTool; EErr MCommands; EErr MLine; EErr (MUsage (s2b "tokenize")); EErr (MDefaults (s2b "tokenize"))], Status 1)
      | None => finish_w (tok_run_w direct w options) k
      end
    end
  end.
