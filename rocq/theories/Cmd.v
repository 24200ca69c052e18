(** Model of kagome.go and of cmd/tokenize, cmd/sentence, cmd/lattice and the option part of
    cmd/server: what the program reads, writes and returns, as a trace of events. *)
From Verif Require Export Tokenizer Dot Json Scanner Splitter Flag.
Open Scope Z_scope.

(** ** Effects *)
(** Errors the commands return; error texts made by fmt are kept symbolic. *)
Inductive cmd_err :=
| XFlag (e : flag_err)                   (* error of FlagSet.Parse *)
| XArgs (l : list bytes)                 (* invalid argument: [...] *)
| XOption (name value : bytes)           (* invalid argument: -name value *)
| XNoInput                               (* no option is specified *)
| XSilent                                (* errors.New("") *)
| XDictType (value : bytes)              (* unknown dict type, ... *)
| XNameType (value : bytes)              (* unknown name type, ... *)
| XLoad (path : bytes)                   (* dict.LoadDictFile, dict.LoadShrink, dict.NewUserDict *)
| XNew (e : new_error)                   (* tokenizer.New *)
| XOpen (path : bytes)                   (* os.Open, os.OpenFile *)
| XScan (e : scan_err)                   (* bufio.Scanner *)
| XServer                                (* server error *)
| XWrap (prefix : bytes) (e : cmd_err).  (* fmt.Errorf(prefix + "%w", err) *)

(** Messages on the standard error; the texts of usage and help messages are kept symbolic. *)
Inductive message :=
| MParse (cmd : bytes) (e : flag_err)    (* printed by FlagSet.Parse itself *)
| MUsage (cmd : bytes)                   (* Usage of a subcommand *)
| MDefaults (cmd : bytes)                (* PrintDefaults of a subcommand *)
| MTool | MCommands | MLine              (* Usage, PrintDefaults of kagome; an empty line *)
| MVersion
| MError (e : cmd_err)
| MText (b : bytes).

Inductive event :=
| ELoadDict (path : bytes) (shrink : bool)
| ESysDict (name : bytes) (shrink : bool)
| ELoadUser (path : bytes)
| EOpen (path : bytes)
| ECreate (path : bytes)
| ERead (chunk : bytes)
| EOut (b : bytes)                       (* standard output *)
| EFile (path b : bytes)                 (* the file opened for output *)
| EErr (m : message).

(** What happens outside the program: the files, the dictionaries in them (None: an error), the
    embedded dictionaries, standard input, the addresses of lattice nodes, the version of
    encoding/json, and serving (cmd/server, modelled in Server.v). *)
Record world := World {
  w_load : bytes -> bool -> option dict;
  w_ipa : bool -> dict;
  w_uni : bool -> dict;
  w_user : bytes -> option udict;
  w_open : bytes -> option reader;
  w_create : bytes -> bool;
  w_stdin : reader;
  w_ideo : ideographic;
  w_addr : coord -> bytes;
  w_newer : bool;
  w_serve : bytes -> tokenizer -> list event * res (option cmd_err)
}.

(** Events so far, and how the call ended. *)
Definition cmd (A : Type) := (list event * res A)%type.
Definition cret {A} (a : A) : cmd A := ([], Ok a).
Definition cbind {A B} (m : cmd A) (f : A -> cmd B) : cmd B :=
  match m with
  | (t, Ok a) => let (t', r) := f a in (t ++ t', r)
  | (t, Panic) => (t, Panic)
  | (t, Diverge) => (t, Diverge)
  end.
Definition emit (e : event) : cmd unit := ([e], Ok tt).
Definition lift {A} (r : res A) : cmd A := ([], r).
Notation "'do' x '<-' m ';' f" := (cbind m (fun x => f)) (at level 200, x pattern, m at level 100, f at level 200, right associativity).

Definition bempty (b : bytes) : bool := (length b =? 0)%nat.

(** ** Things the commands share *)
(** for s.Scan() { body(s.Text()) }; return s.Err(): as [scan_all] in Scanner.v, with the effects. *)
Fixpoint scan_each (fuel : nat) (split : split_func) (s : scanner) (r : reader)
    (body : bytes -> cmd (option cmd_err)) : cmd (option cmd_err) :=
  match fuel with
  | O => lift Diverge
  | S f =>
    do o <- lift (scan_step split s r);
    match o with
    | ScanToken t s' =>
      do e <- body t;
      match e with
      | Some x => cret (Some x)
      | None => scan_each f split s' r body
      end
    | ScanMore s' r' =>
      do _ <- (map ERead (skipn (length (rd_log r)) (rd_log r')), Ok tt);
      scan_each f split s' r' body
    | ScanStop e => cret (option_map XScan (scanner_err e))
    end
  end.
Definition scan_file (split : split_func) (r : reader) (body : bytes -> cmd (option cmd_err)) : cmd (option cmd_err) :=
  scan_each (scan_fuel new_scanner r) split new_scanner r body.

(** tokenize/cmd.go:119-129, lattice/cmd.go:93-103 selectMode *)
Definition select_mode (mode : bytes) : Z :=
  if bytes_eqb mode (s2b "normal") then mode_normal
  else if bytes_eqb mode (s2b "search") then mode_search
  else if bytes_eqb mode (s2b "extended") then mode_extended
  else mode_normal.

(** tokenize/cmd.go:137-147, lattice/cmd.go:110-121, server/cmd.go:92-103 *)
Definition make_tokenizer (w : world) (d : dict) (udict : bytes) : cmd (tokenizer + cmd_err) :=
  do opt <- (if negb (bempty udict) then
               do _ <- emit (ELoadUser udict);
               match w_user w udict with
               | Some u => cret (inl (OptUserDict (Some u)))
               | None => cret (inr (XLoad udict))
               end
             else cret (inl OptNop));
  match opt with
  | inr e => cret (inr e)
  | inl opt =>
    match new_tokenizer (Some d) [opt] with
    | inl t => cret (inl t)
    | inr e => cret (inr (XNew e))
    end
  end.

(** lattice/cmd.go:83-91, server/cmd.go:77-85 selectDict, and the same switch in tokenize/cmd.go:104-116 *)
Definition select_sysdict (unknown : bytes -> cmd_err) (w : world) (name : bytes) (shrink : bool) : cmd (dict + cmd_err) :=
  if bytes_eqb name (s2b "ipa") then do _ <- emit (ESysDict name shrink); cret (inl (w_ipa w shrink))
  else if bytes_eqb name (s2b "uni") then do _ <- emit (ESysDict name shrink); cret (inl (w_uni w shrink))
  else cret (inr (unknown name)).

(** Input: os.Stdin or the named file. *)
Definition open_input (w : world) (file : bytes) : cmd (reader + cmd_err) :=
  if negb (bempty file) then
    do _ <- emit (EOpen file);
    match w_open w file with Some r => cret (inl r) | None => cret (inr (XOpen file)) end
  else cret (inl (w_stdin w)).

(** What FlagSet.Parse prints on an error. *)
Definition report (name : bytes) (e : flag_err) : cmd unit := emit (EErr (MParse name e)).

(** ** cmd/tokenize *)
(** tokenize/cmd.go:38-48 *)
Record tok_opt := TokOpt {
  to_file : bytes; to_dict : bytes; to_udict : bytes; to_sysdict : bytes; to_simple : bool;
  to_mode : bytes; to_split : bool; to_json : bool
}.
(** tokenize/cmd.go:53-69 newOption: the flags and their defaults *)
Definition tok_defs : list flag_def :=
  [FlagDef (s2b "file") (VString []) (s2b "input file");
   FlagDef (s2b "dict") (VString []) (s2b "dict");
   FlagDef (s2b "udict") (VString []) (s2b "user dict");
   FlagDef (s2b "sysdict") (VString (s2b "ipa")) (s2b "system dict type (ipa|uni)");
   FlagDef (s2b "simple") (VBool false) (s2b "display abbreviated dictionary contents");
   FlagDef (s2b "mode") (VString (s2b "normal")) (s2b "tokenize mode (normal|search|extended)");
   FlagDef (s2b "split") (VBool false) (s2b "use tiny sentence splitter");
   FlagDef (s2b "json") (VBool false) (s2b "outputs in JSON format")].
Definition tok_formal : list (bytes * flag_kind) := map flag_formal tok_defs.
Definition tok_set (o : tok_opt) (a : bytes * flag_value) : tok_opt :=
  let '(TokOpt file dict udict sysdict simple mode split json) := o in
  let (n, v) := a in
  match v with
  | VString s =>
    if bytes_eqb n (s2b "file") then TokOpt s dict udict sysdict simple mode split json
    else if bytes_eqb n (s2b "dict") then TokOpt file s udict sysdict simple mode split json
    else if bytes_eqb n (s2b "udict") then TokOpt file dict s sysdict simple mode split json
    else if bytes_eqb n (s2b "sysdict") then TokOpt file dict udict s simple mode split json
    else if bytes_eqb n (s2b "mode") then TokOpt file dict udict sysdict simple s split json
    else o
  | VBool b =>
    if bytes_eqb n (s2b "simple") then TokOpt file dict udict sysdict b mode split json
    else if bytes_eqb n (s2b "split") then TokOpt file dict udict sysdict simple mode b json
    else if bytes_eqb n (s2b "json") then TokOpt file dict udict sysdict simple mode split b
    else o
  end.
Definition tok_default : tok_opt :=
  fold_left tok_set (map flag_preset tok_defs) (TokOpt [] [] [] [] false [] false false).

Definition bad_mode (mode : bytes) : bool :=
  negb (bempty mode) && negb (bytes_eqb mode (s2b "normal")) &&
  negb (bytes_eqb mode (s2b "search")) && negb (bytes_eqb mode (s2b "extended")).
Definition bad_sysdict (name : bytes) : bool :=
  negb (bempty name) && negb (bytes_eqb name (s2b "ipa")) && negb (bytes_eqb name (s2b "uni")).

(** tokenize/cmd.go:71-86 option.parse *)
Definition tok_parse (args : list bytes) : tok_opt + cmd_err :=
  let (l, r) := parse_flags tok_formal args in
  let o := fold_left tok_set l tok_default in
  match r with
  | inr e => inr (XFlag e)
  | inl rest =>
    if negb (length rest =? 0)%nat then inr (XArgs rest)
    else if bad_mode (to_mode o) then inr (XOption (s2b "mode") (to_mode o))
    else if bad_sysdict (to_sysdict o) then inr (XOption (s2b "sysdict") (to_sysdict o))
    else inl o
  end.
(** What Parse prints (to its output) while failing. *)
Definition parse_report (name : bytes) (e : cmd_err) : cmd unit :=
  match e with XFlag e => report name e | _ => cret tt end.

(** tokenize/cmd.go:89-95 OptionCheck *)
Definition tok_check (args : list bytes) : option cmd_err :=
  match tok_parse args with inl _ => None | inr e => Some (XWrap (s2b "tokenize, ") e) end.

(** tokenize/cmd.go:97-117 selectDict *)
Definition tok_dict (w : world) (path sysdict : bytes) (shrink : bool) : cmd (dict + cmd_err) :=
  if negb (bempty path) then
    do _ <- emit (ELoadDict path shrink);
    match w_load w path shrink with Some d => cret (inl d) | None => cret (inr (XLoad path)) end
  else select_sysdict XDictType w sysdict shrink.

(** tokenize/cmd.go:178-193 printTokens: the bytes written (flushed even after a panic) *)
Fixpoint print_tokens (tokens : list token) : bytes * res unit :=
  match tokens with
  | [] => (s2b "EOS" ++ nl, Ok tt)
  | v :: tokens' =>
    if t_id v =? bos_eos_id then print_tokens tokens'
    else if class_eqb (t_class v) DUMMY then
      let (b, r) := print_tokens tokens' in (t_surface v ++ nl ++ b, r)
    else
      match features v with
      | Ok f => let (b, r) := print_tokens tokens' in (t_surface v ++ tab ++ join (s2b ",") (strings_list f) ++ nl ++ b, r)
      | Panic => (t_surface v ++ tab, Panic)
      | Diverge => (t_surface v ++ tab, Diverge)
      end
  end.

(** tokenize/cmd.go:195-219 printTokensJSON; json.Marshal does not fail on TokenData *)
Definition print_tokens_json (newer : bool) (tokens : list token) : bytes * res unit :=
  let head := if (0 <? length tokens)%nat then s2b "[" ++ nl else [] in
  match mapM new_token_data (filter (fun v => negb (class_eqb (t_class v) DUMMY)) tokens) with
  | Ok l => (head ++ join (s2b "," ++ nl) (map (marshal_token newer) l) ++
             (if (0 <? length tokens)%nat then nl ++ s2b "]" ++ nl else []), Ok tt)
  | Panic => (head, Panic)
  | Diverge => (head, Diverge)
  end.

(** tokenize/cmd.go:166-173: the body of the loop *)
Definition tok_line (w : world) (t : tokenizer) (mode : Z) (json : bool) (text : bytes) : cmd (option cmd_err) :=
  do tokens <- lift (analyze (w_ideo w) t text mode);
  let (b, r) := if json then print_tokens_json (w_newer w) tokens else print_tokens tokens in
  do _ <- emit (EOut b);
  do _ <- lift r;
  cret None.

(** tokenize/cmd.go:131-176 command *)
Definition tok_command (w : world) (o : tok_opt) : cmd (option cmd_err) :=
  do d <- tok_dict w (to_dict o) (to_sysdict o) (to_simple o);
  match d with
  | inr e => cret (Some e)
  | inl d =>
    do t <- make_tokenizer w d (to_udict o);
    match t with
    | inr e => cret (Some e)
    | inl t =>
      do r <- open_input w (to_file o);
      match r with
      | inr e => cret (Some e)
      | inl r =>
        scan_file (if to_split o then scan_sentences default_splitter else scan_lines) r
                  (tok_line w t (select_mode (to_mode o)) (to_json o))
      end
    end
  end.

(** tokenize/cmd.go:222-230 Run *)
Definition tok_run (w : world) (args : list bytes) : cmd (option cmd_err) :=
  match tok_parse args with
  | inr e =>
    do _ <- parse_report (s2b "tokenize") e;
    do _ <- emit (EErr (MUsage (s2b "tokenize")));
    do _ <- emit (EErr (MDefaults (s2b "tokenize")));
    cret (Some XSilent)
  | inl o => tok_command w o
  end.

(** ** cmd/sentence *)
(** sentence/cmd.go:36-55 newOption, parse *)
Definition sen_defs : list flag_def := [FlagDef (s2b "file") (VString []) (s2b "input file")].
Definition sen_formal : list (bytes * flag_kind) := map flag_formal sen_defs.
Definition sen_set (o : bytes) (a : bytes * flag_value) : bytes :=
  match a with (n, VString s) => if bytes_eqb n (s2b "file") then s else o | _ => o end.
Definition sen_default : bytes := fold_left sen_set (map flag_preset sen_defs) [].
Definition sen_parse (args : list bytes) : bytes + cmd_err :=
  let (l, r) := parse_flags sen_formal args in
  let o := fold_left sen_set l sen_default in
  match r with
  | inr e => inr (XFlag e)
  | inl rest => if negb (length rest =? 0)%nat then inr (XArgs rest) else inl o
  end.
(** sentence/cmd.go:58-64 OptionCheck *)
Definition sen_check (args : list bytes) : option cmd_err :=
  match sen_parse args with inl _ => None | inr e => Some (XWrap (s2b "sentence, ") e) end.
Definition sen_line (text : bytes) : cmd (option cmd_err) := do _ <- emit (EOut (text ++ nl)); cret None.
(** sentence/cmd.go:66-84 command *)
Definition sen_command (w : world) (file : bytes) : cmd (option cmd_err) :=
  do r <- open_input w file;
  match r with
  | inr e => cret (Some e)
  | inl r => scan_file (scan_sentences default_splitter) r sen_line
  end.
(** sentence/cmd.go:87-95 Run: Parse prints to io.Discard *)
Definition sen_run (w : world) (args : list bytes) : cmd (option cmd_err) :=
  match sen_parse args with
  | inr e =>
    do _ <- emit (EErr (MUsage (s2b "sentence")));
    do _ <- emit (EErr (MDefaults (s2b "sentence")));
    cret (Some (XWrap (s2b "sentence, ") e))
  | inl o => sen_command w o
  end.

(** ** cmd/lattice *)
(** lattice/cmd.go:28-36 *)
Record lat_opt := LatOpt { lo_udict : bytes; lo_dict : bytes; lo_mode : bytes; lo_output : bytes; lo_verbose : bool; lo_input : bytes }.
(** lattice/cmd.go:41-54 newOption *)
Definition lat_defs : list flag_def :=
  [FlagDef (s2b "udict") (VString []) (s2b "user dict");
   FlagDef (s2b "dict") (VString (s2b "ipa")) (s2b "dict type (ipa|uni)");
   FlagDef (s2b "mode") (VString (s2b "normal")) (s2b "tokenize mode (normal|search|extended)");
   FlagDef (s2b "output") (VString []) (s2b "output file");
   FlagDef (s2b "v") (VBool false) (s2b "verbose mode")].
Definition lat_formal : list (bytes * flag_kind) := map flag_formal lat_defs.
Definition lat_set (o : lat_opt) (a : bytes * flag_value) : lat_opt :=
  let '(LatOpt udict dict mode output verbose input) := o in
  let (n, v) := a in
  match v with
  | VString s =>
    if bytes_eqb n (s2b "udict") then LatOpt s dict mode output verbose input
    else if bytes_eqb n (s2b "dict") then LatOpt udict s mode output verbose input
    else if bytes_eqb n (s2b "mode") then LatOpt udict dict s output verbose input
    else if bytes_eqb n (s2b "output") then LatOpt udict dict mode s verbose input
    else o
  | VBool b => if bytes_eqb n (s2b "v") then LatOpt udict dict mode output b input else o
  end.
Definition lat_default : lat_opt := fold_left lat_set (map flag_preset lat_defs) (LatOpt [] [] [] [] false []).
(** lattice/cmd.go:56-72 option.parse *)
Definition lat_parse (args : list bytes) : lat_opt + cmd_err :=
  let (l, r) := parse_flags lat_formal args in
  let o := fold_left lat_set l lat_default in
  match r with
  | inr e => inr (XFlag e)
  | inl rest =>
    if (length rest =? 0)%nat then inr XNoInput
    else if bad_sysdict (lo_dict o) then inr (XOption (s2b "dict") (lo_dict o))
    else if bad_mode (lo_mode o) then inr (XOption (s2b "mode") (lo_mode o))
    else inl (LatOpt (lo_udict o) (lo_dict o) (lo_mode o) (lo_output o) (lo_verbose o) (join (s2b " ") rest))
  end.
(** lattice/cmd.go:75-81 OptionCheck *)
Definition lat_check (args : list bytes) : option cmd_err :=
  match lat_parse args with inl _ => None | inr e => Some (XWrap (s2b "lattice, ") e) end.
(** lattice/cmd.go:137-145: the tokens but the first *)
Definition lat_token (tok : token) : cmd unit :=
  do f <- lift (features tok);
  if class_eqb (t_class tok) DUMMY then emit (EErr (MText (t_surface tok ++ nl)))
  else emit (EErr (MText (t_surface tok ++ tab ++ join (s2b ",") (strings_list f) ++ nl))).
Fixpoint lat_tokens (ts : list token) : cmd unit :=
  match ts with
  | [] => cret tt
  | tok :: ts' => do _ <- lat_token tok; lat_tokens ts'
  end.
(** lattice/cmd.go:105-148 command.  When AnalyzeGraph panics half way the part of the graph already
    written is left out. *)
Definition lat_command (w : world) (o : lat_opt) : cmd (option cmd_err) :=
  do d <- select_sysdict XNameType w (lo_dict o) false;
  match d with
  | inr e => cret (Some e)
  | inl d =>
    do t <- make_tokenizer w d (lo_udict o);
    match t with
    | inr e => cret (Some e)
    | inl t =>
      do ok <- (if negb (bempty (lo_output o)) then do _ <- emit (ECreate (lo_output o)); cret (w_create w (lo_output o)) else cret true);
      if negb ok then cret (Some (XOpen (lo_output o)))
      else
        let mode := select_mode (lo_mode o) in
        do tokens <- lift (analyze_graph (w_ideo w) t (lo_input o) mode);
        do text <- lift (graph_text (w_addr w) (w_ideo w) t (lo_input o) mode);
        do _ <- emit (if bempty (lo_output o) then EOut text else EFile (lo_output o) text);
        do _ <- (if lo_verbose o then lat_tokens (tl tokens) else cret tt);
        cret None
    end
  end.
(** lattice/cmd.go:151-159 Run *)
Definition lat_run (w : world) (args : list bytes) : cmd (option cmd_err) :=
  match lat_parse args with
  | inr e =>
    do _ <- parse_report (s2b "lattice") e;
    do _ <- emit (EErr (MUsage (s2b "lattice")));
    do _ <- emit (EErr (MDefaults (s2b "lattice")));
    cret (Some e)
  | inl o => lat_command w o
  end.

(** ** cmd/server: options *)
Record srv_opt := SrvOpt { so_http : bytes; so_dict : bytes; so_udict : bytes }.
(** server/cmd.go:42-52 newOption *)
Definition srv_defs : list flag_def :=
  [FlagDef (s2b "http") (VString (s2b ":6060")) (s2b "HTTP service address");
   FlagDef (s2b "userdict") (VString []) (s2b "user dict");
   FlagDef (s2b "dict") (VString (s2b "ipa")) (s2b "system dict type (ipa|uni)")].
Definition srv_formal : list (bytes * flag_kind) := map flag_formal srv_defs.
Definition srv_set (o : srv_opt) (a : bytes * flag_value) : srv_opt :=
  let '(SrvOpt http dict udict) := o in
  match a with
  | (n, VString s) =>
    if bytes_eqb n (s2b "http") then SrvOpt s dict udict
    else if bytes_eqb n (s2b "userdict") then SrvOpt http dict s
    else if bytes_eqb n (s2b "dict") then SrvOpt http s udict
    else o
  | _ => o
  end.
Definition srv_default : srv_opt := fold_left srv_set (map flag_preset srv_defs) (SrvOpt [] [] []).
(** server/cmd.go:54-66 option.parse *)
Definition srv_parse (args : list bytes) : srv_opt + cmd_err :=
  let (l, r) := parse_flags srv_formal args in
  let o := fold_left srv_set l srv_default in
  match r with
  | inr e => inr (XFlag e)
  | inl rest =>
    if negb (length rest =? 0)%nat then inr (XArgs rest)
    else if bad_sysdict (so_dict o) then inr (XOption (s2b "dict") (so_dict o))
    else inl o
  end.
(** server/cmd.go:69-75 OptionCheck *)
Definition srv_check (args : list bytes) : option cmd_err :=
  match srv_parse args with inl _ => None | inr e => Some (XWrap (s2b "server, ") e) end.
(** server/cmd.go:87-128 command, up to serving *)
Definition srv_command (w : world) (o : srv_opt) : cmd (option cmd_err) :=
  do d <- select_sysdict XNameType w (so_dict o) false;
  match d with
  | inr e => cret (Some e)
  | inl d =>
    do t <- make_tokenizer w d (so_udict o);
    match t with
    | inr e => cret (Some e)
    | inl t => w_serve w (so_http o) t
    end
  end.
(** server/cmd.go:131-147 Run *)
Definition srv_run (w : world) (args : list bytes) : cmd (option cmd_err) :=
  match srv_parse args with
  | inr e =>
    do _ <- parse_report (s2b "server") e;
    do _ <- emit (EErr (MUsage (s2b "server")));
    do _ <- emit (EErr (MDefaults (s2b "server")));
    cret (Some (XWrap (s2b "option parse error: ") e))
  | inl o => srv_command w o
  end.

(** ** kagome.go *)
(** kagome.go:63-73 the version subcommand *)
Definition version_run (w : world) (args : list bytes) : cmd (option cmd_err) :=
  do _ <- emit (EErr MVersion); cret None.
(** kagome.go:30-74 *)
Definition subcommands (w : world) : list (bytes * (list bytes -> cmd (option cmd_err))) :=
  [(s2b "tokenize", tok_run w); (s2b "server", srv_run w); (s2b "lattice", lat_run w);
   (s2b "sentence", sen_run w); (s2b "version", version_run w)].

(** How the process ends: its status, a panic, or not at all. *)
Inductive ending := Status (n : Z) | Crash | Hang.

(** kagome.go:140-143 *)
Definition finish (m : cmd (option cmd_err)) : list event * ending :=
  match m with
  | (t, Ok None) => (t, Status 0)
  | (t, Ok (Some e)) => (t ++ [EErr (MError e)], Status 1)
  | (t, Panic) => (t, Crash)
  | (t, Diverge) => (t, Hang)
  end.

(** kagome.go:117-144 main; the arguments include the program's name. *)
Definition kagome (w : world) (argv : list bytes) : list event * ending :=
  let run := match argv with
             | _ :: name :: _ =>
               fold_left (fun run sc => if bytes_eqb name (fst sc) then Some (snd sc) else run) (subcommands w) None
             | _ => None
             end in
  match run with
  | Some run => finish (run (skipn 2 argv))
  | None =>
    match argv with
    | [] => ([], Crash)                       (* os.Args[1:] out of range *)
    | _ :: options =>
      match tok_check options with
      | Some _ =>
        ([EErr MTool; EErr MCommands; EErr MLine; EErr (MUsage (s2b "tokenize")); EErr (MDefaults (s2b "tokenize"))], Status 1)
      | None => finish (tok_run w options)
      end
    end
  end.
