(** The texts on the standard error: the messages of Cmd.v as bytes.  kagome.go:76-115, the Usage
    and PrintDefaults functions of the commands, and the part of flag, fmt and path/filepath (Go
    standard library, not in /repo: modelled from the library's source) that they use. *)
From Verif Require Export Cmd Text.
Open Scope Z_scope.

(** What the texts depend on besides the arguments: strconv.IsPrint, os.Args[0], the version set by
    the linker, debug.ReadBuildInfo (the version of the main module; paths and versions of the
    dependencies), and the texts of errors that come from outside (os.Open, loading dictionaries,
    reading, serving). *)
Record texts := Texts {
  tx_printable : N -> bool;
  tx_argv0 : bytes;
  tx_version : bytes;
  tx_build : option (bytes * list (bytes * bytes));
  tx_outside : cmd_err -> bytes
}.

(** ** Package flag *)
(** FlagSet.VisitAll goes through the flags in the order of their names. *)
Fixpoint bytes_ltb (a b : bytes) : bool :=
  match a, b with
  | _, [] => false
  | [], _ :: _ => true
  | x :: a', y :: b' => if (b2n x =? b2n y)%N then bytes_ltb a' b' else (b2n x <? b2n y)%N
  end.
Fixpoint insert_flag (d : flag_def) (l : list flag_def) : list flag_def :=
  match l with
  | [] => [d]
  | e :: l' => if bytes_ltb (fd_name e) (fd_name d) then e :: insert_flag d l' else d :: l
  end.
Definition sort_flags (l : list flag_def) : list flag_def := fold_right insert_flag [] l.

(** FlagSet.PrintDefaults, for usage texts without back quotes and line feeds. *)
Definition default_text (printable : N -> bool) (d : flag_def) : bytes :=
  let head := s2b "  -" ++ fd_name d ++ match fd_default d with VString _ => s2b " string" | VBool _ => [] end in
  head ++ (if (length head <=? 4)%nat then tab else nl ++ s2b "    " ++ tab) ++ fd_usage d ++
  match fd_default d with
  | VString [] => []
  | VString s => s2b " (default " ++ go_quote printable s ++ s2b ")"
  | VBool false => []
  | VBool true => s2b " (default true)"
  end ++ nl.
Definition print_defaults (printable : N -> bool) (defs : list flag_def) : bytes :=
  concat (map (default_text printable) (sort_flags defs)).

(** The errors of FlagSet.Parse *)
Definition flag_text (printable : N -> bool) (e : flag_err) : bytes :=
  match e with
  | BadFlagSyntax a => s2b "bad flag syntax: " ++ a
  | FlagNotDefined n => s2b "flag provided but not defined: -" ++ n
  | HelpRequested => s2b "flag: help requested"
  | InvalidBool v n => s2b "invalid boolean value " ++ go_quote printable v ++ s2b " for -" ++ n ++ s2b ": parse error"
  | FlagNeedsArg n => s2b "flag needs an argument: -" ++ n
  end.
(** What FlagSet.Parse prints: the error (failf) and defaultUsage. *)
Definition parse_text (printable : N -> bool) (name : bytes) (defs : list flag_def) (e : flag_err) : bytes :=
  match e with HelpRequested => [] | _ => flag_text printable e ++ nl end ++
  s2b "Usage of " ++ name ++ s2b ":" ++ nl ++ print_defaults printable defs.

(** ** The commands *)
(** newOption of each command *)
Definition command_defs (name : bytes) : list flag_def :=
  if bytes_eqb name (s2b "tokenize") then tok_defs
  else if bytes_eqb name (s2b "server") then srv_defs
  else if bytes_eqb name (s2b "lattice") then lat_defs
  else if bytes_eqb name (s2b "sentence") then sen_defs
  else [].
(** tokenize/cmd.go:26-27, server/cmd.go:28, lattice/cmd.go:22, sentence/cmd.go:18: what follows the
    name of the command *)
Definition command_usage (name : bytes) : bytes :=
  if bytes_eqb name (s2b "tokenize") then
    s2b " [-file input_file] [-dict dic_file] [-userdict user_dic_file]" ++
    s2b " [-sysdict (ipa|uni)] [-simple false] [-mode (normal|search|extended)] [-split] [-json]"
  else if bytes_eqb name (s2b "server") then s2b " [-http=:6060] [-userdict userdic_file] [-dict (ipa|uni)]"
  else if bytes_eqb name (s2b "lattice") then
    s2b " [-udict userdict_file] [-dict (ipa|uni)] [-mode (normal|search|extended)] [-output output_file] [-v] sentence"
  else if bytes_eqb name (s2b "sentence") then s2b " [-file filename]"
  else [].
(** tokenize/cmd.go:233-235, server/cmd.go:150-152, lattice/cmd.go:162-164, sentence/cmd.go:98-100 Usage *)
Definition usage_text (name : bytes) : bytes := name ++ command_usage name ++ nl.
(** tokenize/cmd.go:238-241, server/cmd.go:155-158, lattice/cmd.go:167-170, sentence/cmd.go:103-106 PrintDefaults *)
Definition help_text (printable : N -> bool) (name : bytes) : bytes := print_defaults printable (command_defs name).

(** %v of a []string *)
Definition list_text (l : list bytes) : bytes := s2b "[" ++ join (s2b " ") l ++ s2b "]".
(** Error() of the errors of the commands *)
Fixpoint err_text (tx : texts) (e : cmd_err) : bytes :=
  match e with
  | XFlag e => flag_text (tx_printable tx) e
  | XArgs l => s2b "invalid argument: " ++ list_text l
  | XOption n v => s2b "invalid argument: -" ++ n ++ s2b " " ++ v
  | XNoInput => s2b "no option is specified"
  | XSilent => []
  | XDictType v => s2b "unknown dict type, " ++ v
  | XNameType v => s2b "unknown name type, " ++ v
  | XNew EmptyDictionary => s2b "empty dictionary"
  | XNew EmptyUserDictionary => s2b "empty user dictionary"
  | XScan ErrTooLong => s2b "bufio.Scanner: token too long"
  | XScan ErrNoProgress => s2b "multiple Read calls return no data or error"
  | XScan ErrAdvanceTooFar => s2b "bufio.Scanner: SplitFunc returns advance count beyond input"
  | XWrap p e => p ++ err_text tx e
  | _ => tx_outside tx e
  end.

(** ** kagome.go *)
(** filepath.Base, where the separator is / *)
Fixpoint drop_slashes (s : bytes) : bytes :=
  match s with b :: s' => if Byte.eqb b x2f then drop_slashes s' else s | [] => [] end.
Fixpoint until_slash (s : bytes) : bytes :=
  match s with b :: s' => if Byte.eqb b x2f then [] else b :: until_slash s' | [] => [] end.
Definition base (path : bytes) : bytes :=
  match path with
  | [] => s2b "."
  | _ => match rev (until_slash (drop_slashes (rev path))) with [] => s2b "/" | b => b end
  end.
(** kagome.go:79-82 Usage *)
Definition tool_text (argv0 : bytes) : bytes :=
  s2b "Japanese Morphological Analyzer -- github.com/ikawaha/kagome/v2" ++ nl ++
  s2b "usage: " ++ base argv0 ++ s2b " <command>" ++ nl.
(** kagome.go:30-73: the names and the descriptions *)
Definition descriptions : list (bytes * bytes) :=
  [(s2b "tokenize", s2b "command line tokenize"); (s2b "server", s2b "run tokenize server");
   (s2b "lattice", s2b "lattice viewer"); (s2b "sentence", s2b "tiny sentence splitter"); (s2b "version", s2b "show version")].
(** kagome.go:106-115 PrintDefaults; kagome.go:75 the default is the first *)
Definition command_text (c : bytes * bytes) : bytes :=
  if bytes_eqb (fst c) (match descriptions with d :: _ => fst d | [] => [] end)
  then s2b "   [" ++ fst c ++ s2b "] - " ++ snd c ++ s2b " (*default)" ++ nl
  else s2b "   " ++ fst c ++ s2b " - " ++ snd c ++ nl.
Definition commands_text : bytes := s2b "The commands are:" ++ nl ++ concat (map command_text descriptions).
(** kagome.go:85-103 ShowVersion *)
Definition dict_prefix : bytes := s2b "github.com/ikawaha/kagome-dict/".
Definition version_text (tx : texts) : bytes :=
  let version := match tx_build tx with
                 | Some (main, _) => if bempty (tx_version tx) then main else tx_version tx
                 | None => tx_version tx
                 end in
  let version := if bempty version then s2b "(devel)" else version in
  version ++ nl ++
  match tx_build tx with
  | None => []
  | Some (_, deps) =>
    concat (map (fun d => s2b "   " ++ skipn (length dict_prefix) (fst d) ++ s2b " " ++ snd d ++ nl)
                (filter (fun d => bytes_eqb (firstn (length dict_prefix) (fst d)) dict_prefix) deps))
  end.

(** ** The standard error *)
Definition message_text (tx : texts) (m : message) : bytes :=
  match m with
  | MParse name e => parse_text (tx_printable tx) name (command_defs name) e
  | MUsage name => usage_text name
  | MDefaults name => help_text (tx_printable tx) name
  | MTool => tool_text (tx_argv0 tx)
  | MCommands => commands_text
  | MLine => nl
  | MVersion => version_text tx
  | MError e => err_text tx e ++ nl
  | MText b => b
  end.
Definition stderr (tx : texts) (tr : list event) : bytes :=
  concat (map (fun e => match e with EErr m => message_text tx m | _ => [] end) tr).
