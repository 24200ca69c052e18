(** What the command line means, independently of the parser. *)
From Verif Require Export Cmd SpecOut SpecSent SpecJson SpecFeat.
Open Scope Z_scope.

(** ** Traces *)
(** The bytes written to the standard output, and the bytes read. *)
Definition outs (tr : list event) : bytes := concat (map (fun e => match e with EOut b => b | _ => [] end) tr).
Definition reads (tr : list event) : bytes := concat (map (fun e => match e with ERead b => b | _ => [] end) tr).
(** Only messages on the standard error. *)
Definition only_messages (tr : list event) : Prop := Forall (fun e => match e with EErr _ => True | _ => False end) tr.

(** Things are opened, loaded or created, but nothing is read or written. *)
Definition quiet (tr : list event) : Prop :=
  Forall (fun e => match e with ELoadDict _ _ | ESysDict _ _ | ELoadUser _ | EOpen _ | ECreate _ => True | _ => False end) tr.

(** ** The syntax of flags (documentation of package flag) *)
Definition dashed (a body : bytes) : Prop := a = x2d :: body \/ a = x2d :: x2d :: body.
Definition plain_arg (a : bytes) : Prop := a = [x2d] \/ ~ exists a', a = x2d :: a'.
Definition bool_word (v : bytes) (b : bool) : Prop :=
  if b then In v [s2b "1"; s2b "t"; s2b "T"; s2b "true"; s2b "TRUE"; s2b "True"]
  else In v [s2b "0"; s2b "f"; s2b "F"; s2b "false"; s2b "FALSE"; s2b "False"].

(** [args] sets the flags as listed and leaves the arguments [rest]. *)
Inductive command_line (flags : list (bytes * flag_kind)) : list bytes -> list (bytes * flag_value) -> list bytes -> Prop :=
| cl_none : command_line flags [] [] []
| cl_rest a args : plain_arg a -> command_line flags (a :: args) [] (a :: args)
| cl_end args : command_line flags (s2b "--" :: args) [] args
| cl_str n a v args l rest : In (n, FString) flags -> dashed a n ->
    command_line flags args l rest -> command_line flags (a :: v :: args) ((n, VString v) :: l) rest
| cl_str_eq n a v args l rest : In (n, FString) flags -> dashed a (n ++ s2b "=" ++ v) ->
    command_line flags args l rest -> command_line flags (a :: args) ((n, VString v) :: l) rest
| cl_bool n a args l rest : In (n, FBool) flags -> dashed a n ->
    command_line flags args l rest -> command_line flags (a :: args) ((n, VBool true) :: l) rest
| cl_bool_eq n a v b args l rest : In (n, FBool) flags -> dashed a (n ++ s2b "=" ++ v) -> bool_word v b ->
    command_line flags args l rest -> command_line flags (a :: args) ((n, VBool b) :: l) rest.

(** A flag has the value it was given last, or its default. *)
Definition setting (l : list (bytes * flag_value)) (name : bytes) (default v : flag_value) : Prop :=
  (exists l1 l2, l = l1 ++ (name, v) :: l2 /\ forall x, ~ In (name, x) l2) \/
  (v = default /\ forall x, ~ In (name, x) l).

(** ** tokenize *)
Definition tok_flags : list (bytes * flag_kind) :=
  [(s2b "file", FString); (s2b "dict", FString); (s2b "udict", FString); (s2b "sysdict", FString); (s2b "mode", FString);
   (s2b "simple", FBool); (s2b "split", FBool); (s2b "json", FBool)].
Definition mode_words : list bytes := [[]; s2b "normal"; s2b "search"; s2b "extended"].
Definition dict_words : list bytes := [[]; s2b "ipa"; s2b "uni"].
(** The arguments are accepted and mean the options [o]. *)
Definition tok_args (args : list bytes) (o : tok_opt) : Prop :=
  exists l, command_line tok_flags args l [] /\
    setting l (s2b "file") (VString []) (VString (to_file o)) /\
    setting l (s2b "dict") (VString []) (VString (to_dict o)) /\
    setting l (s2b "udict") (VString []) (VString (to_udict o)) /\
    setting l (s2b "sysdict") (VString (s2b "ipa")) (VString (to_sysdict o)) /\
    setting l (s2b "mode") (VString (s2b "normal")) (VString (to_mode o)) /\
    setting l (s2b "simple") (VBool false) (VBool (to_simple o)) /\
    setting l (s2b "split") (VBool false) (VBool (to_split o)) /\
    setting l (s2b "json") (VBool false) (VBool (to_json o)) /\
    In (to_mode o) mode_words /\ In (to_sysdict o) dict_words.

(** The mode a word names. *)
Definition mode_of (word : bytes) (mode : Z) : Prop :=
  (word = s2b "normal" /\ mode = mode_normal) \/ (word = s2b "search" /\ mode = mode_search) \/
  (word = s2b "extended" /\ mode = mode_extended) \/ (word = [] /\ mode = mode_normal).
(** The embedded dictionary a word names, in full or shortened. *)
Definition embedded (w : world) (word : bytes) (shrink : bool) (d : dict) (tr : list event) : Prop :=
  tr = [ESysDict word shrink] /\
  ((word = s2b "ipa" /\ d = w_ipa w shrink) \/ (word = s2b "uni" /\ d = w_uni w shrink)).
(** The dictionary of the tokenize command. *)
Definition tok_uses (w : world) (o : tok_opt) (d : dict) (tr : list event) : Prop :=
  (to_dict o <> [] /\ w_load w (to_dict o) (to_simple o) = Some d /\ tr = [ELoadDict (to_dict o) (to_simple o)]) \/
  (to_dict o = [] /\ embedded w (to_sysdict o) (to_simple o) d tr).
(** The user dictionary, if one is named. *)
Definition user_uses (w : world) (path : bytes) (u : option udict) (tr : list event) : Prop :=
  (path = [] /\ u = None /\ tr = []) \/
  (path <> [] /\ exists ud, w_user w path = Some ud /\ u = Some ud /\ tr = [ELoadUser path]).
(** The input: the named file or the standard input. *)
Definition input_uses (w : world) (path : bytes) (r : reader) (tr : list event) : Prop :=
  (path = [] /\ r = w_stdin w /\ tr = []) \/ (path <> [] /\ w_open w path = Some r /\ tr = [EOpen path]).

(** ** What tokenize prints for one text *)
Definition commas (l : list bytes) : bytes := match l with [] => [] | a :: l' => a ++ concat (map (fun b => s2b "," ++ b) l') end.
Inductive token_line : token -> bytes -> Prop :=
| tl_dummy tk : t_class tk = DUMMY -> token_line tk (t_surface tk ++ [x0a])
| tl_word tk fs : t_class tk <> DUMMY -> features tk = Ok fs ->
    token_line tk (t_surface tk ++ [x09] ++ commas (strings_list fs) ++ [x0a]).
Definition text_block (ts : list token) (b : bytes) : Prop :=
  exists ls, Forall2 token_line (no_markers ts) ls /\ b = concat ls ++ s2b "EOS" ++ [x0a].
(** In JSON: the data of the tokens that are not DUMMY. *)
Definition not_dummy (ts : list token) : list token := filter (fun t => negb (class_eqb (t_class t) DUMMY)) ts.
Definition json_block (ts : list token) (b : bytes) : Prop :=
  exists tds, Forall2 (fun tk td => new_token_data tk = Ok td) (not_dummy ts) tds /\ json_text b (JArr (map token_value tds)).

(** The whole lines of a text, and what follows the last line feed. *)
Definition whole_lines (b : bytes) (raw : list bytes) (rest : bytes) : Prop :=
  b = concat (map (fun l => l ++ [x0a]) raw) ++ rest /\ Forall (fun l => ~ In x0a l) raw /\ ~ In x0a rest.

(** ** lattice, server and sentence *)
Definition lat_flags : list (bytes * flag_kind) :=
  [(s2b "udict", FString); (s2b "dict", FString); (s2b "mode", FString); (s2b "output", FString); (s2b "v", FBool)].
Definition spaces (l : list bytes) : bytes := match l with [] => [] | a :: l' => a ++ concat (map (fun b => s2b " " ++ b) l') end.
Definition lat_args (args : list bytes) (o : lat_opt) : Prop :=
  exists l rest, command_line lat_flags args l rest /\ rest <> [] /\ lo_input o = spaces rest /\
    setting l (s2b "udict") (VString []) (VString (lo_udict o)) /\
    setting l (s2b "dict") (VString (s2b "ipa")) (VString (lo_dict o)) /\
    setting l (s2b "mode") (VString (s2b "normal")) (VString (lo_mode o)) /\
    setting l (s2b "output") (VString []) (VString (lo_output o)) /\
    setting l (s2b "v") (VBool false) (VBool (lo_verbose o)) /\
    In (lo_mode o) mode_words /\ In (lo_dict o) dict_words.
Definition srv_flags : list (bytes * flag_kind) := [(s2b "http", FString); (s2b "userdict", FString); (s2b "dict", FString)].
Definition srv_args (args : list bytes) (o : srv_opt) : Prop :=
  exists l, command_line srv_flags args l [] /\
    setting l (s2b "http") (VString (s2b ":6060")) (VString (so_http o)) /\
    setting l (s2b "userdict") (VString []) (VString (so_udict o)) /\
    setting l (s2b "dict") (VString (s2b "ipa")) (VString (so_dict o)) /\
    In (so_dict o) dict_words.
Definition sen_args (args : list bytes) (file : bytes) : Prop :=
  exists l, command_line [(s2b "file", FString)] args l [] /\ setting l (s2b "file") (VString []) (VString file).

(** ** The usage lines the commands print *)
Inductive usage_item :=
| UArg (name : bytes)                        (* [-name value] *)
| UChoice (name : bytes) (words : list bytes)  (* [-name (a|b)] and, with one word, [-name a] *)
| UEq (name : bytes)                         (* [-name=value] *)
| UFlag (name : bytes).                      (* [-name] *)
Definition usage_part (i : usage_item) (p : list bytes) : Prop :=
  match i with
  | UArg n => exists v, p = [s2b "-" ++ n; v]
  | UChoice n ws => exists v, In v ws /\ p = [s2b "-" ++ n; v]
  | UEq n => exists v, p = [s2b "-" ++ n ++ s2b "=" ++ v]
  | UFlag n => p = [s2b "-" ++ n]
  end.
(** The optional parts of a usage line, each present or not. *)
Definition usage (items : list usage_item) (args : list bytes) : Prop :=
  exists parts, Forall2 (fun i p => p = [] \/ usage_part i p) items parts /\ args = concat parts.
(** tokenize/cmd.go:26-27: [-file input_file] [-dict dic_file] [-userdict user_dic_file] [-sysdict (ipa|uni)]
    [-simple false] [-mode (normal|search|extended)] [-split] [-json] *)
Definition tok_usage : list usage_item :=
  [UArg (s2b "file"); UArg (s2b "dict"); UArg (s2b "userdict"); UChoice (s2b "sysdict") [s2b "ipa"; s2b "uni"]; UChoice (s2b "simple") [s2b "false"];
   UChoice (s2b "mode") [s2b "normal"; s2b "search"; s2b "extended"]; UFlag (s2b "split"); UFlag (s2b "json")].
(** server/cmd.go:28: [-http=:6060] [-userdict userdic_file] [-dict (ipa|uni)] *)
Definition srv_usage : list usage_item := [UEq (s2b "http"); UArg (s2b "userdict"); UChoice (s2b "dict") [s2b "ipa"; s2b "uni"]].
(** lattice/cmd.go:22: [-udict userdict_file] [-dict (ipa|uni)] [-mode (normal|search|extended)] [-output output_file] [-v] sentence *)
Definition lat_usage : list usage_item :=
  [UArg (s2b "udict"); UChoice (s2b "dict") [s2b "ipa"; s2b "uni"]; UChoice (s2b "mode") [s2b "normal"; s2b "search"; s2b "extended"];
   UArg (s2b "output"); UFlag (s2b "v")].
(** sentence/cmd.go:18: [-file filename] *)
Definition sen_usage : list usage_item := [UArg (s2b "file")].

(** ** The main program *)
Definition command_names : list bytes := [s2b "tokenize"; s2b "server"; s2b "lattice"; s2b "sentence"; s2b "version"].
(** A command that succeeds ends the process with status 0; one that fails, with its error printed
    and status 1. *)
Definition exits (m : cmd (option cmd_err)) (tr : list event) (n : Z) : Prop :=
  (snd m = Ok None /\ tr = fst m /\ n = 0) \/
  (exists e, snd m = Ok (Some e) /\ tr = fst m ++ [EErr (MError e)] /\ n = 1).
