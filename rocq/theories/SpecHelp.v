(** What the command line's error and help texts should say, independently of how they are made. *)
From Verif Require Export Help SpecCmd SpecText.
Open Scope Z_scope.

(** ** Faults of a command line *)
(** A name of a flag as it can be written. *)
Definition flag_name (n : bytes) : Prop := n <> [] /\ (forall n', n <> x2d :: n') /\ ~ In x3d n.
(** -name, -name=value, or with two dashes. *)
Definition names (a n : bytes) : Prop := flag_name n /\ (dashed a n \/ exists v, dashed a (n ++ s2b "=" ++ v)).

(** [args] breaks the syntax of flags, and this is the first fault. *)
Inductive misread (flags : list (bytes * flag_kind)) : list bytes -> flag_err -> Prop :=
| mr_syntax a s args : a = s2b "-=" ++ s \/ a = s2b "--=" ++ s \/ a = s2b "---" ++ s ->
    misread flags (a :: args) (BadFlagSyntax a)
| mr_help a n args : names a n -> (forall k, ~ In (n, k) flags) -> n = s2b "h" \/ n = s2b "help" ->
    misread flags (a :: args) HelpRequested
| mr_unknown a n args : names a n -> (forall k, ~ In (n, k) flags) -> n <> s2b "h" -> n <> s2b "help" ->
    misread flags (a :: args) (FlagNotDefined n)
| mr_bool a n v args : In (n, FBool) flags -> dashed a (n ++ s2b "=" ++ v) -> (forall b, ~ bool_word v b) ->
    misread flags (a :: args) (InvalidBool v n)
| mr_missing a n : In (n, FString) flags -> dashed a n -> misread flags [a] (FlagNeedsArg n)
| mr_str a n v args e : In (n, FString) flags -> dashed a n -> misread flags args e -> misread flags (a :: v :: args) e
| mr_str_eq a n v args e : In (n, FString) flags -> dashed a (n ++ s2b "=" ++ v) -> misread flags args e -> misread flags (a :: args) e
| mr_bool_on a n args e : In (n, FBool) flags -> dashed a n -> misread flags args e -> misread flags (a :: args) e
| mr_bool_eq a n v b args e : In (n, FBool) flags -> dashed a (n ++ s2b "=" ++ v) -> bool_word v b ->
    misread flags args e -> misread flags (a :: args) e.

(** The fault in words; a value in quotation marks is a Go string literal. *)
Definition fault_words (e : flag_err) (text : bytes) : Prop :=
  match e with
  | BadFlagSyntax a => text = s2b "bad flag syntax: " ++ a
  | FlagNotDefined n => text = s2b "flag provided but not defined: -" ++ n
  | HelpRequested => text = s2b "flag: help requested"
  | InvalidBool v n => exists q, go_literal q = Some (v, []) /\ text = s2b "invalid boolean value """ ++ q ++ s2b " for -" ++ n ++ s2b ": parse error"
  | FlagNeedsArg n => text = s2b "flag needs an argument: -" ++ n
  end.

(** Why a command refuses its arguments: the syntax, an argument too many or too few, or a value
    that is not one of the words allowed; the first of them in this order. *)
Definition bad_word (l : list (bytes * flag_value)) (name default : bytes) (words : list bytes) (text : bytes) : Prop :=
  exists v, setting l name (VString default) (VString v) /\ ~ In v words /\ text = s2b "invalid argument: -" ++ name ++ s2b " " ++ v.
Definition good_word (l : list (bytes * flag_value)) (name default : bytes) (words : list bytes) : Prop :=
  exists v, setting l name (VString default) (VString v) /\ In v words.
Inductive tok_fault (args : list bytes) : bytes -> Prop :=
| tf_flag e text : misread tok_flags args e -> fault_words e text -> tok_fault args text
| tf_args l rest : command_line tok_flags args l rest -> rest <> [] -> tok_fault args (s2b "invalid argument: [" ++ spaces rest ++ s2b "]")
| tf_mode l text : command_line tok_flags args l [] -> bad_word l (s2b "mode") (s2b "normal") mode_words text -> tok_fault args text
| tf_dict l text : command_line tok_flags args l [] -> good_word l (s2b "mode") (s2b "normal") mode_words ->
    bad_word l (s2b "sysdict") (s2b "ipa") dict_words text -> tok_fault args text.
Inductive lat_fault (args : list bytes) : bytes -> Prop :=
| lf_flag e text : misread lat_flags args e -> fault_words e text -> lat_fault args text
| lf_args l : command_line lat_flags args l [] -> lat_fault args (s2b "no option is specified")
| lf_dict l rest text : command_line lat_flags args l rest -> rest <> [] -> bad_word l (s2b "dict") (s2b "ipa") dict_words text -> lat_fault args text
| lf_mode l rest text : command_line lat_flags args l rest -> rest <> [] -> good_word l (s2b "dict") (s2b "ipa") dict_words ->
    bad_word l (s2b "mode") (s2b "normal") mode_words text -> lat_fault args text.
Inductive srv_fault (args : list bytes) : bytes -> Prop :=
| sf_flag e text : misread srv_flags args e -> fault_words e text -> srv_fault args text
| sf_args l rest : command_line srv_flags args l rest -> rest <> [] -> srv_fault args (s2b "invalid argument: [" ++ spaces rest ++ s2b "]")
| sf_dict l text : command_line srv_flags args l [] -> bad_word l (s2b "dict") (s2b "ipa") dict_words text -> srv_fault args text.
Inductive sen_fault (args : list bytes) : bytes -> Prop :=
| nf_flag e text : misread [(s2b "file", FString)] args e -> fault_words e text -> sen_fault args text
| nf_args l rest : command_line [(s2b "file", FString)] args l rest -> rest <> [] -> sen_fault args (s2b "invalid argument: [" ++ spaces rest ++ s2b "]").

(** What package flag prints by itself about a fault of the syntax, before the command does. *)
Definition flag_report (flags : list (bytes * flag_kind)) (args : list bytes) (name help pre : bytes) : Prop :=
  (exists e text, misread flags args e /\ e <> HelpRequested /\ fault_words e text /\
     pre = text ++ [x0a] ++ s2b "Usage of " ++ name ++ s2b ":" ++ [x0a] ++ help) \/
  (misread flags args HelpRequested /\ pre = s2b "Usage of " ++ name ++ s2b ":" ++ [x0a] ++ help) \/
  ((forall e, ~ misread flags args e) /\ pre = []).

(** ** Reading the help of a command *)
(** strconv.IsPrint holds of the visible letters of ASCII. *)
Definition letters_printable (pr : N -> bool) : Prop := forall r, (32 <= r < 127)%N -> pr r = true.
(** The lines of a text in which every line ends with a line feed. *)
Fixpoint text_rows (s : bytes) : option (list bytes) :=
  match s with
  | [] => Some []
  | b :: s' =>
    if Byte.eqb b x0a then option_map (cons []) (text_rows s')
    else match text_rows s' with Some (l :: ls) => Some ((b :: l) :: ls) | _ => None end
  end.
(** The text up to the first byte among [stops], and the rest. *)
Fixpoint cut_at (stops : list byte) (s : bytes) : bytes * bytes :=
  match s with
  | [] => ([], [])
  | b :: s' => if existsb (Byte.eqb b) stops then ([], s) else let (a, r) := cut_at stops s' in (b :: a, r)
  end.
(** What follows the first occurrence of [p]. *)
Fixpoint after (p s : bytes) : option bytes :=
  match expect p s with
  | Some r => Some r
  | None => match s with [] => None | _ :: s' => after p s' end
  end.
(** The default in a description: the value in parentheses at its end, or nothing. *)
Definition read_default (is_bool : bool) (description : bytes) : option flag_value :=
  match after (s2b "(default ") description with
  | None => Some (if is_bool then VBool false else VString [])
  | Some d =>
    if is_bool then if bytes_eqb d (s2b "true)") then Some (VBool true) else None
    else match expect (s2b """") d with
         | Some d => match go_literal d with
                     | Some (v, r) => if bytes_eqb r (s2b ")") then Some (VString v) else None
                     | None => None
                     end
         | None => None
         end
  end.
(** The flags a help text describes: "  -name" with " string" if it takes a value, then the
    description after a tab or on a line of its own. *)
Fixpoint read_flags (rows : list bytes) : option (list (bytes * flag_value)) :=
  match rows with
  | [] => Some []
  | row :: rows1 =>
    let? head := expect (s2b "  -") row in
    let (name, tail) := cut_at [x20; x09] head in
    match tail with
    | b :: description =>
      if Byte.eqb b x09 then
        let? v := read_default true description in let? l := read_flags rows1 in Some ((name, v) :: l)
      else
        match rows1 with
        | [] => None
        | row2 :: rows2 =>
          if bytes_eqb description (s2b "string") then
            let? description := expect (s2b "    " ++ [x09]) row2 in
            let? v := read_default false description in let? l := read_flags rows2 in Some ((name, v) :: l)
          else None
        end
    | [] =>
      match rows1 with
      | [] => None
      | row2 :: rows2 =>
        let? description := expect (s2b "    " ++ [x09]) row2 in
        let? v := read_default true description in let? l := read_flags rows2 in Some ((name, v) :: l)
      end
    end
  end.
Definition read_help (text : bytes) : option (list (bytes * flag_value)) := let? rows := text_rows text in read_flags rows.

(** A flag written out with a value. *)
Definition value_word (v : flag_value) : bytes :=
  match v with VString s => s | VBool true => s2b "true" | VBool false => s2b "false" end.
Definition written (n : bytes) (v : flag_value) : bytes := s2b "-" ++ n ++ s2b "=" ++ value_word v.
(** The text describes exactly the flags the command accepts, and their defaults truly: to give a
    flag its default is the same as not to give it, and a flag that is not described is refused. *)
Definition describes (text : bytes) (run : world -> list bytes -> cmd (option cmd_err)) : Prop :=
  exists l, read_help text = Some l /\ NoDup (map fst l) /\
    (forall n v w args, In (n, v) l -> run w (written n v :: args) = run w args) /\
    (forall a n w args, names a n -> ~ In n (map fst l) ->
       exists tr e, run w (a :: args) = (tr, Ok (Some e)) /\ only_messages tr) /\
    (forall n v, In (n, v) l -> flag_name n).

(** ** Reading a usage line *)
Fixpoint split_at (sep : byte) (s : bytes) : list bytes :=
  match s with
  | [] => [[]]
  | b :: s' => if Byte.eqb b sep then [] :: split_at sep s'
               else match split_at sep s' with l :: ls => (b :: l) :: ls | [] => [[b]] end
  end.
Fixpoint removelast_if (c : byte) (s : bytes) : option bytes :=
  match s with
  | [] => None
  | [b] => if Byte.eqb b c then Some [] else None
  | b :: s' => option_map (cons b) (removelast_if c s')
  end.
(** What may follow the name in [-name value]: (a|b), false, or a placeholder for anything. *)
Definition read_value (name value : bytes) : usage_item :=
  match value with
  | b :: v => if Byte.eqb b x28 then match removelast_if x29 v with Some v => UChoice name (split_at x7c v) | None => UArg name end
              else if bytes_eqb value (s2b "false") then UChoice name [value] else UArg name
  | [] => UArg name
  end.
(** The words of a usage line; a pair of brackets spans one or two of them. *)
Fixpoint read_items (words : list bytes) : option (list usage_item * list bytes) :=
  match words with
  | [] => Some ([], [])
  | w :: words1 =>
    match expect (s2b "[-") w with
    | None => Some ([], words)
    | Some w =>
      match removelast_if x5d w with
      | Some w =>
        let i := match cut_at [x3d] w with (n, []) => UFlag n | (n, _) => UEq n end in
        match read_items words1 with Some (l, r) => Some (i :: l, r) | None => None end
      | None =>
        match words1 with
        | v :: words2 =>
          match removelast_if x5d v, read_items words2 with
          | Some v, Some (l, r) => Some (read_value w v :: l, r)
          | _, _ => None
          end
        | [] => None
        end
      end
    end
  end.
(** The command, its options, and the other arguments. *)
Definition read_usage (text : bytes) : option (bytes * list usage_item * list bytes) :=
  match text_rows text with
  | Some [row] =>
    match split_at x20 row with
    | name :: words => match read_items words with Some (l, r) => Some (name, l, r) | None => None end
    | [] => None
    end
  | _ => None
  end.

(** ** The list of commands *)
(** "   name - description", or "   [name] - description" for the default. *)
Definition read_command (row : bytes) : option (bytes * bool) :=
  let? r := expect (s2b "   ") row in
  match expect (s2b "[") r with
  | Some r => let (n, t) := cut_at [x5d] r in let? _ := expect (s2b "] - ") t in Some (n, true)
  | None => let (n, t) := cut_at [x20] r in let? _ := expect (s2b " - ") t in Some (n, false)
  end.
Fixpoint read_all {A B} (f : A -> option B) (l : list A) : option (list B) :=
  match l with
  | [] => Some []
  | a :: l' => let? b := f a in let? bs := read_all f l' in Some (b :: bs)
  end.
Definition read_commands (text : bytes) : option (list (bytes * bool)) :=
  let? rows := text_rows text in
  match rows with
  | title :: rows => if bytes_eqb title (s2b "The commands are:") then read_all read_command rows else None
  | [] => None
  end.

(** ** The version *)
(** The last element of a path. *)
Definition last_element (path name : bytes) : Prop :=
  (path = [] /\ name = s2b ".") \/
  (path <> [] /\ Forall (eq x2f) path /\ name = s2b "/") \/
  (~ In x2f name /\ name <> [] /\ exists dir slashes, path = dir ++ name ++ slashes /\ Forall (eq x2f) slashes /\
     (dir = [] \/ exists d, dir = d ++ [x2f])).
Definition version_shown (set_version : bytes) (build : option (bytes * list (bytes * bytes))) (v : bytes) : Prop :=
  (set_version <> [] /\ v = set_version) \/
  (set_version = [] /\ exists main deps, build = Some (main, deps) /\ main <> [] /\ v = main) \/
  (set_version = [] /\ (forall main deps, build = Some (main, deps) -> main = []) /\ v = s2b "(devel)").
(** The dictionaries the program is built with: the dependencies under kagome-dict, in order. *)
Inductive dictionary_rows : list (bytes * bytes) -> list bytes -> Prop :=
| dr_none : dictionary_rows [] []
| dr_dict name v deps rows : dictionary_rows deps rows ->
    dictionary_rows ((s2b "github.com/ikawaha/kagome-dict/" ++ name, v) :: deps) ((s2b "   " ++ name ++ s2b " " ++ v) :: rows)
| dr_other path v deps rows : (forall name, path <> s2b "github.com/ikawaha/kagome-dict/" ++ name) -> dictionary_rows deps rows ->
    dictionary_rows ((path, v) :: deps) rows.
Definition rows_text (rows : list bytes) : bytes := concat (map (fun r => r ++ [x0a]) rows).

(** ** The help in README.md, lines 134-159 *)
Definition readme_help : list bytes :=
  [ s2b "Japanese Morphological Analyzer -- github.com/ikawaha/kagome/v2";
    s2b "usage: kagome <command>";
    s2b "The commands are:";
    s2b "   [tokenize] - command line tokenize (*default)";
    s2b "   server - run tokenize server";
    s2b "   lattice - lattice viewer";
    s2b "   sentence - tiny sentence splitter";
    s2b "   version - show version";
    s2b "";
    s2b "tokenize [-file input_file] [-dict dic_file] [-userdict user_dic_file] [-sysdict (ipa|uni)] [-simple false] [-mode (normal|search|extended)] [-split] [-json]";
    s2b "  -dict string";
    s2b "    " ++ [x09] ++ s2b "dict";
    s2b "  -file string";
    s2b "    " ++ [x09] ++ s2b "input file";
    s2b "  -json";
    s2b "    " ++ [x09] ++ s2b "outputs in JSON format";
    s2b "  -mode string";
    s2b "    " ++ [x09] ++ s2b "tokenize mode (normal|search|extended) (default ""normal"")";
    s2b "  -simple";
    s2b "    " ++ [x09] ++ s2b "display abbreviated dictionary contents";
    s2b "  -split";
    s2b "    " ++ [x09] ++ s2b "use tiny sentence splitter";
    s2b "  -sysdict string";
    s2b "    " ++ [x09] ++ s2b "system dict type (ipa|uni) (default ""ipa"")";
    s2b "  -udict string";
    s2b "    " ++ [x09] ++ s2b "user dict"].
