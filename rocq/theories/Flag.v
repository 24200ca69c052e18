(** Model of the flag package's FlagSet.Parse (Go standard library, not in /repo: modelled from the
    library's source), for string and bool flags and ContinueOnError. *)
From Verif Require Export GoBase.

Inductive flag_kind := FString | FBool.
Inductive flag_value := VString (s : bytes) | VBool (b : bool).
Inductive flag_err :=
| BadFlagSyntax (arg : bytes) | FlagNotDefined (name : bytes) | HelpRequested
| InvalidBool (value name : bytes) | FlagNeedsArg (name : bytes).

(** A flag as StringVar and BoolVar define it: its name, its default and its usage text. *)
Record flag_def := FlagDef { fd_name : bytes; fd_default : flag_value; fd_usage : bytes }.
Definition flag_formal (d : flag_def) : bytes * flag_kind :=
  (fd_name d, match fd_default d with VString _ => FString | VBool _ => FBool end).
Definition flag_preset (d : flag_def) : bytes * flag_value := (fd_name d, fd_default d).

(** strconv.ParseBool *)
Definition parse_bool (s : bytes) : option bool :=
  if existsb (bytes_eqb s) [s2b "1"; s2b "t"; s2b "T"; s2b "true"; s2b "TRUE"; s2b "True"] then Some true
  else if existsb (bytes_eqb s) [s2b "0"; s2b "f"; s2b "F"; s2b "false"; s2b "FALSE"; s2b "False"] then Some false
  else None.

(** The part after the first = that is not the first byte, if any. *)
Fixpoint cut_equals (s : bytes) : bytes * option bytes :=
  match s with
  | [] => ([], None)
  | b :: s' => if Byte.eqb b x3d then ([], Some s')
               else let (n, v) := cut_equals s' in (b :: n, v)
  end.
Definition split_name (s : bytes) : bytes * option bytes :=
  match s with
  | [] => ([], None)
  | b :: s' => let (n, v) := cut_equals s' in (b :: n, v)
  end.

Inductive arg_shape :=
| ANotFlag                                    (* not a flag: parsing stops before it *)
| ATerminator                                 (* "--": parsing stops after it *)
| ABad                                        (* bad flag syntax *)
| AFlag (name : bytes) (value : option bytes).

Definition arg_shape_of (s : bytes) : arg_shape :=
  match s with
  | b0 :: b1 :: rest =>
    if negb (Byte.eqb b0 x2d) then ANotFlag
    else
      let name := if Byte.eqb b1 x2d then rest else b1 :: rest in
      if Byte.eqb b1 x2d && (length rest =? 0)%nat then ATerminator
      else match name with
           | [] => ABad
           | c :: _ => if Byte.eqb c x2d || Byte.eqb c x3d then ABad
                       else let (n, v) := split_name name in AFlag n v
           end
  | _ => ANotFlag
  end.

(** Parse: the assignments made, in order, and the remaining arguments or the error. *)
Fixpoint parse_flags (formal : list (bytes * flag_kind)) (args : list bytes)
    : list (bytes * flag_value) * (list bytes + flag_err) :=
  match args with
  | [] => ([], inl [])
  | s :: rest =>
    match arg_shape_of s with
    | ANotFlag => ([], inl args)
    | ATerminator => ([], inl rest)
    | ABad => ([], inr (BadFlagSyntax s))
    | AFlag name value =>
      match assoc bytes_eqb formal name with
      | None =>
        ([], inr (if bytes_eqb name (s2b "help") || bytes_eqb name (s2b "h") then HelpRequested
                  else FlagNotDefined name))
      | Some FBool =>
        let v := match value with Some v => v | None => s2b "true" end in
        match parse_bool v with
        | None => ([], inr (InvalidBool v name))
        | Some b => let (l, r) := parse_flags formal rest in ((name, VBool b) :: l, r)
        end
      | Some FString =>
        match value with
        | Some v => let (l, r) := parse_flags formal rest in ((name, VString v) :: l, r)
        | None =>
          match rest with
          | [] => ([], inr (FlagNeedsArg name))
          | v :: rest' => let (l, r) := parse_flags formal rest' in ((name, VString v) :: l, r)
          end
        end
      end
    end
  end.
