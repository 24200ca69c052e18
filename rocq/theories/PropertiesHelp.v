(** Property theorems: the help, error and version texts of the command line (kagome.go,
    cmd/tokenize, cmd/server, cmd/lattice, cmd/sentence). *)
From Verif Require Import Help SpecHelp HelpFacts FaultFacts OptFacts FlagFacts CmdMain CmdExamples TextFacts Example Check.
From Coq Require Import Lia ZifyBool ZifyNat ZifyN.
Open Scope Z_scope.

Definition ex_prints (r : N) : bool := ((32 <=? r) && negb (r =? 127))%N.
Definition ex_texts : texts :=
  Texts ex_prints (s2b "/usr/bin/kagome//") []
    (Some (s2b "v2.9.0", [(s2b "github.com/ikawaha/kagome-dict", s2b "v1.0.9"); (s2b "github.com/ikawaha/kagome-dict/ipa", s2b "v1.0.10");
                          (s2b "golang.org/x/text", s2b "v0.3.0"); (s2b "github.com/ikawaha/kagome-dict/uni", s2b "v1.1.8")]))
    (fun _ => []).
Lemma ex_letters : letters_printable ex_prints.
Proof. intros r H. unfold ex_prints. lia. Qed.
Lemma ex_sober : sober (tx_printable ex_texts).
Proof. intros r H. cbn [tx_printable ex_texts]. unfold ex_prints. lia. Qed.

(** ** C78: the help text of a command is true. *)
Theorem C78_tokenize : forall printable, letters_printable printable -> describes (help_text printable (s2b "tokenize")) tok_run.
Proof. exact (fun p => @tok_describes p). Qed.
Print Assumptions C78_tokenize.
Theorem C78_server : forall printable, letters_printable printable -> describes (help_text printable (s2b "server")) srv_run.
Proof. exact (fun p => @srv_describes p). Qed.
Print Assumptions C78_server.
Theorem C78_lattice : forall printable, letters_printable printable -> describes (help_text printable (s2b "lattice")) lat_run.
Proof. exact (fun p => @lat_describes p). Qed.
Print Assumptions C78_lattice.
Theorem C78_sentence : forall printable, letters_printable printable -> describes (help_text printable (s2b "sentence")) sen_run.
Proof. exact (fun p => @sen_describes p). Qed.
Print Assumptions C78_sentence.
(** The usage lines list the items of C58. *)
Theorem C78_usage_lines :
  read_usage (usage_text (s2b "tokenize")) = Some (s2b "tokenize", tok_usage, []) /\
  read_usage (usage_text (s2b "server")) = Some (s2b "server", srv_usage, []) /\
  read_usage (usage_text (s2b "lattice")) = Some (s2b "lattice", lat_usage, [s2b "sentence"]) /\
  read_usage (usage_text (s2b "sentence")) = Some (s2b "sentence", sen_usage, []).
Proof. exact usages_read. Qed.
Print Assumptions C78_usage_lines.
(** The list of commands names the commands there are, and the one that runs without a name. *)
Theorem C78_commands : read_commands commands_text = Some (map (fun n => (n, bytes_eqb n (s2b "tokenize"))) command_names).
Proof. exact commands_read. Qed.
Print Assumptions C78_commands.
Example C78_example : letters_printable ex_prints /\
  help_text ex_prints (s2b "server") =
    s2b "  -dict string" ++ nl ++ s2b "    " ++ tab ++ s2b "system dict type (ipa|uni) (default ""ipa"")" ++ nl ++
    s2b "  -http string" ++ nl ++ s2b "    " ++ tab ++ s2b "HTTP service address (default "":6060"")" ++ nl ++
    s2b "  -userdict string" ++ nl ++ s2b "    " ++ tab ++ s2b "user dict" ++ nl /\
  read_help (help_text ex_prints (s2b "server")) =
    Some [(s2b "dict", VString (s2b "ipa")); (s2b "http", VString (s2b ":6060")); (s2b "userdict", VString [])] /\
  usage_text (s2b "lattice") =
    s2b "lattice [-udict userdict_file] [-dict (ipa|uni)] [-mode (normal|search|extended)] [-output output_file] [-v] sentence" ++ nl.
Proof. split; [exact ex_letters|]. repeat split; by_eval. Qed.

(** ** C79: arguments that are refused are refused with the reason. *)
Theorem C79_lattice : forall tx w prog args, sober (tx_printable tx) -> (forall o, ~ lat_args args o) ->
  exists tr pre reason, kagome w (prog :: s2b "lattice" :: args) = (tr, Status 1) /\ only_messages tr /\
    flag_report lat_flags args (s2b "lattice") (help_text (tx_printable tx) (s2b "lattice")) pre /\ lat_fault args reason /\
    stderr tx tr = pre ++ usage_text (s2b "lattice") ++ help_text (tx_printable tx) (s2b "lattice") ++ reason ++ [x0a].
Proof. exact (fun tx w prog args => @lattice_says tx w prog args). Qed.
Print Assumptions C79_lattice.
Theorem C79_server : forall tx w prog args, sober (tx_printable tx) -> (forall o, ~ srv_args args o) ->
  exists tr pre reason, kagome w (prog :: s2b "server" :: args) = (tr, Status 1) /\ only_messages tr /\
    flag_report srv_flags args (s2b "server") (help_text (tx_printable tx) (s2b "server")) pre /\ srv_fault args reason /\
    stderr tx tr = pre ++ usage_text (s2b "server") ++ help_text (tx_printable tx) (s2b "server") ++ s2b "option parse error: " ++ reason ++ [x0a].
Proof. exact (fun tx w prog args => @server_says tx w prog args). Qed.
Print Assumptions C79_server.
Theorem C79_sentence : forall tx w prog args, sober (tx_printable tx) -> (forall f, ~ sen_args args f) ->
  exists tr reason, kagome w (prog :: s2b "sentence" :: args) = (tr, Status 1) /\ only_messages tr /\ sen_fault args reason /\
    stderr tx tr = usage_text (s2b "sentence") ++ help_text (tx_printable tx) (s2b "sentence") ++ s2b "sentence, " ++ reason ++ [x0a].
Proof. exact (fun tx w prog args => @sentence_says tx w prog args). Qed.
Print Assumptions C79_sentence.
(** tokenize names a fault of the syntax only. *)
Theorem C79_tokenize_partial : forall tx w prog args, sober (tx_printable tx) -> (forall o, ~ tok_args args o) ->
  exists tr pre, kagome w (prog :: s2b "tokenize" :: args) = (tr, Status 1) /\ only_messages tr /\
    flag_report tok_flags args (s2b "tokenize") (help_text (tx_printable tx) (s2b "tokenize")) pre /\
    stderr tx tr = pre ++ usage_text (s2b "tokenize") ++ help_text (tx_printable tx) (s2b "tokenize") ++ [x0a].
Proof. exact (fun tx w prog args => @tokenize_says tx w prog args). Qed.
Print Assumptions C79_tokenize_partial.
(** Of a word that is not allowed it says nothing. *)
Theorem C79_tokenize_refuted : exists a b reason_a reason_b, tok_fault a reason_a /\ tok_fault b reason_b /\ reason_a <> reason_b /\
  (forall o, ~ tok_args a o) /\ (forall o, ~ tok_args b o) /\
  forall tx w prog, exists tr, kagome w (prog :: s2b "tokenize" :: a) = (tr, Status 1) /\ kagome w (prog :: s2b "tokenize" :: b) = (tr, Status 1) /\
    stderr tx tr = usage_text (s2b "tokenize") ++ help_text (tx_printable tx) (s2b "tokenize") ++ [x0a].
Proof. exact tokenize_silent. Qed.
Print Assumptions C79_tokenize_refuted.
(** Without the name of a command the text is the same for every fault. *)
Theorem C79_default_partial : forall tx w prog args, (forall name rest, args = name :: rest -> ~ In name command_names) -> (forall o, ~ tok_args args o) ->
  exists tr name, kagome w (prog :: args) = (tr, Status 1) /\ last_element (tx_argv0 tx) name /\
    stderr tx tr = s2b "Japanese Morphological Analyzer -- github.com/ikawaha/kagome/v2" ++ [x0a] ++ s2b "usage: " ++ name ++ s2b " <command>" ++ [x0a] ++
      commands_text ++ [x0a] ++ usage_text (s2b "tokenize") ++ help_text (tx_printable tx) (s2b "tokenize").
Proof. exact default_says. Qed.
Print Assumptions C79_default_partial.
(** The errors of the functions OptionCheck carry the reason. *)
Theorem C79_checks : forall tx args, sober (tx_printable tx) ->
  (forall e, tok_check args = Some e -> exists reason, tok_fault args reason /\ err_text tx e = s2b "tokenize, " ++ reason) /\
  (forall e, lat_check args = Some e -> exists reason, lat_fault args reason /\ err_text tx e = s2b "lattice, " ++ reason) /\
  (forall e, srv_check args = Some e -> exists reason, srv_fault args reason /\ err_text tx e = s2b "server, " ++ reason) /\
  (forall e, sen_check args = Some e -> exists reason, sen_fault args reason /\ err_text tx e = s2b "sentence, " ++ reason).
Proof. exact (fun tx args => @checks_say tx args). Qed.
Print Assumptions C79_checks.
(** Every list of arguments is read in one way or breaks the syntax in one way. *)
Theorem C79_one_fault : forall flags args, flags_ok flags ->
  ((exists e, misread flags args e) \/ exists l rest, command_line flags args l rest) /\
  (forall e e', misread flags args e -> misread flags args e' -> e = e') /\
  (forall e l rest, misread flags args e -> ~ command_line flags args l rest).
Proof. exact one_fault. Qed.
Print Assumptions C79_one_fault.
(** The empty word passes the checks; the command then stops with the reason. *)
Theorem C79_no_dictionary : forall tx w prog,
  (forall args o, tok_args args o -> to_dict o = [] -> to_sysdict o = [] ->
     exists tr, kagome w (prog :: s2b "tokenize" :: args) = (tr, Status 1) /\ stderr tx tr = s2b "unknown dict type, " ++ [x0a]) /\
  (forall args o, lat_args args o -> lo_dict o = [] ->
     exists tr, kagome w (prog :: s2b "lattice" :: args) = (tr, Status 1) /\ stderr tx tr = s2b "unknown name type, " ++ [x0a]) /\
  (forall args o, srv_args args o -> so_dict o = [] ->
     exists tr, kagome w (prog :: s2b "server" :: args) = (tr, Status 1) /\ stderr tx tr = s2b "unknown name type, " ++ [x0a]).
Proof. exact empty_words_say. Qed.
Print Assumptions C79_no_dictionary.
(** A value that is not a bool, a flag there is not, an argument too many, and a bad dictionary; and
    what the commands say of them. *)
Example C79_example :
  (forall o, ~ lat_args [s2b "-v=may""be"; s2b "x"] o) /\
  stderr ex_texts (fst (kagome (ex_world []) [s2b "kagome"; s2b "lattice"; s2b "-v=may""be"; s2b "x"])) =
    s2b "invalid boolean value ""may\""be"" for -v: parse error" ++ nl ++ s2b "Usage of lattice:" ++ nl ++ help_text ex_prints (s2b "lattice") ++
    usage_text (s2b "lattice") ++ help_text ex_prints (s2b "lattice") ++
    s2b "invalid boolean value ""may\""be"" for -v: parse error" ++ nl /\
  (forall o, ~ srv_args [s2b "-http=:80"; s2b "a"; s2b "b"] o) /\
  stderr ex_texts (fst (kagome (ex_world []) [s2b "kagome"; s2b "server"; s2b "-http=:80"; s2b "a"; s2b "b"])) =
    usage_text (s2b "server") ++ help_text ex_prints (s2b "server") ++ s2b "option parse error: invalid argument: [a b]" ++ nl /\
  (forall f, ~ sen_args [s2b "--files"; s2b "a"] f) /\
  stderr ex_texts (fst (kagome (ex_world []) [s2b "kagome"; s2b "sentence"; s2b "--files"; s2b "a"])) =
    usage_text (s2b "sentence") ++ help_text ex_prints (s2b "sentence") ++ s2b "sentence, flag provided but not defined: -files" ++ nl /\
  (forall o, ~ lat_args [s2b "-dict"; s2b "jumandic"; s2b "x"] o) /\
  stderr ex_texts (fst (kagome (ex_world []) [s2b "kagome"; s2b "lattice"; s2b "-dict"; s2b "jumandic"; s2b "x"])) =
    usage_text (s2b "lattice") ++ help_text ex_prints (s2b "lattice") ++ s2b "invalid argument: -dict jumandic" ++ nl.
Proof.
  split; [intros o H; apply lat_parse_ok in H; vm_compute in H; discriminate H|]. split; [by_eval|].
  split; [intros o H; apply srv_parse_ok in H; vm_compute in H; discriminate H|]. split; [by_eval|].
  split; [intros o H; apply sen_parse_ok in H; vm_compute in H; discriminate H|]. split; [by_eval|].
  split; [intros o H; apply lat_parse_ok in H; vm_compute in H; discriminate H|]. by_eval.
Qed.
Example C79_default_example : last_element (tx_argv0 ex_texts) (s2b "kagome") /\
  stderr ex_texts (fst (kagome (ex_world []) [s2b "kagome"; s2b "-help"])) =
    s2b "Japanese Morphological Analyzer -- github.com/ikawaha/kagome/v2" ++ nl ++ s2b "usage: kagome <command>" ++ nl ++
    commands_text ++ nl ++ usage_text (s2b "tokenize") ++ help_text ex_prints (s2b "tokenize").
Proof.
  split; [|by_eval]. right. right. split; [cbn; intuition discriminate|]. split; [discriminate|].
  exists (s2b "/usr/bin/"), (s2b "//"). split; [reflexivity|]. split; [repeat constructor|]. right. exists (s2b "/usr/bin"). reflexivity.
Qed.
Example C79_no_dictionary_example : exists o, lat_args [s2b "-dict="; s2b "x"] o /\ lo_dict o = [].
Proof. eexists. split; [apply lat_parse_ok; vm_compute; reflexivity|reflexivity]. Qed.

(** ** C80: kagome version *)
Theorem C80_version : forall tx w prog args, exists tr v rows,
  kagome w (prog :: s2b "version" :: args) = (tr, Status 0) /\ only_messages tr /\
  version_shown (tx_version tx) (tx_build tx) v /\
  (forall main deps, tx_build tx = Some (main, deps) -> dictionary_rows deps rows) /\ (tx_build tx = None -> rows = []) /\
  stderr tx tr = rows_text (v :: rows).
Proof. exact version_says. Qed.
Print Assumptions C80_version.
Example C80_example : forall w, stderr ex_texts (fst (kagome w [s2b "kagome"; s2b "version"; s2b "-x"])) =
  s2b "v2.9.0" ++ nl ++ s2b "   ipa v1.0.10" ++ nl ++ s2b "   uni v1.1.8" ++ nl.
Proof. intros w. vm_compute. reflexivity. Qed.

(** ** C82: kagome -h prints what README.md shows. *)
Theorem C82_readme : forall tx w prog args dir, letters_printable (tx_printable tx) ->
  (forall name rest, args = name :: rest -> ~ In name command_names) -> (forall o, ~ tok_args args o) ->
  tx_argv0 tx = dir ++ s2b "kagome" -> dir = [] \/ (exists d, dir = d ++ [x2f]) ->
  exists tr, kagome w (prog :: args) = (tr, Status 1) /\ stderr tx tr = rows_text readme_help.
Proof. exact (fun tx w prog args dir => @readme_says tx w prog args dir). Qed.
Print Assumptions C82_readme.
Example C82_example : (forall name rest, [s2b "-h"] = name :: rest -> ~ In name command_names) /\ (forall o, ~ tok_args [s2b "-h"] o) /\
  tx_argv0 (Texts ex_prints (s2b "/usr/bin/kagome") [] None (fun _ => [])) = s2b "/usr/bin/" ++ s2b "kagome" /\
  s2b "/usr/bin/" = s2b "/usr/bin" ++ [x2f].
Proof.
  split; [intros name rest E H; injection E as <- _; cbv in H; intuition discriminate|].
  split; [intros o H; apply tok_parse_ok in H; vm_compute in H; discriminate H|]. split; reflexivity.
Qed.
