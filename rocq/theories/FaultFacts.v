(** What the commands say when they refuse their arguments; the version and the list of commands. *)
From Verif Require Import SpecHelp Utf8Facts FlagFacts OptFacts CmdFacts CmdRuns CmdMain TextFacts HelpFacts.
From Coq Require Import List Arith Lia ZifyBool ZifyNat ZifyN.
Import ListNotations.
Set Implicit Arguments.
Unset Strict Implicit.

Lemma stderr_app tx a b : stderr tx (a ++ b) = stderr tx a ++ stderr tx b.
Proof. unfold stderr. rewrite map_app, concat_app. reflexivity. Qed.
Lemma stderr_cons tx m t : stderr tx (EErr m :: t) = message_text tx m ++ stderr tx t.
Proof. reflexivity. Qed.

(** ** The reasons *)
Lemma not_in_mode v : bad_mode v = true -> ~ In v mode_words.
Proof. intros H Hin. apply bad_mode_ok in Hin. congruence. Qed.
Lemma not_in_dict v : bad_sysdict v = true -> ~ In v dict_words.
Proof. intros H Hin. apply bad_sysdict_ok in Hin. congruence. Qed.

Lemma tok_reason tx args e : sober (tx_printable tx) -> tok_parse args = inr e -> tok_fault args (err_text tx e).
Proof.
  intros Hs. unfold tok_parse. destruct (parse_flags tok_formal args) as [l [rest|x]] eqn:E.
  - apply parse_sound in E. apply tok_line_flags in E. destruct rest as [|a rest].
    + cbn [length Nat.eqb negb]. destruct (tok_fold (command_line_typed E)) as (_ & _ & _ & H4 & H5 & _).
      destruct (bad_mode _) eqn:Em.
      * intros [= <-]. eapply tf_mode; [exact E|]. eexists. split; [exact H5|]. split; [apply not_in_mode; exact Em|reflexivity].
      * destruct (bad_sysdict _) eqn:Ed; [|discriminate]. intros [= <-]. eapply tf_dict; [exact E| |].
        -- eexists. split; [exact H5|]. apply bad_mode_ok. exact Em.
        -- eexists. split; [exact H4|]. split; [apply not_in_dict; exact Ed|reflexivity].
    + cbn [length Nat.eqb negb]. intros [= <-].
      replace (err_text tx (XArgs (a :: rest))) with (s2b "invalid argument: [" ++ spaces (a :: rest) ++ s2b "]") by (cbn [err_text]; unfold list_text; rewrite join_spaces; reflexivity).
      eapply tf_args; [exact E|discriminate].
  - apply misread_sound in E. intros [= <-]. eapply tf_flag; [|apply fault_text; exact Hs]. eapply misread_incl; [|exact E]. intros y. cbn. intuition.
Qed.
Lemma lat_reason tx args e : sober (tx_printable tx) -> lat_parse args = inr e -> lat_fault args (err_text tx e).
Proof.
  intros Hs. unfold lat_parse. destruct (parse_flags lat_formal args) as [l [rest|x]] eqn:E.
  - apply parse_sound in E. destruct (lat_fold (command_line_typed E)) as (_ & H2 & H3 & _). destruct rest as [|a rest].
    + cbn [length Nat.eqb]. intros [= <-]. eapply lf_args. exact E.
    + cbn [length Nat.eqb]. destruct (bad_sysdict _) eqn:Ed.
      * intros [= <-]. eapply lf_dict; [exact E|discriminate|]. eexists. split; [exact H2|]. split; [apply not_in_dict; exact Ed|reflexivity].
      * destruct (bad_mode _) eqn:Em; [|discriminate]. intros [= <-]. eapply lf_mode; [exact E|discriminate| |].
        -- eexists. split; [exact H2|]. apply bad_sysdict_ok. exact Ed.
        -- eexists. split; [exact H3|]. split; [apply not_in_mode; exact Em|reflexivity].
  - apply misread_sound in E. intros [= <-]. eapply lf_flag; [exact E|apply fault_text; exact Hs].
Qed.
Lemma srv_reason tx args e : sober (tx_printable tx) -> srv_parse args = inr e -> srv_fault args (err_text tx e).
Proof.
  intros Hs. unfold srv_parse. destruct (parse_flags srv_formal args) as [l [rest|x]] eqn:E.
  - apply parse_sound in E. destruct (srv_fold (command_line_typed E)) as (_ & _ & H3). destruct rest as [|a rest].
    + cbn [length Nat.eqb negb]. destruct (bad_sysdict _) eqn:Ed; [|discriminate]. intros [= <-]. eapply sf_dict; [exact E|].
      eexists. split; [exact H3|]. split; [apply not_in_dict; exact Ed|reflexivity].
    + cbn [length Nat.eqb negb]. intros [= <-].
      replace (err_text tx (XArgs (a :: rest))) with (s2b "invalid argument: [" ++ spaces (a :: rest) ++ s2b "]") by (cbn [err_text]; unfold list_text; rewrite join_spaces; reflexivity).
      eapply sf_args; [exact E|discriminate].
  - apply misread_sound in E. intros [= <-]. eapply sf_flag; [exact E|apply fault_text; exact Hs].
Qed.
Lemma sen_reason tx args e : sober (tx_printable tx) -> sen_parse args = inr e -> sen_fault args (err_text tx e).
Proof.
  intros Hs. unfold sen_parse. destruct (parse_flags sen_formal args) as [l [rest|x]] eqn:E.
  - apply parse_sound in E. destruct rest as [|a rest]; cbn [length Nat.eqb negb]; [discriminate|]. intros [= <-].
    replace (err_text tx (XArgs (a :: rest))) with (s2b "invalid argument: [" ++ spaces (a :: rest) ++ s2b "]") by (cbn [err_text]; unfold list_text; rewrite join_spaces; reflexivity).
    eapply nf_args; [exact E|discriminate].
  - apply misread_sound in E. intros [= <-]. eapply nf_flag; [exact E|apply fault_text; exact Hs].
Qed.

(** ** The report of package flag *)
Definition reports (tx : texts) (name : bytes) (e : cmd_err) : bytes := stderr tx (fst (parse_report name e)).
Lemma report_flag tx flags args name e : sober (tx_printable tx) -> misread flags args e ->
  flag_report flags args name (help_text (tx_printable tx) name) (reports tx name (XFlag e)).
Proof.
  intros Hs M. unfold reports, parse_report, report, emit. cbn [fst]. rewrite stderr_cons. change (stderr tx []) with (@nil byte). rewrite app_nil_r.
  cbn [message_text]. unfold parse_text. change (print_defaults (tx_printable tx) (command_defs name)) with (help_text (tx_printable tx) name).
  destruct (match e with HelpRequested => true | _ => false end) eqn:Eh.
  - destruct e; try discriminate. right. left. split; [exact M|reflexivity].
  - left. exists e, (flag_text (tx_printable tx) e). split; [exact M|]. split; [intros ->; discriminate|]. split; [apply fault_text; exact Hs|].
    destruct e; try discriminate; rewrite <- !app_assoc; reflexivity.
Qed.
Lemma report_none tx flags args name help e l rest : flags_ok flags -> command_line flags args l rest ->
  match e with XFlag _ => False | _ => True end -> flag_report flags args name help (reports tx name e).
Proof.
  intros Hf Hc He. right. right. split; [intros x M; exact (misread_not_read Hf M Hc)|]. destruct e; try reflexivity. contradiction.
Qed.
Lemma tok_flags_good : flags_ok tok_flags.
Proof. split; [reflexivity|]. repeat constructor; cbn; intuition discriminate. Qed.
Lemma tok_report tx args e : sober (tx_printable tx) -> tok_parse args = inr e ->
  flag_report tok_flags args (s2b "tokenize") (help_text (tx_printable tx) (s2b "tokenize")) (reports tx (s2b "tokenize") e).
Proof.
  intros Hs. unfold tok_parse. destruct (parse_flags tok_formal args) as [l [rest|x]] eqn:E.
  - apply parse_sound in E. apply tok_line_flags in E. intros H. eapply report_none; [exact tok_flags_good|exact E|].
    destruct (negb _); [injection H as <-; exact I|]. destruct (bad_mode _); [injection H as <-; exact I|]. destruct (bad_sysdict _); [injection H as <-; exact I|discriminate].
  - apply misread_sound in E. intros [= <-]. apply report_flag; [exact Hs|]. eapply misread_incl; [|exact E]. intros y. cbn. intuition.
Qed.
Lemma lat_report tx args e : sober (tx_printable tx) -> lat_parse args = inr e ->
  flag_report lat_flags args (s2b "lattice") (help_text (tx_printable tx) (s2b "lattice")) (reports tx (s2b "lattice") e).
Proof.
  intros Hs. unfold lat_parse. destruct (parse_flags lat_formal args) as [l [rest|x]] eqn:E.
  - apply parse_sound in E. intros H. eapply report_none; [exact lat_flags_ok|exact E|].
    destruct (_ =? 0)%nat; [injection H as <-; exact I|]. destruct (bad_sysdict _); [injection H as <-; exact I|]. destruct (bad_mode _); [injection H as <-; exact I|discriminate].
  - apply misread_sound in E. intros [= <-]. apply report_flag; [exact Hs|exact E].
Qed.
Lemma srv_report tx args e : sober (tx_printable tx) -> srv_parse args = inr e ->
  flag_report srv_flags args (s2b "server") (help_text (tx_printable tx) (s2b "server")) (reports tx (s2b "server") e).
Proof.
  intros Hs. unfold srv_parse. destruct (parse_flags srv_formal args) as [l [rest|x]] eqn:E.
  - apply parse_sound in E. intros H. eapply report_none; [exact srv_flags_ok|exact E|].
    destruct (negb _); [injection H as <-; exact I|]. destruct (bad_sysdict _); [injection H as <-; exact I|discriminate].
  - apply misread_sound in E. intros [= <-]. apply report_flag; [exact Hs|exact E].
Qed.

(** ** The whole text *)
Lemma report_result name e : snd (parse_report name e) = Ok tt /\ only_messages (fst (parse_report name e)).
Proof. destruct e; cbn; split; try reflexivity; repeat constructor. Qed.
Lemma report_then tx name e (f : cmd (option cmd_err)) x m2 m3 : f = ([EErr m2; EErr m3], Ok (Some x)) ->
  exists tr, finish (do _ <- parse_report name e; f) = (tr, Status 1) /\ only_messages tr /\
    stderr tx tr = reports tx name e ++ message_text tx m2 ++ message_text tx m3 ++ err_text tx x ++ [x0a].
Proof.
  intros ->. destruct (report_result name e) as [R1 R2]. unfold reports. destruct (parse_report name e) as [t r]. cbn [fst snd] in *. subst r. cbn [cbind finish].
  eexists. split; [reflexivity|]. split.
  - apply Forall_app. split; [apply Forall_app; split; [exact R2|]|]; repeat constructor.
  - rewrite !stderr_app, <- app_assoc. f_equal. rewrite !stderr_cons. change (stderr tx []) with (@nil byte). rewrite !app_nil_r, <- !app_assoc. reflexivity.
Qed.

Theorem tokenize_says tx w prog args : sober (tx_printable tx) -> (forall o, ~ tok_args args o) ->
  exists tr pre, kagome w (prog :: s2b "tokenize" :: args) = (tr, Status 1) /\ only_messages tr /\
    flag_report tok_flags args (s2b "tokenize") (help_text (tx_printable tx) (s2b "tokenize")) pre /\
    stderr tx tr = pre ++ usage_text (s2b "tokenize") ++ help_text (tx_printable tx) (s2b "tokenize") ++ [x0a].
Proof.
  intros Hs Hno. destruct (tok_parse args) as [o|e] eqn:E; [exfalso; apply (Hno o), tok_parse_ok; exact E|].
  rewrite (@kagome_named w prog (s2b "tokenize") (tok_run w)) by (left; auto). unfold tok_run. rewrite E.
  destruct (@report_then tx (s2b "tokenize") e _ XSilent (MUsage (s2b "tokenize")) (MDefaults (s2b "tokenize")) eq_refl) as (tr & E1 & E2 & E3).
  exists tr, (reports tx (s2b "tokenize") e). split; [exact E1|]. split; [exact E2|]. split; [exact (tok_report Hs E)|exact E3].
Qed.
Theorem lattice_says tx w prog args : sober (tx_printable tx) -> (forall o, ~ lat_args args o) ->
  exists tr pre reason, kagome w (prog :: s2b "lattice" :: args) = (tr, Status 1) /\ only_messages tr /\
    flag_report lat_flags args (s2b "lattice") (help_text (tx_printable tx) (s2b "lattice")) pre /\ lat_fault args reason /\
    stderr tx tr = pre ++ usage_text (s2b "lattice") ++ help_text (tx_printable tx) (s2b "lattice") ++ reason ++ [x0a].
Proof.
  intros Hs Hno. destruct (lat_parse args) as [o|e] eqn:E; [exfalso; apply (Hno o), lat_parse_ok; exact E|].
  rewrite (@kagome_named w prog (s2b "lattice") (lat_run w)) by (right; right; left; auto). unfold lat_run. rewrite E.
  destruct (@report_then tx (s2b "lattice") e _ e (MUsage (s2b "lattice")) (MDefaults (s2b "lattice")) eq_refl) as (tr & E1 & E2 & E3).
  exists tr, (reports tx (s2b "lattice") e), (err_text tx e). split; [exact E1|]. split; [exact E2|]. split; [exact (lat_report Hs E)|].
  split; [exact (lat_reason Hs E)|exact E3].
Qed.
Theorem server_says tx w prog args : sober (tx_printable tx) -> (forall o, ~ srv_args args o) ->
  exists tr pre reason, kagome w (prog :: s2b "server" :: args) = (tr, Status 1) /\ only_messages tr /\
    flag_report srv_flags args (s2b "server") (help_text (tx_printable tx) (s2b "server")) pre /\ srv_fault args reason /\
    stderr tx tr = pre ++ usage_text (s2b "server") ++ help_text (tx_printable tx) (s2b "server") ++ s2b "option parse error: " ++ reason ++ [x0a].
Proof.
  intros Hs Hno. destruct (srv_parse args) as [o|e] eqn:E; [exfalso; apply (Hno o), srv_parse_ok; exact E|].
  rewrite (@kagome_named w prog (s2b "server") (srv_run w)) by (right; left; auto). unfold srv_run. rewrite E.
  destruct (@report_then tx (s2b "server") e _ (XWrap (s2b "option parse error: ") e) (MUsage (s2b "server")) (MDefaults (s2b "server")) eq_refl) as (tr & E1 & E2 & E3).
  exists tr, (reports tx (s2b "server") e), (err_text tx e). split; [exact E1|]. split; [exact E2|]. split; [exact (srv_report Hs E)|].
  split; [exact (srv_reason Hs E)|]. rewrite E3. cbn [err_text message_text]. rewrite <- !app_assoc. reflexivity.
Qed.
Theorem sentence_says tx w prog args : sober (tx_printable tx) -> (forall f, ~ sen_args args f) ->
  exists tr reason, kagome w (prog :: s2b "sentence" :: args) = (tr, Status 1) /\ only_messages tr /\ sen_fault args reason /\
    stderr tx tr = usage_text (s2b "sentence") ++ help_text (tx_printable tx) (s2b "sentence") ++ s2b "sentence, " ++ reason ++ [x0a].
Proof.
  intros Hs Hno. destruct (sen_parse args) as [o|e] eqn:E; [exfalso; apply (Hno o), sen_parse_ok; exact E|].
  rewrite (@kagome_named w prog (s2b "sentence") (sen_run w)) by (right; right; right; left; auto). unfold sen_run. rewrite E.
  eexists. exists (err_text tx e). split; [reflexivity|]. split; [repeat constructor|]. split; [exact (sen_reason Hs E)|].
  cbn [app]. rewrite !stderr_cons. change (stderr tx []) with (@nil byte). rewrite app_nil_r. cbn [message_text err_text]. rewrite <- !app_assoc. reflexivity.
Qed.
Theorem checks_say tx args : sober (tx_printable tx) ->
  (forall e, tok_check args = Some e -> exists reason, tok_fault args reason /\ err_text tx e = s2b "tokenize, " ++ reason) /\
  (forall e, lat_check args = Some e -> exists reason, lat_fault args reason /\ err_text tx e = s2b "lattice, " ++ reason) /\
  (forall e, srv_check args = Some e -> exists reason, srv_fault args reason /\ err_text tx e = s2b "server, " ++ reason) /\
  (forall e, sen_check args = Some e -> exists reason, sen_fault args reason /\ err_text tx e = s2b "sentence, " ++ reason).
Proof.
  intros Hs. unfold tok_check, lat_check, srv_check, sen_check. split; [|split; [|split]]; intros x.
  - destruct (tok_parse args) as [o|e] eqn:E; [discriminate|]. intros [= <-]. exists (err_text tx e). split; [exact (tok_reason Hs E)|reflexivity].
  - destruct (lat_parse args) as [o|e] eqn:E; [discriminate|]. intros [= <-]. exists (err_text tx e). split; [exact (lat_reason Hs E)|reflexivity].
  - destruct (srv_parse args) as [o|e] eqn:E; [discriminate|]. intros [= <-]. exists (err_text tx e). split; [exact (srv_reason Hs E)|reflexivity].
  - destruct (sen_parse args) as [o|e] eqn:E; [discriminate|]. intros [= <-]. exists (err_text tx e). split; [exact (sen_reason Hs E)|reflexivity].
Qed.

(** The empty word passes the checks but names no dictionary. *)
Theorem empty_words_say tx w prog :
  (forall args o, tok_args args o -> to_dict o = [] -> to_sysdict o = [] ->
     exists tr, kagome w (prog :: s2b "tokenize" :: args) = (tr, Status 1) /\ stderr tx tr = s2b "unknown dict type, " ++ [x0a]) /\
  (forall args o, lat_args args o -> lo_dict o = [] ->
     exists tr, kagome w (prog :: s2b "lattice" :: args) = (tr, Status 1) /\ stderr tx tr = s2b "unknown name type, " ++ [x0a]) /\
  (forall args o, srv_args args o -> so_dict o = [] ->
     exists tr, kagome w (prog :: s2b "server" :: args) = (tr, Status 1) /\ stderr tx tr = s2b "unknown name type, " ++ [x0a]).
Proof.
  split; [|split]; intros args o Ha.
  - intros H1 H2. rewrite (@kagome_named w prog (s2b "tokenize") (tok_run w)) by (left; auto). rewrite (tokenize_no_dictionary w Ha H1 H2).
    eexists. split; reflexivity.
  - intros H1. rewrite (@kagome_named w prog (s2b "lattice") (lat_run w)) by (right; right; left; auto). unfold lat_run. rewrite (proj2 (lat_parse_ok _ _) Ha).
    unfold lat_command. rewrite H1. eexists. split; reflexivity.
  - intros H1. rewrite (@kagome_named w prog (s2b "server") (srv_run w)) by (right; left; auto). unfold srv_run. rewrite (proj2 (srv_parse_ok _ _) Ha).
    unfold srv_command. rewrite H1. eexists. split; reflexivity.
Qed.

(** ** Without a command's name *)
Lemma until_spec s : exists r, s = until_slash s ++ r /\ ~ In x2f (until_slash s) /\ (r = [] \/ exists t, r = x2f :: t).
Proof.
  induction s as [|b s IH]; cbn [until_slash]; [exists []; auto|]. destruct (Byte.eqb b x2f) eqn:E.
  - apply byte_eqb_eq in E. subst. exists (x2f :: s). cbn. split; [reflexivity|]. split; [tauto|]. right. exists s. reflexivity.
  - destruct IH as (r & E1 & E2 & E3). exists r. split; [cbn; congruence|]. split; [|exact E3]. intros [H|H]; [|exact (E2 H)].
    subst b. rewrite (proj2 (byte_eqb_eq _ _) eq_refl) in E. discriminate.
Qed.
Lemma drop_spec s : exists p, s = p ++ drop_slashes s /\ Forall (eq x2f) p /\ forall t, drop_slashes s <> x2f :: t.
Proof.
  induction s as [|b s IH]; cbn [drop_slashes]; [exists []; repeat split; [constructor|discriminate]|]. destruct (Byte.eqb b x2f) eqn:E.
  - apply byte_eqb_eq in E. subst. destruct IH as (p & E1 & E2 & E3). exists (x2f :: p). split; [cbn; congruence|]. split; [constructor; auto|exact E3].
  - exists []. split; [reflexivity|]. split; [constructor|]. intros t [= -> _]. rewrite (proj2 (byte_eqb_eq _ _) eq_refl) in E. discriminate.
Qed.
Lemma base_last path : last_element path (base path).
Proof.
  destruct path as [|c path]; [left; split; reflexivity|]. right. set (p := c :: path).
  assert (B1 : rev (until_slash (drop_slashes (rev p))) = [] -> base p = s2b "/") by (unfold base, p; intros ->; reflexivity).
  assert (B2 : rev (until_slash (drop_slashes (rev p))) <> [] -> base p = rev (until_slash (drop_slashes (rev p)))) by
    (unfold base, p; destruct (rev (until_slash (drop_slashes (rev (c :: path))))); [congruence|reflexivity]).
  destruct (drop_spec (rev p)) as (s & E1 & E2 & E3). set (d := drop_slashes (rev p)) in *. destruct (until_spec d) as (r & U1 & U2 & U3).
  assert (Ep : p = rev d ++ rev s) by (rewrite <- rev_app_distr, <- E1, rev_involutive; reflexivity).
  assert (C : until_slash d = [] \/ until_slash d <> []) by (destruct (until_slash d); [left; reflexivity|right; discriminate]).
  destruct C as [Eu|Eu].
  - left. rewrite Eu in *. rewrite (B1 eq_refl). assert (Hd : d = []) by (destruct U3 as [->|(t & ->)]; [exact U1|cbn in U1; destruct (E3 t U1)]).
    split; [discriminate|]. split; [|reflexivity]. rewrite Ep, Hd. cbn [rev app]. apply Forall_rev. exact E2.
  - right. assert (Hn : rev (until_slash d) <> []) by (intros H; apply Eu; rewrite <- (rev_involutive (until_slash d)), H; reflexivity).
    rewrite (B2 Hn). split; [rewrite <- in_rev; exact U2|]. split; [exact Hn|].
    exists (rev r), (rev s). split; [|split; [apply Forall_rev; exact E2|]].
    + rewrite Ep at 1. rewrite U1 at 1. rewrite rev_app_distr, <- app_assoc. reflexivity.
    + destruct U3 as [->|(t & ->)]; [left; reflexivity|right]. exists (rev t). reflexivity.
Qed.
Theorem default_says tx w prog args : (forall name rest, args = name :: rest -> ~ In name command_names) -> (forall o, ~ tok_args args o) ->
  exists tr name, kagome w (prog :: args) = (tr, Status 1) /\ last_element (tx_argv0 tx) name /\
    stderr tx tr = s2b "Japanese Morphological Analyzer -- github.com/ikawaha/kagome/v2" ++ [x0a] ++ s2b "usage: " ++ name ++ s2b " <command>" ++ [x0a] ++
      commands_text ++ [x0a] ++ usage_text (s2b "tokenize") ++ help_text (tx_printable tx) (s2b "tokenize").
Proof.
  intros Hn Ha. rewrite (kagome_unnamed w prog Hn). unfold tok_check.
  destruct (tok_parse args) as [o|e] eqn:E; [exfalso; apply (Ha o), tok_parse_ok; exact E|]. eexists. exists (base (tx_argv0 tx)).
  split; [reflexivity|]. split; [apply base_last|]. rewrite !stderr_cons. change (stderr tx []) with (@nil byte). rewrite app_nil_r.
  cbn [message_text]. unfold tool_text. rewrite <- !app_assoc. reflexivity.
Qed.
Lemma until_app a b : ~ In x2f a -> (b = [] \/ exists d, b = x2f :: d) -> until_slash (a ++ b) = a.
Proof.
  intros Ha Hb. induction a as [|x a IH]; cbn [app until_slash].
  - destruct Hb as [->|[d ->]]; reflexivity.
  - destruct (Byte.eqb x x2f) eqn:E; [apply byte_eqb_eq in E; exfalso; apply Ha; left; exact E|]. f_equal. apply IH. intros H. apply Ha. right. exact H.
Qed.
Lemma base_kagome dir : dir = [] \/ (exists d, dir = d ++ [x2f]) -> base (dir ++ s2b "kagome") = s2b "kagome".
Proof.
  intros H. unfold base. destruct (dir ++ s2b "kagome") eqn:E; [destruct dir; discriminate E|]. rewrite <- E, rev_app_distr.
  change (rev (s2b "kagome")) with (s2b "emogak"). change (drop_slashes (s2b "emogak" ++ rev dir)) with (s2b "emogak" ++ rev dir).
  rewrite until_app; [reflexivity|cbv; intros [|[|[|[|[|[|]]]]]]; try discriminate; assumption|].
  destruct H as [->|[d ->]]; [left; reflexivity|right]. rewrite rev_app_distr. exists (rev d). reflexivity.
Qed.
Theorem readme_says tx w prog args dir : letters_printable (tx_printable tx) ->
  (forall name rest, args = name :: rest -> ~ In name command_names) -> (forall o, ~ tok_args args o) ->
  tx_argv0 tx = dir ++ s2b "kagome" -> dir = [] \/ (exists d, dir = d ++ [x2f]) ->
  exists tr, kagome w (prog :: args) = (tr, Status 1) /\ stderr tx tr = rows_text readme_help.
Proof.
  intros Hp Hn Ha Ht Hd. rewrite (kagome_unnamed w prog Hn). unfold tok_check.
  destruct (tok_parse args) as [o|e] eqn:E; [exfalso; apply (Ha o), tok_parse_ok; exact E|]. eexists. split; [reflexivity|].
  rewrite !stderr_cons. change (stderr tx []) with (@nil byte). rewrite app_nil_r. cbn [message_text]. unfold tool_text. rewrite Ht, (base_kagome Hd).
  change (help_text (tx_printable tx) (s2b "tokenize")) with (print_defaults (tx_printable tx) tok_defs). unfold print_defaults.
  rewrite (plain_defaults (tok_quotes Hp)). vm_compute. reflexivity.
Qed.
Theorem commands_read : read_commands commands_text = Some (map (fun n => (n, bytes_eqb n (s2b "tokenize"))) command_names).
Proof. vm_compute. reflexivity. Qed.
Theorem usages_read :
  read_usage (usage_text (s2b "tokenize")) = Some (s2b "tokenize", tok_usage, []) /\
  read_usage (usage_text (s2b "server")) = Some (s2b "server", srv_usage, []) /\
  read_usage (usage_text (s2b "lattice")) = Some (s2b "lattice", lat_usage, [s2b "sentence"]) /\
  read_usage (usage_text (s2b "sentence")) = Some (s2b "sentence", sen_usage, []).
Proof. repeat split; vm_compute; reflexivity. Qed.

(** ** The version *)
Lemma rows_app a b : rows_text (a ++ b) = rows_text a ++ rows_text b.
Proof. unfold rows_text. rewrite map_app, concat_app. reflexivity. Qed.
Lemma prefix_cases p s : (exists r, s = p ++ r /\ bytes_eqb (firstn (length p) s) p = true /\ skipn (length p) s = r) \/
  ((forall r, s <> p ++ r) /\ bytes_eqb (firstn (length p) s) p = false).
Proof.
  destruct (bytes_eqb (firstn (length p) s) p) eqn:E.
  - left. apply bytes_eqb_eq in E. exists (skipn (length p) s). split; [|auto]. rewrite <- E at 1. symmetry. apply firstn_skipn.
  - right. split; [|reflexivity]. intros r ->. rewrite firstn_app, firstn_all, Nat.sub_diag in E. cbn [firstn] in E. rewrite app_nil_r, bytes_eqb_refl in E. discriminate.
Qed.
Lemma deps_rows deps : exists rows, dictionary_rows deps rows /\
  concat (map (fun d => s2b "   " ++ skipn (length dict_prefix) (fst d) ++ s2b " " ++ snd d ++ nl)
    (filter (fun d => bytes_eqb (firstn (length dict_prefix) (fst d)) dict_prefix) deps)) = rows_text rows.
Proof.
  induction deps as [|[path v] deps (rows & H1 & H2)]; [exists []; split; [constructor|reflexivity]|]. cbn [filter fst].
  destruct (prefix_cases dict_prefix path) as [(r & -> & -> & E)|(H & ->)].
  - exists ((s2b "   " ++ r ++ s2b " " ++ v) :: rows). split; [constructor; exact H1|]. cbn [map concat fst snd]. rewrite E, H2. unfold rows_text. cbn [map concat]. rewrite <- !app_assoc. reflexivity.
  - exists rows. split; [apply dr_other; [exact H|exact H1]|exact H2].
Qed.
Theorem version_says tx w prog args : exists tr v rows, kagome w (prog :: s2b "version" :: args) = (tr, Status 0) /\ only_messages tr /\
  version_shown (tx_version tx) (tx_build tx) v /\
  (forall main deps, tx_build tx = Some (main, deps) -> dictionary_rows deps rows) /\ (tx_build tx = None -> rows = []) /\
  stderr tx tr = rows_text (v :: rows).
Proof.
  rewrite (@kagome_named w prog (s2b "version") (version_run w)) by (right; right; right; right; auto).
  assert (V : forall t, version_text tx = t -> stderr tx [EErr MVersion] = t) by (intros t <-; rewrite stderr_cons; apply app_nil_r).
  assert (B : forall s, bempty s = true <-> s = []) by (intros s; apply bempty_true).
  unfold version_text in V. destruct (tx_build tx) as [[main deps]|].
  - destruct (deps_rows deps) as (rows & R1 & R2). rewrite R2 in V.
    destruct (bempty (tx_version tx)) eqn:E1.
    + apply B in E1. destruct (bempty main) eqn:E2.
      * apply B in E2. exists [EErr MVersion], (s2b "(devel)"), rows. split; [reflexivity|]. split; [repeat constructor|].
        split; [right; right; split; [exact E1|split; [intros m d [= <- _]; exact E2|reflexivity]]|].
        split; [intros m d [= _ <-]; exact R1|]. split; [discriminate|]. apply V. unfold rows_text. cbn [map concat]. rewrite <- !app_assoc. reflexivity.
      * exists [EErr MVersion], main, rows. split; [reflexivity|]. split; [repeat constructor|].
        split; [right; left; split; [exact E1|exists main, deps; split; [reflexivity|split; [intros Em; apply B in Em; congruence|reflexivity]]]|].
        split; [intros m d [= _ <-]; exact R1|]. split; [discriminate|]. apply V. unfold rows_text. cbn [map concat]. rewrite <- !app_assoc. reflexivity.
    + exists [EErr MVersion], (tx_version tx), rows. split; [reflexivity|]. split; [repeat constructor|].
      split; [left; split; [intros Em; apply B in Em; congruence|reflexivity]|].
      split; [intros m d [= _ <-]; exact R1|]. split; [discriminate|]. rewrite E1 in V. apply V. unfold rows_text. cbn [map concat]. rewrite <- !app_assoc. reflexivity.
  - destruct (bempty (tx_version tx)) eqn:E1.
    + apply B in E1. exists [EErr MVersion], (s2b "(devel)"), []. split; [reflexivity|]. split; [repeat constructor|].
      split; [right; right; split; [exact E1|split; [discriminate|reflexivity]]|]. split; [discriminate|]. split; [reflexivity|]. apply V. reflexivity.
    + exists [EErr MVersion], (tx_version tx), []. split; [reflexivity|]. split; [repeat constructor|].
      split; [left; split; [intros Em; apply B in Em; congruence|reflexivity]|]. split; [discriminate|]. split; [reflexivity|]. apply V. unfold rows_text. cbn [map concat]. rewrite !app_nil_r. reflexivity.
Qed.

(** ** One fault, and a fault of which tokenize does not tell *)
Theorem one_fault flags args : flags_ok flags ->
  ((exists e, misread flags args e) \/ exists l rest, command_line flags args l rest) /\
  (forall e e', misread flags args e -> misread flags args e' -> e = e') /\
  (forall e l rest, misread flags args e -> ~ command_line flags args l rest).
Proof.
  intros Hf. split; [apply misread_or_read|]. split; [intros e e'; apply misread_one; exact Hf|]. intros e l rest. apply misread_not_read. exact Hf.
Qed.
Lemma one_word n v : In (n, FString) tok_flags -> command_line tok_flags [s2b "-" ++ n; v] [(n, VString v)] [].
Proof. intros H. eapply cl_str; [exact H|left; reflexivity|constructor]. Qed.
Theorem tokenize_silent : exists a b reason_a reason_b, tok_fault a reason_a /\ tok_fault b reason_b /\ reason_a <> reason_b /\
  (forall o, ~ tok_args a o) /\ (forall o, ~ tok_args b o) /\
  forall tx w prog, exists tr, kagome w (prog :: s2b "tokenize" :: a) = (tr, Status 1) /\ kagome w (prog :: s2b "tokenize" :: b) = (tr, Status 1) /\
    stderr tx tr = usage_text (s2b "tokenize") ++ help_text (tx_printable tx) (s2b "tokenize") ++ [x0a].
Proof.
  exists [s2b "-mode"; s2b "fast"], [s2b "-sysdict"; s2b "fast"], (s2b "invalid argument: -mode fast"), (s2b "invalid argument: -sysdict fast").
  split; [|split; [|split; [discriminate|split; [|split]]]].
  - eapply tf_mode; [apply (@one_word (s2b "mode")); cbn; tauto|]. exists (s2b "fast"). split; [|split; [cbn; intuition discriminate|reflexivity]].
    left. exists [], []. split; [reflexivity|]. intros v [].
  - eapply tf_dict; [apply (@one_word (s2b "sysdict")); cbn; tauto| |].
    + exists (s2b "normal"). split; [|cbn; tauto]. right. split; [reflexivity|]. intros v [H|[]]. discriminate H.
    + exists (s2b "fast"). split; [|split; [cbn; intuition discriminate|reflexivity]]. left. exists [], []. split; [reflexivity|]. intros v [].
  - intros o H. apply tok_parse_ok in H. vm_compute in H. discriminate H.
  - intros o H. apply tok_parse_ok in H. vm_compute in H. discriminate H.
  - intros tx w prog. rewrite !(@kagome_named w prog (s2b "tokenize") (tok_run w)) by (left; auto). eexists. split; [reflexivity|]. split; [reflexivity|].
    cbn [app]. rewrite !stderr_cons. change (stderr tx []) with (@nil byte). rewrite app_nil_r. reflexivity.
Qed.
