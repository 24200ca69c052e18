(** The main program and the usage lines. *)
From Verif Require Import SpecCmd Utf8Facts FlagFacts OptFacts CmdFacts TokFacts CmdRuns CmdMore.
From Coq Require Import List Arith Lia ZifyBool ZifyNat ZifyN.
Import ListNotations.
Set Implicit Arguments.
Unset Strict Implicit.

(** ** Usage lines *)
Definition declares (flags : list (bytes * flag_kind)) (i : usage_item) : Prop :=
  match i with
  | UArg n | UChoice n _ | UEq n => In (n, FString) flags
  | UFlag n => In (n, FBool) flags
  end.
(** What a usage line may set. *)
Definition may_set (items : list usage_item) (a : bytes * flag_value) : Prop :=
  exists i, In i items /\
  match i with
  | UArg n | UEq n => fst a = n /\ exists v, snd a = VString v
  | UChoice n ws => fst a = n /\ exists v, snd a = VString v /\ In v ws
  | UFlag n => a = (n, VBool true)
  end.
Lemma usage_line flags items tail ltail rest : Forall (declares flags) items -> command_line flags tail ltail rest ->
  forall args, usage items args -> exists l, command_line flags (args ++ tail) (l ++ ltail) rest /\ Forall (may_set items) l.
Proof.
  intros Hd Ht args (parts & Hp & ->). revert Hd. induction Hp as [|i p items parts Hi Hp IH]; intros Hd.
  - exists []. split; [assumption|constructor].
  - inversion Hd as [|? ? D1 D2]; subst. destruct (IH D2) as (l & Hl & Hm). cbn [concat].
    assert (Hm' : Forall (may_set (i :: items)) l).
    { eapply Forall_impl; [|exact Hm]. intros a (j & Hj & H). exists j. split; [right; assumption|assumption]. }
    destruct Hi as [->|Hi]; [exists l; auto|]. destruct i as [n|n ws|n|n]; cbn [usage_part] in Hi.
    + destruct Hi as (v & ->). exists ((n, VString v) :: l). split.
      * eapply cl_str with (n := n) (a := s2b "-" ++ n); [exact D1|left; reflexivity|assumption].
      * constructor; [|assumption]. exists (UArg n). split; [left; reflexivity|]. split; [reflexivity|]. exists v. reflexivity.
    + destruct Hi as (v & Hv & ->). exists ((n, VString v) :: l). split.
      * eapply cl_str with (n := n) (a := s2b "-" ++ n); [exact D1|left; reflexivity|assumption].
      * constructor; [|assumption]. exists (UChoice n ws). split; [left; reflexivity|]. split; [reflexivity|]. exists v. auto.
    + destruct Hi as (v & ->). exists ((n, VString v) :: l). split.
      * eapply cl_str_eq with (n := n) (a := s2b "-" ++ n ++ s2b "=" ++ v) (v := v); [exact D1|left; reflexivity|assumption].
      * constructor; [|assumption]. exists (UEq n). split; [left; reflexivity|]. split; [reflexivity|]. exists v. reflexivity.
    + subst p. exists ((n, VBool true) :: l). split.
      * eapply cl_bool with (n := n) (a := s2b "-" ++ n); [exact D1|left; reflexivity|assumption].
      * constructor; [|assumption]. exists (UFlag n). split; [left; reflexivity|reflexivity].
Qed.
Lemma setting_words l name default v (ws : list bytes) : setting l name (VString default) (VString v) -> In default ws ->
  (forall x, In (name, VString x) l -> In x ws) -> In v ws.
Proof.
  intros [(l1 & l2 & -> & _)|(E & _)] Hd Hx; [|injection E as ->; assumption]. apply Hx. apply in_or_app. right. left. reflexivity.
Qed.
Lemma choice_words items l name ws : Forall (may_set items) l ->
  (forall i, In i items -> match i with UArg n | UEq n | UFlag n => n <> name | UChoice n ws' => n = name -> incl ws' ws end) ->
  forall x, In (name, VString x) l -> In x ws.
Proof.
  intros Hl Hi x Hx. rewrite Forall_forall in Hl. destruct (Hl _ Hx) as (i & Hin & Hm). specialize (Hi _ Hin).
  destruct i as [n|n ws'|n|n]; cbn [fst snd] in Hm.
  - destruct Hm as [E _]. congruence.
  - destruct Hm as (E & v & Ev & Hv). injection Ev as ->. apply Hi; [congruence|assumption].
  - destruct Hm as [E _]. congruence.
  - discriminate.
Qed.
Ltac words := let i := fresh in let H := fresh in intros i H; cbn in H;
  repeat (destruct H as [<-|H]; [first [discriminate | (intros _; intros ?; cbn; intuition) | (intros; discriminate)]|]); contradiction.

Lemma tok_accept items args l : command_line tok_flags args l [] -> Forall (may_set items) l ->
  (forall i, In i items -> match i with UArg n | UEq n | UFlag n => n <> s2b "mode" | UChoice n ws' => n = s2b "mode" -> incl ws' mode_words end) ->
  (forall i, In i items -> match i with UArg n | UEq n | UFlag n => n <> s2b "sysdict" | UChoice n ws' => n = s2b "sysdict" -> incl ws' dict_words end) ->
  exists o, tok_args args o.
Proof.
  intros Hl Hm W1 W2. destruct (tok_fold (command_line_typed Hl)) as (H1 & H2 & H3 & H4 & H5 & H6 & H7 & H8).
  exists (fold_left tok_set l tok_default), l. repeat (split; [assumption|]). split.
  - eapply setting_words; [exact H5|cbn; auto|]. eapply choice_words; eassumption.
  - eapply setting_words; [exact H4|cbn; auto|]. eapply choice_words; eassumption.
Qed.
Definition tok_usage_good : list usage_item :=
  filter (fun i => match i with UArg n => negb (bytes_eqb n (s2b "userdict")) | UChoice n _ => negb (bytes_eqb n (s2b "simple")) | _ => true end) tok_usage.
Theorem tokenize_usage args : usage tok_usage_good args -> exists o, tok_args args o.
Proof.
  intros H. destruct (@usage_line tok_flags tok_usage_good [] [] []) with (args := args) as (l & Hl & Hm).
  - repeat (apply Forall_cons; [cbn; repeat (first [left; reflexivity|right])|]); apply Forall_nil.
  - constructor.
  - assumption.
  - rewrite !app_nil_r in Hl. eapply tok_accept; [exact Hl|exact Hm| |]; words.
Qed.
Theorem tokenize_usage_wrong : (usage tok_usage [s2b "-userdict"; s2b "user.txt"] /\ forall o, ~ tok_args [s2b "-userdict"; s2b "user.txt"] o) /\
  (usage tok_usage [s2b "-simple"; s2b "false"] /\ forall o, ~ tok_args [s2b "-simple"; s2b "false"] o).
Proof.
  split; split.
  - exists [[]; []; [s2b "-userdict"; s2b "user.txt"]; []; []; []; []; []]. split; [|reflexivity].
    repeat (apply Forall2_cons; [first [left; reflexivity|right; eexists; reflexivity]|]). apply Forall2_nil.
  - intros o H. apply tok_parse_ok in H. discriminate H.
  - exists [[]; []; []; []; [s2b "-simple"; s2b "false"]; []; []; []]. split; [|reflexivity].
    repeat (apply Forall2_cons; [first [left; reflexivity|right; eexists; split; [left; reflexivity|reflexivity]]|]). apply Forall2_nil.
  - intros o H. apply tok_parse_ok in H. discriminate H.
Qed.
Theorem server_usage args : usage srv_usage args -> exists o, srv_args args o.
Proof.
  intros H. destruct (@usage_line srv_flags srv_usage [] [] []) with (args := args) as (l & Hl & Hm).
  - repeat (apply Forall_cons; [cbn; repeat (first [left; reflexivity|right])|]); apply Forall_nil.
  - constructor.
  - assumption.
  - rewrite !app_nil_r in Hl. destruct (srv_fold (command_line_typed Hl)) as (H1 & H2 & H3).
    exists (fold_left srv_set l srv_default), l. repeat (split; [assumption|]).
    eapply setting_words; [exact H3|cbn; auto|]. eapply choice_words; [exact Hm|]. words.
Qed.
Theorem lattice_usage args sentence : usage lat_usage args -> plain_arg sentence -> exists o, lat_args (args ++ [sentence]) o /\ lo_input o = sentence.
Proof.
  intros H Hp. destruct (@usage_line lat_flags lat_usage [sentence] [] [sentence]) with (args := args) as (l & Hl & Hm).
  - repeat (apply Forall_cons; [cbn; repeat (first [left; reflexivity|right])|]); apply Forall_nil.
  - apply cl_rest. assumption.
  - assumption.
  - rewrite !app_nil_r in Hl. destruct (lat_fold (command_line_typed Hl)) as (H1 & H2 & H3 & H4 & H5).
    set (o := fold_left lat_set l lat_default) in *.
    exists (LatOpt (lo_udict o) (lo_dict o) (lo_mode o) (lo_output o) (lo_verbose o) sentence). split; [|reflexivity].
    exists l, [sentence]. split; [assumption|]. split; [discriminate|]. split; [symmetry; apply app_nil_r|].
    repeat (split; [assumption|]). split.
    + eapply setting_words; [exact H3|cbn; auto|]. eapply choice_words; [exact Hm|]. words.
    + eapply setting_words; [exact H2|cbn; auto|]. eapply choice_words; [exact Hm|]. words.
Qed.
Theorem sentence_usage args : usage sen_usage args -> exists f, sen_args args f.
Proof.
  intros (parts & Hp & ->). inversion Hp as [|? p ? ps Hi Hr]; subst. inversion Hr; subst. cbn [concat]. rewrite app_nil_r. destruct Hi as [->|(v & ->)].
  - exists [], []. split; [constructor|]. right. split; [reflexivity|]. tauto.
  - exists v, [(s2b "file", VString v)]. split.
    + eapply cl_str with (n := s2b "file") (a := s2b "-file"); [left; reflexivity|left; reflexivity|constructor].
    + left. exists [], []. split; [reflexivity|tauto].
Qed.

(** ** Dispatch *)
Lemma finish_exits m tr n : finish m = (tr, Status n) <-> exits m tr n.
Proof.
  destruct m as [t [[e|]| |]]; cbn [finish]; unfold exits; cbn [fst snd]; split.
  - intros [= <- <-]. right. exists e. auto.
  - intros [(H & _)|(e' & [= <-] & -> & ->)]; [discriminate|reflexivity].
  - intros [= <- <-]. left. auto.
  - intros [(_ & -> & ->)|(e & H & _)]; [reflexivity|discriminate].
  - discriminate.
  - intros [(H & _)|(e & H & _)]; discriminate.
  - discriminate.
  - intros [(H & _)|(e & H & _)]; discriminate.
Qed.
Definition run_of (w : world) (name : bytes) (run : list bytes -> cmd (option cmd_err)) : Prop :=
  (name = s2b "tokenize" /\ run = tok_run w) \/ (name = s2b "server" /\ run = srv_run w) \/ (name = s2b "lattice" /\ run = lat_run w) \/
  (name = s2b "sentence" /\ run = sen_run w) \/ (name = s2b "version" /\ run = version_run w).
Lemma kagome_named w prog name run args : run_of w name run -> kagome w (prog :: name :: args) = finish (run args).
Proof. intros H. unfold run_of in H. repeat (destruct H as [(-> & ->)|H]; [reflexivity|]). destruct H as (-> & ->). reflexivity. Qed.
Theorem kagome_dispatch w prog name run args tr n : run_of w name run -> (kagome w (prog :: name :: args) = (tr, Status n) <-> exits (run args) tr n).
Proof. intros H. rewrite (kagome_named prog args H). apply finish_exits. Qed.
Lemma kagome_unnamed w prog args : (forall name rest, args = name :: rest -> ~ In name command_names) ->
  kagome w (prog :: args) = match tok_check args with
    | Some _ => ([EErr MTool; EErr MCommands; EErr MLine; EErr (MUsage (s2b "tokenize")); EErr (MDefaults (s2b "tokenize"))], Status 1)
    | None => finish (tok_run w args) end.
Proof.
  intros H. unfold kagome. destruct args as [|name rest]; [reflexivity|].
  assert (Hn : forall c, In c command_names -> bytes_eqb name c = false).
  { intros c Hc. apply bytes_eqb_neq. intros ->. exact (H _ _ eq_refl Hc). }
  unfold subcommands. cbn [fold_left fst snd].
  rewrite (Hn (s2b "tokenize")), (Hn (s2b "server")), (Hn (s2b "lattice")), (Hn (s2b "sentence")), (Hn (s2b "version")) by (cbn; tauto). reflexivity.
Qed.
Lemma accepted_unnamed args o : tok_args args o -> forall name rest, args = name :: rest -> ~ In name command_names.
Proof.
  intros (l & Hl & _) name rest -> Hin.
  assert (Hx : forall body, ~ dashed name body) by (intros body [->| ->]; cbn in Hin; intuition discriminate).
  inversion Hl; subst; first [eapply Hx; eassumption|cbn in Hin; intuition discriminate].
Qed.
Theorem kagome_default w prog args o tr n : tok_args args o -> (kagome w (prog :: args) = (tr, Status n) <-> exits (tok_run w args) tr n).
Proof.
  intros Ha. rewrite (kagome_unnamed w prog (accepted_unnamed Ha)). unfold tok_check. rewrite (proj2 (tok_parse_ok _ _) Ha). apply finish_exits.
Qed.
Theorem kagome_same w prog args o : tok_args args o -> kagome w (prog :: args) = kagome w (prog :: s2b "tokenize" :: args).
Proof.
  intros Ha. rewrite (kagome_unnamed w prog (accepted_unnamed Ha)). unfold tok_check. rewrite (proj2 (tok_parse_ok _ _) Ha).
  symmetry. apply kagome_named. left. auto.
Qed.
Theorem kagome_rejects w prog args : (forall name rest, args = name :: rest -> ~ In name command_names) -> (forall o, ~ tok_args args o) ->
  exists tr, kagome w (prog :: args) = (tr, Status 1) /\ only_messages tr.
Proof.
  intros Hn Ha. rewrite (kagome_unnamed w prog Hn). unfold tok_check.
  destruct (tok_parse args) as [o|e] eqn:E; [exfalso; apply (Ha o), tok_parse_ok; assumption|]. eexists. split; [reflexivity|]. repeat constructor.
Qed.

(** ** The process always ends with a status. *)
Definition world_ok (w : world) : Prop :=
  (forall b, wf_dict (w_ipa w b) /\ wf_data (w_ipa w b)) /\ (forall b, wf_dict (w_uni w b) /\ wf_data (w_uni w b)) /\
  (forall p b d, w_load w p b = Some d -> wf_dict d /\ wf_data d) /\ (forall p ud, w_user w p = Some ud -> wf_udict (Some ud)) /\
  (forall a t, exists tr e, w_serve w a t = (tr, Ok e)).
Lemma tok_uses_wf w o d tr : world_ok w -> tok_uses w o d tr -> wf_dict d /\ wf_data d.
Proof.
  intros (W1 & W2 & W3 & _) [(_ & H & _)|(_ & _ & [(_ & ->)|(_ & ->)])]; auto. eapply W3. eassumption.
Qed.
Lemma embedded_wf w word b d tr : world_ok w -> embedded w word b d tr -> wf_dict d /\ wf_data d.
Proof. intros (W1 & W2 & W3 & _) (_ & [(_ & ->)|(_ & ->)]); auto. Qed.
Lemma user_uses_wf w p u tr : world_ok w -> user_uses w p u tr -> wf_udict u.
Proof. intros (W1 & W2 & W3 & W4 & _) [(_ & -> & _)|(_ & ud & H & -> & _)]; [exact I|eauto]. Qed.
Lemma tok_run_total w args : world_ok w -> exists tr e, tok_run w args = (tr, Ok e).
Proof.
  intros W. unfold tok_run. destruct (tok_parse args) as [o|e] eqn:E.
  2:{ destruct (rejected_messages (s2b "tokenize") e) as (ms & ->). eexists. eexists. reflexivity. }
  apply tok_parse_ok in E. destruct (tok_dict_cases w o) as [(d & t1 & H1 & _)|(tr & e & _ & Ed)].
  2:{ unfold tok_command. rewrite Ed, cbind_ok. eexists. eexists. reflexivity. }
  destruct (user_cases w d (to_udict o)) as [(u & t2 & H2 & _)|(tr & e & _ & Ed)].
  2:{ unfold tok_command. rewrite (tok_dict_ok H1), cbind_ok, Ed, cbind_ok. eexists. eexists. reflexivity. }
  destruct (input_cases w (to_file o)) as [(r & t3 & H3)|(tr & e & _ & Ed)].
  2:{ unfold tok_command. rewrite (tok_dict_ok H1), cbind_ok, (make_tokenizer_ok d H2), cbind_ok, Ed, cbind_ok. eexists. eexists. reflexivity. }
  destruct (tok_uses_wf W H1) as [Hd Hw]. pose proof (user_uses_wf W H2) as Hu.
  assert (Hm : mode_of (to_mode o) (select_mode (to_mode o))) by (apply mode_of_word; destruct E as (l & E); tauto).
  destruct (tokenize_prints Hd Hu Hw E H1 H2 H3 Hm) as (tr & texts & err & r' & blocks & E1 & _).
  unfold tok_run in E1. rewrite (proj2 (tok_parse_ok _ _) E) in E1. rewrite E1. eexists. eexists. reflexivity.
Qed.
Lemma sen_run_total w args : exists tr e, sen_run w args = (tr, Ok e).
Proof.
  unfold sen_run. destruct (sen_parse args) as [f|e] eqn:E; [|eexists; eexists; reflexivity].
  apply sen_parse_ok in E. destruct (input_cases w f) as [(r & t3 & H3)|(tr & e & _ & Ed)].
  2:{ unfold sen_command. rewrite Ed, cbind_ok. eexists. eexists. reflexivity. }
  destruct (sentence_prints E H3) as (tr & texts & err & r' & E1 & _).
  unfold sen_run in E1. rewrite (proj2 (sen_parse_ok _ _) E) in E1. rewrite E1. eexists. eexists. reflexivity.
Qed.
Lemma lat_run_total w args : world_ok w -> exists tr e, lat_run w args = (tr, Ok e).
Proof.
  intros W. unfold lat_run. destruct (lat_parse args) as [o|e] eqn:E.
  2:{ destruct (rejected_messages (s2b "lattice") e) as (ms & ->). eexists. eexists. reflexivity. }
  apply lat_parse_ok in E. destruct (sysdict_cases XNameType w (lo_dict o) false) as [(d & t1 & H1)|(_ & _ & Ed)].
  2:{ unfold lat_command. rewrite Ed, cbind_ok. eexists. eexists. reflexivity. }
  destruct (user_cases w d (lo_udict o)) as [(u & t2 & H2 & _)|(tr & e & _ & Ed)].
  2:{ unfold lat_command. rewrite (sysdict_ok _ H1), cbind_ok, Ed, cbind_ok. eexists. eexists. reflexivity. }
  destruct (embedded_wf W H1) as [Hd Hw]. pose proof (user_uses_wf W H2) as Hu.
  assert (Hm : mode_of (lo_mode o) (select_mode (lo_mode o))) by (apply mode_of_word; destruct E as (l & rest & E); tauto).
  destruct (bempty (lo_output o)) eqn:Eo; [apply bempty_true in Eo|].
  - destruct (lattice_draws Hd Hu Hw E H1 H2 Hm (or_introl Eo)) as (ts & ss & ls & _ & _ & E1 & _).
    unfold lat_run in E1. rewrite (proj2 (lat_parse_ok _ _) E) in E1. rewrite E1. eexists. eexists. reflexivity.
  - destruct (w_create w (lo_output o)) eqn:Ec.
    + destruct (lattice_draws Hd Hu Hw E H1 H2 Hm (or_intror Ec)) as (ts & ss & ls & _ & _ & E1 & _).
      unfold lat_run in E1. rewrite (proj2 (lat_parse_ok _ _) E) in E1. rewrite E1. eexists. eexists. reflexivity.
    + unfold lat_command. rewrite (sysdict_ok _ H1), cbind_ok, (make_tokenizer_ok d H2), cbind_ok, Eo. cbn [negb].
      rewrite cbind_emit, Ec. cbn [cret fst snd]. rewrite cbind_ok. cbn [fst snd negb]. eexists. eexists. reflexivity.
Qed.
Lemma srv_run_total w args : world_ok w -> exists tr e, srv_run w args = (tr, Ok e).
Proof.
  intros W. unfold srv_run. destruct (srv_parse args) as [o|e] eqn:E.
  2:{ destruct (rejected_messages (s2b "server") e) as (ms & ->). eexists. eexists. reflexivity. }
  destruct (sysdict_cases XNameType w (so_dict o) false) as [(d & t1 & H1)|(_ & _ & Ed)].
  2:{ unfold srv_command. rewrite Ed, cbind_ok. eexists. eexists. reflexivity. }
  destruct (user_cases w d (so_udict o)) as [(u & t2 & H2 & _)|(tr & e & _ & Ed)].
  2:{ unfold srv_command. rewrite (sysdict_ok _ H1), cbind_ok, Ed, cbind_ok. eexists. eexists. reflexivity. }
  destruct W as (_ & _ & _ & _ & W). destruct (W (so_http o) (Tokenizer d u false)) as (tr & e & Es).
  unfold srv_command. rewrite (sysdict_ok _ H1), cbind_ok, (make_tokenizer_ok d H2), cbind_ok, Es. eexists. eexists. reflexivity.
Qed.
Lemma finish_total m : (exists tr e, m = (tr, Ok e)) -> exists tr n, finish m = (tr, Status n) /\ (n = 0 \/ n = 1)%Z.
Proof. intros (tr & [e|] & ->); cbn [finish]; eexists; eexists; split; try reflexivity; auto. Qed.
Theorem kagome_total w argv : world_ok w -> argv <> [] -> exists tr n, kagome w argv = (tr, Status n) /\ (n = 0 \/ n = 1)%Z.
Proof.
  intros W Hne. destruct argv as [|prog args]; [congruence|].
  assert (Hd : (forall name rest, args = name :: rest -> ~ In name command_names) -> exists tr n, kagome w (prog :: args) = (tr, Status n) /\ (n = 0 \/ n = 1)%Z).
  { intros H. rewrite (kagome_unnamed w prog H). destruct (tok_check args); [eexists; eexists; split; [reflexivity|auto]|]. apply finish_total, tok_run_total. assumption. }
  destruct args as [|name rest]; [apply Hd; congruence|].
  destruct (existsb (bytes_eqb name) command_names) eqn:En.
  - apply in_words in En. assert (Hr : exists run, run_of w name run).
    { unfold run_of. cbn in En. destruct En as [<-|[<-|[<-|[<-|[<-|[]]]]]]; eexists; [left|right; left|do 2 right; left|do 3 right; left|do 4 right]; auto. }
    destruct Hr as (run & Hr). rewrite (kagome_named prog rest Hr). apply finish_total.
    destruct Hr as [(_ & ->)|[(_ & ->)|[(_ & ->)|[(_ & ->)|(_ & ->)]]]];
      [apply tok_run_total; assumption|apply srv_run_total; assumption|apply lat_run_total; assumption|apply sen_run_total|].
    eexists. eexists. reflexivity.
  - apply Hd. intros n r [= <- <-] Hin. apply in_words in Hin. congruence.
Qed.
