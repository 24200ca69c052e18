(** What the commands print. *)
From Verif Require Import SpecCmd Utf8Facts FlagFacts OptFacts ScannerFacts SplitterFacts SentenceFacts LoaderFacts JsonFacts CmdFacts
  TokFacts AnalyzeFacts TokenFacts.
From Coq Require Import List Arith Lia ZifyBool ZifyNat ZifyN.
Import ListNotations.
Set Implicit Arguments.
Unset Strict Implicit.

(** ** One text *)
Lemma print_tokens_ok ts : (forall tk, In tk ts -> exists fs, features tk = Ok fs) -> exists b, print_tokens ts = (b, Ok tt) /\ text_block ts b.
Proof.
  induction ts as [|tk ts IH]; intros H; cbn [print_tokens].
  - eexists. split; [reflexivity|]. exists []. split; [constructor|reflexivity].
  - destruct IH as (b & Eb & ls & Hls & Hb); [intros; apply H; right; assumption|]. rewrite Eb.
    unfold text_block. cbn [no_markers filter]. unfold is_marker at 1. change bos_eos_id with (-1)%Z. destruct (t_id tk =? -1)%Z eqn:Ei; cbn [negb].
    + exists b. split; [reflexivity|]. exists ls. auto.
    + destruct (class_eqb (t_class tk) DUMMY) eqn:Ec.
      * eexists. split; [reflexivity|]. exists ((t_surface tk ++ [x0a]) :: ls). split.
        -- constructor; [|assumption]. apply tl_dummy. destruct (t_class tk); try discriminate. reflexivity.
        -- cbn [concat]. rewrite Hb, <- !app_assoc. reflexivity.
      * destruct (H tk (or_introl eq_refl)) as (fs & Ef). rewrite Ef, join_commas. eexists. split; [reflexivity|].
        exists ((t_surface tk ++ [x09] ++ commas (strings_list fs) ++ [x0a]) :: ls). split.
        -- constructor; [|assumption]. apply tl_word; [|assumption]. intros Hd. rewrite Hd in Ec. discriminate.
        -- cbn [concat]. rewrite Hb, <- !app_assoc. reflexivity.
Qed.

Lemma mapM_forall2 A B (f : A -> res B) l : (forall a, In a l -> exists b, f a = Ok b) -> exists bs, mapM f l = Ok bs /\ Forall2 (fun a b => f a = Ok b) l bs.
Proof.
  induction l as [|a l IH]; intros H; cbn [mapM].
  - exists []. split; [reflexivity|constructor].
  - destruct (H a (or_introl eq_refl)) as (b & Eb). rewrite Eb. cbn [rbind].
    destruct IH as (bs & E & Hbs); [intros; apply H; right; assumption|]. rewrite E. cbn [rbind]. exists (b :: bs). split; [reflexivity|constructor; assumption].
Qed.

Lemma print_tokens_json_ok nw ts : ts <> [] -> (forall tk, In tk ts -> exists td, new_token_data tk = Ok td) ->
  exists b, print_tokens_json nw ts = (b, Ok tt) /\ json_block ts b.
Proof.
  intros Hne H. unfold print_tokens_json. fold (not_dummy ts).
  destruct (@mapM_forall2 _ _ new_token_data (not_dummy ts)) as (tds & E & Htds).
  { intros tk Hin. apply H. apply filter_In in Hin. tauto. }
  rewrite E. replace (0 <? length ts)%nat with true by (destruct ts; [congruence|reflexivity]).
  eexists. split; [reflexivity|]. exists tds. split; [assumption|].
  replace ((s2b "[" ++ nl) ++ join (s2b "," ++ nl) (map (marshal_token nw) tds) ++ nl ++ s2b "]" ++ nl)
    with ((x5b :: [x0a] ++ join (x2c :: [x0a]) (map (marshal_token nw) tds) ++ [x0a] ++ [x5d]) ++ [x0a]).
  - apply denotes_line.
    + assert (Hbl : blank [x0a]) by (constructor; [cbn; auto|constructor]).
      apply den_array; [assumption|assumption|assumption|cbn; auto|apply den_tokens].
    + change (x5b :: [x0a] ++ join (x2c :: [x0a]) (map (marshal_token nw) tds) ++ [x0a] ++ [x5d])
        with ([x5b; x0a] ++ join (x2c :: [x0a]) (map (marshal_token nw) tds) ++ [x0a; x5d]).
      apply valid_app; [reflexivity|]. apply valid_app; [|reflexivity]. apply valid_join; [reflexivity|].
      apply Forall_forall. intros s Hs. apply in_map_iff in Hs. destruct Hs as (td & <- & _). apply valid_token.
  - change (s2b "," ++ nl) with (x2c :: [x0a]). change nl with [x0a]. change (s2b "[") with [x5b]. change (s2b "]") with [x5d].
    cbn [app]. rewrite <- !app_assoc. reflexivity.
Qed.

Lemma analyze_nonempty d u ideo inp mode ts : wf_dict d -> wf_udict u -> analyze ideo (Tokenizer d u false) inp mode = Ok ts -> ts <> [].
Proof.
  intros Hd Hu E. destruct (analyze_final inp ideo mode Hd Hu) as (i & ws & E' & _). rewrite E' in E. injection E as <-.
  intros H. apply (f_equal (@length token)) in H. unfold final_tokens in H. rewrite renumber_length in H. cbn [tk_omit andb] in H.
  assert (G : forall l : list token, filter (fun _ => negb false) l = l) by (induction l; cbn; [reflexivity|f_equal; assumption]).
  rewrite G in H. unfold raw_tokens in H. rewrite !app_length in H. cbn [length] in H. lia.
Qed.

(** ** The commands' loops *)
Definition block (json : bool) (ts : list token) (b : bytes) : Prop := if json then json_block ts b else text_block ts b.
Lemma tok_line_ok w d u mode json text : wf_dict d -> wf_udict u -> wf_data d ->
  exists ts b, analyze (w_ideo w) (Tokenizer d u false) text mode = Ok ts /\
    tok_line w (Tokenizer d u false) mode json text = ([EOut b], Ok None) /\ block json ts b.
Proof.
  intros Hd Hu Hw. destruct (analyze_total Hd Hu (w_ideo w) false text mode) as (ts & E). exists ts.
  assert (Hf : forall tk, In tk ts -> from_analyze d u tk) by (intros tk Hin; exists (w_ideo w), false, text, mode, ts; auto).
  unfold tok_line. rewrite E, cbind_lift. destruct json.
  - destruct (@print_tokens_json_ok (w_newer w) ts) as (b & Eb & Hb).
    + eapply analyze_nonempty; eassumption.
    + intros tk Hin. apply (c50_no_panic_lemma Hd Hu Hw (Hf _ Hin)).
    + exists b. rewrite Eb. split; [reflexivity|]. split; [reflexivity|assumption].
  - destruct (@print_tokens_ok ts) as (b & Eb & Hb).
    + intros tk Hin. apply (c50_no_panic_lemma Hd Hu Hw (Hf _ Hin)).
    + exists b. rewrite Eb. split; [reflexivity|]. split; [reflexivity|assumption].
Qed.

Lemma select_mode_ok word mode : mode_of word mode -> select_mode word = mode.
Proof. intros [[-> ->]|[[-> ->]|[[-> ->]|[-> ->]]]]; reflexivity. Qed.
Lemma mode_of_word word : In word mode_words -> mode_of word (select_mode word).
Proof. intros H. cbn in H. unfold mode_of. destruct H as [<-|[<-|[<-|[<-|[]]]]]; cbn; tauto. Qed.

Lemma sysdict_ok mk w word shrink d tr : embedded w word shrink d tr -> select_sysdict mk w word shrink = (tr, Ok (inl d)).
Proof. intros (-> & [(-> & ->)|(-> & ->)]); reflexivity. Qed.
Lemma tok_dict_ok w o d tr : tok_uses w o d tr -> tok_dict w (to_dict o) (to_sysdict o) (to_simple o) = (tr, Ok (inl d)).
Proof.
  unfold tok_dict. intros [(Hn & E & ->)|(E & H)].
  - rewrite (proj2 (bempty_false _) Hn), cbind_emit, E. reflexivity.
  - rewrite (proj2 (bempty_true _) E). apply sysdict_ok. assumption.
Qed.
Lemma make_tokenizer_ok w d path u tr : user_uses w path u tr -> make_tokenizer w d path = (tr, Ok (inl (Tokenizer d u false))).
Proof.
  unfold make_tokenizer. intros [(-> & -> & ->)|(Hn & ud & E & -> & ->)].
  - reflexivity.
  - rewrite (proj2 (bempty_false _) Hn). cbn [negb]. rewrite cbind_emit, E. reflexivity.
Qed.
Lemma open_input_ok w path r tr : input_uses w path r tr -> open_input w path = (tr, Ok (inl r)).
Proof.
  unfold open_input. intros [(-> & -> & ->)|(Hn & E & ->)].
  - reflexivity.
  - rewrite (proj2 (bempty_false _) Hn). cbn [negb]. rewrite cbind_emit, E. reflexivity.
Qed.

Definition tok_split (o : tok_opt) : split_func := if to_split o then scan_sentences default_splitter else scan_lines.
Lemma tok_split_contract o : split_contract (tok_split o).
Proof. unfold tok_split. destruct (to_split o); [apply sentences_contract|apply lines_contract]. Qed.

(** ** tokenize *)
Section TokRun.
Variables (w : world) (d : dict) (u : option udict).
Hypothesis Hd : wf_dict d.
Hypothesis Hu : wf_udict u.
Hypothesis Hw : wf_data d.

Definition out_of (mode : Z) (json : bool) (text : bytes) : bytes :=
  match fst (tok_line w (Tokenizer d u false) mode json text) with [EOut b] => b | _ => [] end.
Lemma out_line mode json text : tok_line w (Tokenizer d u false) mode json text = ([EOut (out_of mode json text)], Ok None).
Proof. unfold out_of. destruct (tok_line_ok w mode json text Hd Hu Hw) as (ts & b & _ & E & _). rewrite E. reflexivity. Qed.
Lemma out_block mode json text : exists ts, analyze (w_ideo w) (Tokenizer d u false) text mode = Ok ts /\ block json ts (out_of mode json text).
Proof. unfold out_of. destruct (tok_line_ok w mode json text Hd Hu Hw) as (ts & b & E1 & E & Hb). rewrite E. eauto. Qed.
Lemma out_blocks mode json texts :
  Forall2 (fun text b => exists ts, analyze (w_ideo w) (Tokenizer d u false) text mode = Ok ts /\ block json ts b) texts (map (out_of mode json) texts).
Proof. induction texts; constructor; [apply out_block|assumption]. Qed.

Lemma tok_run_ok args o mode r t1 t2 t3 : tok_args args o -> tok_uses w o d t1 -> user_uses w (to_udict o) u t2 ->
  input_uses w (to_file o) r t3 -> mode_of (to_mode o) mode ->
  tok_run w args = ((t1 ++ t2 ++ t3) ++ fst (scan_file (tok_split o) r (tok_line w (Tokenizer d u false) mode (to_json o))),
                    snd (scan_file (tok_split o) r (tok_line w (Tokenizer d u false) mode (to_json o)))).
Proof.
  intros Ha H1 H2 H3 Hm. unfold tok_run. rewrite (proj2 (tok_parse_ok _ _) Ha). unfold tok_command.
  rewrite (tok_dict_ok H1), cbind_ok, (make_tokenizer_ok d H2), cbind_ok, (open_input_ok H3), cbind_ok. cbn [fst snd].
  rewrite (select_mode_ok Hm). fold (tok_split o). rewrite <- !app_assoc. reflexivity.
Qed.

(** C40, C41: what is printed *)
Theorem tokenize_prints args o mode r t1 t2 t3 : tok_args args o -> tok_uses w o d t1 -> user_uses w (to_udict o) u t2 ->
  input_uses w (to_file o) r t3 -> mode_of (to_mode o) mode ->
  exists tr texts err r' blocks, tok_run w args = ((t1 ++ t2 ++ t3) ++ tr, Ok (option_map XScan err)) /\
    scan_texts (tok_split o) r = Ok (texts, err, r') /\
    outs tr = concat blocks /\
    Forall2 (fun text b => exists ts, analyze (w_ideo w) (Tokenizer d u false) text mode = Ok ts /\ block (to_json o) ts b) texts blocks /\
    io_only tr /\ rd_rest r = reads tr ++ rd_rest r'.
Proof.
  intros Ha H1 H2 H3 Hm.
  destruct (@scan_file_ok (tok_split o) (tok_split_contract o) (fun _ _ _ _ => True) ltac:(auto) ltac:(auto) ltac:(auto)
              (out_of mode (to_json o)) _ (out_line mode (to_json o)) r Logic.I) as (tr & texts & err & r' & E1 & E2 & E3 & E4 & E5 & _).
  exists tr, texts, err, r', (map (out_of mode (to_json o)) texts).
  rewrite (tok_run_ok Ha H1 H2 H3 Hm), E1. split; [reflexivity|]. split; [assumption|]. split; [assumption|]. split; [apply out_blocks|]. auto.
Qed.

(** C60: the lines read are answered before reading on *)
Definition prompt_inv (acc : list bytes) (data : bytes) (r : reader) (input : bytes) (e : option scan_err) : Prop :=
  e = None -> exists raw, Forall2 without_cr raw acc /\ Forall (fun l => ~ In x0a l) raw /\
    input = concat (map (fun l => l ++ [x0a]) raw) ++ data ++ rd_rest r.
Theorem tokenize_prompt args o mode r t1 t2 t3 : tok_args args o -> tok_uses w o d t1 -> user_uses w (to_udict o) u t2 ->
  input_uses w (to_file o) r t3 -> mode_of (to_mode o) mode -> to_split o = false ->
  exists tr res, tok_run w args = ((t1 ++ t2 ++ t3) ++ tr, res) /\
  forall ta c tb, tr = ta ++ ERead c :: tb -> exists raw rest lines blocks,
    whole_lines (reads ta) raw rest /\ Forall2 without_cr raw lines /\ outs ta = concat blocks /\
    Forall2 (fun line b => exists ts, analyze (w_ideo w) (Tokenizer d u false) line mode = Ok ts /\ block (to_json o) ts b) lines blocks.
Proof.
  intros Ha H1 H2 H3 Hm Hs. set (input := rd_rest r).
  destruct (@scan_file_ok scan_lines lines_contract (fun acc data r1 e => prompt_inv acc data r1 input e)) with
    (out := out_of mode (to_json o)) (body := tok_line w (Tokenizer d u false) mode (to_json o)) (r := r)
    as (tr & texts & err & r' & E1 & E2 & E3 & E4 & E5 & E6).
  - intros acc data r1 e data' adv t HI Es He. subst e. destruct (HI eq_refl) as (raw & G1 & G2 & G3).
    unfold scan_lines in Es. cbn [andb] in Es. destruct (index_byte data x0a) as [i|] eqn:Ei; [|discriminate].
    pose proof (index_byte_lt Ei) as Hi. destruct (index_byte_some Ei) as (F1 & F2 & _).
    unfold slice in Es. replace ((0 <=? i) && (i <=? length data))%nat with true in Es by lia. cbn [rbind] in Es. injection Es as <- <- <-.
    change (skipn 0 data) with data. rewrite Nat.sub_0_r. exists (raw ++ [firstn i data]).
    split; [apply Forall2_app; [assumption|constructor; [apply drop_cr_ok|constructor]]|].
    split; [apply Forall_app; split; [assumption|constructor; [assumption|constructor]]|].
    rewrite map_app, concat_app. cbn [map concat]. rewrite app_nil_r, G3, <- !app_assoc. f_equal.
    rewrite F1 at 1. rewrite <- app_assoc. reflexivity.
  - intros acc data r1 data' adv Hne HI Es. unfold scan_lines in Es. cbn [andb] in Es.
    destruct (index_byte data x0a) as [i|] eqn:Ei; [destruct (slice data 0 i); discriminate|]. injection Es as <- <-. exact HI.
  - intros acc data r1 tries cap chunk err r2 HI _ Hr _ He. destruct (HI eq_refl) as (raw & G1 & G2 & G3).
    destruct (read_loop_ok Hr) as (F1 & _). exists raw. split; [assumption|]. split; [assumption|]. rewrite G3, F1, <- app_assoc. reflexivity.
  - intros text. apply out_line.
  - intros _. exists []. split; [constructor|]. split; [constructor|reflexivity].
  - exists tr, (Ok (option_map XScan err)). rewrite (tok_run_ok Ha H1 H2 H3 Hm). unfold tok_split. rewrite Hs, E1. split; [reflexivity|].
    intros ta c tb Et. destruct (E6 _ _ _ Et) as (texts1 & data & r1 & HI & Hwt & Eo & Er). destruct (HI eq_refl) as (raw & G1 & G2 & G3).
    exists raw, data, texts1, (map (out_of mode (to_json o)) texts1). split; [|split; [assumption|split; [assumption|apply out_blocks]]].
    split; [|split; [assumption|]].
    + apply (app_inv_tail (rd_rest r1)). rewrite <- Er, <- app_assoc. exact G3.
    + destruct Hwt as [->|(d0 & d' & adv & Hne & _ & Es & ->)]; [tauto|]. unfold scan_lines in Es. cbn [andb] in Es.
      destruct (index_byte d0 x0a) as [i|] eqn:Ei; [destruct (slice d0 0 i); discriminate|]. injection Es as <- <-. apply index_byte_none. assumption.
Qed.
End TokRun.

(** ** Failures *)
Lemma quiet_app a b : quiet a -> quiet b -> quiet (a ++ b).
Proof. intros Ha Hb. apply Forall_app. auto. Qed.

Lemma sysdict_cases mk w word shrink : (exists d tr, embedded w word shrink d tr) \/
  (word <> s2b "ipa" /\ word <> s2b "uni" /\ select_sysdict mk w word shrink = ([], Ok (inr (mk word)))).
Proof.
  unfold select_sysdict. destruct (bytes_eqb word (s2b "ipa")) eqn:E1.
  - apply bytes_eqb_eq in E1. subst. left. eexists. eexists. split; [reflexivity|]. left. auto.
  - destruct (bytes_eqb word (s2b "uni")) eqn:E2.
    + apply bytes_eqb_eq in E2. subst. left. eexists. eexists. split; [reflexivity|]. right. auto.
    + apply bytes_eqb_neq in E1, E2. right. auto.
Qed.
Lemma embedded_quiet w word shrink d tr : embedded w word shrink d tr -> quiet tr.
Proof. intros (-> & _). constructor; [exact I|constructor]. Qed.
Lemma tok_dict_cases w o : (exists d tr, tok_uses w o d tr /\ quiet tr) \/
  exists tr e, quiet tr /\ tok_dict w (to_dict o) (to_sysdict o) (to_simple o) = (tr, Ok (inr e)).
Proof.
  unfold tok_dict. destruct (bempty (to_dict o)) eqn:Eb; cbn [negb].
  - apply bempty_true in Eb. destruct (sysdict_cases XDictType w (to_sysdict o) (to_simple o)) as [(d & tr & H)|(H1 & H2 & H3)].
    + left. exists d, tr. split; [right; auto|eapply embedded_quiet; eassumption].
    + right. rewrite H3. eexists. eexists. split; [constructor|reflexivity].
  - apply bempty_false in Eb. destruct (w_load w (to_dict o) (to_simple o)) as [d|] eqn:E.
    + left. exists d. eexists. split; [left; auto|repeat constructor].
    + right. rewrite cbind_emit. eexists. eexists. split; [|reflexivity]. repeat constructor.
Qed.
Lemma user_cases w d path : (exists u tr, user_uses w path u tr /\ quiet tr) \/ exists tr e, quiet tr /\ make_tokenizer w d path = (tr, Ok (inr e)).
Proof.
  destruct (bempty path) eqn:Eb.
  - apply bempty_true in Eb. left. exists None, []. split; [left; auto|constructor].
  - unfold make_tokenizer. rewrite Eb. cbn [negb]. rewrite cbind_emit. apply bempty_false in Eb. destruct (w_user w path) as [ud|] eqn:E.
    + left. exists (Some ud). eexists. split; [right; eauto|repeat constructor].
    + right. eexists. eexists. split; [|reflexivity]. repeat constructor.
Qed.
Lemma input_cases w path : (exists r tr, input_uses w path r tr) \/ exists tr e, quiet tr /\ open_input w path = (tr, Ok (inr e)).
Proof.
  destruct (bempty path) eqn:Eb.
  - apply bempty_true in Eb. left. eexists. eexists. left. auto.
  - unfold open_input. rewrite Eb. cbn [negb]. rewrite cbind_emit. apply bempty_false in Eb. destruct (w_open w path) as [r|] eqn:E.
    + left. eexists. eexists. right. eauto.
    + right. eexists. eexists. split; [|reflexivity]. repeat constructor.
Qed.

Theorem tokenize_fails w args o : tok_args args o ->
  ~ (exists d u r t1 t2 t3, tok_uses w o d t1 /\ user_uses w (to_udict o) u t2 /\ input_uses w (to_file o) r t3) ->
  exists tr e, tok_run w args = (tr, Ok (Some e)) /\ quiet tr.
Proof.
  intros Ha Hno. unfold tok_run. rewrite (proj2 (tok_parse_ok _ _) Ha). unfold tok_command.
  destruct (tok_dict_cases w o) as [(d & t1 & H1 & Q1)|(tr & e & Q & ->)]; [|rewrite cbind_ok; eexists; eexists; split; [reflexivity|cbn; rewrite app_nil_r; assumption]].
  rewrite (tok_dict_ok H1), cbind_ok.
  destruct (user_cases w d (to_udict o)) as [(u & t2 & H2 & Q2)|(tr & e & Q & ->)]; [|rewrite cbind_ok; eexists; eexists; split; [reflexivity|cbn; rewrite app_nil_r; apply quiet_app; assumption]].
  rewrite (make_tokenizer_ok d H2), cbind_ok.
  destruct (input_cases w (to_file o)) as [(r & t3 & H3)|(tr & e & Q & ->)].
  - exfalso. apply Hno. exists d, u, r, t1, t2, t3. auto.
  - rewrite cbind_ok. eexists. eexists. split; [reflexivity|]. cbn. rewrite app_nil_r. apply quiet_app; [assumption|]. apply quiet_app; assumption.
Qed.
Theorem lattice_fails w args o : lat_args args o ->
  ~ (exists d u t1 t2, embedded w (lo_dict o) false d t1 /\ user_uses w (lo_udict o) u t2 /\ (lo_output o = [] \/ w_create w (lo_output o) = true)) ->
  exists tr e, lat_run w args = (tr, Ok (Some e)) /\ quiet tr.
Proof.
  intros Ha Hno. unfold lat_run. rewrite (proj2 (lat_parse_ok _ _) Ha). unfold lat_command.
  destruct (sysdict_cases XNameType w (lo_dict o) false) as [(d & t1 & H1)|(_ & _ & ->)]; [|rewrite cbind_ok; eexists; eexists; split; [reflexivity|constructor]].
  pose proof (embedded_quiet H1) as Q1. rewrite (sysdict_ok _ H1), cbind_ok.
  destruct (user_cases w d (lo_udict o)) as [(u & t2 & H2 & Q2)|(tr & e & Q & ->)]; [|rewrite cbind_ok; eexists; eexists; split; [reflexivity|cbn; rewrite app_nil_r; apply quiet_app; assumption]].
  rewrite (make_tokenizer_ok d H2), cbind_ok.
  destruct (bempty (lo_output o)) eqn:Eb.
  - exfalso. apply Hno. exists d, u, t1, t2. apply bempty_true in Eb. auto.
  - cbn [negb]. rewrite cbind_emit. destruct (w_create w (lo_output o)) eqn:Ec.
    + exfalso. apply Hno. exists d, u, t1, t2. auto.
    + eexists. eexists. split; [reflexivity|]. cbn. apply quiet_app; [assumption|]. apply quiet_app; [assumption|]. repeat constructor.
Qed.
Theorem server_fails w args o : srv_args args o ->
  ~ (exists d u t1 t2, embedded w (so_dict o) false d t1 /\ user_uses w (so_udict o) u t2) ->
  exists tr e, srv_run w args = (tr, Ok (Some e)) /\ quiet tr.
Proof.
  intros Ha Hno. unfold srv_run. rewrite (proj2 (srv_parse_ok _ _) Ha). unfold srv_command.
  destruct (sysdict_cases XNameType w (so_dict o) false) as [(d & t1 & H1)|(_ & _ & ->)]; [|rewrite cbind_ok; eexists; eexists; split; [reflexivity|constructor]].
  pose proof (embedded_quiet H1) as Q1. rewrite (sysdict_ok _ H1), cbind_ok.
  destruct (user_cases w d (so_udict o)) as [(u & t2 & H2 & Q2)|(tr & e & Q & ->)]; [|rewrite cbind_ok; eexists; eexists; split; [reflexivity|cbn; rewrite app_nil_r; apply quiet_app; assumption]].
  exfalso. apply Hno. exists d, u, t1, t2. auto.
Qed.
Theorem sentence_fails w args f : sen_args args f -> ~ (exists r t, input_uses w f r t) ->
  exists tr e, sen_run w args = (tr, Ok (Some e)) /\ quiet tr.
Proof.
  intros Ha Hno. unfold sen_run. rewrite (proj2 (sen_parse_ok _ _) Ha). unfold sen_command.
  destruct (input_cases w f) as [(r & t3 & H3)|(tr & e & Q & ->)]; [exfalso; apply Hno; eauto|].
  rewrite cbind_ok. eexists. eexists. split; [reflexivity|]. cbn. rewrite app_nil_r. assumption.
Qed.
(** OptionCheck of the four commands. *)
Theorem option_checks args :
  (tok_check args = None <-> exists o, tok_args args o) /\ (lat_check args = None <-> exists o, lat_args args o) /\
  (srv_check args = None <-> exists o, srv_args args o) /\ (sen_check args = None <-> exists f, sen_args args f).
Proof.
  unfold tok_check, lat_check, srv_check, sen_check. split; [|split; [|split]].
  - destruct (tok_parse args) as [o|e] eqn:E; split; try discriminate; try (intros _; exists o; apply tok_parse_ok; assumption); try reflexivity.
    intros (o & H). apply tok_parse_ok in H. congruence.
  - destruct (lat_parse args) as [o|e] eqn:E; split; try discriminate; try (intros _; exists o; apply lat_parse_ok; assumption); try reflexivity.
    intros (o & H). apply lat_parse_ok in H. congruence.
  - destruct (srv_parse args) as [o|e] eqn:E; split; try discriminate; try (intros _; exists o; apply srv_parse_ok; assumption); try reflexivity.
    intros (o & H). apply srv_parse_ok in H. congruence.
  - destruct (sen_parse args) as [o|e] eqn:E; split; try discriminate; try (intros _; exists o; apply sen_parse_ok; assumption); try reflexivity.
    intros (o & H). apply sen_parse_ok in H. congruence.
Qed.
Theorem tokenize_no_dictionary w args o : tok_args args o -> to_dict o = [] -> to_sysdict o = [] ->
  tok_run w args = ([], Ok (Some (XDictType []))).
Proof.
  intros Ha E1 E2. unfold tok_run. rewrite (proj2 (tok_parse_ok _ _) Ha). unfold tok_command, tok_dict. rewrite E1, E2. reflexivity.
Qed.
Lemma rejected_messages name e : exists ms, parse_report name e = (map EErr ms, Ok tt).
Proof. destruct e; try (exists []; reflexivity). eexists [_]. reflexivity. Qed.
Theorem tokenize_rejects w args : (forall o, ~ tok_args args o) -> exists tr, tok_run w args = (tr, Ok (Some XSilent)) /\ only_messages tr.
Proof.
  intros Hno. unfold tok_run. destruct (tok_parse args) as [o|e] eqn:E; [exfalso; apply (Hno o), tok_parse_ok; assumption|].
  destruct (rejected_messages (s2b "tokenize") e) as (ms & ->). eexists. split; [reflexivity|].
  apply Forall_app. split; [induction ms; constructor; auto; exact I|repeat constructor].
Qed.
Theorem lattice_rejects w args : (forall o, ~ lat_args args o) -> exists tr e, lat_run w args = (tr, Ok (Some e)) /\ only_messages tr.
Proof.
  intros Hno. unfold lat_run. destruct (lat_parse args) as [o|e] eqn:E; [exfalso; apply (Hno o), lat_parse_ok; assumption|].
  destruct (rejected_messages (s2b "lattice") e) as (ms & ->). eexists. eexists. split; [reflexivity|].
  apply Forall_app. split; [induction ms; constructor; auto; exact I|repeat constructor].
Qed.
Theorem server_rejects w args : (forall o, ~ srv_args args o) -> exists tr e, srv_run w args = (tr, Ok (Some e)) /\ only_messages tr.
Proof.
  intros Hno. unfold srv_run. destruct (srv_parse args) as [o|e] eqn:E; [exfalso; apply (Hno o), srv_parse_ok; assumption|].
  destruct (rejected_messages (s2b "server") e) as (ms & ->). eexists. eexists. split; [reflexivity|].
  apply Forall_app. split; [induction ms; constructor; auto; exact I|repeat constructor].
Qed.
Theorem sentence_rejects w args : (forall f, ~ sen_args args f) -> exists tr e, sen_run w args = (tr, Ok (Some e)) /\ only_messages tr.
Proof.
  intros Hno. unfold sen_run. destruct (sen_parse args) as [o|e] eqn:E; [exfalso; apply (Hno o), sen_parse_ok; assumption|].
  eexists. eexists. split; [reflexivity|]. repeat constructor.
Qed.

(** ** server *)
Theorem server_serves w args o d u t1 t2 : srv_args args o -> embedded w (so_dict o) false d t1 -> user_uses w (so_udict o) u t2 ->
  srv_run w args = ((t1 ++ t2) ++ fst (w_serve w (so_http o) (Tokenizer d u false)), snd (w_serve w (so_http o) (Tokenizer d u false))).
Proof.
  intros Ha H1 H2. unfold srv_run. rewrite (proj2 (srv_parse_ok _ _) Ha). unfold srv_command.
  rewrite (sysdict_ok _ H1), cbind_ok, (make_tokenizer_ok d H2), cbind_ok. cbn [fst snd]. rewrite app_assoc. reflexivity.
Qed.

(** ** sentence *)
Lemma seg_lf r raw : raw <> [] -> decode_rune raw = (r, length raw) -> In x0a raw -> r = 10%N.
Proof.
  intros Hn E Hin. pose proof (decode_dec Hn) as D. rewrite E in D. cbn [fst snd] in D.
  assert (Hlf : b2n x0a = 10%N) by reflexivity.
  inversion D as [b t0 Hs Hb Hr Hlb|b t0 Hs Hb Hr Hlb|b0 b1 t0 Hs H0 H1 Hr Hlb|b0 b1 b2 t0 Hs H0 H1 H2 Hr Hlb|b0 b1 b2 b3 t0 Hs H0 H1 H2 H3 Hr Hlb];
    rewrite Hs in Hlb; cbn [length] in Hlb; assert (t0 = []) as -> by (destruct t0; [reflexivity|cbn [length] in Hlb; lia]);
    rewrite Hs in Hin; cbn [In] in Hin.
  - destruct Hin as [->|[]]. assumption.
  - destruct Hin as [->|[]]. lia.
  - destruct Hin as [->|[->|[]]]; lia.
  - pose proof (second_lo_bounds (b2n b0)). destruct Hin as [->|[->|[->|[]]]]; lia.
  - pose proof (second_lo_bounds (b2n b0)). destruct Hin as [->|[->|[->|[->|[]]]]]; lia.
Qed.
