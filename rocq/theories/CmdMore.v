(** The commands' results in terms of lines, sentences and graphs, and the dispatch of the main
    program. *)
From Verif Require Import SpecCmd Utf8Facts FlagFacts OptFacts ScannerFacts SplitterFacts SentenceFacts LoaderFacts JsonFacts CmdFacts
  TokFacts AnalyzeFacts TokenFacts DotFacts CmdRuns.
From Coq Require Import List Arith Lia ZifyBool ZifyNat ZifyN.
Import ListNotations.
Set Implicit Arguments.
Unset Strict Implicit.

Lemma quiet_outs tr : quiet tr -> outs tr = [].
Proof. induction 1 as [|e tr He H IH]; [reflexivity|]. unfold outs in *. cbn [map concat]. rewrite IH. destruct e; try contradiction; reflexivity. Qed.
Lemma tok_uses_quiet w o d tr : tok_uses w o d tr -> quiet tr.
Proof. intros [(_ & _ & ->)|(_ & H)]; [repeat constructor|eapply embedded_quiet; eassumption]. Qed.
Lemma user_uses_quiet w p u tr : user_uses w p u tr -> quiet tr.
Proof. intros [(_ & _ & ->)|(_ & ud & _ & _ & ->)]; repeat constructor. Qed.
Lemma input_uses_quiet w p r tr : input_uses w p r tr -> quiet tr.
Proof. intros [(_ & _ & ->)|(_ & _ & ->)]; repeat constructor. Qed.

(** ** tokenize *)
Section Tok.
Variables (w : world) (d : dict) (u : option udict) (args : list bytes) (o : tok_opt) (mode : Z) (r : reader) (t1 t2 t3 : list event).
Hypotheses (Hd : wf_dict d) (Hu : wf_udict u) (Hw : wf_data d).
Hypotheses (Ha : tok_args args o) (H1 : tok_uses w o d t1) (H2 : user_uses w (to_udict o) u t2) (H3 : input_uses w (to_file o) r t3)
  (Hm : mode_of (to_mode o) mode).
Lemma uses_outs : outs (t1 ++ t2 ++ t3) = [].
Proof.
  apply quiet_outs. apply quiet_app; [eapply tok_uses_quiet; eassumption|]. apply quiet_app; [eapply user_uses_quiet|eapply input_uses_quiet]; eassumption.
Qed.

Theorem tokenize_lines : to_split o = false -> lively r -> rd_end r <> ErrNoProgress ->
  exists tr err, tok_run w args = (tr, Ok (option_map XScan err)) /\
  ((err = scanner_err (Some (rd_end r)) /\ exists raw lines blocks, lines_of (rd_rest r) raw /\ Forall2 without_cr raw lines /\ outs tr = concat blocks /\
      Forall2 (fun line b => exists ts, analyze (w_ideo w) (Tokenizer d u false) line mode = Ok ts /\ block (to_json o) ts b) lines blocks) \/
   (err = Some ErrTooLong /\ exists raw l, lines_of (rd_rest r) raw /\ In l raw /\ (65536 <= N.of_nat (length l))%N)).
Proof.
  intros Hs Hl He. destruct (tokenize_prints Hd Hu Hw Ha H1 H2 H3 Hm) as (tr & texts & err & r' & blocks & E1 & E2 & E3 & E4 & _).
  unfold tok_split in E2. rewrite Hs in E2. destruct (lines_lemma Hl He) as (lines & err' & r2 & E & Hr). rewrite E2 in E. injection E as -> -> ->.
  exists ((t1 ++ t2 ++ t3) ++ tr), err'. split; [assumption|]. destruct Hr as [(Er & raw & L1 & L2)|Hr]; [left|right; assumption].
  split; [assumption|]. exists raw, lines, blocks. split; [assumption|]. split; [assumption|]. split; [|assumption].
  rewrite outs_app, uses_outs, E3. reflexivity.
Qed.
Theorem tokenize_sentences : to_split o = true ->
  exists tr texts err r' blocks, tok_run w args = (tr, Ok (option_map XScan err)) /\
    scan_texts (scan_sentences default_splitter) r = Ok (texts, err, r') /\ outs tr = concat blocks /\
    Forall2 (fun text b => exists ts, analyze (w_ideo w) (Tokenizer d u false) text mode = Ok ts /\ block (to_json o) ts b) texts blocks.
Proof.
  intros Hs. destruct (tokenize_prints Hd Hu Hw Ha H1 H2 H3 Hm) as (tr & texts & err & r' & blocks & E1 & E2 & E3 & E4 & _).
  unfold tok_split in E2. rewrite Hs in E2. exists ((t1 ++ t2 ++ t3) ++ tr), texts, err, r', blocks. repeat (split; [assumption|]).
  split; [|assumption]. rewrite outs_app, uses_outs, E3. reflexivity.
Qed.
End Tok.

(** The printed text gives the line back. *)
Theorem text_restores d u ideo inp mode ts b : wf_dict d -> wf_udict u -> mode <> mode_extended -> no_loss d u inp mode -> fffd_ok d inp ->
  analyze ideo (Tokenizer d u false) inp mode = Ok ts -> text_block ts b ->
  exists parts, b = concat (map (fun p => fst p ++ [x09] ++ snd p ++ [x0a]) parts) ++ s2b "EOS" ++ [x0a] /\ concat (map fst parts) = inp.
Proof.
  intros Hd Hu Hm Hl Hf E (ls & Hls & ->). destruct (analyze_lossless Hd Hu ideo false Hm Hl Hf) as (ts' & E' & Hs). rewrite E in E'. injection E' as <-.
  assert (Hn : forall tk, In tk (no_markers ts) -> t_class tk <> DUMMY).
  { intros tk Hin. unfold no_markers in Hin. apply filter_In in Hin. destruct Hin as [Hin Hk]. unfold is_marker in Hk.
    eapply dummy_extended; try eassumption. intros Hid. rewrite Hid in Hk. discriminate. }
  assert (G : exists parts, ls = map (fun p => fst p ++ [x09] ++ snd p ++ [x0a]) parts /\ map fst parts = map t_surface (no_markers ts)).
  { clear Hs. revert Hn. induction Hls as [|tk l tks ls Ht Hls IH]; intros Hn; [exists []; auto|].
    destruct IH as (parts & -> & Hp); [intros; apply Hn; right; assumption|].
    inversion Ht as [? Hc|? fs Hc Ef]; [exfalso; apply (Hn tk); [left; reflexivity|assumption]|].
    exists ((t_surface tk, commas (strings_list fs)) :: parts). split; [reflexivity|]. cbn [map fst]. f_equal. assumption. }
  destruct G as (parts & -> & Hp). exists parts. split; [reflexivity|]. rewrite Hp. exact Hs.
Qed.

(** Without line feeds in the printed fields, a block is one line per token and a line EOS. *)
Definition printable (tk : token) : Prop :=
  ~ In x0a (t_surface tk) /\ forall fs, features tk = Ok fs -> Forall (fun f => ~ In x0a f) (strings_list fs).
Lemma lines_of_concat ls : Forall (fun l => ~ In x0a l) ls -> lines_of (concat (map (fun l => l ++ [x0a]) ls)) ls.
Proof.
  induction 1 as [|l ls Hl H IH]; [constructor|]. cbn [map concat]. rewrite <- app_assoc. cbn [app]. constructor; assumption.
Qed.
Lemma commas_lf l : Forall (fun f => ~ In x0a f) l -> ~ In x0a (commas l).
Proof.
  intros H. destruct l as [|a l]; cbn; [tauto|]. inversion H as [|? ? Ha Hl]; subst. rewrite in_app_iff. intros [|Hin]; [tauto|].
  apply in_concat in Hin. destruct Hin as (c & Hc & Hin). apply in_map_iff in Hc. destruct Hc as (f & <- & Hf).
  cbn in Hin. destruct Hin as [|Hin]; [discriminate|]. rewrite Forall_forall in Hl. eapply Hl; eassumption.
Qed.
Theorem text_lines ts b : text_block ts b -> Forall printable (no_markers ts) ->
  exists ls, lines_of b (ls ++ [s2b "EOS"]) /\ Forall2 (fun tk l => token_line tk (l ++ [x0a])) (no_markers ts) ls.
Proof.
  intros (ls & Hls & ->) Hp.
  assert (G : exists ls', ls = map (fun l => l ++ [x0a]) ls' /\ Forall (fun l => ~ In x0a l) ls' /\ Forall2 (fun tk l => token_line tk (l ++ [x0a])) (no_markers ts) ls').
  { induction Hls as [|tk l tks ls Ht Hls IH]; [exists []; repeat split; constructor|]. inversion Hp as [|? ? Hk Hp']; subst.
    destruct (IH Hp') as (ls' & -> & F1 & F2). destruct Hk as [K1 K2]. inversion Ht as [? Hc El|? fs Hc Ef El]; subst.
    - exists (t_surface tk :: ls'). split; [reflexivity|]. split; [constructor; assumption|constructor; assumption].
    - exists ((t_surface tk ++ [x09] ++ commas (strings_list fs)) :: ls'). split; [cbn [map]; f_equal; rewrite <- !app_assoc; reflexivity|]. split.
      + constructor; [|assumption]. cbn [app]. rewrite in_app_iff. intros [|[|Hin]]; [tauto|discriminate|]. eapply commas_lf; [apply K2; eassumption|assumption].
      + constructor; [|assumption]. rewrite <- !app_assoc. assumption. }
  destruct G as (ls' & -> & F1 & F2). exists ls'. split; [|assumption].
  assert (Ho : Forall (fun l => ~ In x0a l) (ls' ++ [s2b "EOS"])).
  { apply Forall_app. split; [assumption|]. constructor; [|constructor]. cbn. intuition discriminate. }
  apply lines_of_concat in Ho. rewrite map_app, concat_app in Ho. cbn [map concat] in Ho. rewrite app_nil_r in Ho. exact Ho.
Qed.

Lemma analyze_markers d u ideo omit inp mode ts tk : wf_dict d -> wf_udict u -> analyze ideo (Tokenizer d u omit) inp mode = Ok ts ->
  In tk ts -> t_id tk = (-1)%Z -> t_class tk = DUMMY.
Proof.
  intros Hd Hu E Hin Hid. destruct (analyze_final inp ideo mode Hd Hu) as (i & ws & E' & C & _).
  rewrite E' in E. injection E as <-.
  destruct (in_final C Hin) as (k & [[-> _]|[->|(x & t0 & Hx & Hc & Ht0 & ->)]]); [reflexivity|reflexivity|].
  exfalso. pose proof (candidate_id_pos Hd Hu Hc). pose proof (word_tokens_id Ht0) as H0. cbn [set_index t_id] in Hid. lia.
Qed.
(** JSON in the modes other than Extended: all the words *)
Theorem json_words d u ideo inp mode ts b : wf_dict d -> wf_udict u -> mode <> mode_extended ->
  analyze ideo (Tokenizer d u false) inp mode = Ok ts -> json_block ts b ->
  exists tds, Forall2 (fun tk td => new_token_data tk = Ok td) (no_markers ts) tds /\ json_text b (JArr (map token_value tds)).
Proof.
  intros Hd Hu Hm E (tds & H & Hj). exists tds. split; [|assumption]. replace (no_markers ts) with (not_dummy ts); [assumption|].
  unfold not_dummy, no_markers. apply filter_ext_in. intros tk Hin. f_equal. unfold is_marker.
  destruct (t_id tk =? -1)%Z eqn:Ei.
  - rewrite (analyze_markers Hd Hu E Hin ltac:(lia)). reflexivity.
  - assert (Hc : t_class tk <> DUMMY) by (eapply dummy_extended; try eassumption; lia). destruct (t_class tk); try reflexivity. congruence.
Qed.

(** ** sentence *)
Lemma visible_lf s data l t : sp_skip s = true -> segs data = l ++ t -> ~ In x0a (segs_text (visible s l)).
Proof.
  intros Hs E Hin. unfold segs_text, visible in Hin. rewrite Hs in Hin. apply in_concat in Hin. destruct Hin as (raw & Hr & Hin).
  apply in_map_iff in Hr. destruct Hr as ((c, raw') & Eq & Hg). cbn [snd] in Eq. subst raw'. apply filter_In in Hg. destruct Hg as [Hg Hk]. cbn [fst] in Hk.
  assert (Hg' : In (c, raw) (segs data)) by (rewrite E; apply in_or_app; left; assumption).
  pose proof (segs_good data) as Hsegs. rewrite Forall_forall in Hsegs. destruct (Hsegs _ Hg') as [D1 D2]. cbn [fst snd] in D1, D2.
  rewrite (seg_lf D1 D2 Hin) in Hk. discriminate.
Qed.
Lemma sentences_no_lf s r : sp_skip s = true -> exists toks err r', scan_texts (scan_sentences s) r = Ok (toks, err, r') /\ Forall (fun t => ~ In x0a t) toks.
Proof.
  intros Hs. destruct (@scan_texts_ok (scan_sentences s) (sentences_contract s) (fun acc _ _ _ => Forall (fun t => ~ In x0a t) acc)) with (r := r)
    as (toks & err & r' & E & Hst).
  - intros acc data r1 e data' adv t HI Es. apply Forall_app. split; [assumption|]. constructor; [|constructor].
    destruct data as [|b0 data0].
    { unfold scan_sentences in Es. cbn [length Nat.eqb andb] in Es. destruct e; cbn in Es; discriminate. }
    assert (Hne : b0 :: data0 <> []) by discriminate.
    destruct (@split_call s (b0 :: data0) (match e with Some _ => true | None => false end) Hne)
      as [(c & rest & d' & a & Ec & Hsegs & _)|[(He & d' & Ec & _)|(He & _ & _ & d' & a & k & Ec & _)]]; rewrite Ec in Es; try discriminate;
      injection Es as <- <- <-; [eapply visible_lf; eassumption|]. eapply visible_lf; [assumption|]. symmetry. apply app_nil_r.
  - intros acc data r1 data' adv _ HI _. exact HI.
  - intros acc data r1 tries cap chunk err r2 HI _ _ _. exact HI.
  - constructor.
  - exists toks, err, r'. split; [assumption|]. destruct Hst as [(e & HI & _)|(data & HI & _)]; exact HI.
Qed.

Theorem sentence_prints w args file r t : sen_args args file -> input_uses w file r t ->
  exists tr texts err r', sen_run w args = (tr, Ok (option_map XScan err)) /\
    scan_texts (scan_sentences default_splitter) r = Ok (texts, err, r') /\
    outs tr = concat (map (fun s => s ++ [x0a]) texts) /\ lines_of (outs tr) texts.
Proof.
  intros Ha Hi. unfold sen_run. rewrite (proj2 (sen_parse_ok _ _) Ha). unfold sen_command. rewrite (open_input_ok Hi), cbind_ok.
  destruct (@scan_file_ok (scan_sentences default_splitter) (sentences_contract default_splitter) (fun _ _ _ _ => True) ltac:(auto) ltac:(auto) ltac:(auto)
              (fun s => s ++ nl) sen_line ltac:(reflexivity) r Logic.I) as (tr & texts & err & r' & E1 & E2 & E3 & _).
  rewrite E1. exists (t ++ tr), texts, err, r'. split; [reflexivity|]. split; [assumption|].
  assert (Ho : outs (t ++ tr) = concat (map (fun s => s ++ [x0a]) texts)).
  { rewrite outs_app, (quiet_outs (input_uses_quiet Hi)). exact E3. }
  split; [assumption|]. rewrite Ho. apply lines_of_concat.
  destruct (@sentences_no_lf default_splitter r eq_refl) as (toks & err2 & r2 & E & Hf). rewrite E2 in E. injection E as <- <- <-. assumption.
Qed.

(** ** lattice *)
Lemma lat_token_ok tk fs : features tk = Ok fs -> exists l, lat_token tk = ([EErr (MText l)], Ok tt) /\ token_line tk l.
Proof.
  intros E. unfold lat_token. rewrite E, cbind_lift. destruct (class_eqb (t_class tk) DUMMY) eqn:Ec.
  - eexists. split; [reflexivity|]. apply tl_dummy. destruct (t_class tk); try discriminate. reflexivity.
  - rewrite join_commas. eexists. split; [reflexivity|]. apply tl_word; [|assumption]. intros Hc. rewrite Hc in Ec. discriminate.
Qed.
Lemma lat_tokens_ok ts : (forall tk, In tk ts -> exists fs, features tk = Ok fs) ->
  exists ls, lat_tokens ts = (map (fun l => EErr (MText l)) ls, Ok tt) /\ Forall2 token_line ts ls.
Proof.
  induction ts as [|tk ts IH]; intros H; cbn [lat_tokens]; [exists []; split; [reflexivity|constructor]|].
  destruct (H tk (or_introl eq_refl)) as (fs & Ef). destruct (lat_token_ok Ef) as (l & El & Hl). rewrite El, cbind_ok.
  destruct IH as (ls & E & Hls); [intros; apply H; right; assumption|]. rewrite E. exists (l :: ls). split; [reflexivity|constructor; assumption].
Qed.
Lemma features_without tk : features (without_index_position tk) = features tk.
Proof. reflexivity. Qed.
Lemma token_line_without tk l : token_line (without_index_position tk) l -> token_line tk l.
Proof.
  intros H. inversion H as [? Hc E|? fs Hc Ef E]; subst.
  - apply (@tl_dummy tk). assumption.
  - apply (@tl_word tk fs); assumption.
Qed.
Definition graph_out (o : lat_opt) (text : bytes) : list event :=
  match lo_output o with [] => [EOut text] | _ => [ECreate (lo_output o); EFile (lo_output o) text] end.
Theorem lattice_draws w args o d u t1 t2 mode : wf_dict d -> wf_udict u -> wf_data d -> lat_args args o ->
  embedded w (lo_dict o) false d t1 -> user_uses w (lo_udict o) u t2 -> mode_of (lo_mode o) mode ->
  (lo_output o = [] \/ w_create w (lo_output o) = true) ->
  exists ts ss ls, analyze (w_ideo w) (Tokenizer d u false) (lo_input o) mode = Ok ts /\
    graph_stmts (w_ideo w) (Tokenizer d u false) (lo_input o) mode = Ok ss /\
    lat_run w args = (t1 ++ t2 ++ graph_out o (dot_text (w_addr w) ss) ++ map (fun l => EErr (MText l)) ls, Ok None) /\
    (lo_verbose o = true -> Forall2 token_line (tl ts) ls) /\ (lo_verbose o = false -> ls = []).
Proof.
  intros Hd Hu Hw Ha H1 H2 Hm Hc. destruct (analyze_total Hd Hu (w_ideo w) false (lo_input o) mode) as (ts & E).
  destruct (@c18_closed_lemma d u false (w_ideo w) (lo_input o) mode Hd Hu Hw) as (ss & Es & _).
  assert (Hf : forall tk, In tk (tl (map without_index_position ts)) -> exists fs, features tk = Ok fs).
  { intros tk Hin. assert (Hin' : In tk (map without_index_position ts)) by (destruct ts; [contradiction|right; assumption]).
    apply in_map_iff in Hin'. destruct Hin' as (x & <- & Hx). rewrite features_without.
    assert (Hx' : from_analyze d u x) by (exists (w_ideo w), false, (lo_input o), mode, ts; auto).
    apply (c50_no_panic_lemma Hd Hu Hw Hx'). }
  destruct (lat_tokens_ok Hf) as (ls & El & Hl).
  exists ts, ss, (if lo_verbose o then ls else []). split; [assumption|]. split; [assumption|].
  assert (Hl' : Forall2 token_line (tl ts) ls).
  { destruct ts as [|t0 ts0]; [exact Hl|]. cbn [tl map] in *. clear -Hl. revert ls Hl. induction ts0 as [|a l IH]; intros ls H; inversion H; subst; constructor; [apply token_line_without; assumption|auto]. }
  split; [|destruct (lo_verbose o); split; intros; try congruence; assumption].
  unfold lat_run. rewrite (proj2 (lat_parse_ok _ _) Ha). unfold lat_command. rewrite (sysdict_ok _ H1), cbind_ok, (make_tokenizer_ok d H2), cbind_ok.
  rewrite (select_mode_ok Hm), analyze_graph_tokens, E. unfold graph_text. rewrite Es. cbn [rbind fst snd].
  unfold graph_out. destruct (lo_output o) as [|c0 out] eqn:Eo; cbn [bempty length Nat.eqb negb].
  - rewrite cbind_ret. cbn [fst snd negb]. rewrite !cbind_lift, cbind_emit.
    destruct (lo_verbose o); [rewrite El, cbind_ok; cbn; rewrite !app_nil_r, <- ?app_assoc; reflexivity|rewrite cbind_ret; cbn; rewrite ?app_nil_r, <- ?app_assoc; reflexivity].
  - destruct Hc as [|Hc]; [discriminate|]. rewrite cbind_emit, Hc. cbn [cret fst snd negb]. rewrite cbind_ok. cbn [fst snd negb]. rewrite !cbind_lift, cbind_emit.
    destruct (lo_verbose o); [rewrite El, cbind_ok; cbn; rewrite !app_nil_r, <- ?app_assoc; reflexivity|rewrite cbind_ret; cbn; rewrite ?app_nil_r, <- ?app_assoc; reflexivity].
Qed.
