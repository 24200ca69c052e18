(** C126: the time that tokenize takes and the text that it writes are linear in the input. *)
From Verif Require Import Utf8Facts ScannerFacts SentenceFacts LoaderFacts OptFacts TokFacts AnalyzeFacts TokenFacts CmdFacts CmdRuns CmdMore Work WorkFacts DrawSize SpecCmd SpecSent SpecOut SpecFeat BuildFacts.
From Coq Require Import List Arith Lia ZifyBool ZifyNat ZifyN NArith.
Import ListNotations.
Local Open Scope nat_scope.
Set Implicit Arguments.
Unset Strict Implicit.

(** ** Scanning *)
(** A split function whose texts are no longer than the bytes they take. *)
Definition fair (split : split_func) : Prop := forall data e data' adv t, split data e = Ok (data', adv, Some t) -> length t <= adv.
Lemma drop_cr_short l : length (drop_cr l) <= length l.
Proof. destruct (drop_cr_ok l) as [E|(-> & _)]; [|lia]. rewrite E at 2. rewrite app_length. lia. Qed.
Lemma visible_short s l : length (segs_text (visible s l)) <= length (segs_text l).
Proof.
  unfold visible. destruct (sp_skip s); [|lia]. unfold segs_text. induction l as [|g l IH]; [reflexivity|]. cbn [filter]. destruct (negb (is_space (fst g))); cbn [map concat]; rewrite ?app_length; lia.
Qed.
Lemma lines_fair : fair scan_lines.
Proof.
  intros data e data' adv t. unfold scan_lines. destruct (e && (length data =? 0)); [discriminate|]. destruct (index_byte data x0a) as [i|] eqn:Ei.
  - unfold slice. destruct ((0 <=? i) && (i <=? length data)); cbn [rbind]; [|discriminate]. intros [= _ <- <-]. pose proof (drop_cr_short (firstn (i - 0) (skipn 0 data))) as H. cbn [skipn] in *. rewrite firstn_length in H. lia.
  - destruct e; [|discriminate]. intros [= _ <- <-]. apply drop_cr_short.
Qed.
Lemma sentences_fair s : fair (scan_sentences s).
Proof.
  intros data e data' adv t H. destruct data as [|b0 d0]; [destruct e; discriminate H|]. assert (Hne : b0 :: d0 <> []) by discriminate. remember (b0 :: d0) as data eqn:Ed. clear Ed.
  destruct (@split_call s data e Hne) as [(c & rest & d1 & a1 & E & G & K & _ & L & A & _)|[(_ & d1 & E & _)|(_ & _ & _ & d1 & a1 & k & E & _)]]; rewrite E in H; [| |discriminate]; injection H as _ <- <-.
  - etransitivity; [apply visible_short|]. assert (length data = length (segs_text c) + length rest) by (rewrite <- (segs_concat data), G; unfold segs_text at 1; rewrite map_app, concat_app, app_length; fold (segs_text (segs rest)); rewrite segs_concat; reflexivity).
    assert (length rest = length d1 - a1) by (rewrite <- K, skipn_length; reflexivity). lia.
  - etransitivity; [apply visible_short|]. rewrite segs_concat. lia.
Qed.
Definition spent (texts : list bytes) : nat := list_sum (map (fun t => length t + 1) texts).
Lemma spent_app a b : spent (a ++ b) = spent a + spent b.
Proof. unfold spent. rewrite map_app, list_sum_app. reflexivity. Qed.
Theorem scan_spent split r toks err r' : split_contract split -> fair split -> scan_texts split r = Ok (toks, err, r') -> spent toks <= 2 * length (rd_rest r).
Proof.
  intros C M E. destruct (@scan_texts_ok split C (fun acc data r1 _ => spent acc + 2 * (length data + length (rd_rest r1)) <= 2 * length (rd_rest r))) with (r := r) as (toks1 & err1 & r1 & E1 & St).
  - intros acc data r0 e data' adv t H Es. pose proof (M _ _ _ _ _ Es) as L. destruct (C data (match e with Some _ => true | None => false end)) as (d1 & a1 & t1 & Es1 & [L1 L2 L3 _]).
    rewrite Es in Es1. injection Es1 as <- <- <-. specialize (L3 ltac:(discriminate)). rewrite spent_app, skipn_length. unfold spent at 2. cbn [map list_sum fold_right]. lia.
  - intros acc data r0 data' adv _ H Es. destruct (C data false) as (d1 & a1 & t1 & Es1 & [L1 _ _ _]). rewrite Es in Es1. injection Es1 as <- <- <-. rewrite skipn_length. lia.
  - intros acc data r0 tries cap chunk e r2 H _ Er _. destruct (read_loop_ok Er) as (R & _). rewrite R, app_length in H. rewrite app_length. lia.
  - cbn. lia.
  - rewrite E in E1. injection E1 as <- <- <-. destruct St as [(e & H & _)|(data & H & _)]; lia.
Qed.
Lemma tok_fair o : fair (tok_split o).
Proof. unfold tok_split. destruct (to_split o); [apply sentences_fair|apply lines_fair]. Qed.

(** ** The text of the tokens *)
Lemma encode_le4 r : length (encode_rune r) <= 4.
Proof.
  unfold encode_rune. destruct (r <? 128)%N; [cbn [length]; lia|]. destruct (r <? 2048)%N; [cbn [length]; lia|]. destruct (_ || _); [cbn [length]; lia|]. destruct (r <? 65536)%N; cbn [length]; lia.
Qed.
Section Text.
Variables (d : dict) (u : option udict).
Hypotheses (Hd : wf_dict d) (Hu : wf_udict u) (Hw : wf_data d).

Lemma surface_size ideo omit inp mode ts tk : analyze ideo (Tokenizer d u omit) inp mode = Ok ts -> In tk ts -> is_marker tk = false ->
  length (t_surface tk) <= 4 * (t_end tk - t_start tk).
Proof.
  intros E Hin Hm. destruct (analyze_final inp ideo mode Hd Hu) as (i & ws & E' & C & _). rewrite E' in E. injection E as <-.
  destruct (in_final C Hin) as (k & [[-> _]|[->|(w & t0 & Hw0 & Hc & Ht0 & ->)]]); [discriminate Hm|discriminate Hm|]. cbn [set_index t_start t_end t_surface].
  pose proof (candidate_range Hc) as R.
  assert (Q : t0 = word_token (Tokenizer d u omit) inp w \/ exists y, t0 = rune_token (Tokenizer d u omit) inp w y).
  { unfold word_tokens in Ht0. destruct (to_lmode mode); try (destruct Ht0 as [<-|[]]; left; reflexivity). destruct (w_class w); try (destruct Ht0 as [<-|[]]; left; reflexivity).
    apply in_map_iff in Ht0. destruct Ht0 as (y & <- & _). right. exists y. reflexivity. }
  destruct Q as [->|(y & ->)].
  - cbn [word_token t_start t_end t_surface]. destruct (word_surface_prefix omit Hc) as (r & Hr). apply (f_equal (@length byte)) in Hr. rewrite app_length in Hr.
    pose proof (bytes_runes (word_text inp w)) as T. unfold word_text in T at 2. rewrite text_rcount in T by lia. lia.
  - cbn [rune_token t_start t_end t_surface]. pose proof (encode_le4 (rune_at inp y)). lia.
Qed.

Definition width (tk : token) : nat := t_end tk - t_start tk.
Lemma contiguous_width n ts : contiguous ts -> (forall tk, In tk ts -> t_start tk <= t_end tk <= n) ->
  match ts with [] => True | tk :: _ => list_sum (map width ts) + t_start tk <= n end.
Proof.
  induction ts as [|a ts IH]; intros C R; [exact I|]. cbn [map list_sum fold_right]. pose proof (R a (or_introl eq_refl)) as Ra. unfold width at 1. destruct ts as [|b ts].
  - cbn. lia.
  - destruct C as (C1 & C2). specialize (IH C2 (fun tk H => R tk (or_intror H))). cbv beta iota in IH. rewrite C1 in IH. unfold list_sum in *. lia.
Qed.
Lemma filter_sum {A} (f : A -> nat) p l : list_sum (map f (filter p l)) <= list_sum (map f l).
Proof. induction l as [|a l IH]; [reflexivity|]. cbn [filter]. destruct (p a); cbn [map list_sum fold_right]; unfold list_sum in *; lia. Qed.
Lemma widths ideo omit inp mode ts : analyze ideo (Tokenizer d u omit) inp mode = Ok ts -> list_sum (map width (no_markers ts)) <= rcount inp.
Proof.
  intros E. destruct (@analyze_offsets d u Hd Hu ideo omit inp mode) as (ts' & E' & C & R). rewrite E in E'. injection E' as <-.
  etransitivity; [apply filter_sum|]. pose proof (@contiguous_width (rcount inp) ts C (fun tk H => proj1 (R tk H))) as W. destruct ts; [cbn; lia|lia].
Qed.

Lemma commas_bounded : exists F, forall tk fs, from_analyze d u tk -> features tk = Ok fs -> length (commas (strings_list fs)) <= F.
Proof.
  assert (exists F, forall c id, length (commas (strings_list (spec_features d u c id))) <= F) as (F & HF).
  { set (f := fun x : list Z * list bytes => length (commas (map (fun k => nth (Z.to_nat k) (d_pos_names d) []) (fst x) ++ snd x))).
    assert (exists P, forall a b, f (nth a (d_pos_ids d) [], match d_contents d with Some cs => nth b cs [] | None => [] end) <= P) as (P1 & H1).
    { assert (G : forall l : list (list bytes), exists P, forall a b, f (nth a (d_pos_ids d) [], nth b l []) <= P).
      { intros l. induction l as [|y l (P & IH)].
        - destruct (bounded_nth (d_pos_ids d) [] (fun row => f (row, []))) as (P & H). exists P. intros a [|b]; cbn [nth]; apply H.
        - destruct (bounded_nth (d_pos_ids d) [] (fun row => f (row, y))) as (Q & H). exists (P + Q). intros a [|b]; cbn [nth]; [specialize (H a)|specialize (IH a b)]; lia. }
      destruct (d_contents d) as [cs|]; [apply G|]. destruct (G []) as (P & H). exists P. intros a b. exact (H a 0). }
    destruct (bounded_nth (d_unk_contents d) [] (fun fs => length (commas fs))) as (P2 & H2).
    assert (exists P3, forall id, length (commas (strings_list (spec_features d u USER id))) <= P3) as (P3 & H3).
    { destruct u as [ud|]; [|exists 0; intros id; cbn; lia].
      destruct (bounded_nth_error (u_contents ud) (fun o => length (commas (strings_list (match o with Some e => Some [uc_pos e; join (s2b "/") (uc_tokens e); join (s2b "/") (uc_yomi e)] | None => None end))))) as (P & H).
      exists P. intros id. exact (H (Z.to_nat id)). }
    exists (P1 + P2 + P3). intros [| | |] id.
    - cbn. lia.
    - specialize (H1 (Z.to_nat id) (Z.to_nat id)). unfold f in H1. cbn [fst snd] in H1. unfold spec_features, spec_pos_names, strings_list. lia.
    - specialize (H2 (Z.to_nat id)). unfold spec_features, strings_list. lia.
    - specialize (H3 id). lia. }
  exists F. intros tk fs Hf E. destruct (from_good Hd Hu Hw Hf) as (W & G & Ed & Eu). rewrite (features_ok W G), Ed, Eu in E. injection E as <-. apply HF.
Qed.

Theorem block_linear : exists k, forall ideo inp mode ts b, analyze ideo (Tokenizer d u false) inp mode = Ok ts -> text_block ts b -> length b <= k * rcount inp + 4.
Proof.
  destruct commas_bounded as (F & HF). exists (F + 6). intros ideo inp mode ts b E (ls & H2 & ->). rewrite !app_length. change (length (s2b "EOS")) with 3. cbn [length].
  assert (S : length (concat ls) <= (F + 6) * list_sum (map width (no_markers ts))).
  { destruct (@analyze_offsets d u Hd Hu ideo false inp mode) as (ts' & E' & _ & R). rewrite E in E'. injection E' as <-.
    assert (N : forall tk, In tk (no_markers ts) -> In tk ts /\ is_marker tk = false) by (intros tk H; apply filter_In in H; destruct H as (H & K); split; [exact H|destruct (is_marker tk); [discriminate K|reflexivity]]).
    revert N H2. generalize (no_markers ts). intros l N H2. induction H2 as [|tk x l ls0 Hx H2 IH]; [cbn; lia|]. cbn [concat map list_sum fold_right]. rewrite app_length.
    specialize (IH (fun tk0 H => N tk0 (or_intror H))). destruct (N tk (or_introl eq_refl)) as (I & K). destruct (R tk I) as (_ & _ & P & _). specialize (P K).
    pose proof (surface_size E I K) as Q. assert (length x <= (F + 6) * width tk); [|unfold list_sum in *; lia]. unfold width in *.
    assert (length x <= F + 2 + length (t_surface tk)); [|nia].
    destruct Hx as [tk D|tk fs D Ef]; rewrite !app_length; cbn [length]; [lia|].
    assert (length (commas (strings_list fs)) <= F); [|lia]. apply (HF tk fs); [|exact Ef]. exists ideo, false, inp, mode, ts. split; [exact E|exact I]. }
  pose proof (widths E). nia.
Qed.
End Text.

(** ** The command *)
Theorem tok_time d u : wf_dict d -> wf_udict u -> wf_data d -> exists a, forall w args o mode r t1 t2 t3,
  tok_args args o -> tok_uses w o d t1 -> user_uses w (to_udict o) u t2 -> input_uses w (to_file o) r t3 -> mode_of (to_mode o) mode ->
  exists tr texts err r', tok_run w args = (tr, Ok (option_map XScan err)) /\
    scan_texts (if to_split o then scan_sentences default_splitter else scan_lines) r = Ok (texts, err, r') /\
    list_sum (map (fun text => steps (t_analyze (w_ideo w) (Tokenizer d u false) text mode)) texts) <= a * length (rd_rest r).
Proof.
  intros Hd Hu Hw. destruct (analyze_linear Hd Hu) as (a & A). exists (2 * a). intros w args o mode r t1 t2 t3 Ha H1 H2 H3 Hm.
  destruct (tokenize_prints Hd Hu Hw Ha H1 H2 H3 Hm) as (tr & texts & err & r' & blocks & E1 & E2 & _). exists ((t1 ++ t2 ++ t3) ++ tr), texts, err, r'. split; [exact E1|]. split; [exact E2|].
  pose proof (scan_spent (tok_split_contract o) (@tok_fair o) E2) as S. enough (list_sum (map (fun text => steps (t_analyze (w_ideo w) (Tokenizer d u false) text mode)) texts) <= a * spent texts) by nia.
  clear -A. induction texts as [|t texts IH]; [cbn; lia|]. unfold spent in *. cbn [map list_sum fold_right]. specialize (A (w_ideo w) false t mode). pose proof (rcount_le t). unfold list_sum in *. nia.
Qed.
Theorem tok_output d u : wf_dict d -> wf_udict u -> wf_data d -> exists a, forall w args o mode r t1 t2 t3,
  tok_args args o -> tok_uses w o d t1 -> user_uses w (to_udict o) u t2 -> input_uses w (to_file o) r t3 -> mode_of (to_mode o) mode ->
  to_json o = false -> length (outs (fst (tok_run w args))) <= a * length (rd_rest r).
Proof.
  intros Hd Hu Hw. destruct (block_linear Hd Hu Hw) as (k & K). exists (2 * (k + 4)). intros w args o mode r t1 t2 t3 Ha H1 H2 H3 Hm Hj.
  destruct (tokenize_prints Hd Hu Hw Ha H1 H2 H3 Hm) as (tr & texts & err & r' & blocks & E1 & E2 & E3 & E4 & _). rewrite E1. cbn [fst].
  rewrite outs_app, E3, (quiet_outs (tr := t1 ++ t2 ++ t3)); [|apply quiet_app; [eapply tok_uses_quiet; eassumption|]; apply quiet_app; [eapply user_uses_quiet|eapply input_uses_quiet]; eassumption].
  pose proof (scan_spent (tok_split_contract o) (@tok_fair o) E2) as S. cbn [app]. enough (length (concat blocks) <= (k + 4) * spent texts) by nia.
  clear -E4 K Hj. rewrite Hj in E4. cbn [block] in E4. induction E4 as [|t b texts blocks (ts & Et & Hb) _ IH]; [cbn; lia|]. unfold spent in *. cbn [map list_sum fold_right concat]. rewrite app_length.
  pose proof (K _ _ _ _ _ Et Hb) as Q. pose proof (rcount_le t). unfold list_sum in *. nia.
Qed.
Theorem sen_output w args file r t : sen_args args file -> input_uses w file r t -> length (outs (fst (sen_run w args))) <= 2 * length (rd_rest r).
Proof.
  intros Ha Hi. destruct (sentence_prints Ha Hi) as (tr & texts & err & r1 & E1 & E2 & E3 & E4). rewrite E1. cbn [fst]. rewrite E3.
  pose proof (scan_spent (@sentences_contract default_splitter) (@sentences_fair default_splitter) E2) as S. enough (length (concat (map (fun s => s ++ [x0a]) texts)) = spent texts) by lia.
  clear. induction texts as [|x texts IH]; [reflexivity|]. unfold spent in *. cbn [map list_sum fold_right concat]. rewrite !app_length, IH. cbn [length]. unfold list_sum. lia.
Qed.
