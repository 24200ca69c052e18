(** Lemmas for C129: how long the demo pages are. *)
From Verif Require Import Utf8Facts OptFacts TokFacts AnalyzeFacts TokenFacts CmdFacts CmdRuns CmdMore DrawSize SpecCmd SpecOut SpecFeat BuildFacts CmdWork CmdJsonWork ServerFacts Page.
From Coq Require Import List Arith Lia ZifyBool ZifyNat ZifyN NArith.
Import ListNotations.
Local Open Scope nat_scope.
Set Implicit Arguments.
Unset Strict Implicit.

Lemma escape_size s : length (html_escape s) <= 5 * length s.
Proof.
  unfold html_escape. induction s as [|b s IH]; [cbn; lia|]. cbn [map concat length]. rewrite app_length.
  assert (length (html_escape_byte b) <= 5) by (destruct b; cbn; lia). lia.
Qed.
Lemma row_size r : length (graph_row r) = length (graph_row (Rec [] (rc_pos r) (rc_base r) (rc_reading r) (rc_pron r))) + length (html_escape (rc_surface r)).
Proof.
  unfold graph_row. cbn [rc_surface rc_pos rc_base rc_reading rc_pron]. change (html_escape []) with (@nil byte). rewrite !app_length. change (length (@nil byte)) with 0. lia.
Qed.
(** What analyzeGraph gets from graphviz, or is told by it, in bytes *)
Definition viz_small (gv : graphviz) (m : nat) : Prop :=
  (forall e, gv_start gv = Some e -> length (fl_text e) <= m) /\
  forall g, match gv_run gv g with inl e => length (fl_text e) | inr out => length out end <= m.
Lemma svg_size s : length (svg_part s) <= length s.
Proof. unfold svg_part. destruct (str_index (s2b "<svg") s) as [p|]; [|lia]. destruct (0 <? p); [rewrite skipn_length|]; lia. Qed.

Lemma ok_inj A (x y : A) : Ok x = Ok y -> x = y.
Proof. intros H. injection H. auto. Qed.
Lemma fits K P F s S x : 1 <= S -> s <= S -> x <= K * s + P + F + 700 * S -> x <= (K + P + F + 700) * S.
Proof. intros H1 H2 H3. rewrite !Nat.mul_add_distr_r. pose proof (Nat.mul_le_mono_l s S K H2). pose proof (Nat.mul_le_mono_l 1 S P H1). pose proof (Nat.mul_le_mono_l 1 S F H1). lia. Qed.
Section Pages.
Variables (d : dict) (u : option udict).
Hypotheses (Hd : wf_dict d) (Hu : wf_udict u) (Hw : wf_data d).
Let pick c (x : strings * strings) key := match meta_get (meta_of d c) key with Some i => lookup (fst x) i | None => ([], false) end.
Let shown c (x : strings * strings) surface :=
  let v := join (s2b ",") (strings_list (snd x)) in
  Rec surface (if bytes_eqb v [] then star else v) (or_star (pick c x key_base)) (or_star (pick c x key_reading)) (or_star (pick c x key_pronunciation)).
Lemma record_shown tk : from_analyze d u tk -> new_record tk = Ok (shown (t_class tk) (told d u (t_class tk) (t_id tk)) (t_surface tk)).
Proof.
  intros Hf. destruct (from_good Hd Hu Hw Hf) as (W & G & Ed & Eu). unfold new_record, base_form, reading, pronunciation. rewrite (token_pos_ok W G). cbn [rbind].
  rewrite !(pickup_ok W G). cbn [rbind]. rewrite Ed, Eu. reflexivity.
Qed.
Lemma record_size : exists K, forall tk r, from_analyze d u tk -> new_record tk = Ok r -> length (graph_row r) <= K + 5 * length (t_surface tk).
Proof.
  destruct (told_bounded d u (fun c x => length (graph_row (shown c x [])))) as (K & HK). exists K. intros tk r Hf E. rewrite (record_shown Hf) in E. injection E as <-.
  rewrite row_size. pose proof (escape_size (t_surface tk)) as L. specialize (HK (t_class tk) (t_id tk)). subst shown pick. cbv beta zeta in *. cbn [rc_surface rc_pos rc_base rc_reading rc_pron] in *. lia.
Qed.
Lemma rows_size : exists K, forall ideo inp mode ts rs, analyze ideo (Tokenizer d u false) inp mode = Ok ts -> to_records (map without_index_position ts) = Ok rs ->
  length (concat (map graph_row rs)) <= K * length inp.
Proof.
  destruct record_size as (K & HK). exists (K + 20). intros ideo inp mode ts rs E Er.
  destruct (@analyze_offsets d u Hd Hu ideo false inp mode) as (ts' & E' & C & R). rewrite E in E'. injection E' as <-.
  pose proof (rcount_le inp) as Rc.
  assert (Wd : list_sum (map width (no_markers ts)) <= length inp).
  { etransitivity; [apply filter_sum|]. pose proof (@contiguous_width (rcount inp) ts C (fun tk H => proj1 (R tk H))) as W. destruct ts; [cbn; lia|lia]. }
  transitivity ((K + 20) * list_sum (map width (no_markers ts))); [|apply Nat.mul_le_mono_l; exact Wd].
  assert (N : forall tk, In tk ts -> In tk ts) by auto. clear Wd C. revert N rs Er. generalize ts at 1 3 4. intros q. induction q as [|tk q IH]; intros N rs Er; cbn [map to_records] in Er; [injection Er as <-; cbn; lia|].
  specialize (IH (fun x H => N x (or_intror H))). pose proof (N tk (or_introl eq_refl)) as I. destruct (R tk I) as (R1 & _ & R2 & _).
  change (t_id (without_index_position tk)) with (t_id tk) in Er. change (new_record (without_index_position tk)) with (new_record tk) in Er. change bos_eos_id with (-1)%Z in Er.
  cbn [no_markers filter]. unfold is_marker at 1. destruct (t_id tk =? -1)%Z eqn:Mk; cbn [negb]; [apply IH; exact Er|].
  destruct (new_record tk) as [r| |] eqn:Et; cbn [rbind] in Er; try discriminate. destruct (to_records (map without_index_position q)) as [rs0| |] eqn:Er0; cbn [rbind] in Er; try discriminate. injection Er as <-.
  specialize (IH rs0 eq_refl). pose proof (HK tk r ltac:(exists ideo, false, inp, mode, ts; split; assumption) Et) as B.
  pose proof (surface_size Hd Hu E I Mk) as Q. specialize (R2 Mk). cbn [map concat list_sum fold_right]. rewrite app_length. unfold list_sum, no_markers in *.
  assert (length (graph_row r) <= (K + 20) * width tk) by (unfold width; nia). lia.
Qed.

Definition page_fixed : nat := length graph_head + length graph_table + length graph_middle + length graph_tail + 200.
Lemma page_size sen mode err svg rs : length (graph_page sen mode err svg rs) <=
  page_fixed + 5 * length sen + 5 * length mode + length (concat (map graph_row rs)) + 5 * length err + length svg.
Proof.
  unfold graph_page, page_fixed. rewrite !app_length. pose proof (escape_size sen). pose proof (escape_size mode).
  assert (length (graph_error err) <= 5 * length err + 50).
  { unfold graph_error. destruct (bytes_eqb err []); [cbn; lia|]. rewrite !app_length. pose proof (escape_size err).
    assert (length (html_lines [s2b ""]) + length (s2b "    <strong>") + length (html_lines [s2b "</strong>"]) + length (s2b "    ") <= 50) by (vm_compute; lia). lia. }
  assert (length (graph_svg svg) <= length svg + 50).
  { unfold graph_svg. destruct (bytes_eqb svg []); [cbn; lia|]. rewrite !app_length.
    assert (length (html_lines [s2b ""]) + length (s2b "    ") + length (html_lines [s2b ""]) + length (s2b "    ") <= 50) by (vm_compute; lia). lia. }
  assert (length (html_lines [s2b "</td></tr>"]) + length (s2b "    <tr><th>Mode</th><td>") + length (html_lines [s2b ""]) + length (s2b "    ") <= 100) by (vm_compute; lia). lia.
Qed.
Definition form_fixed : nat := length form_head + length form_normal + length form_search + length form_tail + 20.
Lemma form_size sen mode : length (form_page sen mode) <= form_fixed + 5 * length sen.
Proof.
  unfold form_page, form_fixed. rewrite !app_length. pose proof (escape_size sen).
  assert (C : forall a b, length (checked_if a b) <= 7) by (intros a b; unfold checked_if; destruct (bytes_eqb a b); cbn; lia).
  pose proof (C mode (s2b "search")). pose proof (C mode (s2b "extended")). lia.
Qed.
Theorem root_size : exists a, forall m gv addr ideo omit sen mode lattice page, viz_small gv m ->
  serve_root gv addr ideo (Tokenizer d u omit) sen mode lattice = Ok page -> length page <= a * (length sen + length mode + m + 1).
Proof.
  destruct rows_size as (K & HK). exists (K + page_fixed + form_fixed + 700). intros m gv addr ideo omit sen mode lattice page (V1 & V2) E. unfold serve_root in E.
  destruct (bytes_eqb lattice []); [apply ok_inj in E; subst page; pose proof (form_size sen mode); apply fits with (s := 0); lia|].
  assert (Bad : forall e, length (fl_text e) <= m + 60 -> length (graph_page sen mode (s2b "Error: " ++ (if fl_deadline e then s2b "graphviz time out" else fl_text e)) [] []) <=
    (K + page_fixed + form_fixed + 700) * (length sen + length mode + m + 1)).
  { intros e He. etransitivity; [apply page_size|]. rewrite app_length. change (length (s2b "Error: ")) with 7. cbn [map concat length].
    assert (length (if fl_deadline e then s2b "graphviz time out" else fl_text e) <= m + 60) by (destruct (fl_deadline e); [change (length (s2b "graphviz time out")) with 17; lia|exact He]). apply fits with (s := 0); lia. }
  unfold analyze_with in E. destruct (gv_found gv).
  - destruct (gv_start gv) as [e|] eqn:Es.
    + cbn [rbind] in E. apply ok_inj in E; subst page. apply Bad. cbn [fl_text]. rewrite app_length. specialize (V1 e eq_refl). change (length (s2b "process done with error, ")) with 25. lia.
    + destruct (graph_text addr ideo (Tokenizer d u omit) sen (demo_mode mode)) as [g| |]; cbn [rbind] in E; try discriminate.
      rewrite analyze_graph_tokens in E. destruct (analyze ideo (Tokenizer d u false) sen (demo_mode mode)) as [ts| |] eqn:Ea; cbn [rbind] in E; try discriminate.
      specialize (V2 g). destruct (gv_run gv g) as [e|out]; cbn [rbind] in E.
      * apply ok_inj in E; subst page. apply Bad. cbn [fl_text]. rewrite app_length. change (length (s2b "process done with error, ")) with 25. lia.
      * destruct (to_records (map without_index_position ts)) as [rs| |] eqn:Er; cbn [rbind] in E; try discriminate. apply ok_inj in E; subst page.
        pose proof (HK _ _ _ _ _ Ea Er). etransitivity; [apply page_size|]. pose proof (svg_size out). cbn [length]. apply fits with (s := length sen); lia.
  - cbn [rbind] in E. apply ok_inj in E; subst page. apply Bad. cbn [fl_text]. change (length (s2b "circo/graphviz is not installed in your $PATH")) with 45. lia.
Qed.
End Pages.
