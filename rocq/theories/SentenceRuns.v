(** Corollaries and runs used by PropertiesSentence. *)
From Verif Require Import SpecSent ScannerFacts SplitterFacts SentenceFacts SpaceFacts ChunkFacts LoaderFacts Utf8Facts Check.
From Coq Require Import List Arith Lia ZifyBool ZifyNat ZifyN.
Import ListNotations.
Local Open Scope N_scope.

Lemma scan_err_test_ok x y : scan_err_eqb x y = true <-> x = y.
Proof. destruct x, y; cbn; split; congruence. Qed.
#[export] Instance Eqb_scan_err : Eqb scan_err := {| test_eq := scan_err_eqb; test_eq_ok := scan_err_test_ok |}.

Lemma c33_complete_lemma : forall s r, sp_skip s = false -> lively r -> rd_end r = EOF -> (sp_max s <= 16384)%Z \/ N.of_nat (length (rd_rest r)) < 65536 ->
  exists toks r', scan_texts (scan_sentences s) r = Ok (toks, None, r') /\ concat toks = rd_rest r.
Proof.
  intros s r Hs Hl He Hb. destruct (c33_lemma r Hs) as (toks & err & r' & E & [[-> H]|[[->|[-> Hx]] _]]).
  - rewrite He in E. eauto.
  - exfalso. destruct (too_long_lemma E) as [H1 H2]; [congruence|]. specialize (H2 Hs). lia.
  - contradiction.
Qed.
Lemma c34_strip_lemma : forall s r, sp_skip s = true -> rd_log r = [] ->
  exists toks err r', scan_texts (scan_sentences s) r = Ok (toks, err, r') /\ rd_rest r = concat (rd_log r') ++ rd_rest r' /\
    (whole_runes (rd_log r') ->
     (err = scanner_err (Some (rd_end r)) /\ concat toks = strip (rd_rest r)) \/
     ((err = Some ErrTooLong \/ (err = Some ErrNoProgress /\ ~ lively r)) /\ exists lost, strip (rd_rest r) = concat toks ++ lost)).
Proof.
  intros s r Hs Hlog. destruct (aligned_lemma s Hlog) as (toks & err & r' & E & H1 & H2). exists toks, err, r'. split; [assumption|]. split; [assumption|].
  intros Hw. destruct (H2 Hw) as [_ H3]. rewrite (shown_strip _ Hs) in H3. exact H3.
Qed.
Lemma c35_lemma : forall s data at_eof, exists data' adv tok,
  scan_sentences s data at_eof = Ok (data', adv, tok) /\ length data' = length data /\ (adv <= length data)%nat /\
  (tok <> None -> 1 <= adv)%nat /\ (at_eof = true -> data <> [] -> tok <> None).
Proof.
  intros s data e. destruct (sentences_contract s data e) as (d' & adv & tok & E & [H1 H2 H3 H4]). exists d', adv, tok. auto.
Qed.
Lemma c35_scan_lemma : forall s r, exists toks err r', scan_texts (scan_sentences s) r = Ok (toks, err, r').
Proof. intros s r. destruct (c36_run_lemma s r) as (toks & err & r' & E & _). eauto. Qed.
Lemma c36_sentences_lemma : forall s r, rd_log r = [] ->
  exists toks err r', scan_texts (scan_sentences s) r = Ok (toks, err, r') /\ (whole_runes (rd_log r') -> Forall (fun t => sentence s (segs t)) toks).
Proof.
  intros s r Hlog. destruct (aligned_lemma s Hlog) as (toks & err & r' & E & H1 & H2). exists toks, err, r'. split; [assumption|].
  intros Hw. destruct (H2 Hw) as [H3 _]. eapply Forall_impl; [|exact H3]. cbv beta. tauto.
Qed.
Lemma c55_lemma : forall s r, rd_log r = [] ->
  exists toks err r', scan_texts (scan_sentences s) r = Ok (toks, err, r') /\
    (whole_runes (rd_log r') -> Forall (fun t => valid_utf8 t = true) toks).
Proof.
  intros s r Hlog. destruct (aligned_lemma s Hlog) as (toks & err & r' & E & H1 & H2). exists toks, err, r'. split; [assumption|].
  intros Hw. destruct (H2 Hw) as [H3 _]. eapply Forall_impl; [|exact H3]. cbv beta. tauto.
Qed.

Definition lf_text : bytes := [x61; x0a; x62; x0a; x63].
Lemma c37_refuted_lemma : exists data data' adv t c, scan_sentences default_splitter data false = Ok (data', adv, Some t) /\
  segs data = c ++ segs (skipn adv data') /\ t = segs_text (visible default_splitter c) /\
  map fst c = [97; 10; 98; 10] /\ ~ delim_rune default_splitter (97, [x61]) /\ ~ delim_rune default_splitter (98, [x62]).
Proof.
  exists lf_text, [x61; x62; x62; x0a; x63], 4%nat, [x61; x62], [(97, [x61]); (10, [x0a]); (98, [x62]); (10, [x0a])].
  split; [by_eval|]. split; [by_eval|]. split; [by_eval|]. split; [reflexivity|].
  unfold delim_rune, default_splitter. cbn [sp_delim fst In]. split; intros H; decompose [or] H; discriminate || assumption.
Qed.
Lemma c37_blank_lemma : exists x, scan_texts (scan_sentences default_splitter) (Reader (s2b "a" ++ [x0a; x0d; x0a] ++ s2b "b") [] EOF []) = Ok x /\
  fst x = ([s2b "ab"], None).
Proof. apply run_ex. vm_compute. reflexivity. Qed.
Lemma two_runs {A B C} `{Eqb B} `{Eqb C} (p q : res A) (f : A -> B) (g : A -> C) b c :
  ok_and p (fun x => test_eq (f x) b) = true -> ok_and q (fun x => test_eq (g x) c) = true ->
  exists x y, p = Ok x /\ q = Ok y /\ f x = b /\ g y = c.
Proof.
  intros H1 H2. apply run_ex in H1. apply run_ex in H2. destruct H1 as (x & E1 & H1), H2 as (y & E2 & H2). exists x, y. auto.
Qed.
Lemma c38_follower_lemma : exists x y input,
  scan_texts (scan_sentences default_splitter) (Reader input [] EOF []) = Ok x /\
  scan_texts (scan_sentences default_splitter) (Reader input [(6, false)]%nat EOF []) = Ok y /\
  fst x = ([s2b "あ。」"; s2b "い"], None) /\ fst y = ([s2b "あ。"; s2b "」い"], None).
Proof.
  assert (H : exists x y, scan_texts (scan_sentences default_splitter) (Reader (s2b "あ。」い") [] EOF []) = Ok x /\
    scan_texts (scan_sentences default_splitter) (Reader (s2b "あ。」い") [(6, false)]%nat EOF []) = Ok y /\
    fst x = ([s2b "あ。」"; s2b "い"], None) /\ fst y = ([s2b "あ。"; s2b "」い"], None)) by (apply two_runs; vm_compute; reflexivity).
  destruct H as (x & y & H). exists x, y, (s2b "あ。」い"). exact H.
Qed.
Lemma c38_feed_lemma : exists x y input,
  scan_texts (scan_sentences default_splitter) (Reader input [] EOF []) = Ok x /\
  scan_texts (scan_sentences default_splitter) (Reader input [(2, false)]%nat EOF []) = Ok y /\
  fst x = ([s2b "a"; s2b "b"], None) /\ fst y = ([s2b "ab"], None).
Proof.
  assert (H : exists x y, scan_texts (scan_sentences default_splitter) (Reader [x61; x0a; x0a; x62] [] EOF []) = Ok x /\
    scan_texts (scan_sentences default_splitter) (Reader [x61; x0a; x0a; x62] [(2, false)]%nat EOF []) = Ok y /\
    fst x = ([s2b "a"; s2b "b"], None) /\ fst y = ([s2b "ab"], None)) by (apply two_runs; vm_compute; reflexivity).
  destruct H as (x & y & H). exists x, y, [x61; x0a; x0a; x62]. exact H.
Qed.
Lemma c53_refuted_lemma : forall n, 65536 <= N.of_nat n ->
  exists r', scan_texts (scan_sentences default_splitter) (Reader (x61 :: repeat x20 n) [] EOF []) = Ok ([], Some ErrTooLong, r').
Proof.
  intros n Hn. apply too_long_blanks with (n := n); try reflexivity; try assumption.
  - cbn [default_splitter sp_delim In]. intros H; decompose [or] H; discriminate || assumption.
  - cbn. lia.
  - cbn [default_splitter sp_delim In]. intros H; decompose [or] H; discriminate || assumption.
  - constructor.
Qed.
Lemma c54_refuted_lemma : exists x, scan_texts (scan_sentences default_splitter) (Reader (s2b "  ") [(2, true)]%nat EOF []) = Ok x /\ fst x = ([[]], None).
Proof. apply run_ex. vm_compute. reflexivity. Qed.
Lemma c55_refuted_lemma : exists x, valid_utf8 (repeat x61 127 ++ s2b "あ") = true /\
  scan_texts (scan_sentences default_splitter) (Reader (repeat x61 127 ++ s2b "あ") [(128, false)]%nat EOF []) = Ok x /\
  fst x = ([repeat x61 127 ++ [xe3]; [x81; x82]], None).
Proof.
  assert (H : exists x, scan_texts (scan_sentences default_splitter) (Reader (repeat x61 127 ++ s2b "あ") [(128, false)]%nat EOF []) = Ok x /\
    fst x = ([repeat x61 127 ++ [xe3]; [x81; x82]], None)) by (apply run_ex; vm_compute; reflexivity).
  destruct H as (x & H). exists x. split; [vm_compute; reflexivity|exact H].
Qed.

Lemma c38_cuts : clean_cuts default_splitter [s2b "あ"; s2b "い 。」"; s2b "う え"; []].
Proof.
  assert (H : forall r b, existsb (fun d => (r =? d)%N) (sp_delim default_splitter ++ sp_follower default_splitter) = false -> ~ tail_rune default_splitter (r, b)).
  { intros r b H Ht. assert (Hin : In r (sp_delim default_splitter ++ sp_follower default_splitter)) by (apply in_or_app; exact Ht).
    assert (existsb (fun d => (r =? d)%N) (sp_delim default_splitter ++ sp_follower default_splitter) = true); [|congruence].
    apply existsb_exists. exists r. split; [assumption|apply N.eqb_refl]. }
  split; [repeat constructor|]. intros [|p0 [|p1 [|p2 [|p3 pre]]]] c post E Hp Hc; try (injection E; clear E; intros; subst).
  - exfalso. apply Hp. reflexivity.
  - unfold ordinary_start. change (segs (s2b "い 。」")) with [(12356, s2b "い"); (32, [x20]); (12290, s2b "。"); (12301, s2b "」")].
    split; [apply H; reflexivity|reflexivity].
  - unfold ordinary_start. change (segs (s2b "う え")) with [(12358, s2b "う"); (32, [x20]); (12360, s2b "え")].
    split; [apply H; reflexivity|reflexivity].
  - congruence.
  - destruct pre; discriminate.
Qed.

(** Deciding [lone_feeds] and [clean_cuts]. *)
Fixpoint feeds_from (s : splitter) (l : list (N * bytes)) (n : nat) (d : bool) : bool :=
  match l with
  | [] => true
  | g :: z => (if (fst g =? line_feed)%N then (n =? 0)%nat || (length (visible s z) =? 0)%nat || d || (sp_max s <=? Z.of_nat n)%Z else true) &&
              feeds_from s z (n + length (visible s [g])) (d || existsb (fun x => (fst g =? x)%N) (sp_delim s))
  end.
Fixpoint lone_b (s : splitter) (last : option (N * bytes)) (l : list (N * bytes)) : bool :=
  match l with
  | [] => true
  | g :: z => (if (fst g =? line_feed)%N then feeds_from s z 0 false || match last with None => true | Some h => existsb (fun x => (fst h =? x)%N) (sp_delim s) end else true) &&
              lone_b s (match visible s [g] with [] => last | h :: _ => Some h end) z
  end.
Lemma delim_b s g : existsb (fun x => (fst g =? x)%N) (sp_delim s) = true -> delim_rune s g.
Proof. intros H. apply existsb_exists in H. destruct H as (x & Hx & E). apply N.eqb_eq in E. unfold delim_rune. rewrite E. exact Hx. Qed.
Lemma feeds_from_ok s y : forall pre c z, feeds_from s (y ++ (line_feed, c) :: z) (length (visible s pre)) (existsb (fun g => existsb (fun x => (fst g =? x)%N) (sp_delim s)) pre) = true ->
  visible s (pre ++ y) = [] \/ visible s z = [] \/ Exists (delim_rune s) (pre ++ y) \/ (sp_max s <= Z.of_nat (length (visible s (pre ++ y))))%Z.
Proof.
  induction y as [|g y IH]; intros pre c z H.
  - rewrite app_nil_r. cbn [app feeds_from fst] in H. rewrite N.eqb_refl in H. apply andb_true_iff in H. destruct H as (H & _). rewrite !orb_true_iff in H. destruct H as [[[H|H]|H]|H].
    + left. destruct (visible s pre); [reflexivity|discriminate H].
    + right. left. destruct (visible s z); [reflexivity|discriminate H].
    + right. right. left. apply existsb_exists in H. destruct H as (g & Hg & H). apply Exists_exists. exists g. split; [exact Hg|apply delim_b; exact H].
    + right. right. right. lia.
  - cbn [app feeds_from] in H. apply andb_true_iff in H. destruct H as (_ & H). replace (pre ++ g :: y) with ((pre ++ [g]) ++ y) by (rewrite <- app_assoc; reflexivity). apply (IH (pre ++ [g]) c z).
    rewrite visible_app, app_length, existsb_app. cbn [existsb]. rewrite orb_false_r. exact H.
Qed.
Definition last_of (l : list (N * bytes)) : option (N * bytes) := match rev l with [] => None | g :: _ => Some g end.
Lemma visible_one s g : visible s [g] = [] \/ visible s [g] = [g].
Proof. unfold visible. destruct (sp_skip s); [|auto]. cbn [filter]. destruct (negb (is_space (fst g))); auto. Qed.
Lemma lone_b_ok s l : forall P, lone_b s (last_of (visible s P)) l = true -> forall x b y c z, l = x ++ (line_feed, b) :: y ++ (line_feed, c) :: z ->
  (forall v g, visible s (P ++ x) = v ++ [g] -> delim_rune s g) \/
  visible s y = [] \/ visible s z = [] \/ Exists (delim_rune s) y \/ (sp_max s <= Z.of_nat (length (visible s y)))%Z.
Proof.
  induction l as [|g l IH]; intros P H x b y c z E; [destruct x; discriminate E|]. cbn [lone_b] in H. apply andb_true_iff in H. destruct H as (H1 & H2). destruct x as [|h x]; cbn [app] in E; injection E as Eg E.
  - subst g. cbn [fst] in H1. rewrite N.eqb_refl in H1. apply orb_true_iff in H1. destruct H1 as [H1|H1].
    + right. subst l. pose proof (@feeds_from_ok s y [] c z) as Q. cbn [existsb app] in Q. rewrite visible_nil in Q. exact (Q H1).
    + left. intros v g Ev. rewrite app_nil_r in Ev. unfold last_of in H1. rewrite Ev, rev_app_distr in H1. cbn [rev app] in H1. apply delim_b. exact H1.
  - subst h. replace (P ++ g :: x) with ((P ++ [g]) ++ x) by (rewrite <- app_assoc; reflexivity). refine (IH (P ++ [g]) _ x b y c z E). rewrite visible_app.
    destruct (visible_one s g) as [V|V]; rewrite V in *; [rewrite app_nil_r; exact H2|]. unfold last_of at 1. rewrite rev_app_distr. exact H2.
Qed.
Lemma lone_ok s l : lone_b s None l = true -> lone_feeds s l.
Proof. intros H x b y c z E. refine (@lone_b_ok s l [] _ x b y c z E). rewrite visible_nil. exact H. Qed.
Definition ordinary_b (s : splitter) (c : bytes) : bool :=
  match segs c with [] => false | g :: _ => negb (existsb (fun x => (fst g =? x)%N) (sp_delim s ++ sp_follower s)) && negb (sp_skip s && is_space (fst g)) end.
Fixpoint cuts_b (s : splitter) (started : bool) (log : list bytes) : bool :=
  match log with [] => true | c :: log' => valid_utf8 c && match c with [] => cuts_b s started log' | _ => (negb started || ordinary_b s c) && cuts_b s true log' end end.
Lemma ordinary_b_ok s c : ordinary_b s c = true -> ordinary_start s c.
Proof.
  unfold ordinary_b, ordinary_start. destruct (segs c) as [|g l]; [discriminate|]. intros H. apply andb_true_iff in H. destruct H as (H1 & H2). split.
  - intros T. apply negb_true_iff in H1. assert (Z : existsb (fun x => (fst g =? x)%N) (sp_delim s ++ sp_follower s) = true); [|congruence]. apply existsb_exists. exists (fst g). split; [apply in_or_app; exact T|apply N.eqb_refl].
  - intros Hs. rewrite Hs in H2. destruct (is_space (fst g)); [discriminate H2|reflexivity].
Qed.
Lemma cuts_b_ok s : forall log started, cuts_b s started log = true -> whole_runes log /\
  forall pre c post, log = pre ++ c :: post -> started = true \/ concat pre <> [] -> c <> [] -> ordinary_start s c.
Proof.
  induction log as [|c0 log IH]; intros started H; [split; [constructor|intros [|? ?] c post E; discriminate E]|]. cbn [cuts_b] in H. apply andb_true_iff in H. destruct H as (V & H). destruct c0 as [|b0 c0].
  - destruct (IH _ H) as (W & O). split; [constructor; assumption|]. intros [|h pre] c post E S N; injection E as Ec E; [congruence|]. rewrite <- Ec in S. apply (O pre c post E); [exact S|exact N].
  - apply andb_true_iff in H. destruct H as (H1 & H2). destruct (IH _ H2) as (W & O). split; [constructor; assumption|]. intros [|h pre] c post E S N; injection E as <- E.
    + destruct S as [->|S]; [|destruct (S eq_refl)]. apply ordinary_b_ok. exact H1.
    + apply (O pre c post E); [left; reflexivity|exact N].
Qed.
Lemma clean_b_ok s log : cuts_b s false log = true -> clean_cuts s log.
Proof. intros H. destruct (cuts_b_ok _ _ _ H) as (W & O). split; [exact W|]. intros pre c post E S N. apply (O pre c post E); [right; exact S|exact N]. Qed.
Definition ex_lines : bytes := s2b "あ。" ++ [x0a] ++ s2b "い う。" ++ [x0a; x0a] ++ s2b "え" ++ [x0a] ++ s2b "お".
Lemma c38_lines :
  (lone_feeds default_splitter (segs ex_lines) /\ clean_cuts default_splitter [s2b "あ。" ++ [x0a]; s2b "い "; s2b "う。" ++ [x0a; x0a] ++ s2b "え" ++ [x0a]; s2b "お"; []]) /\
  exists x, scan_texts (scan_sentences default_splitter) (Reader ex_lines [(7, false); (4, false); (12, false); (30, false)]%nat EOF []) = Ok x /\
  (fst x, rd_log (snd x)) = ([s2b "あ。"; s2b "いう。"; s2b "えお"], None, [s2b "あ。" ++ [x0a]; s2b "い "; s2b "う。" ++ [x0a; x0a] ++ s2b "え" ++ [x0a]; s2b "お"; []]).
Proof.
  split; [split|].
  - apply lone_ok. vm_compute. reflexivity.
  - apply clean_b_ok. vm_compute. reflexivity.
  - eexists. split; [vm_compute; reflexivity|]. reflexivity.
Qed.
