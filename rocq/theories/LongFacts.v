(** C125: how much of its input a command holds at a time. *)
From Verif Require Import QuotaBusy SpecQuota Utf8Facts ScannerFacts SentenceFacts LoaderFacts OptFacts CmdFacts CmdRuns CmdMore AgainCmd SpecAgainCmd SpecCmd SpecSent BuildFacts SpecLong.
From Coq Require Import List Arith Lia ZifyBool ZifyNat ZifyN NArith.
Import ListNotations.
Local Open Scope nat_scope.
Set Implicit Arguments.
Unset Strict Implicit.

(** ** Texts *)
Lemma drop_cr_le l : length (drop_cr l) <= length l.
Proof. destruct (drop_cr_ok l) as [E|(-> & _)]; [|lia]. rewrite E at 2. rewrite app_length. lia. Qed.
Lemma visible_le s l : length (segs_text (visible s l)) <= length (segs_text l).
Proof.
  unfold visible. destruct (sp_skip s); [|lia]. unfold segs_text. induction l as [|g l IH]; [reflexivity|]. cbn [filter]. destruct (negb (is_space (fst g))); cbn [map concat]; rewrite ?app_length; lia.
Qed.
(** A split function whose texts are no longer than the data. *)
Definition modest (split : split_func) : Prop := forall data e data' adv t, split data e = Ok (data', adv, Some t) -> length t <= length data.
Lemma lines_modest : modest scan_lines.
Proof.
  intros data e data' adv t. unfold scan_lines. destruct (e && (length data =? 0)); [discriminate|]. destruct (index_byte data x0a) as [i|] eqn:Ei.
  - unfold slice. destruct ((0 <=? i) && (i <=? length data)); cbn [rbind]; [|discriminate]. intros [= _ _ <-]. pose proof (drop_cr_le (firstn (i - 0) (skipn 0 data))) as H. cbn [skipn] in *. rewrite firstn_length in H. lia.
  - destruct e; [|discriminate]. intros [= _ _ <-]. apply drop_cr_le.
Qed.
Lemma sentences_modest s : modest (scan_sentences s).
Proof.
  intros data e data' adv t H. destruct data as [|b0 d0]; [destruct e; discriminate H|]. assert (Hne : b0 :: d0 <> []) by discriminate. remember (b0 :: d0) as data eqn:Ed. clear Ed.
  destruct (@split_call s data e Hne) as [(c & rest & d1 & a1 & E & G & _)|[(_ & d1 & E & _)|(_ & _ & _ & d1 & a1 & k & E & _)]]; rewrite E in H; [| |discriminate]; injection H as _ _ <-.
  - etransitivity; [apply visible_le|]. rewrite <- (segs_concat data), G. unfold segs_text. rewrite map_app, concat_app, app_length. lia.
  - etransitivity; [apply visible_le|]. rewrite segs_concat. lia.
Qed.
Lemma tok_modest o : modest (tok_split o).
Proof. unfold tok_split. destruct (to_split o); [apply sentences_modest|apply lines_modest]. Qed.

Theorem texts_short split r toks err r' : split_contract split -> modest split -> scan_texts split r = Ok (toks, err, r') -> Forall short toks.
Proof.
  intros C M E. destruct (@scan_texts_ok split C (fun acc data _ _ => Forall short acc /\ short data)) with (r := r) as (toks1 & err1 & r1 & E1 & St).
  - intros acc data r0 e data' adv t (H1 & H2) Es. pose proof (M _ _ _ _ _ Es) as L. destruct (C data (match e with Some _ => true | None => false end)) as (d1 & a1 & t1 & Es1 & [L1 _ _ _]).
    rewrite Es in Es1. injection Es1 as <- <- <-. unfold short in *. split; [apply Forall_app; split; [exact H1|constructor; [lia|constructor]]|rewrite skipn_length; lia].
  - intros acc data r0 data' adv _ (H1 & H2) Es. destruct (C data false) as (d1 & a1 & t1 & Es1 & [L1 _ _ _]). rewrite Es in Es1. injection Es1 as <- <- <-.
    split; [exact H1|]. unfold short in *. rewrite skipn_length. lia.
  - intros acc data r0 tries cap chunk e r2 (H1 & _) _ _ H. split; [exact H1|exact H].
  - split; [constructor|]. unfold short. cbn. lia.
  - rewrite E in E1. injection E1 as <- <- <-. destruct St as [(e & (H & _) & _)|(data & (H & _) & _)]; exact H.
Qed.

(** ** Reading ahead, line by line *)
Definition ends_lf (l : bytes) : Prop := l = [] \/ exists l', l = l' ++ [x0a].
Lemma whole_ends raw : ends_lf (concat (map (fun l => l ++ [x0a]) raw)).
Proof. destruct raw as [|l raw _] using rev_ind; [left; reflexivity|]. right. rewrite map_app, concat_app. cbn [map concat]. rewrite app_nil_r, app_assoc. eauto. Qed.
Lemma tail_unique a b rest rest' : a ++ rest = b ++ rest' -> ends_lf a -> ends_lf b -> ~ In x0a rest -> ~ In x0a rest' -> rest = rest'.
Proof.
  assert (K : forall (a b l : bytes), a = b ++ l -> ends_lf a -> ~ In x0a l -> l = []).
  { intros x y l -> [E|(l' & E)] N; [apply app_eq_nil in E; tauto|]. destruct l as [|z l _] using rev_ind; [reflexivity|]. exfalso. apply N. rewrite app_assoc in E. apply app_inj_tail in E. destruct E as (_ & ->). apply in_or_app. right. left. reflexivity. }
  intros E A B N N'. apply app_eq_app in E. destruct E as (l & [(E1 & E2)|(E1 & E2)]).
  - assert (l = []) as -> by (eapply K; [exact E1|exact A|]; rewrite E2 in N'; intros H; apply N', in_or_app; left; exact H). symmetry. exact E2.
  - assert (l = []) as -> by (eapply K; [exact E1|exact B|]; rewrite E2 in N; intros H; apply N, in_or_app; left; exact H). exact E2.
Qed.
Definition ahead (log : list bytes) : Prop := forall l1 c l2, log = l1 ++ c :: l2 -> forall raw rest, whole_lines (concat l1) raw rest -> short (rest ++ c).

Definition stream_inv (input : bytes) (data : bytes) (r : reader) (e : option scan_err) : Prop :=
  ahead (rd_log r) /\ short data /\ input = concat (rd_log r) ++ rd_rest r /\ (e = None -> exists raw, concat (rd_log r) = concat (map (fun l => l ++ [x0a]) raw) ++ data).

Lemma lines_ahead r toks err r' : rd_log r = [] -> scan_texts scan_lines r = Ok (toks, err, r') -> ahead (rd_log r').
Proof.
  intros L E. set (input := rd_rest r). destruct (@scan_texts_ok scan_lines lines_contract (fun _ data r1 e => stream_inv input data r1 e)) with (r := r) as (toks1 & err1 & r1 & E1 & St).
  - intros acc data r0 e data' adv t (H1 & H2 & H3 & H4) Es. split; [exact H1|]. destruct (lines_contract data (match e with Some _ => true | None => false end)) as (d1 & a1 & t1 & Es1 & [L1 _ _ _]).
    pose proof Es1 as Es2. rewrite Es in Es2. injection Es2 as <- <- <-. split; [unfold short in *; rewrite skipn_length; lia|]. split; [exact H3|]. intros ->. destruct (H4 eq_refl) as (raw & G).
    unfold scan_lines in Es. cbn [andb] in Es. destruct (index_byte data x0a) as [i|] eqn:Ei; [|discriminate]. destruct (index_byte_some Ei) as (F1 & _).
    destruct (slice data 0 i); cbn [rbind] in Es; try discriminate. injection Es as <- <- _. exists (raw ++ [firstn i data]). rewrite map_app, concat_app. cbn [map concat]. rewrite app_nil_r, G, <- !app_assoc. f_equal. rewrite F1 at 1. reflexivity.
  - intros acc data r0 data' adv _ H Es. unfold scan_lines in Es. cbn [andb] in Es. destruct (index_byte data x0a) as [i|]; [destruct (slice data 0 i); discriminate|]. injection Es as <- <-. exact H.
  - intros acc data r0 tries cap chunk e r2 (H1 & H2 & H3 & H4) W Er B. destruct (H4 eq_refl) as (raw & G). destruct (read_loop_log Er) as (n & Lg). destruct (read_loop_ok Er) as (Rst & _).
    assert (Nd : ~ In x0a data).
    { destruct W as [->|(d0 & d' & adv & _ & _ & Es & ->)]; [tauto|]. unfold scan_lines in Es. cbn [andb] in Es. destruct (index_byte d0 x0a) as [i|] eqn:Ei; [destruct (slice d0 0 i); discriminate|]. injection Es as <- <-. apply index_byte_none. exact Ei. }
    set (new := repeat [] n ++ match chunk with [] => [] | _ :: _ => [chunk] end) in *.
    assert (Hn : concat new = chunk).
    { unfold new. rewrite concat_app. replace (concat (repeat (@nil byte) n)) with (@nil byte) by (clear; induction n; [reflexivity|assumption]). destruct chunk; cbn; rewrite ?app_nil_r; reflexivity. }
    split; [|split; [exact B|split]].
    + rewrite Lg. intros l1 c l2 Eq raw1 rest1 Wl. apply app_eq_app in Eq. destruct Eq as (m & [(Q1 & Q2)|(Q1 & Q2)]).
      * destruct m as [|y m].
        -- rewrite app_nil_r in Q1. subst l1. cbn [app] in Q2. destruct Wl as (W1 & _ & W3). assert (rest1 = data) as -> by (eapply tail_unique; [rewrite <- W1; exact G|apply whole_ends|apply whole_ends|exact W3|exact Nd]).
           unfold short, max_token_size in *. rewrite app_length in *. assert (length c <= length chunk); [|lia]. rewrite <- Hn, <- Q2. cbn [concat]. rewrite app_length. lia.
        -- cbn [app] in Q2. injection Q2 as <- Q2. exact (H1 l1 c m Q1 raw1 rest1 Wl).
      * subst l1. rewrite concat_app in Wl. assert (Zm : concat m = []).
        { unfold new in Q2. apply app_eq_app in Q2. destruct Q2 as (k & [(K1 & K2)|(K1 & K2)]).
          - assert (A : forall x, In x m -> x = []) by (intros x Hx; assert (Hx2 : In x (m ++ k)) by (apply in_or_app; left; exact Hx); rewrite <- K1 in Hx2; exact (repeat_spec _ _ _ Hx2)). clear -A. induction m as [|x m IH]; [reflexivity|]. cbn. rewrite (A x) by (left; reflexivity). apply IH. intros y Hy. apply A. right. exact Hy.
          - destruct chunk as [|b ch]; [destruct k; discriminate K2|]. destruct k as [|y k]; [|destruct k; discriminate K2]. rewrite app_nil_r in K1. rewrite K1. clear. induction n; [reflexivity|assumption]. }
        rewrite Zm, app_nil_r in Wl. destruct Wl as (W1 & _ & W3). assert (rest1 = data) as -> by (eapply tail_unique; [rewrite <- W1; exact G|apply whole_ends|apply whole_ends|exact W3|exact Nd]).
        unfold short, max_token_size in *. rewrite app_length in *. assert (length c <= length chunk); [|lia]. rewrite <- Hn, Q2, concat_app. cbn [concat]. rewrite !app_length. lia.
    + rewrite Lg, concat_app, Hn, <- app_assoc, <- Rst. exact H3.
    + intros _. exists raw. rewrite Lg, concat_app, Hn, G, <- app_assoc. reflexivity.
  - split; [intros l1 c l2; rewrite L; destruct l1; discriminate|]. split; [unfold short; cbn; lia|]. rewrite L. split; [reflexivity|]. intros _. exists []. reflexivity.
  - rewrite E in E1. injection E1 as <- <- <-. destruct St as [(e & (H & _) & _)|(data & (H & _) & _)]; exact H.
Qed.

(** ** The command *)
Lemma each_log_out split (body : bytes -> cmd (option cmd_err)) (out : bytes -> bytes) (Hb : forall t, body t = ([EOut (out t)], Ok None)) fuel :
  forall s r acc toks err r', scan_all fuel split s r acc = Ok (toks, err, r') -> rd_log r' = rd_log r ++ pieces (fst (scan_each fuel split s r body)).
Proof.
  induction fuel as [|f IH]; intros s r acc toks err r' H; cbn [scan_all scan_each] in *; [discriminate|].
  destruct (scan_step split s r) as [o| |] eqn:E; cbn [rbind] in H; try discriminate. rewrite pieces_bind. cbn [Cmd.lift fst snd]. change (pieces []) with (@nil bytes). cbn [app]. destruct o as [t s'|s' r1|e].
  - specialize (IH _ _ _ _ _ _ H). rewrite pieces_bind, Hb. exact IH.
  - destruct (step_log E) as (x & Ex). specialize (IH _ _ _ _ _ _ H). rewrite pieces_bind. cbn [fst snd].
    rewrite IH, Ex, skipn_app_exact, pieces_reads, app_assoc. reflexivity.
  - injection H as <- <- <-. cbn. rewrite app_nil_r. reflexivity.
Qed.
Lemma reads_pieces tr : reads tr = concat (pieces tr).
Proof. induction tr as [|e tr IH]; [reflexivity|]. unfold reads, pieces in *. cbn [map concat flat_map]. rewrite concat_app, <- IH. destruct e; cbn; rewrite ?app_nil_r; reflexivity. Qed.

Section Tok.
Variables (w : world) (d : dict) (u : option udict).
Hypotheses (Hd : wf_dict d) (Hu : wf_udict u) (Hw : wf_data d).

Theorem tok_ahead args o mode r t1 t2 t3 : tok_args args o -> tok_uses w o d t1 -> user_uses w (to_udict o) u t2 ->
  input_uses w (to_file o) r t3 -> mode_of (to_mode o) mode -> to_split o = false -> rd_log r = [] ->
  exists tr x, tok_run w args = ((t1 ++ t2 ++ t3) ++ tr, x) /\
  forall ta c tb, tr = ta ++ ERead c :: tb -> forall raw rest, whole_lines (reads ta) raw rest -> short (rest ++ c).
Proof.
  intros Ha H1 H2 H3 Hm Hs L. exists (fst (scan_file (tok_split o) r (tok_line w (Tokenizer d u false) mode (to_json o)))), (snd (scan_file (tok_split o) r (tok_line w (Tokenizer d u false) mode (to_json o)))).
  split; [apply (tok_run_ok Ha H1 H2 H3 Hm)|]. unfold tok_split. rewrite Hs.
  destruct (@scan_texts_ok scan_lines lines_contract (fun _ _ _ _ => True) ltac:(auto) ltac:(auto) ltac:(auto) r Logic.I) as (toks & err & r' & E & _).
  pose proof (lines_ahead L E) as A. pose proof (each_log_out (@out_line w d u Hd Hu Hw mode (to_json o)) E) as P. rewrite L in P. cbn [app] in P. rewrite P in A.
  intros ta c tb Et raw rest Wl. rewrite reads_pieces in Wl. apply (A (pieces ta) c (pieces tb)) with (raw := raw); [|exact Wl].
  unfold scan_file in Et. rewrite Et, pieces_app. reflexivity.
Qed.

(** The calls that the command makes, and what they leave in the pools. *)
Theorem tok_short args o mode r t1 t2 t3 : tok_args args o -> tok_uses w o d t1 -> user_uses w (to_udict o) u t2 ->
  input_uses w (to_file o) r t3 -> mode_of (to_mode o) mode ->
  exists tr texts err r' blocks, tok_run w args = (tr, Ok (option_map XScan err)) /\
    scan_texts (if to_split o then scan_sentences default_splitter else scan_lines) r = Ok (texts, err, r') /\ outs tr = concat blocks /\
    Forall2 (fun text b => exists ts, analyze (w_ideo w) (Tokenizer d u false) text mode = Ok ts /\ block (to_json o) ts b) texts blocks /\
    Forall short texts.
Proof.
  intros Ha H1 H2 H3 Hm. destruct (tokenize_prints Hd Hu Hw Ha H1 H2 H3 Hm) as (tr & texts & err & r' & blocks & E1 & E2 & E3 & E4 & _).
  exists ((t1 ++ t2 ++ t3) ++ tr), texts, err, r', blocks. split; [exact E1|]. split; [exact E2|]. split; [|split; [exact E4|exact (texts_short (tok_split_contract o) (@tok_modest o) E2)]].
  rewrite outs_app, E3, (quiet_outs (tr := t1 ++ t2 ++ t3)); [reflexivity|]. apply quiet_app; [eapply tok_uses_quiet; eassumption|]. apply quiet_app; [eapply user_uses_quiet|eapply input_uses_quiet]; eassumption.
Qed.
End Tok.

Theorem tok_nodes d u : wf_dict d -> wf_udict u -> exists a, forall g0 ideo omit mode texts, left_over g0 -> Forall short texts ->
  (forall x, frugal_steps (start g0 ideo [calls (Tokenizer d u omit) mode texts]) x -> pooled_nodes x <= Nat.max (length (g_node_pool g0)) (a * N.to_nat 65537) /\ pooled_lats x <= Nat.max (length (g_lat_pool g0)) 1).
Proof.
  intros Hd Hu. destruct (text_bound Hd Hu) as (a & A). exists a. intros g0 ideo omit mode texts G S x X. split.
  - pose proof (fun O J => A g0 ideo _ (N.to_nat 65536) G O J x X) as B. cbn [length] in B.
    replace (a * N.to_nat 65537) with (1 * (a * (N.to_nat 65536 + 1))) by lia. apply B.
    + intros js [<-|[]] j Hj. unfold calls in Hj. apply in_map_iff in Hj. destruct Hj as (t & <- & _). cbn. auto.
    + intros js [<-|[]] j Hj. unfold calls in Hj. apply in_map_iff in Hj. destruct Hj as (t & <- & Ht). cbn. split; [reflexivity|]. split; [reflexivity|].
      pose proof (proj1 (Forall_forall _ _) S t Ht) as Q. unfold short in Q. pose proof (rcount_le t). lia.
  - refine (proj2 (pool_bound G _ X)). intros js [<-|[]] j Hj. unfold calls in Hj. apply in_map_iff in Hj. destruct Hj as (t & <- & _). cbn. auto.
Qed.

(** The sentences that are printed. *)
Theorem sen_short w args file r t : sen_args args file -> input_uses w file r t ->
  forall ls, lines_of (outs (fst (sen_run w args))) ls -> Forall short ls.
Proof.
  intros Ha Hi ls Hl. destruct (sentence_prints Ha Hi) as (tr & texts & err & r1 & E1 & E2 & E3 & E4). rewrite E1 in Hl. cbn [fst] in Hl.
  rewrite (lines_fun Hl E4). exact (texts_short (@sentences_contract default_splitter) (@sentences_modest default_splitter) E2).
Qed.
