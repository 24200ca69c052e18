(** Facts about double line feeds, the stop list loader and NewFilter. *)
From Verif Require Import SpecSent ScannerFacts SplitterFacts SentenceFacts SpaceFacts FilterFacts Utf8Facts Check.
From Coq Require Import List Arith Lia ZifyBool ZifyNat ZifyN.
Import ListNotations.
Set Implicit Arguments.
Unset Strict Implicit.
Local Open Scope N_scope.

(** ** C37 *)
Section Feeds.
Variable s : splitter.

Lemma abs_body a l : forall kept rc head, Forall (fun g => ~ delim_rune s g /\ fst g <> line_feed) a ->
  (rc + Z.of_nat (length (visible s a)) < sp_max s)%Z ->
  abs_loop s (a ++ l) kept rc head false =
  abs_loop s l (kept ++ segs_text (visible s a)) (rc + Z.of_nat (length (visible s a))) (match visible s a with [] => head | _ => false end) false.
Proof.
  induction a as [|[r b] a IH]; intros kept rc head HF Hm.
  - rewrite visible_nil. unfold segs_text. cbn [map concat length app Z.of_nat]. rewrite app_nil_r, Z.add_0_r. reflexivity.
  - inversion HF as [|? ? [H1 H2] HF']; subst. cbn [fst] in H2.
    assert (Hd : is_delim s r = false).
    { destruct (is_delim s r) eqn:E; [|reflexivity]. apply is_delim_in in E. contradiction. }
    assert (Hlf : (r =? line_feed) = false) by lia.
    change ((r, b) :: a) with ([(r, b)] ++ a) in *. rewrite visible_app in *. cbn [app abs_loop]. rewrite Hd, Hlf, andb_false_r. cbn [andb negb].
    destruct (sp_skip s && is_space r) eqn:E.
    + rewrite (@visible_space s (r, b) E) in *. cbn [app] in *. destruct head; rewrite IH by assumption; destruct (visible s a); reflexivity.
    + rewrite (@visible_keep s (r, b) E) in *. cbn [app length] in *. replace (rc + 1 <? sp_max s)%Z with true by lia. cbn [andb].
      rewrite IH by (assumption || lia). rewrite segs_text_cons, <- app_assoc. cbn [snd]. f_equal; [lia|destruct (visible s a); reflexivity].
Qed.

Theorem c37_double_lemma data eof a g1 g2 rest :
  sp_dlf s = true -> segs data = a ++ g1 :: g2 :: rest -> fst g1 = line_feed -> fst g2 = line_feed ->
  Forall (fun g => ~ delim_rune s g /\ fst g <> line_feed) a -> ~ In line_feed (sp_delim s) ->
  (sp_skip s = true -> visible s a <> []) -> (Z.of_nat (length (visible s a)) + 2 <= sp_max s)%Z ->
  exists data' adv, scan_sentences s data eof = Ok (data', adv, Some (segs_text (visible s (a ++ [g1; g2])))) /\
    segs (skipn adv data') = rest /\ skipn adv data' = segs_text rest.
Proof.
  intros Hdlf Hseg E1 E2 Ha Hlf Hv Hm.
  assert (Hne : data <> []) by (intros ->; rewrite segs_nil in Hseg; destruct a; discriminate).
  pose proof (@scan_sentences_ok s data eof Hne) as H.
  assert (HA : abs_loop s (segs data) [] 0 true false = ATok (segs_text (visible s (a ++ [g1; g2]))) rest).
  { rewrite Hseg, abs_body by (assumption || lia). cbn [app Z.add]. rewrite visible_app.
    destruct g1 as [r1 b1], g2 as [r2 b2]. cbn [fst] in *. subst r1 r2.
    assert (Hd : is_delim s line_feed = false).
    { destruct (is_delim s line_feed) eqn:E; [|reflexivity]. apply is_delim_in in E. contradiction. }
    cbn [abs_loop]. rewrite Hd, Hdlf. change (is_space line_feed) with true. change (line_feed =? line_feed) with true. cbn [andb negb].
    destruct (sp_skip s) eqn:Es; cbn [andb].
    - destruct (visible s a) as [|v0 v] eqn:Ev; [exfalso; apply Hv; reflexivity|].
      assert (Hz : visible s [(line_feed, b1); (line_feed, b2)] = []) by (unfold visible; rewrite Es; reflexivity).
      rewrite Hz, app_nil_r. reflexivity.
    - 
      match goal with |- context [(?x <? sp_max s)%Z] => replace (x <? sp_max s)%Z with true by lia end. rewrite (@visible_all s [_; _] Es).
      rewrite segs_text_app. unfold segs_text at 3. cbn [map concat snd]. rewrite <- app_assoc, app_nil_r. reflexivity. }
  rewrite HA in H. destruct H as (data' & adv & H1 & H2 & H3 & _). exists data', adv. split; [assumption|]. rewrite H2. auto.
Qed.

Theorem c37_call_lemma data eof data' adv t : scan_sentences s data eof = Ok (data', adv, Some t) ->
  eof = false \/ skipn adv data' <> [] ->
  exists c, segs data = c ++ segs (skipn adv data') /\ t = segs_text (visible s c) /\ c <> [] /\ ended s c (segs (skipn adv data')).
Proof.
  intros H Hn. destruct data as [|b0 d0] eqn:Ed; [destruct eof; discriminate|]. rewrite <- Ed in *.
  assert (Hne : data <> []) by congruence.
  destruct (@split_call s data eof Hne) as [(c & rest & d' & a & E & F1 & F2 & F3 & _ & _ & _ & _ & F4 & _)|[(He & d' & E & Hl & _)|(He & _ & _ & d' & a & k & E & _)]];
    rewrite E in H; try discriminate; injection H as <- <- <-.
  - exists c. rewrite F2. auto.
  - rewrite <- Hl, skipn_all in Hn. destruct Hn; congruence.
Qed.

Theorem c37_feeds_lemma data eof data' adv t : scan_sentences s data eof = Ok (data', adv, Some t) ->
  eof = false \/ skipn adv data' <> [] ->
  exists c, segs data = c ++ segs (skipn adv data') /\ t = segs_text (visible s c) /\
    (Forall (fun g => ~ delim_rune s g) c -> (Z.of_nat (length (visible s c)) < sp_max s)%Z -> sp_dlf s = true /\ two_line_feeds c).
Proof.
  intros H Hn. destruct (c37_call_lemma H Hn) as (c & H1 & H2 & H3 & H4). exists c. split; [assumption|]. split; [assumption|].
  intros Hd Hm. rewrite Forall_forall in Hd. destruct H4 as [[(body & tail & Hv & Hb & Hc & _) _]|[[_ (l & g & -> & _ & Hg)]|H4]]; [| |assumption].
  - exfalso. destruct Hc as [(l & g & -> & Hg)|Hc].
    + apply (Hd g); [|assumption]. apply (@visible_sub s). rewrite Hv, !in_app_iff. left. right. left. reflexivity.
    + rewrite Hv, app_length in Hm. lia.
  - exfalso. apply (Hd g); [|assumption]. apply in_or_app. right. left. reflexivity.
Qed.
End Feeds.

(** ** Lines *)
Lemma index_byte_none l c : index_byte l c = None -> ~ In c l.
Proof.
  induction l as [|b l IH]; cbn; [tauto|]. destruct (Byte.eqb b c) eqn:E; [discriminate|].
  destruct (index_byte l c); [discriminate|]. intros _ [->|H]; [|apply IH; auto].
  assert (Byte.eqb c c = true) by (apply byte_test_ok; reflexivity). congruence.
Qed.
Lemma index_byte_some l c i : index_byte l c = Some i -> l = firstn i l ++ c :: skipn (S i) l /\ ~ In c (firstn i l) /\ length (firstn i l) = i.
Proof.
  revert i. induction l as [|b l IH]; intros i; cbn [index_byte]; [discriminate|]. destruct (Byte.eqb b c) eqn:E.
  - intros [= <-]. apply byte_test_ok in E. subst b. cbn. auto.
  - destruct (index_byte l c) as [j|]; [|discriminate]. cbn [option_map]. intros [= <-]. destruct (IH j eq_refl) as (H1 & H2 & H3).
    cbn [firstn skipn app In length]. split; [f_equal; exact H1|]. split; [|lia]. intros [->|H]; [|contradiction].
    assert (Byte.eqb c c = true) by (apply byte_test_ok; reflexivity). congruence.
Qed.
Lemma lines_total b : exists ls, lines_of b ls.
Proof.
  assert (H : forall n b, (length b <= n)%nat -> exists ls, lines_of b ls); [|apply (H (length b)); lia].
  clear b. induction n as [|n IH]; intros b Hn; [destruct b; [exists []; constructor|cbn in Hn; lia]|].
  destruct (index_byte b x0a) as [i|] eqn:E.
  - destruct (index_byte_some E) as (H1 & H2 & _). destruct (IH (skipn (S i) b)) as (ls & Hls).
    { apply (f_equal (@length byte)) in H1. rewrite app_length in H1. cbn [length] in H1. lia. }
    exists (firstn i b :: ls). rewrite H1 at 1. constructor; assumption.
  - apply index_byte_none in E. destruct b as [|b0 b]; [exists []; constructor|]. exists [b0 :: b]. constructor; [discriminate|assumption].
Qed.
Lemma lf_split (a a2 : bytes) b b2 : ~ In x0a a -> ~ In x0a a2 -> a ++ x0a :: b = a2 ++ x0a :: b2 -> a = a2 /\ b = b2.
Proof.
  revert a2. induction a as [|x a IH]; intros [|y a2] H1 H2; cbn.
  - intros [= <-]. auto.
  - intros [= <- _]. exfalso. apply H2. left. reflexivity.
  - intros [= -> _]. exfalso. apply H1. left. reflexivity.
  - intros [= <- E]. destruct (IH a2) as [-> ->]; auto; intros Hin; [apply H1|apply H2]; right; assumption.
Qed.
Lemma lines_fun b ls : lines_of b ls -> forall ls', lines_of b ls' -> ls = ls'.
Proof.
  induction 1 as [|l Hne Hl|l rest ls Hl H IH]; intros ls' H'.
  - inversion H'; subst; try congruence. destruct l; discriminate.
  - inversion H'; subst; try congruence. exfalso. apply Hl. apply in_or_app. right. left. reflexivity.
  - inversion H' as [E|l' Hne' Hl' E|l' rest' ls2 Hl' H2 E]; subst.
    + destruct l; discriminate.
    + exfalso. apply Hl'. apply in_or_app. right. left. reflexivity.
    + apply lf_split in E; [|assumption|assumption]. destruct E as [-> ->]. f_equal. apply IH. assumption.
Qed.
Lemma drop_cr_ok l : without_cr l (drop_cr l).
Proof.
  unfold drop_cr. destruct (rev l) as [|b r] eqn:E.
  - right. split; [reflexivity|]. intros (l'' & ->). rewrite rev_app_distr in E. discriminate.
  - assert (Hl : l = rev r ++ [b]) by (rewrite <- (rev_involutive l), E; reflexivity).
    destruct (Byte.eqb b x0d) eqn:Eb.
    + apply byte_test_ok in Eb. subst b. left. assumption.
    + right. split; [reflexivity|]. intros (l'' & El). rewrite El in Hl. apply app_inj_tail in Hl. destruct Hl as [_ <-]. discriminate.
Qed.
Lemma without_cr_fun l a b : without_cr l a -> without_cr l b -> a = b.
Proof.
  intros [->|[-> H]] [E|[-> H']]; [apply app_inj_tail in E; tauto| | |reflexivity]; exfalso.
  - apply H'. eauto.
  - apply H. eauto.
Qed.
(** The bytes before the first line feed belong to one line. *)
Lemma lines_first (data rest : bytes) ls : ~ In x0a data -> data <> [] -> lines_of (data ++ rest) ls -> exists l, In l ls /\ (length data <= length l)%nat.
Proof.
  intros Hd Hne H. inversion H as [E|l Hl Hn E|l rest' ls' Hn H' E]; subst.
  - symmetry in E. apply app_eq_nil in E. tauto.
  - exists (data ++ rest). split; [left; reflexivity|]. rewrite app_length. lia.
  - exists l. split; [left; reflexivity|]. destruct (le_lt_dec (length data) (length l)) as [|Hlt]; [assumption|exfalso].
    apply Hd. assert (Hx : nth_error (data ++ rest) (length l) = Some x0a).
    { rewrite <- E, nth_error_app2, Nat.sub_diag by lia. reflexivity. }
    rewrite nth_error_app1 in Hx by lia. eapply nth_error_In. eassumption.
Qed.

Definition lines_inv (input : bytes) (acc : list bytes) (data : bytes) (r : reader) (e : option scan_err) : Prop :=
  e = Some ErrNoProgress \/ ((e <> None -> rd_rest r = []) /\
  exists raw, Forall2 without_cr raw acc /\ forall ls, lines_of (data ++ rd_rest r) ls -> lines_of input (raw ++ ls)).

Theorem lines_lemma r : lively r -> rd_end r <> ErrNoProgress ->
  exists lines err r', scan_texts scan_lines r = Ok (lines, err, r') /\
  ((err = scanner_err (Some (rd_end r)) /\ exists raw, lines_of (rd_rest r) raw /\ Forall2 without_cr raw lines) \/
   (err = Some ErrTooLong /\ exists raw l, lines_of (rd_rest r) raw /\ In l raw /\ 65536 <= N.of_nat (length l))).
Proof.
  intros Hl He. set (input := rd_rest r).
  assert (Hw : forall acc data r1, waiting scan_lines (lines_inv input) acc data r1 -> ~ In x0a data).
  { intros acc data r1 [->|(d0 & d' & adv & Hne & _ & E & ->)]; [tauto|]. unfold scan_lines in E. cbn [andb] in E.
    destruct (index_byte d0 x0a) as [i|] eqn:Ei; [destruct (slice d0 0 i); discriminate|]. injection E as <- <-. apply index_byte_none. assumption. }
  destruct (@scan_texts_ok scan_lines lines_contract (lines_inv input)) with (r := r) as (toks & err & r' & E & Hst).
  - intros acc data r1 e d' adv t [->|(H1 & raw & H2 & H3)] E; [left; reflexivity|right; split; [assumption|]].
    unfold scan_lines in E. destruct (_ && (length data =? 0)%nat) eqn:E0; [discriminate|].
    destruct (index_byte data x0a) as [i|] eqn:Ei.
    + pose proof (index_byte_lt Ei) as Hi. destruct (index_byte_some Ei) as (G1 & G2 & _).
      unfold slice in E. replace ((0 <=? i) && (i <=? length data))%nat with true in E by lia. cbn [rbind] in E. injection E as <- <- <-.
      change (skipn 0 data) with data. rewrite Nat.sub_0_r. exists (raw ++ [firstn i data]). split; [apply Forall2_app; [assumption|constructor; [apply drop_cr_ok|constructor]]|].
      intros ls Hls. rewrite <- app_assoc. cbn [app]. apply H3. replace (data ++ rd_rest r1) with (firstn i data ++ x0a :: (skipn (S i) data ++ rd_rest r1))
        by (rewrite G1 at 3; rewrite <- app_assoc; reflexivity).
      constructor; [assumption|]. exact Hls.
    + apply index_byte_none in Ei. destruct e as [e|]; [|discriminate]. injection E as <- <- <-.
      exists (raw ++ [data]). split; [apply Forall2_app; [assumption|constructor; [apply drop_cr_ok|constructor]]|].
      intros ls. rewrite skipn_all, (H1 ltac:(discriminate)). cbn [app]. intros Hls. rewrite (lines_fun Hls lines_nil), app_nil_r.
      apply H3. rewrite (H1 ltac:(discriminate)), app_nil_r. constructor; [|assumption]. intros ->. discriminate.
  - intros acc data r1 d' adv Hne HI E. unfold scan_lines in E. cbn [andb] in E.
    destruct (index_byte data x0a) as [i|] eqn:Ei; [destruct (slice data 0 i); discriminate|]. injection E as <- <-. exact HI.
  - intros acc data r1 tries cap chunk err r2 [Hx|(H1 & raw & H2 & H3)] _ Hr _; [discriminate|].
    destruct (read_loop_ok Hr) as (F1 & _ & _ & _ & _ & _ & F7).
    destruct err as [e|]; [destruct (F7 _ eq_refl) as [[-> _]|[-> Hx]]; [left; reflexivity|]|]; right;
      (split; [congruence|]; exists raw; split; [assumption|]; intros ls Hls; apply H3; rewrite F1, app_assoc; exact Hls).
  - right. split; [congruence|]. exists []. split; [constructor|]. intros ls Hls. exact Hls.
  - exists toks, err, r'. split; [assumption|]. destruct Hst as [(e & HI & -> & [[_ Hx]|[-> Hx]])|(data & HI & Hwt & -> & Hlen)].
    + contradiction.
    + left. split; [reflexivity|]. destruct HI as [HI|(_ & raw & H2 & H3)]; [congruence|]. exists raw. split; [|assumption].
      specialize (H3 []). rewrite Hx in H3. cbn [app] in H3. rewrite app_nil_r in H3. apply H3. constructor.
    + right. split; [reflexivity|]. destruct HI as [HI|(_ & raw & H2 & H3)]; [discriminate|].
      destruct (lines_total (data ++ rd_rest r')) as (ls & Hls). unfold max_token_size in Hlen.
      destruct (@lines_first data (rd_rest r') ls) as (l & Hin & Hle); [apply (Hw _ _ _ Hwt)|intros ->; cbn in Hlen; lia|assumption|].
      exists (raw ++ ls), l. split; [apply H3; assumption|]. split; [apply in_or_app; right; assumption|lia].
Qed.

(** ** The loader *)
Lemma config_line_ok l : exists o, config_line l = Ok o /\ entry_of l (match o with Some e => [e] | None => [] end).
Proof.
  unfold config_line, string_index. destruct (index_byte l x23) as [[|i]|] eqn:E.
  - destruct (index_byte_some E) as (H1 & _). exists None. split; [reflexivity|]. constructor. right. eexists. exact H1.
  - pose proof (index_byte_lt E) as Hi. destruct (index_byte_some E) as (H1 & H2 & H3).
    unfold slice. replace ((0 <=? S i) && (S i <=? length l))%nat with true by lia. cbn [rbind skipn]. rewrite Nat.sub_0_r, H3.
    exists (Some (firstn (S i) l)). split; [reflexivity|]. rewrite H1 at 1. constructor; [|assumption]. intros Hx. rewrite Hx in H3. discriminate.
  - apply index_byte_none in E. destruct (length l =? 0)%nat eqn:E0.
    + exists None. split; [reflexivity|]. constructor. left. destruct l; [reflexivity|discriminate].
    + exists (Some l). split; [reflexivity|]. apply entry_plain; [|assumption]. intros ->. discriminate.
Qed.
Lemma hash_split (a a2 : bytes) b b2 : ~ In x23 a -> ~ In x23 a2 -> a ++ x23 :: b = a2 ++ x23 :: b2 -> a = a2.
Proof.
  revert a2. induction a as [|x a IH]; intros [|y a2] H1 H2; cbn.
  - reflexivity.
  - intros [= <- _]. exfalso. apply H2. left. reflexivity.
  - intros [= -> _]. exfalso. apply H1. left. reflexivity.
  - intros [= <- E]. f_equal. apply IH; auto; intros Hin; [apply H1|apply H2]; right; assumption.
Qed.
Lemma entry_fun l a b : entry_of l a -> entry_of l b -> a = b.
Proof.
  assert (Hh : forall (x c : bytes), In x23 (x ++ x23 :: c)) by (intros; apply in_or_app; right; left; reflexivity).
  intros Ha Hb. destruct Ha as [l Hl|l Hn Hl|l c Hn Hl].
  - inversion Hb as [? _|? Hn' Hl'|l' c' Hn' Hl' E]; subst; [reflexivity| |].
    + exfalso. destruct Hl as [->|(c & ->)]; [congruence|]. apply Hl'. left. reflexivity.
    + exfalso. destruct Hl as [Hl|(c & Hl)]; destruct l' as [|b0 l']; try congruence; try discriminate. cbn in Hl. injection Hl as -> _. apply Hl'. left. reflexivity.
  - inversion Hb as [? Hl'|? Hn' Hl'|l' c' Hn' Hl' E]; subst; [|reflexivity|].
    + exfalso. destruct Hl' as [->|(c & ->)]; [congruence|]. apply Hl. left. reflexivity.
    + exfalso. apply Hl, Hh.
  - inversion Hb as [? Hl' E|? Hn' Hl' E|l' c' Hn' Hl' E]; subst.
    + exfalso. destruct Hl' as [E|(c' & E)]; destruct l as [|b0 l]; try congruence; try discriminate. cbn in E. injection E as -> _. apply Hl. left. reflexivity.
    + exfalso. apply Hl', Hh.
    + apply hash_split in E; [|assumption|assumption]. congruence.
Qed.
Lemma Forall2_fun {A B} (R : A -> B -> Prop) : (forall a b c, R a b -> R a c -> b = c) -> forall l x y, Forall2 R l x -> Forall2 R l y -> x = y.
Proof.
  intros HR l x y H. revert y. induction H as [|a b l x Hab H IH]; intros y Hy; inversion Hy; subst; [reflexivity|].
  f_equal; [eapply HR; eassumption|apply IH; assumption].
Qed.
Theorem c32_unique_lemma b e1 e2 : config_of b e1 -> config_of b e2 -> e1 = e2.
Proof.
  intros (raw & ls & es & H1 & H2 & H3 & ->) (raw' & ls' & es' & H1' & H2' & H3' & ->).
  rewrite (lines_fun H1' H1) in H2'. rewrite (Forall2_fun without_cr_fun H2' H2) in H3'. rewrite (Forall2_fun entry_fun H3' H3). reflexivity.
Qed.

Theorem c32_load_lemma b : exists entries err, load_config b = Ok (entries, err) /\
  ((err = None /\ config_of b entries) \/
   (err = Some ErrTooLong /\ exists raw l, lines_of b raw /\ In l raw /\ 65536 <= N.of_nat (length l))).
Proof.
  destruct (@lines_lemma (Reader b [] EOF [])) as (lines & err & r' & E & Hr); [constructor|discriminate|]. cbn [rd_rest rd_end scanner_err] in Hr.
  assert (Hf : forall lines acc, exists es, foldM (fun ret line => let* l := config_line line in
                                     Ok (match l with Some l => ret ++ [l] | None => ret end)) lines acc = Ok (acc ++ concat es) /\ Forall2 entry_of lines es).
  { clear. induction lines as [|l lines IH]; intros acc; cbn [foldM].
    - exists []. cbn. rewrite app_nil_r. split; [reflexivity|constructor].
    - destruct (config_line_ok l) as (o & -> & Ho). cbn [rbind].
      destruct (IH (match o with Some e => acc ++ [e] | None => acc end)) as (es & -> & Hes). eexists. split; [|constructor; eassumption].
      destruct o; cbn [concat app]; [rewrite <- app_assoc|]; reflexivity. }
  destruct (Hf lines []) as (es & Ef & Hes). exists (concat es), err. unfold load_config. rewrite E. cbn [rbind]. rewrite Ef. cbn [rbind app].
  split; [reflexivity|]. destruct Hr as [(-> & raw & H1 & H2)|Hr]; [left|right; assumption].
  split; [reflexivity|]. exists raw, lines, es. auto.
Qed.

(** ** NewFilter *)
Lemma stop_tag_ok v : tag_pattern v (stop_tag_pos v).
Proof.
  unfold tag_pattern, stop_tag_pos, string_split. destruct (split_byte_spec x2d v []) as (x & l & -> & H1 & H2 & H3). cbn [rev app].
  exists x, l. split; [congruence|]. split; [constructor; assumption|]. eexists. split; [reflexivity|]. unfold pos_hierarchy. cbn [length]. split.
  - intros Hl. rewrite ?app_comm_cons, app_length, repeat_length. cbn [length]. unfold bytes in *. lia.
  - unfold bytes in *. lia.
Qed.

Lemma latest_snoc {A} (pick : ja_option -> option A) opts o d v : latest pick opts d v ->
  latest pick (opts ++ [o]) d (match pick o with Some w => w | None => v end).
Proof.
  intros H. destruct (pick o) as [w|] eqn:E.
  - left. exists opts, o, []. auto.
  - destruct H as [(a & p & b & -> & H1 & H2)|[H1 ->]]; [left|right].
    + exists a, p, (b ++ [o]). rewrite <- app_assoc. split; [reflexivity|]. split; [assumption|]. apply Forall_app. auto.
    + split; [|reflexivity]. apply Forall_app. auto.
Qed.
Lemma options_ok tags0 words0 base0 opts : exists tags words base,
  fold_left ja_apply_option opts (ja_of tags0 words0 base0) = ja_of tags words base /\
  latest opt_tags opts tags0 tags /\ latest opt_words opts words0 words /\ latest opt_base opts base0 base.
Proof.
  induction opts as [|o opts IH] using rev_ind.
  - exists tags0, words0, base0. split; [reflexivity|]. repeat split; right; auto.
  - destruct IH as (tags & words & base & E & H1 & H2 & H3). rewrite fold_left_app, E. cbn [fold_left].
    pose proof (latest_snoc o H1) as G1. pose proof (latest_snoc o H2) as G2. pose proof (latest_snoc o H3) as G3.
    destruct o as [p|p|p]; cbn [opt_tags opt_words opt_base] in *; do 3 eexists; (split; [|split; [exact G1|split; [exact G2|exact G3]]]); reflexivity.
Qed.

Theorem c32_filter_lemma ta wa opts tag_lines word_lines : config_of ta tag_lines -> config_of wa word_lines ->
  (forall raw l, lines_of ta raw \/ lines_of wa raw -> In l raw -> N.of_nat (length l) < 65536) ->
  exists pats tags words base, Forall2 tag_pattern tag_lines pats /\ new_ja_filter ta wa opts = Ok (inl (ja_of tags words base)) /\
    latest opt_tags opts pats tags /\ latest opt_words opts word_lines words /\
    latest opt_base opts [[s2b "動詞"]; [s2b "形容詞"]; [s2b "形容動詞"]] base.
Proof.
  intros Ht Hw Hs.
  destruct (c32_load_lemma ta) as (e1 & err1 & E1 & [[-> C1]|(_ & raw & l & H1 & H2 & H3)]); [|specialize (Hs raw l (or_introl H1) H2); lia].
  destruct (c32_load_lemma wa) as (e2 & err2 & E2 & [[-> C2]|(_ & raw & l & H1 & H2 & H3)]); [|specialize (Hs raw l (or_intror H1) H2); lia].
  rewrite (c32_unique_lemma C1 Ht) in *. rewrite (c32_unique_lemma C2 Hw) in *.
  destruct (options_ok (map stop_tag_pos tag_lines) word_lines default_base_form opts) as (tags & words & base & E & G1 & G2 & G3).
  exists (map stop_tag_pos tag_lines), tags, words, base. split.
  { clear. induction tag_lines; constructor; [apply stop_tag_ok|assumption]. }
  split; [|auto]. unfold new_ja_filter. rewrite E1. cbn [rbind snd fst]. rewrite E2. cbn [rbind snd fst]. do 2 f_equal. exact E.
Qed.
Theorem c32_error_lemma ta wa opts : exists x, new_ja_filter ta wa opts = Ok x /\
  forall e, x = inr e -> e = ErrTooLong /\ exists b raw l, (b = ta \/ b = wa) /\ lines_of b raw /\ In l raw /\ 65536 <= N.of_nat (length l).
Proof.
  unfold new_ja_filter.
  destruct (c32_load_lemma ta) as (e1 & err1 & -> & H1). cbn [rbind snd fst].
  destruct H1 as [[-> C1]|(-> & raw & l & H1)]; [|eexists; split; [reflexivity|]; intros e [= <-]; split; [reflexivity|]; exists ta, raw, l; tauto].
  destruct (c32_load_lemma wa) as (e2 & err2 & -> & H2). cbn [rbind snd fst].
  destruct H2 as [[-> C2]|(-> & raw & l & H2)]; [|eexists; split; [reflexivity|]; intros e [= <-]; split; [reflexivity|]; exists wa, raw, l; tauto].
  eexists. split; [reflexivity|]. discriminate.
Qed.
