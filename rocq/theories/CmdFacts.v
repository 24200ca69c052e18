(** Runs of the commands. *)
From Verif Require Import SpecCmd Utf8Facts FlagFacts OptFacts ScannerFacts SplitterFacts SentenceFacts LoaderFacts JsonFacts.
From Coq Require Import List Arith Lia ZifyBool ZifyNat ZifyN.
Import ListNotations.
Set Implicit Arguments.
Unset Strict Implicit.

(** ** Traces *)
Lemma outs_app a b : outs (a ++ b) = outs a ++ outs b.
Proof. unfold outs. rewrite map_app, concat_app. reflexivity. Qed.
Lemma reads_app a b : reads (a ++ b) = reads a ++ reads b.
Proof. unfold reads. rewrite map_app, concat_app. reflexivity. Qed.
Lemma outs_reads l : outs (map ERead l) = [].
Proof. unfold outs. rewrite map_map. induction l; [reflexivity|assumption]. Qed.
Lemma reads_reads l : reads (map ERead l) = concat l.
Proof. unfold reads. rewrite map_map, map_id. reflexivity. Qed.

Definition io_only (tr : list event) : Prop := Forall (fun e => match e with ERead _ | EOut _ => True | _ => False end) tr.
Lemma io_reads l : io_only (map ERead l).
Proof. induction l; constructor; auto. Qed.
Lemma skipn_app_exact A (a b : list A) : skipn (length a) (a ++ b) = b.
Proof. rewrite skipn_app, skipn_all, Nat.sub_diag. reflexivity. Qed.

Lemma cbind_ok A B t (a : A) (f : A -> cmd B) : cbind (t, Ok a) f = (t ++ fst (f a), snd (f a)).
Proof. unfold cbind. destruct (f a). reflexivity. Qed.
Lemma cbind_lift A B (a : A) (f : A -> cmd B) : cbind (lift (Ok a)) f = f a.
Proof. unfold cbind, lift. destruct (f a). reflexivity. Qed.
Lemma cbind_ret A B (a : A) (f : A -> cmd B) : cbind (cret a) f = f a.
Proof. unfold cbind, cret. destruct (f a). reflexivity. Qed.
Lemma cbind_emit B e (f : unit -> cmd B) : cbind (emit e) f = (e :: fst (f tt), snd (f tt)).
Proof. unfold cbind, emit. destruct (f tt). reflexivity. Qed.

(** ** The loop over the texts of a scanner *)
Section Each.
Variable split : split_func.
Hypothesis Hsplit : split_contract split.
Variable I : list bytes -> bytes -> reader -> option scan_err -> Prop.
Hypothesis I_token : forall acc data r e data' adv t, I acc data r e ->
  split data (match e with Some _ => true | None => false end) = Ok (data', adv, Some t) ->
  I (acc ++ [t]) (skipn adv data') r e.
Hypothesis I_skip : forall acc data r data' adv, data <> [] -> I acc data r None ->
  split data false = Ok (data', adv, None) -> I acc (skipn adv data') r None.
Hypothesis I_read : forall acc data r tries cap chunk err r', I acc data r None -> waiting split I acc data r ->
  read_loop tries r cap = (chunk, err, r') -> (N.of_nat (length (data ++ chunk)) <= max_token_size)%N ->
  I acc (data ++ chunk) r' err.

(** Reading happens only when the split function waits. *)
Lemma step_more acc s r s' r' : I acc (sc_data s) r (sc_err s) -> scan_step split s r = Ok (ScanMore s' r') ->
  exists data tries cap chunk err, I acc data r None /\ waiting split I acc data r /\ read_loop tries r cap = (chunk, err, r').
Proof.
  intros HI.
  assert (Hfill : forall s1 o, sc_err s1 = sc_err s -> scan_fill s1 r = o -> o = ScanMore s' r' -> sc_err s = None /\ exists tries cap chunk err, read_loop tries r cap = (chunk, err, r')).
  { intros s1 o He <-. unfold scan_fill. rewrite He. destruct (sc_err s) as [e|]; [discriminate|]. destruct (make_room s1) as [s2|]; [|discriminate].
    destruct (read_loop (S max_empty_reads) r _) as [[chunk err] r2] eqn:Er. intros [= _ ->]. split; [reflexivity|]. eauto. }
  unfold scan_step. intros H. destruct (sc_data s) as [|b l] eqn:Ed.
  - destruct (sc_err s) as [e|] eqn:Ee.
    + destruct (split [] true) as [[[data adv] tok]| |]; cbn [rbind] in H; try discriminate.
      destruct (length data <? adv)%nat; [discriminate|]. destruct tok as [t|].
      * destruct adv; [destruct (_ <? _)%nat|]; discriminate.
      * injection H as H. match type of H with scan_fill ?s1 _ = _ => destruct (Hfill s1 _ eq_refl H eq_refl) as [Hx _] end. discriminate Hx.
    + injection H as H. destruct (Hfill s _ Ee H eq_refl) as (_ & tries & cap & chunk & err & Hr).
      exists [], tries, cap, chunk, err. split; [assumption|]. split; [left; reflexivity|assumption].
  - destruct (split (b :: l) _) as [[[data adv] tok]| |] eqn:Es; cbn [rbind] in H; try discriminate.
    destruct (length data <? adv)%nat; [discriminate|]. destruct tok as [t|].
    + destruct (sc_err s); [destruct adv; [destruct (_ <? _)%nat|]|]; discriminate.
    + injection H as H. match type of H with scan_fill ?s1 _ = _ => destruct (Hfill s1 _ eq_refl H eq_refl) as (He & tries & cap & chunk & err & Hr) end.
      rewrite He in *. exists (skipn adv data), tries, cap, chunk, err.
      split; [eapply I_skip; [|eassumption|eassumption]; discriminate|].
      split; [|assumption]. right. exists (b :: l), data, adv. repeat split; [discriminate|assumption|assumption].
Qed.

Variable out : bytes -> bytes.
Variable body : bytes -> cmd (option cmd_err).
Hypothesis Hbody : forall t, body t = ([EOut (out t)], Ok None).

Lemma scan_each_ok fuel : forall s r r0 acc, (measure s r < fuel)%nat -> I acc (sc_data s) r (sc_err s) -> err_ok s r0 r ->
  exists tr texts err r', scan_each fuel split s r body = (tr, Ok (option_map XScan err)) /\
    scan_all fuel split s r acc = Ok (acc ++ texts, err, r') /\ outs tr = concat (map out texts) /\
    rd_rest r = reads tr ++ rd_rest r' /\ io_only tr /\
    forall t1 c t2, tr = t1 ++ ERead c :: t2 -> exists texts1 data r1,
      I (acc ++ texts1) data r1 None /\ waiting split I (acc ++ texts1) data r1 /\
      outs t1 = concat (map out texts1) /\ rd_rest r = reads t1 ++ rd_rest r1.
Proof.
  induction fuel as [|f IH]; intros s r r0 acc Hm HI He; [lia|]. cbn [scan_each scan_all].
  destruct (step_ok Hsplit I_token I_skip I_read HI He) as (o & Eo & H). rewrite Eo. rewrite cbind_lift. cbn [rbind]. destruct o as [t s'|s' r'|e].
  - destruct H as (H1 & H2 & H3). destruct (IH s' r r0 (acc ++ [t]) ltac:(lia) H1 H2) as (tr & texts & err & r' & E1 & E2 & E3 & E4 & E5 & E6).
    exists (EOut (out t) :: tr), (t :: texts), err, r'. rewrite Hbody, cbind_ok. cbn [app]. rewrite E1. cbn [fst snd].
    split; [reflexivity|]. split; [rewrite E2, <- app_assoc; reflexivity|].
    split; [change (outs (EOut (out t) :: tr)) with (out t ++ outs tr); rewrite E3; reflexivity|].
    split; [exact E4|]. split; [constructor; [exact Logic.I|assumption]|].
    intros t1 c t2 Et. destruct t1 as [|e1 t1]; [discriminate|]. cbn [app] in Et. injection Et as <- Et.
    destruct (E6 _ _ _ Et) as (texts1 & data & r1 & G1 & G2 & G3 & G4). exists (t :: texts1), data, r1.
    rewrite <- app_assoc in G1, G2. cbn [app] in G1, G2. split; [assumption|]. split; [assumption|].
    split; [change (outs (EOut (out t) :: t1)) with (out t ++ outs t1); rewrite G3; reflexivity|exact G4].
  - destruct H as (H1 & H2 & H3). destruct (step_more HI Eo) as (data & tries & cap & chunk & err0 & Hd & Hw & Hr).
    destruct (IH s' r' r0 acc ltac:(lia) H1 H2) as (tr & texts & err & r'' & E1 & E2 & E3 & E4 & E5 & E6).
    destruct (read_loop_ok Hr) as (F1 & _). destruct (read_loop_log Hr) as (n & Fl).
    set (log := skipn (length (rd_log r)) (rd_log r')).
    assert (Hlog : log = repeat [] n ++ match chunk with [] => [] | _ :: _ => [chunk] end) by (unfold log; rewrite Fl; apply skipn_app_exact).
    assert (Hrep : forall m, concat (repeat (@nil byte) m) = []) by (induction m; [reflexivity|assumption]).
    assert (Hc : concat log = chunk) by (rewrite Hlog, concat_app, Hrep; destruct chunk; cbn; rewrite ?app_nil_r; reflexivity).
    exists (map ERead log ++ tr), texts, err, r''. rewrite cbind_ok, E1. cbn [fst snd].
    split; [reflexivity|]. split; [assumption|]. split; [rewrite outs_app, outs_reads; assumption|].
    split; [rewrite reads_app, reads_reads, Hc, <- app_assoc, <- E4; assumption|].
    split; [apply Forall_app; split; [apply io_reads|assumption]|].
    intros t1 c t2 Et. symmetry in Et. apply app_eq_app in Et. destruct Et as (t3 & [[Ea Eb]|[Ea Eb]]).
    + (* the read belongs to a later step *)
      subst t1. destruct (E6 t3 c t2 Eb) as (texts1 & data1 & r1 & G1 & G2 & G3 & G4). exists texts1, data1, r1.
      split; [assumption|]. split; [assumption|]. split; [rewrite outs_app, outs_reads; assumption|].
      rewrite reads_app, reads_reads, Hc, <- app_assoc, <- G4. assumption.
    + (* or to this one *)
      destruct t3 as [|e3 t3].
      * cbn [app] in Eb. rewrite app_nil_r in Ea. destruct (E6 [] c t2 (eq_sym Eb)) as (texts1 & data1 & r1 & G1 & G2 & G3 & G4). exists texts1, data1, r1.
        split; [assumption|]. split; [assumption|]. rewrite <- Ea. split; [rewrite outs_reads; assumption|].
        rewrite reads_reads, Hc. cbn in G4. rewrite <- G4. assumption.
      * exists [], data, r. rewrite app_nil_r. split; [assumption|]. split; [assumption|].
        assert (Ht1 : exists log1 log2, log = log1 ++ log2 /\ t1 = map ERead log1 /\ log2 <> []).
        { symmetry in Ea. exists (firstn (length t1) log), (skipn (length t1) log).
          split; [symmetry; apply firstn_skipn|].
          assert (Hm1 : firstn (length t1) (map ERead log) = t1) by (rewrite <- Ea, firstn_app, Nat.sub_diag, firstn_all; cbn; apply app_nil_r).
          assert (Hm2 : skipn (length t1) (map ERead log) = e3 :: t3) by (rewrite <- Ea, skipn_app, Nat.sub_diag, skipn_all; reflexivity).
          rewrite firstn_map in Hm1. rewrite skipn_map in Hm2. split; [congruence|]. intros Hx. rewrite Hx in Hm2. discriminate. }
        destruct Ht1 as (log1 & log2 & El & -> & Hne). rewrite outs_reads, reads_reads.
        assert (Hz : concat log1 = []).
        { rewrite Hlog in El. destruct (@exists_last _ log2 Hne) as (log3 & x & Ex).
          assert (Forall (fun y => y = []) log1) as Hall; [|clear - Hall; induction Hall as [|y l -> _ IHl]; [reflexivity|exact IHl]].
          rewrite Ex, app_assoc in El. destruct chunk as [|b chunk].
          - rewrite app_nil_r in El. apply Forall_forall. intros y Hy. apply (repeat_spec n). rewrite El. apply in_or_app. left. apply in_or_app. left. assumption.
          - apply app_inj_tail in El. destruct El as [El _]. apply Forall_forall. intros y Hy. apply (repeat_spec n). rewrite El. apply in_or_app. left. assumption. }
        rewrite Hz. split; reflexivity.
  - exists [], [], (scanner_err e), r. rewrite app_nil_r. split; [reflexivity|]. split; [reflexivity|]. split; [reflexivity|].
    split; [reflexivity|]. split; [constructor|]. intros [|] c t2; discriminate.
Qed.

Lemma scan_file_ok r : I [] [] r None ->
  exists tr texts err r', scan_file split r body = (tr, Ok (option_map XScan err)) /\
    scan_texts split r = Ok (texts, err, r') /\ outs tr = concat (map out texts) /\
    rd_rest r = reads tr ++ rd_rest r' /\ io_only tr /\
    forall t1 c t2, tr = t1 ++ ERead c :: t2 -> exists texts1 data r1,
      I texts1 data r1 None /\ waiting split I texts1 data r1 /\
      outs t1 = concat (map out texts1) /\ rd_rest r = reads t1 ++ rd_rest r1.
Proof.
  intros HI. unfold scan_file, scan_texts. apply scan_each_ok with (r0 := r).
  - unfold measure, scan_fuel. cbn. lia.
  - assumption.
  - repeat split; auto; [cbn; lia|cbn; unfold max_token_size; lia|discriminate].
Qed.
End Each.
