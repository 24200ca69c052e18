(** C127: sentences are answered before reading on. *)
From Verif Require Import Utf8Facts ScannerFacts SplitterFacts SentenceFacts SpaceFacts LoaderFacts OptFacts CmdFacts CmdRuns CmdMore SpecCmd SpecSent SpecSoon BuildFacts.
From Coq Require Import List Arith Lia ZifyBool ZifyNat ZifyN.
Import ListNotations.
Local Open Scope nat_scope.
Set Implicit Arguments.
Unset Strict Implicit.

Lemma begun_small held : begun held -> length held <= 508.
Proof.
  intros (rs & -> & L & D & _). enough (H : forall l : list (N * bytes), Forall (fun g => decode_rune (snd g) = (fst g, length (snd g))) l -> length (concat (map snd l)) <= 4 * length l) by (specialize (H rs D); lia).
  intros l. induction 1 as [|g l E _ IH]; [reflexivity|]. cbn [map concat length]. rewrite app_length. pose proof (decode_width4 (snd g)) as W. rewrite E in W. cbn [snd] in W. lia.
Qed.
Lemma begun_of data : sentence default_splitter (visible default_splitter (segs data)) -> visible default_splitter (segs data) = [] \/ (Z.of_nat (length (visible default_splitter (segs data))) < sp_max default_splitter)%Z ->
  begun (segs_text (visible default_splitter (segs data))).
Proof.
  intros (body & tail & E & _ & B & T & C) L. set (rs := visible default_splitter (segs data)) in *. exists rs. split; [reflexivity|]. cbn [sp_max default_splitter] in L.
  split; [destruct L as [->|L]; [cbn|]; lia|]. split.
  - apply visible_Forall. eapply Forall_impl; [|apply segs_rune_ok]. intros g (_ & H). exact H.
  - intros b1 g b2 Eq Dg. rewrite E in Eq. apply app_eq_app in Eq. destruct Eq as (m & [(Q1 & Q2)|(Q1 & Q2)]).
    + destruct m as [|y m]; [cbn [app] in Q2; rewrite <- Q2 in T; inversion T; assumption|]. cbn [app] in Q2. injection Q2 as <- ->.
      destruct m as [|z m]; [exact T|]. exfalso. eapply B; [exact Q1|discriminate|exact Dg].
    + rewrite Q2 in T. apply Forall_app in T. destruct T as (_ & T). inversion T; assumption.
Qed.

Definition soon_inv (input : bytes) (acc : list bytes) (data : bytes) (r : reader) (e : option scan_err) : Prop :=
  ~ In x20 (concat acc) /\ exists seen, input = seen ++ rd_rest r /\ edits seen (concat acc ++ data).

Section Soon.
Let s := default_splitter.
Variable input : bytes.
Lemma no_blank acc t : ~ In x20 (concat acc) -> ~ In x20 t -> ~ In x20 (concat (acc ++ [t])).
Proof. intros H1 H2 H. rewrite concat_app in H. cbn in H. rewrite app_nil_r in H. apply in_app_or in H. tauto. Qed.
Lemma soon_token acc data r e data' adv t : soon_inv input acc data r e ->
  scan_sentences s data (match e with Some _ => true | None => false end) = Ok (data', adv, Some t) -> soon_inv input (acc ++ [t]) (skipn adv data') r e.
Proof.
  intros (H1 & seen & H2 & H3) H. destruct data as [|b0 d0]; [destruct e; discriminate H|]. assert (Hne : b0 :: d0 <> []) by discriminate. remember (b0 :: d0) as data eqn:Ed. clear Ed.
  destruct (@split_call s data (match e with Some _ => true | None => false end) Hne)
      as [(c & rest & d' & a & E & Hsegs & Hrest & _)|[(He & d' & E & Hl & _)|(He & _ & _ & d' & a & k & E & _)]];
      rewrite E in H; try discriminate; injection H as <- <- <-.
  - rewrite Hrest. destruct (segs_app_ok Hsegs) as [Hc ->]. split; [apply no_blank; [assumption|apply visible_no_blank; [reflexivity|assumption]]|]. exists seen. split; [exact H2|].
    eapply edits_trans; [exact H3|]. rewrite concat_app. cbn [concat]. rewrite app_nil_r, <- !app_assoc. apply edits_frame with (R := rest). apply edits_visible. assumption.
  - rewrite <- Hl, skipn_all. split; [apply no_blank; [assumption|apply visible_no_blank; [reflexivity|apply segs_rune_ok]]|]. exists seen. split; [exact H2|].
    eapply edits_trans; [exact H3|]. rewrite concat_app. cbn [concat]. rewrite !app_nil_r. rewrite <- (segs_concat data) at 1.
    rewrite <- (app_nil_r (segs_text (segs data))), <- (app_nil_r (segs_text (visible s (segs data)))). apply edits_frame. apply edits_visible. apply segs_rune_ok.
Qed.
Lemma soon_kept acc data r : soon_inv input acc data r None -> soon_inv input acc (segs_text (visible s (segs data))) r None.
Proof.
  intros (H1 & seen & H2 & H3). split; [exact H1|]. exists seen. split; [exact H2|]. eapply edits_trans; [exact H3|]. rewrite <- (segs_concat data) at 1.
  rewrite <- (app_nil_r (segs_text (segs data))), <- (app_nil_r (segs_text (visible s (segs data)))). apply edits_frame. apply edits_visible. apply segs_rune_ok.
Qed.
Lemma soon_skip acc data r data' adv : data <> [] -> soon_inv input acc data r None -> scan_sentences s data false = Ok (data', adv, None) -> soon_inv input acc (skipn adv data') r None.
Proof.
  intros Hne HI H. destruct (@split_call s data false Hne) as [(c & rest & d' & a & E & _)|[(He & _)|(_ & _ & _ & d' & a & k & E & Hk & _)]]; try discriminate; rewrite E in H; try discriminate.
  injection H as <- <-. rewrite Hk. destruct (soon_kept HI) as (H1 & seen & H2 & H3). split; [exact H1|]. exists seen. split; [exact H2|]. rewrite app_assoc. eapply edits_trans; [exact H3|apply edits_blanks].
Qed.
Lemma soon_read acc data r tries cap chunk err r' : soon_inv input acc data r None -> read_loop tries r cap = (chunk, err, r') -> soon_inv input acc (data ++ chunk) r' err.
Proof.
  intros (H1 & seen & H2 & H3) Hr. destruct (read_loop_ok Hr) as (F & _). split; [exact H1|]. exists (seen ++ chunk). split; [rewrite H2, F, app_assoc; reflexivity|].
  rewrite app_assoc. exact (@edits_frame [] chunk _ _ H3).
Qed.
Lemma soon_answered acc data r : soon_inv input acc data r None -> waiting (scan_sentences s) (soon_inv input) acc data r ->
  forall seen, input = seen ++ rd_rest r -> exists held, begun held /\ forall q, valid_utf8 (seen ++ q) = true -> ~ In x20 q -> answered (seen ++ q) acc (held ++ q).
Proof.
  intros HI Hw seen Es.
  assert (K : exists data0, soon_inv input acc (segs_text (visible s (segs data0))) r None /\ begun (segs_text (visible s (segs data0)))).
  { destruct Hw as [->|(data0 & data' & adv & Hne & HI0 & E & _)].
    - exists []. split; [exact HI|]. exists []. cbn. split; [reflexivity|]. split; [lia|]. split; [constructor|]. intros [|] g b2; discriminate.
    - exists data0. split; [apply soon_kept; exact HI0|]. destruct (@split_call s data0 false Hne) as [(c & rest & d' & a & E1 & _)|[(He & _)|(_ & (Sn & _) & L & _)]]; [congruence|discriminate|]. apply begun_of; assumption. }
  destruct K as (data0 & (N1 & seen' & E1 & H3) & B). rewrite Es in E1. apply app_inv_tail in E1. subst seen'.
  exists (segs_text (visible s (segs data0))). split; [exact B|]. intros q Hv Hq. pose proof (@edits_frame [] q _ _ H3) as H4. cbn [app] in H4.
  destruct (edits_drops H4 Hv) as (M & HM & Hb). exists M. split; [exact HM|]. rewrite app_assoc. apply blanked_none in Hb; [exact Hb|].
  intros H. apply in_app_or in H. destruct H as [H|H]; [|exact (Hq H)]. apply in_app_or in H. destruct H as [H|H]; [exact (N1 H)|]. revert H. apply visible_no_blank; [reflexivity|apply segs_rune_ok].
Qed.
End Soon.

(** ** The commands *)
Theorem sen_soon w args file r t : sen_args args file -> input_uses w file r t ->
  exists tr x, sen_run w args = (t ++ tr, x) /\ forall ta c tb, tr = ta ++ ERead c :: tb ->
    exists texts held, outs ta = concat (map (fun l => l ++ [x0a]) texts) /\ begun held /\
      forall q, valid_utf8 (reads ta ++ q) = true -> ~ In x20 q -> answered (reads ta ++ q) texts (held ++ q).
Proof.
  intros Ha Hi. unfold sen_run. rewrite (proj2 (sen_parse_ok _ _) Ha). unfold sen_command. rewrite (open_input_ok Hi), cbind_ok.
  destruct (@scan_file_ok (scan_sentences default_splitter) (sentences_contract default_splitter) (soon_inv (rd_rest r)) (@soon_token (rd_rest r)) (@soon_skip (rd_rest r))
     (fun acc data r0 tries cap chunk err r' H _ E _ => soon_read H E) (fun l => l ++ nl) sen_line ltac:(reflexivity) r) as (tr & texts & err & r' & E1 & E2 & E3 & E4 & E5 & E6).
  { split; [cbn; tauto|]. exists []. split; [reflexivity|]. apply ed_refl. }
  rewrite E1. do 2 eexists. split; [reflexivity|]. intros ta c tb Et. destruct (E6 _ _ _ Et) as (texts1 & data & r1 & HI & Hwt & Eo & Er).
  destruct (soon_answered HI Hwt Er) as (held & A & B). exists texts1, held. auto.
Qed.
Theorem tok_soon w d u : wf_dict d -> wf_udict u -> wf_data d -> forall args o mode r t1 t2 t3,
  tok_args args o -> tok_uses w o d t1 -> user_uses w (to_udict o) u t2 -> input_uses w (to_file o) r t3 -> mode_of (to_mode o) mode -> to_split o = true ->
  exists tr x, tok_run w args = ((t1 ++ t2 ++ t3) ++ tr, x) /\ forall ta c tb, tr = ta ++ ERead c :: tb ->
    exists texts held blocks, outs ta = concat blocks /\
      Forall2 (fun text b => exists ts, analyze (w_ideo w) (Tokenizer d u false) text mode = Ok ts /\ block (to_json o) ts b) texts blocks /\
      begun held /\
      forall q, valid_utf8 (reads ta ++ q) = true -> ~ In x20 q -> answered (reads ta ++ q) texts (held ++ q).
Proof.
  intros Hd Hu Hw args o mode r t1 t2 t3 Ha H1 H2 H3 Hm Hs.
  destruct (@scan_file_ok (scan_sentences default_splitter) (sentences_contract default_splitter) (soon_inv (rd_rest r)) (@soon_token (rd_rest r)) (@soon_skip (rd_rest r))
     (fun acc data r0 tries cap chunk err r' H _ E _ => soon_read H E) (out_of w d u mode (to_json o)) _ (out_line w Hd Hu Hw mode (to_json o)) r) as (tr & texts & err & r' & E1 & E2 & E3 & E4 & E5 & E6).
  { split; [cbn; tauto|]. exists []. split; [reflexivity|]. apply ed_refl. }
  exists tr, (Ok (option_map XScan err)). rewrite (tok_run_ok Ha H1 H2 H3 Hm). unfold tok_split. rewrite Hs, E1. split; [reflexivity|].
  intros ta c tb Et. destruct (E6 _ _ _ Et) as (texts1 & data & r1 & HI & Hwt & Eo & Er).
  destruct (soon_answered HI Hwt Er) as (held & A & B). exists texts1, held, (map (out_of w d u mode (to_json o)) texts1). split; [exact Eo|]. split; [apply out_blocks; assumption|]. auto.
Qed.
