(** Proofs of C113. *)
From Verif Require Import LoaderFacts ScannerFacts CmdFacts CmdRuns CmdMore SentenceFacts AnySplit Utf8Facts.
From Verif Require Import SpecCat.
From Coq Require Import Lia ZifyBool ZifyNat ZifyN.
Set Implicit Arguments.
Unset Strict Implicit.

Lemma lines_cat a la : lines_of a la -> finished a -> forall b lb, lines_of b lb -> lines_of (a ++ b) (la ++ lb).
Proof.
  induction 1 as [|l Ne No|l rest ls No H IH]; intros F b lb Hb; [exact Hb| |].
  - destruct F as [->|(x & ->)]; [contradiction Ne; reflexivity|]. contradiction No. apply in_or_app. right. left. reflexivity.
  - rewrite <- app_assoc. cbn [app]. constructor; [exact No|]. apply IH; [|exact Hb].
    destruct F as [E|(x & E)]; [destruct l; discriminate E|]. destruct rest as [|c q]; [left; reflexivity|]. right.
    destruct (@exists_last _ (c :: q) ltac:(discriminate)) as (y & z & Ey). exists y. rewrite Ey in *.
    change (l ++ x0a :: y ++ [z]) with (l ++ (x0a :: y) ++ [z]) in E. rewrite app_assoc in E. apply app_inj_tail in E. destruct E as (_ & ->). reflexivity.
Qed.
Lemma cr_fun a b : without_cr a b -> forall c, without_cr a c -> b = c.
Proof.
  intros [E|(E & N)] c [E'|(E' & N')]; subst.
  - apply app_inj_tail in E'. destruct E'. congruence.
  - contradiction N'. eauto.
  - contradiction N. eauto.
  - reflexivity.
Qed.
Lemma crs_fun l a : Forall2 without_cr l a -> forall b, Forall2 without_cr l b -> a = b.
Proof. induction 1 as [|x y l a H _ IH]; intros b Hb; inversion Hb; subst; [reflexivity|]. f_equal; [eapply cr_fun; eassumption|apply IH; assumption]. Qed.
Lemma alike_out w d u mode json args r : wf_dict d -> wf_udict u -> wf_data d -> alike w d u mode json args r -> lively r -> rd_end r = EOF -> short_lines (rd_rest r) ->
  exists tr raw lines, tok_run w args = (tr, Ok None) /\ lines_of (rd_rest r) raw /\ Forall2 without_cr raw lines /\ outs tr = concat (map (out_of w d u mode json) lines).
Proof.
  intros Hd Hu Hw [o t1 t2 t3 A T U I M J Sp] L E Sh.
  destruct (@scan_file_ok (tok_split o) (tok_split_contract o) (fun _ _ _ _ => True) ltac:(auto) ltac:(auto) ltac:(auto)
              (out_of w d u mode (to_json o)) _ (out_line w Hd Hu Hw mode (to_json o)) r Logic.I) as (tr & texts & err & r' & E1 & E2 & E3 & _).
  unfold tok_split in E2. rewrite Sp in E2. destruct (lines_lemma L ltac:(rewrite E; discriminate)) as (lines & err' & r2 & E4 & H).
  rewrite E2 in E4. injection E4 as -> -> ->. destruct H as [(Ee & raw & H1 & H2)|(_ & raw & l & H1 & H2 & H3)]; [|specialize (Sh _ _ H1 H2); lia].
  rewrite E in Ee. cbn in Ee. subst err'. exists ((t1 ++ t2 ++ t3) ++ tr), raw, lines.
  split; [rewrite (tok_run_ok A T U I M), E1; reflexivity|]. split; [exact H1|]. split; [exact H2|].
  rewrite outs_app, (uses_outs T U I), E3, J. reflexivity.
Qed.
Theorem tokenize_cat w d u mode json a1 r1 a2 r2 a3 r3 : wf_dict d -> wf_udict u -> wf_data d ->
  alike w d u mode json a1 r1 -> alike w d u mode json a2 r2 -> alike w d u mode json a3 r3 ->
  lively r1 -> lively r2 -> lively r3 -> rd_end r1 = EOF -> rd_end r2 = EOF -> rd_end r3 = EOF ->
  rd_rest r3 = rd_rest r1 ++ rd_rest r2 -> finished (rd_rest r1) -> short_lines (rd_rest r3) ->
  exists tr1 tr2 tr3, tok_run w a1 = (tr1, Ok None) /\ tok_run w a2 = (tr2, Ok None) /\ tok_run w a3 = (tr3, Ok None) /\ outs tr3 = outs tr1 ++ outs tr2.
Proof.
  intros Hd Hu Hw A1 A2 A3 L1 L2 L3 E1 E2 E3 R F Sh.
  destruct (lines_total (rd_rest r1)) as (l1 & H1). destruct (lines_total (rd_rest r2)) as (l2 & H2). pose proof (lines_cat H1 F H2) as H3. rewrite <- R in H3.
  destruct (alike_out Hd Hu Hw A1 L1 E1) as (tr1 & raw1 & x1 & R1 & W1 & C1 & O1).
  { intros raw l Hl Hi. rewrite (lines_fun Hl H1) in Hi. apply (Sh _ _ H3). apply in_or_app. left. exact Hi. }
  destruct (alike_out Hd Hu Hw A2 L2 E2) as (tr2 & raw2 & x2 & R2 & W2 & C2 & O2).
  { intros raw l Hl Hi. rewrite (lines_fun Hl H2) in Hi. apply (Sh _ _ H3). apply in_or_app. right. exact Hi. }
  destruct (alike_out Hd Hu Hw A3 L3 E3 Sh) as (tr3 & raw3 & x3 & R3 & W3 & C3 & O3).
  rewrite (lines_fun W1 H1) in C1. rewrite (lines_fun W2 H2) in C2. rewrite (lines_fun W3 H3) in C3. rewrite (crs_fun C3 (Forall2_app C1 C2)) in O3.
  exists tr1, tr2, tr3. split; [exact R1|]. split; [exact R2|]. split; [exact R3|]. rewrite O1, O2, O3, map_app, concat_app. reflexivity.
Qed.

(** ** Sentences *)
Section Sent.
Variable s : splitter.
Lemma kept_seen x m : ~ dropped s m -> visible s (x ++ [m]) <> [].
Proof.
  intros N H. unfold visible in H. destruct (sp_skip s) eqn:K; [|destruct x; discriminate H]. rewrite filter_app in H. apply app_eq_nil in H. destruct H as [_ H]. cbn [filter] in H.
  destruct (is_space (fst m)) eqn:E; [apply N; split; assumption|discriminate H].
Qed.
Lemma cut_more l kept rest b : cut s l (Sentence kept rest) -> rest <> [] \/ match b with [] => True | g :: _ => ~ trailing s g end -> cut s (l ++ b) (Sentence kept (rest ++ b)).
Proof.
  intros C H. inversion C as [a m tail rest' Q D A M T|a m rest' Q D De V|a x rest' Q A|]; subst.
  - replace ((a ++ m :: tail ++ rest) ++ b) with (a ++ m :: tail ++ (rest ++ b)) by (rewrite <- app_assoc; cbn [app]; rewrite <- app_assoc; reflexivity).
    apply cut_mark; try assumption. destruct T as (T & [(N & R)|T']); split; try exact T; [left|right; exact T']. split; [exact N|].
    destruct rest as [|g rest]; [|exact R]. destruct H as [H|H]; [contradiction H; reflexivity|exact H].
  - rewrite <- app_assoc. cbn [app]. apply cut_blank; assumption.
  - rewrite <- app_assoc. cbn [app]. apply cut_feeds; assumption.
Qed.
Lemma none_of_nil ts : sentences s [] ts -> ts = [].
Proof.
  intros H. inversion H as [l kept rest t C _|l kept C N|]; subst; [| |reflexivity].
  - inversion C; destruct a; discriminate.
  - inversion C; subst. contradiction N. unfold visible. destruct (sp_skip s); reflexivity.
Qed.
Lemma cut_suffix l kept rest : cut s l (Sentence kept rest) -> exists p, l = p ++ rest.
Proof.
  intros C. inversion C as [a m tail rest' Q D A M T|a m rest' Q D De V|a x rest' Q A|]; subst.
  - exists (a ++ m :: tail). rewrite <- app_assoc. reflexivity.
  - exists (a ++ [m]). rewrite <- app_assoc. reflexivity.
  - exists (a ++ [(line_feed, x)]). rewrite <- app_assoc. reflexivity.
Qed.
Lemma sentences_cat a ta : sentences s a ta -> (exists x m, a = x ++ [m] /\ In (fst m) (sp_delim s) /\ ~ dropped s m) ->
  forall b tb, match b with [] => True | g :: _ => ~ trailing s g end -> sentences s b tb -> sentences s (a ++ b) (ta ++ tb).
Proof.
  induction 1 as [l kept rest ts C R IH|l kept C N|l C]; intros (x & m & E & D & K) b tb O Hb.
  - cbn [app]. eapply st_more; [apply cut_more; [exact C|right; exact O]|].
    destruct rest as [|g q]; [rewrite (none_of_nil R); exact Hb|]. apply IH; [|exact O|exact Hb].
    destruct (cut_suffix C) as (p & Ep). destruct (@exists_last _ (g :: q) ltac:(discriminate)) as (y & z & Ey). rewrite Ey in *.
    rewrite Ep, app_assoc in E. apply app_inj_tail in E. destruct E as (_ & ->). exists y, m. auto.
  - exfalso. inversion C as [| | |a Q]; subst. destruct Q as (Q & _). apply (@kept_seen x m K). apply (Q x m []); [reflexivity|exact D].
  - exfalso. inversion C as [| | |a Q e1 e2]; subst. destruct Q as (Q & _). apply (@kept_seen x m K). apply (Q x m []); [reflexivity|exact D].
Qed.
Lemma fair_sentences r toks r' : fair s r r' -> scan_texts (scan_sentences s) r = Ok (toks, None, r') -> sentences s (segs (rd_rest r)) (nonempty toks).
Proof.
  intros (L & [(A & V & O)|(A & C)]) E; [eapply any_piece|eapply any_reads]; eassumption.
Qed.
Theorem split_cat r1 t1 r1' r2 t2 r2' r3 t3 r3' :
  scan_texts (scan_sentences s) r1 = Ok (t1, None, r1') -> scan_texts (scan_sentences s) r2 = Ok (t2, None, r2') -> scan_texts (scan_sentences s) r3 = Ok (t3, None, r3') ->
  fair s r1 r1' -> fair s r2 r2' -> fair s r3 r3' -> rd_rest r3 = rd_rest r1 ++ rd_rest r2 -> valid_utf8 (rd_rest r1) = true -> closed s (rd_rest r1) -> opening s (rd_rest r2) ->
  nonempty t3 = nonempty t1 ++ nonempty t2.
Proof.
  intros E1 E2 E3 F1 F2 F3 R V C O. pose proof (fair_sentences F1 E1) as S1. pose proof (fair_sentences F2 E2) as S2. pose proof (fair_sentences F3 E3) as S3.
  rewrite R, (segs_valid_app _ V) in S3. apply (sentences_one S3). apply (sentences_cat S1 C O S2).
Qed.
End Sent.
