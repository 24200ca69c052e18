(** kagome sentence | kagome tokenize. *)
From Verif Require Import SpecPipe ScannerFacts SplitterFacts SentenceFacts SpaceFacts LoaderFacts OptFacts CmdFacts CmdRuns CmdMore Utf8Facts.
From Coq Require Import List Arith Lia ZifyBool ZifyNat ZifyN.
Import ListNotations.
Local Open Scope Z_scope.
Set Implicit Arguments.
Unset Strict Implicit.

(** The loop over the texts without the reads. *)
Fixpoint run_texts (body : bytes -> cmd (option cmd_err)) (ts : list bytes) : cmd (option cmd_err) :=
  match ts with
  | [] => cret None
  | t :: ts' => do e <- body t; match e with Some x => cret (Some x) | None => run_texts body ts' end
  end.
Lemma outs_reads l : outs (map ERead l) = [].
Proof. unfold outs. induction l; [reflexivity|exact IHl]. Qed.
Lemma fst_bind A B (m : cmd A) (f : A -> cmd B) : outs (fst (cbind m f)) = outs (fst m) ++ match snd m with Ok a => outs (fst (f a)) | _ => [] end.
Proof. destruct m as (t & [a| |]); cbn [cbind fst snd]; [|rewrite app_nil_r; reflexivity|rewrite app_nil_r; reflexivity]. destruct (f a). cbn [fst]. apply outs_app. Qed.
Lemma snd_bind A B (m : cmd A) (f : A -> cmd B) : snd (cbind m f) = match snd m with Ok a => snd (f a) | Panic => Panic | Diverge => Diverge end.
Proof. destruct m as (t & [a| |]); cbn [cbind fst snd]; try reflexivity. destruct (f a). reflexivity. Qed.

Lemma scan_each_texts body split fuel : forall s r acc toks err r', scan_all fuel split s r acc = Ok (toks, err, r') ->
  exists ts, toks = acc ++ ts /\ outs (fst (scan_each fuel split s r body)) = outs (fst (run_texts body ts)) /\
    snd (scan_each fuel split s r body) = pipefail (Ok (option_map XScan err)) (snd (run_texts body ts)).
Proof.
  induction fuel as [|f IH]; intros s r acc toks err r' H; cbn [scan_all scan_each] in *; [discriminate|].
  destruct (scan_step split s r) as [o| |] eqn:E; cbn [rbind] in H; try discriminate. rewrite !fst_bind, !snd_bind. cbn [lift fst snd]. change (outs []) with (@nil byte). cbn [app].
  destruct o as [t s'|s' r1|e].
  - destruct (IH _ _ _ _ _ _ H) as (ts & -> & O & S). exists (t :: ts). split; [rewrite <- app_assoc; reflexivity|]. cbn [run_texts]. rewrite !fst_bind, !snd_bind.
    destruct (snd (body t)) as [[x|]| |]; cbn [cret fst snd pipefail]; split; try reflexivity; [rewrite O; reflexivity|exact S].
  - destruct (IH _ _ _ _ _ _ H) as (ts & -> & O & S). exists ts. split; [reflexivity|]. rewrite fst_bind, snd_bind. cbn [fst snd]. rewrite outs_reads. cbn [app]. auto.
  - injection H as <- <- <-. exists []. rewrite app_nil_r. cbn. auto.
Qed.
Lemma scan_file_texts body split r toks err r' : scan_texts split r = Ok (toks, err, r') ->
  outs (fst (scan_file split r body)) = outs (fst (run_texts body toks)) /\
  snd (scan_file split r body) = pipefail (Ok (option_map XScan err)) (snd (run_texts body toks)).
Proof. intros H. destruct (@scan_each_texts body _ _ _ _ _ _ _ _ H) as (ts & -> & O). exact O. Qed.

(** Sentences have no carriage returns. *)
Lemma visible_cr s data l t : sp_skip s = true -> segs data = l ++ t -> ~ In x0d (segs_text (visible s l)).
Proof.
  intros Hs E Hin. unfold segs_text, visible in Hin. rewrite Hs in Hin. apply in_concat in Hin. destruct Hin as (raw & Hr & Hin).
  apply in_map_iff in Hr. destruct Hr as ((c, raw') & Eq & Hg). cbn [snd] in Eq. subst raw'. apply filter_In in Hg. destruct Hg as [Hg Hk]. cbn [fst] in Hk.
  assert (Hg' : In (c, raw) (segs data)) by (rewrite E; apply in_or_app; left; assumption).
  pose proof (segs_rune_ok data) as R. rewrite Forall_forall in R. destruct (rune_bytes (R _ Hg')) as [(b & E1 & _ & E3)|(H & _)]; cbn [fst snd] in *.
  - subst raw. destruct Hin as [->|[]]. rewrite E3 in Hk. discriminate.
  - rewrite Forall_forall in H. specialize (H _ Hin). cbn in H. lia.
Qed.
Lemma sentences_no_cr s r toks err r' : sp_skip s = true -> scan_texts (scan_sentences s) r = Ok (toks, err, r') -> Forall (fun t => ~ In x0d t) toks.
Proof.
  intros Hs Er. destruct (@scan_texts_ok (scan_sentences s) (sentences_contract s) (fun acc _ _ _ => Forall (fun t => ~ In x0d t) acc)) with (r := r)
    as (toks2 & err2 & r2 & E & Hst).
  - intros acc data r1 e data' adv t HI Es. apply Forall_app. split; [assumption|]. constructor; [|constructor].
    destruct data as [|b0 data0].
    { unfold scan_sentences in Es. cbn [length Nat.eqb andb] in Es. destruct e; cbn in Es; discriminate. }
    assert (Hne : b0 :: data0 <> []) by discriminate.
    destruct (@split_call s (b0 :: data0) (match e with Some _ => true | None => false end) Hne)
      as [(c & rest & d' & a & Ec & Hsegs & _)|[(He & d' & Ec & _)|(He & _ & _ & d' & a & k & Ec & _)]]; rewrite Ec in Es; try discriminate;
      injection Es as <- <- <-; [eapply visible_cr; eassumption|]. eapply visible_cr; [assumption|]. symmetry. apply app_nil_r.
  - intros acc data r1 data' adv _ HI _. exact HI.
  - intros acc data r1 tries cap chunk e r3 HI _ _ _. exact HI.
  - constructor.
  - rewrite Er in E. injection E as <- <- <-. destruct Hst as [(e & HI & _)|(data & HI & _)]; exact HI.
Qed.
Lemma no_cr l : ~ In x0d l -> without_cr l l.
Proof. intros H. right. split; [reflexivity|]. intros (l' & E). apply H. rewrite E. apply in_or_app. right. left. reflexivity. Qed.
(** What the second program reads *)
Lemma lines_again r toks : delivers r (concat (map (fun t => t ++ nl) toks)) -> Forall (fun t => ~ In x0a t) toks -> Forall (fun t => ~ In x0d t) toks ->
  Forall (fun t => (N.of_nat (length t) < 65536)%N) toks -> exists r', scan_texts scan_lines r = Ok (toks, None, r').
Proof.
  intros (E & L & F) N1 N2 S. destruct (lines_lemma L) as (lines & err & r' & H & D); [rewrite F; discriminate|]. exists r'. rewrite H. pose proof (lines_of_concat N1) as Lo.
  destruct D as [(-> & raw & Lr & Cr)|(_ & raw & l & Lr & I & Big)]; rewrite E in Lr; rewrite (lines_fun Lr Lo) in *.
  - rewrite F. replace lines with toks; [reflexivity|]. clear - Cr N2. revert N2. induction Cr as [|x y xs ys C _ IH]; intros N; [reflexivity|]. inversion N; subst.
    rewrite (IH ltac:(assumption)). f_equal. apply (@without_cr_fun x); [apply no_cr; assumption|exact C].
  - exfalso. rewrite Forall_forall in S. specialize (S _ I). lia.
Qed.

Section Pipe.
Variables w w' : world.
Variables o o' : tok_opt.
Hypothesis Ht : same_tools w w'.
Hypothesis Ho : split_of o o'.

Lemma same_dict : tok_dict w (to_dict o) (to_sysdict o) (to_simple o) = tok_dict w' (to_dict o') (to_sysdict o') (to_simple o').
Proof. destruct Ht as (E1 & E2 & E3 & _). destruct Ho as (_ & _ & _ & F1 & _ & F3 & F4 & _). unfold tok_dict, select_sysdict. rewrite E1, E2, E3, F1, F3, F4. reflexivity. Qed.
Lemma same_tok d : make_tokenizer w d (to_udict o) = make_tokenizer w' d (to_udict o').
Proof. destruct Ht as (_ & _ & _ & E & _). destruct Ho as (_ & _ & _ & _ & F & _). unfold make_tokenizer. rewrite E, F. reflexivity. Qed.
Lemma same_line t mode json text : tok_line w t mode json text = tok_line w' t mode json text.
Proof. destruct Ht as (_ & _ & _ & _ & E & F). unfold tok_line. rewrite E, F. reflexivity. Qed.
Lemma run_texts_ext b b' ts : (forall t, b t = b' t) -> run_texts b ts = run_texts b' ts.
Proof. intros H. induction ts as [|t ts IH]; cbn [run_texts]; [reflexivity|]. rewrite H, IH. reflexivity. Qed.

Theorem pipe_lemma args args' sargs : tok_args args o -> tok_args args' o' -> sen_args sargs (to_file o) ->
  delivers (w_stdin w') (outs (fst (sen_run w sargs))) ->
  (forall ls l, lines_of (outs (fst (sen_run w sargs))) ls -> In l ls -> (N.of_nat (length l) < 65536)%N) ->
  outs (fst (tok_run w args)) = outs (fst (tok_run w' args')) /\
  snd (tok_run w args) = pipefail (snd (sen_run w sargs)) (snd (tok_run w' args')).
Proof.
  intros A A' S. unfold sen_run. rewrite (proj2 (sen_parse_ok _ _) S). unfold tok_run. rewrite (proj2 (tok_parse_ok _ _) A), (proj2 (tok_parse_ok _ _) A').
  unfold tok_command, sen_command. rewrite same_dict. intros Dl Sh. rewrite !fst_bind, !snd_bind.
  destruct (tok_dict w' (to_dict o') (to_sysdict o') (to_simple o')) as (t1 & [[d|e]| |]); cbn [fst snd cret pipefail]; auto.
  rewrite same_tok, !fst_bind, !snd_bind.
  destruct (make_tokenizer w' d (to_udict o')) as (t2 & [[t|e]| |]); cbn [fst snd cret pipefail]; auto.
  destruct Ho as (O1 & O2 & O3 & _ & _ & _ & _ & O8 & O9). rewrite O1, O2, O3, O8, O9. change (open_input w' []) with (@cret (reader + cmd_err) (inl (w_stdin w'))). cbn [cret].
  rewrite !fst_bind, !snd_bind in *. cbn [cret fst snd] in *. change (outs []) with (@nil byte) in *.
  assert (Q : outs (fst (open_input w (to_file o))) = []) by (unfold open_input; destruct (bempty (to_file o)); cbn; [reflexivity|]; destruct (w_open w (to_file o)); reflexivity).
  rewrite Q in *. cbn [app] in *. destruct (snd (open_input w (to_file o))) as [[r|e]| |] eqn:Eo; cbn [cret fst snd] in *.
  - destruct (@sentences_no_lf default_splitter r eq_refl) as (toks & err & r' & E & Nl). assert (Sk : sp_skip default_splitter = true) by reflexivity; pose proof (sentences_no_cr Sk E) as Nc.
    destruct (@scan_file_texts sen_line _ _ _ _ _ E) as (P1 & P2). rewrite P1 in *.
    assert (Sl : forall ts, outs (fst (run_texts sen_line ts)) = concat (map (fun t => t ++ nl) ts) /\ snd (run_texts sen_line ts) = Ok None).
    { induction ts as [|x ts (IH1 & IH2)]; cbn [run_texts]; [split; reflexivity|]. rewrite fst_bind, snd_bind. cbn [sen_line fst snd cbind emit cret]. rewrite IH1, IH2. split; [|reflexivity].
      unfold outs. cbn [map concat app]. rewrite app_nil_r. reflexivity. }
    destruct (Sl toks) as (S1 & S2). rewrite S1 in *. rewrite S2 in P2. cbn [pipefail] in P2.
    destruct (lines_again Dl Nl Nc) as (r2 & E2). { apply Forall_forall. intros l I. exact (Sh _ _ (lines_of_concat Nl) I). }
    destruct (@scan_file_texts (tok_line w t (select_mode (to_mode o')) (to_json o')) _ _ _ _ _ E) as (V1 & V2).
    destruct (@scan_file_texts (tok_line w' t (select_mode (to_mode o')) (to_json o')) _ _ _ _ _ E2) as (W1 & W2).
    rewrite V1, W1, V2, W2, P2, (run_texts_ext toks (@same_line t (select_mode (to_mode o')) (to_json o'))). split; [reflexivity|].
    destruct (snd (run_texts (tok_line w' t (select_mode (to_mode o')) (to_json o')) toks)) as [[x|]| |]; reflexivity.
  - destruct (@lines_again (w_stdin w') [] Dl) as (r2 & E2); [constructor..|].
    destruct (@scan_file_texts (tok_line w' t (select_mode (to_mode o')) (to_json o')) _ _ _ _ _ E2) as (W1 & W2). rewrite W1, W2. cbn. auto.
  - exfalso. revert Eo. unfold open_input. destruct (bempty (to_file o)); cbn; [discriminate|]. destruct (w_open w (to_file o)); discriminate.
  - exfalso. revert Eo. unfold open_input. destruct (bempty (to_file o)); cbn; [discriminate|]. destruct (w_open w (to_file o)); discriminate.
Qed.
End Pipe.
