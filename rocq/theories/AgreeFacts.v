(** The tokenize endpoint and the tokenize command. *)
From Verif Require Import ServerFacts ScannerFacts LoaderFacts TokFacts AnalyzeFacts TokenFacts CmdRuns CmdMore DecodeServe SpecAgree.
From Coq Require Import List Arith Lia ZifyBool ZifyNat ZifyN.
Import ListNotations.
Local Open Scope Z_scope.
Set Implicit Arguments.
Unset Strict Implicit.

Lemma class_dummy c : bytes_eqb (class_string c) (s2b "DUMMY") = class_eqb c DUMMY.
Proof. destruct c; vm_compute; reflexivity. Qed.
Lemma data_class tk td : new_token_data tk = Ok td -> td_class td = class_string (t_class tk).
Proof.
  unfold new_token_data. destruct (token_pos tk); cbn [rbind]; [|discriminate..]. destruct (features tk); cbn [rbind]; [|discriminate..]. destruct (base_form tk); cbn [rbind]; [|discriminate..].
  destruct (reading tk); cbn [rbind]; [|discriminate..]. destruct (pronunciation tk); cbn [rbind]; [|discriminate..]. intros [= <-]. reflexivity.
Qed.
Lemma unsplit_data l tds : Forall2 (fun tk td => new_token_data tk = Ok td) l tds -> Forall2 (fun tk td => new_token_data tk = Ok td) (not_dummy l) (unsplit tds).
Proof.
  unfold not_dummy, unsplit. induction 1 as [|tk td l tds H _ IH]; [constructor|]. cbn [filter]. rewrite (data_class H), class_dummy. destruct (class_eqb (t_class tk) DUMMY); [exact IH|]. constructor; assumption.
Qed.
Lemma data_one l a b : Forall2 (fun tk td => new_token_data tk = Ok td) l a -> Forall2 (fun tk td => new_token_data tk = Ok td) l b -> a = b.
Proof. intros H. revert b. induction H as [|tk td l a H _ IH]; intros b Hb; inversion Hb; subst; [reflexivity|]. f_equal; [congruence|]. apply IH. assumption. Qed.
Lemma line_one t b ls : one_line t -> b = t \/ b = t ++ [x0a] -> lines_of b ls -> ls = [t].
Proof.
  intros (N & L & _) [E|E] H; subst b; apply (lines_fun H).
  - apply lines_last; assumption.
  - apply (@lines_cons t [] []); [exact L|constructor].
Qed.

Theorem agree_lemma w d u args o mode r t1 t2 t3 printable newer body v sen m : wf_dict d -> wf_udict u -> wf_data d ->
  tok_args args o -> tok_uses w o d t1 -> user_uses w (to_udict o) u t2 -> input_uses w (to_file o) r t3 -> mode_of (to_mode o) mode ->
  to_split o = false -> to_json o = true -> lively r -> rd_end r = EOF -> one_line sen -> rd_rest r = sen \/ rd_rest r = sen ++ [x0a] ->
  begins_with body v -> decoded v = Some (Request sen m) -> request_mode m mode ->
  exists tr a tds, tok_run w args = (tr, Ok None) /\ serve_tokenize (the_decoder printable) newer (w_ideo w) (Tokenizer d u false) body = Ok a /\ rs_status a = 200 /\
    told (rs_body a) tds /\ json_text (outs tr) (JArr (map token_value (unsplit tds))) /\ (mode <> mode_extended -> unsplit tds = tds).
Proof.
  intros Hd Hu Hw A T U I M Sp Js Lv E One R B D Rm.
  destruct (@serve_tokens d u false (w_ideo w) newer (the_decoder printable) body v sen m mode Hd Hu Hw (decoder_contract printable) B D (proj1 One) Rm) as (ts & tds & a & Ea & Sa & S & _ & F & _ & J).
  destruct (tokenize_lines Hd Hu Hw A T U I M Sp Lv ltac:(rewrite E; discriminate)) as (tr & err & Et & H). rewrite E in H.
  destruct H as [(-> & raw & lines & blocks & L & C & O & Bl)|(_ & raw & l & L & In_l & Big)]; rewrite (line_one One R L) in *.
  2:{ destruct In_l as [<-|[]]. destruct One as (_ & _ & _ & Sh). lia. }
  inversion C as [|x line y lines' Cr C' e1 e2]; subst. inversion C'; subst. inversion Bl as [|x b y blocks' Hb Bl' e1 e2]; subst. inversion Bl'; subst. cbn [concat] in O. rewrite app_nil_r in O.
  assert (line = sen) by (destruct Cr as [Cr|(Cr & _)]; [exfalso; apply One; eauto|exact Cr]). subst line.
  destruct Hb as (ts' & Ea' & Hb). rewrite Ea in Ea'. injection Ea' as <-. rewrite Js in Hb.
  assert (Q : not_dummy ts = not_dummy (no_markers ts)).
  { unfold not_dummy, no_markers. clear - Hd Hu Ea. assert (Z : forall tk, In tk ts -> is_marker tk = true -> t_class tk = DUMMY).
    { intros tk Hin Hk. unfold is_marker in Hk. apply (analyze_markers Hd Hu Ea Hin). lia. }
    clear Ea. induction ts as [|tk ts IH]; [reflexivity|]. cbn [filter]. specialize (IH (fun t Ht => Z t (or_intror Ht))). pose proof (Z tk (or_introl eq_refl)) as Zk.
    destruct (is_marker tk); cbn [negb filter]; [rewrite (Zk eq_refl); exact IH|]. rewrite IH. reflexivity. }
  pose proof (unsplit_data F) as Fu. rewrite <- Q in Fu.
  exists tr, a, tds. split; [exact Et|]. split; [exact Sa|]. split; [exact S|]. split; [exact J|]. split.
  - rewrite O. destruct Hb as (tds' & F' & J'). rewrite (data_one Fu F'). exact J'.
  - intros Hm. destruct (json_words Hd Hu Hm Ea Hb) as (tds1 & F1 & _).
    assert (P : Forall (fun td => td_class td <> s2b "DUMMY") tds).
    { clear - Hd Hu Hm Ea F. assert (Z : forall tk, In tk (no_markers ts) -> t_class tk <> DUMMY).
      { intros tk Hin. unfold no_markers in Hin. apply filter_In in Hin. destruct Hin as (Hin & Hk). unfold is_marker in Hk. eapply dummy_extended; try eassumption. lia. }
      induction F as [|tk td l tds H _ IH]; [constructor|]. constructor; [|apply IH; intros t Ht; apply Z; right; exact Ht]. rewrite (data_class H). pose proof (Z tk (or_introl eq_refl)) as Zk. destruct (t_class tk); try discriminate. congruence. }
    unfold unsplit. clear - P. induction P as [|td tds H _ IH]; [reflexivity|]. cbn [filter]. destruct (bytes_eqb (td_class td) (s2b "DUMMY")) eqn:Eb; [|cbn [negb]; rewrite IH; reflexivity].
    exfalso. apply H. apply bytes_eqb_eq. exact Eb.
Qed.

(** lattice -v and tokenize *)
Lemma errs_app a b : errs (a ++ b) = errs a ++ errs b.
Proof. unfold errs. rewrite map_app, concat_app. reflexivity. Qed.
Lemma errs_lines ls : errs (map (fun l => EErr (MText l)) ls) = concat ls.
Proof. induction ls as [|l ls IH]; [reflexivity|]. unfold errs in *. cbn [map concat]. rewrite IH. reflexivity. Qed.
Lemma line_fun tk a : token_line tk a -> forall b, token_line tk b -> a = b.
Proof. intros [tk' D|tk' fs N F] b H; inversion H; subst; try congruence. Qed.
Lemma lines_one l a : Forall2 token_line l a -> forall b, Forall2 token_line l b -> a = b.
Proof. induction 1 as [|tk x l a H _ IH]; intros b Hb; inversion Hb; subst; [reflexivity|]. f_equal; [eapply line_fun; eassumption|apply IH; assumption]. Qed.
Lemma quiet_uses w word s d t : embedded w word s d t -> errs t = [].
Proof. intros (-> & _). reflexivity. Qed.
Lemma quiet_user w p u t : user_uses w p u t -> errs t = [].
Proof. intros [(_ & _ & ->)|(_ & ud & _ & _ & ->)]; reflexivity. Qed.
Lemma marks_middle bos mid eos : t_id bos = (-1)%Z -> t_id eos = (-1)%Z -> (forall tk, In tk mid -> t_id tk <> (-1)%Z) -> no_markers (bos :: mid ++ [eos]) = mid.
Proof.
  intros Hb He Hm. unfold no_markers. cbn [filter]. unfold is_marker at 1. rewrite Hb. cbn [Z.eqb Pos.eqb negb].
  rewrite filter_app. cbn [filter]. unfold is_marker at 2. rewrite He. cbn. rewrite app_nil_r.
  induction mid as [|a l IH]; [reflexivity|]. cbn [filter]. unfold is_marker at 1. destruct (t_id a =? -1)%Z eqn:E; [exfalso; apply (Hm a); [left; reflexivity|lia]|].
  cbn [negb]. f_equal. apply IH. intros tk H. apply Hm. right. assumption.
Qed.

Theorem lattice_agrees w d u args lo t1 t2 args' o mode r t3 t4 t5 : wf_dict d -> wf_udict u -> wf_data d ->
  lat_args args lo -> embedded w (lo_dict lo) false d t1 -> user_uses w (lo_udict lo) u t2 -> mode_of (lo_mode lo) mode ->
  lo_verbose lo = true -> lo_output lo = [] \/ w_create w (lo_output lo) = true ->
  tok_args args' o -> tok_uses w o d t3 -> user_uses w (to_udict o) u t4 -> input_uses w (to_file o) r t5 -> mode_of (to_mode o) mode ->
  to_split o = false -> to_json o = false -> lively r -> rd_end r = EOF -> one_line (lo_input lo) -> rd_rest r = lo_input lo \/ rd_rest r = lo_input lo ++ [x0a] ->
  no_loss d u (lo_input lo) mode ->
  exists trl tr, lat_run w args = (trl, Ok None) /\ tok_run w args' = (tr, Ok None) /\ errs trl = outs tr.
Proof.
  intros Hd Hu Hw La Em Ul Ml Vb Ou A T U I M Sp Js Lv E One R Nl. set (sen := lo_input lo) in *.
  destruct (lattice_draws Hd Hu Hw La Em Ul Ml Ou) as (ts & ss & ls & Ea & _ & El & Fl & _). specialize (Fl Vb). fold sen in Ea.
  destruct (tokenize_lines Hd Hu Hw A T U I M Sp Lv ltac:(rewrite E; discriminate)) as (tr & err & Et & H). rewrite E in H.
  destruct H as [(-> & raw & lines & blocks & L & C & O & Bl)|(_ & raw & l & L & In_l & Big)]; rewrite (line_one One R L) in *.
  2:{ destruct In_l as [<-|[]]. destruct One as (_ & _ & _ & Sh). lia. }
  inversion C as [|x line y lines' Cr C' e1 e2]; subst. inversion C'; subst. inversion Bl as [|x b y blocks' Hb Bl' e1 e2]; subst. inversion Bl'; subst. cbn [concat] in O. rewrite app_nil_r in O.
  assert (line = sen) by (destruct Cr as [Cr|(Cr & _)]; [exfalso; apply One; eauto|exact Cr]). subst line.
  destruct Hb as (ts' & Ea' & Hb). rewrite Ea in Ea'. injection Ea' as <-. rewrite Js in Hb. destruct Hb as (bl & Fb & Eb).
  destruct (@analyze_framing d u Hd Hu (w_ideo w) sen mode Nl) as (bos & mid & eos & Ef & Hbos & Heos & Hmid). rewrite Ea in Ef. injection Ef as ->.
  eexists _, tr. split; [exact El|]. split; [exact Et|]. rewrite !errs_app, (quiet_uses Em), (quiet_user Ul), errs_lines. cbn [app].
  assert (G : errs (graph_out lo (dot_text (w_addr w) ss)) = []) by (unfold graph_out; destruct (lo_output lo); reflexivity). rewrite G. cbn [app].
  destruct Hbos as (Ib & _). destruct Heos as (Ie & Ce & Se & _). rewrite (marks_middle Ib Ie Hmid) in Fb. cbn [tl] in Fl.
  apply Forall2_app_inv_l in Fl. destruct Fl as (l1 & l2 & F1 & F2 & ->). inversion F2 as [|x y l l' Hx F3]; subst. inversion F3; subst.
  rewrite Eb, concat_app, (@lines_one _ _ F1 _ Fb). cbn [concat]. rewrite app_nil_r. f_equal.
  inversion Hx; subst; [rewrite Se; reflexivity|congruence].
Qed.
