(** Facts about the HTTP server. *)
From Verif Require Import Check SpecServer SpecCmd Utf8Facts JsonFacts TokFacts AnalyzeFacts TokenFacts DotFacts CmdRuns Example.
From Coq Require Import Lia ZifyBool ZifyNat ZifyN.
Open Scope Z_scope.
Set Implicit Arguments.
Unset Strict Implicit.

(** ** The tokenize endpoint *)
Lemma rune_count_pos inp : inp <> [] -> (0 < rcount inp)%nat.
Proof.
  intros H. destruct (rcount inp) eqn:E; [|lia]. exfalso. apply H. rewrite <- (text_all inp), E. reflexivity.
Qed.

Lemma no_markers_nonempty d u ideo omit inp mode ts : wf_dict d -> wf_udict u -> inp <> [] ->
  analyze ideo (Tokenizer d u omit) inp mode = Ok ts -> no_markers ts <> [].
Proof.
  intros Hd Hu Hne E. destruct (analyze_final inp ideo mode Hd Hu) as (i & ws & E' & C & I & _). rewrite E' in E. injection E as <-.
  assert (Hws : ws <> []).
  { destruct I as [->|(_ & H & _)]; [|assumption]. intros ->. inversion C. pose proof (rune_count_pos Hne). lia. }
  pose proof (map_final Hd Hu omit (to_lmode mode) surface_free C) as M. intros H. rewrite H in M. cbn [map] in M.
  destruct ws as [|w ws]; [congruence|]. inversion C as [|w0 ws0 j0 Hc Hch]; subst. cbn [flat_map] in M.
  pose proof (candidate_range Hc) as R.
  assert (G : word_tokens (Tokenizer d u omit) inp (to_lmode mode) w <> []).
  { unfold word_tokens. destruct (to_lmode mode); try discriminate. destruct (w_class w); try discriminate.
    intros G. apply map_eq_nil in G. destruct (w_stop w - w_start w)%nat eqn:En; [lia|discriminate]. }
  destruct (word_tokens _ _ _ w); [congruence|discriminate].
Qed.

Lemma collect_ok ts : forall tds acc, Forall2 (fun tk td => new_token_data tk = Ok td) (no_markers ts) tds ->
  collect ts acc = Ok (match tds, acc with [], _ => acc | _, None => Some tds | _, Some l => Some (l ++ tds) end).
Proof.
  induction ts as [|tk ts IH]; intros tds acc H.
  - cbn in H. inversion H. reflexivity.
  - cbn [collect no_markers filter] in *. unfold is_marker at 1 in H. change (t_id tk =? bos_eos_id) with (t_id tk =? -1).
    destruct (t_id tk =? -1); cbn [negb] in H; [apply IH; assumption|].
    inversion H as [|x td l tds' Htd Hl]; subst. rewrite Htd. cbn [rbind]. rewrite (IH tds') by assumption.
    destruct tds', acc; rewrite <- ?app_assoc; reflexivity.
Qed.

Lemma api_mode_ok m mode : request_mode m mode -> api_mode m = mode.
Proof.
  intros [| |m' H1 H2]; [reflexivity|reflexivity|]. unfold api_mode.
  destruct (bytes_eqb m' (s2b "Search")) eqn:E1; [apply bytes_eqb_eq in E1; contradiction|].
  destruct (bytes_eqb m' (s2b "Extended")) eqn:E2; [apply bytes_eqb_eq in E2; contradiction|reflexivity].
Qed.
Lemma request_mode_total m : exists mode, request_mode m mode.
Proof.
  destruct (bytes_eqb m (s2b "Search")) eqn:E1; [apply bytes_eqb_eq in E1; subst; eexists; constructor|].
  destruct (bytes_eqb m (s2b "Extended")) eqn:E2; [apply bytes_eqb_eq in E2; subst; eexists; constructor|].
  eexists. apply rm_normal; intros ->; discriminate.
Qed.

Theorem serve_request d u omit ideo newer decode body sen m mode :
  wf_dict d -> wf_udict u -> wf_data d -> decode body = inl (Request sen m) -> sen <> [] -> request_mode m mode ->
  exists ts tds r, analyze ideo (Tokenizer d u omit) sen mode = Ok ts /\
    serve_tokenize decode newer ideo (Tokenizer d u omit) body = Ok r /\
    rs_status r = 200 /\ rs_type r = s2b "application/json" /\
    Forall2 (fun tk td => new_token_data tk = Ok td) (no_markers ts) tds /\ tds <> [] /\
    json_text (rs_body r) (JObj [(s2b "status", JBool true); (s2b "tokens", JArr (map token_value tds))]).
Proof.
  intros Hd Hu Hw Hdec Hne Hm.
  destruct (analyze_total Hd Hu ideo omit sen mode) as (ts & E).
  destruct (@mapM_forall2 _ _ new_token_data (no_markers ts)) as (tds & _ & Htds).
  { intros tk Hin. apply filter_In in Hin. destruct Hin as [Hin _].
    apply (@c50_no_panic_lemma d u tk Hd Hu Hw). exists ideo, omit, sen, mode, ts. auto. }
  assert (Hn : tds <> []).
  { intros ->. inversion Htds as [H|]. apply (no_markers_nonempty Hd Hu Hne E). congruence. }
  exists ts, tds, (Response 200 json_type (marshal_response newer true (Some tds))).
  split; [assumption|]. split; [|split; [reflexivity|split; [reflexivity|split; [assumption|split; [assumption|]]]]].
  - unfold serve_tokenize. rewrite Hdec. cbn [rq_input rq_mode]. replace (bytes_eqb sen []) with false.
    + rewrite (api_mode_ok Hm), E. cbn [rbind]. rewrite (@collect_ok ts tds None Htds). destruct tds; [congruence|reflexivity].
    + destruct sen; [congruence|reflexivity].
  - exact (response_text newer true (Some tds)).
Qed.
Theorem serve_tokens d u omit ideo newer decode body v sen m mode :
  wf_dict d -> wf_udict u -> wf_data d -> json_decoder decode ->
  begins_with body v -> decoded v = Some (Request sen m) -> sen <> [] -> request_mode m mode ->
  exists ts tds r, analyze ideo (Tokenizer d u omit) sen mode = Ok ts /\
    serve_tokenize decode newer ideo (Tokenizer d u omit) body = Ok r /\
    rs_status r = 200 /\ rs_type r = s2b "application/json" /\
    Forall2 (fun tk td => new_token_data tk = Ok td) (no_markers ts) tds /\ tds <> [] /\
    json_text (rs_body r) (JObj [(s2b "status", JBool true); (s2b "tokens", JArr (map token_value tds))]).
Proof. intros Hd Hu Hw Hdec Hb Hv. specialize (Hdec _ _ Hb). rewrite Hv in Hdec. exact (serve_request omit ideo newer Hd Hu Hw Hdec). Qed.

Theorem serve_empty t ideo newer decode body v m :
  json_decoder decode -> begins_with body v -> decoded v = Some (Request [] m) ->
  exists r, serve_tokenize decode newer ideo t body = Ok r /\ rs_status r = 200 /\ rs_type r = s2b "application/json" /\
    json_text (rs_body r) (JObj [(s2b "status", JBool true); (s2b "tokens", JArr [])]).
Proof.
  intros Hdec Hb Hv. specialize (Hdec _ _ Hb). rewrite Hv in Hdec. unfold serve_tokenize. rewrite Hdec. cbn [rq_input bytes_eqb].
  eexists. split; [reflexivity|]. split; [reflexivity|]. split; [reflexivity|]. cbn [rs_body].
  split; [reflexivity|]. exists 5%nat, []. split; reflexivity.
Qed.

Theorem serve_total d u omit ideo newer decode body : wf_dict d -> wf_udict u -> wf_data d ->
  exists r, serve_tokenize decode newer ideo (Tokenizer d u omit) body = Ok r.
Proof.
  intros Hd Hu Hw. unfold serve_tokenize. destruct (decode body) as [[sen m]|e]; [|eexists; reflexivity]. cbn [rq_input rq_mode].
  destruct (bytes_eqb sen []); [eexists; reflexivity|].
  destruct (analyze_total Hd Hu ideo omit sen (api_mode m)) as (ts & E). rewrite E. cbn [rbind].
  destruct (@mapM_forall2 _ _ new_token_data (no_markers ts)) as (tds & _ & Htds).
  { intros tk Hin. apply filter_In in Hin. destruct Hin as [Hin _].
    apply (@c50_no_panic_lemma d u tk Hd Hu Hw). exists ideo, omit, sen, (api_mode m), ts. auto. }
  rewrite (@collect_ok ts tds None Htds). eexists. reflexivity.
Qed.

(** ** Errors *)
Lemma read_string_plain s rest : Forall (fun b => (32 <= b2n b)%N /\ b <> x22 /\ b <> x5c) s -> read_string (s ++ x22 :: rest) = Some (s, rest).
Proof.
  induction 1 as [|b s (H1 & H2 & H3) _ IH]; [reflexivity|]. cbn [app read_string].
  destruct (Byte.eqb b x22) eqn:E2; [apply Byte.byte_dec_bl in E2; contradiction|].
  destruct (Byte.eqb b x5c) eqn:E3; [apply Byte.byte_dec_bl in E3; contradiction|].
  destruct (N.ltb_spec (b2n b) 32); [lia|]. rewrite IH. reflexivity.
Qed.

Lemma den_plain s : Forall (fun b => (32 <= b2n b)%N /\ b <> x22 /\ b <> x5c) s -> denotes (x22 :: s ++ [x22]) (JStr s).
Proof.
  intros H. exists 1%nat. intros rest _. cbn [app read_value skip_ws]. unfold read_opening. cbn [skip_ws].
  change (Byte.eqb x22 x20 || Byte.eqb x22 x09 || Byte.eqb x22 x0a || Byte.eqb x22 x0d) with false. cbv iota. cbn [skip_ws].
  change (Byte.eqb x22 x20 || Byte.eqb x22 x09 || Byte.eqb x22 x0a || Byte.eqb x22 x0d) with false. cbv iota.
  change (Byte.eqb x22 x22) with true. cbv iota. rewrite <- app_assoc. cbn [app]. rewrite read_string_plain by assumption. reflexivity.
Qed.

Theorem error_json err : plain_text err ->
  json_text (error_body err ++ [x0a]) (JObj [(s2b "status", JBool false); (s2b "error", JStr err)]).
Proof.
  intros [Hv Hp].
  replace (error_body err) with (json_object false [(s2b "status", s2b "false"); (s2b "error", x22 :: err ++ [x22])]).
  - apply denotes_line.
    + refine (@den_object false [(s2b "status", s2b "false"); (s2b "error", x22 :: err ++ [x22])] [_; _] _ _); [|discriminate].
      constructor; [apply den_false|]. constructor; [apply den_plain; assumption|constructor].
    + apply valid_json_object. constructor; [reflexivity|]. constructor; [|constructor]. cbn [snd].
      change (x22 :: err ++ [x22]) with ([x22] ++ err ++ [x22]). apply valid_app; [reflexivity|]. apply valid_app; [assumption|reflexivity].
  - unfold json_object, error_body. cbn [map fst snd join]. rewrite <- !app_assoc. cbn [app].
    change (json_string false (s2b "status")) with (s2b """status"""). change (json_string false (s2b "error")) with (s2b """error""").
    rewrite <- ?app_assoc. cbn. rewrite <- ?app_assoc. reflexivity.
Qed.

Theorem serve_error decode newer ideo t body e : decode body = inr e ->
  exists r, serve_tokenize decode newer ideo t body = Ok r /\ rs_status r = 400 /\ rs_type r = s2b "text/plain; charset=utf-8" /\
    rs_body r = error_body e ++ [x0a].
Proof. intros H. unfold serve_tokenize. rewrite H. eexists. split; [reflexivity|]. repeat split. Qed.

(** What the decoder says of {"sentence" "x"}. *)
Definition quote_error : bytes := s2b "invalid character '""' after object key".
Lemma error_not_json : forall v, ~ json_text (error_body quote_error ++ [x0a]) v.
Proof.
  intros v (_ & f & rest & E & _). apply (@read_value_le _ (f + 6)) in E; [|lia].
  replace (f + 6)%nat with (6 + f)%nat in E by lia. vm_compute in E. discriminate.
Qed.

(** ** A decoder as assumed *)
Lemma skip_ws_len s : (length (skip_ws s) <= length s)%nat.
Proof. induction s as [|c s IH]; [apply le_n|]. cbn [skip_ws]. destruct (_ || _); cbn [length]; lia. Qed.
Lemma read_opening_len b s s' : read_opening b s = Some s' -> (length s' < length s)%nat.
Proof.
  unfold read_opening. pose proof (skip_ws_len s). destruct (skip_ws s) as [|c r]; [discriminate|]. cbn [length] in *.
  destruct (Byte.eqb b c); [|discriminate]. intros [= <-]. lia.
Qed.
Lemma prepend_len p r v s : prepend p r = Some (v, s) -> exists w, r = Some (w, s).
Proof. destruct r as [[w t]|]; [|discriminate]. cbn. intros [= _ <-]. eexists. reflexivity. Qed.
Lemma read_string_len n : forall s v r, (length s <= n)%nat -> read_string s = Some (v, r) -> (length r < length s)%nat.
Proof.
  induction n as [|n IH]; intros s v r Hn H; [destruct s; [discriminate|cbn in Hn; lia]|].
  destruct s as [|b s1]; [discriminate|]. cbn [read_string] in H. cbn [length] in *.
  destruct (Byte.eqb b x22); [injection H as _ <-; lia|].
  destruct (Byte.eqb b x5c).
  - destruct s1 as [|e s2]; [discriminate|]. cbn [length] in *. destruct (Byte.eqb e x75).
    + destruct s2 as [|h1 [|h2 [|h3 [|h4 s3]]]]; try discriminate. cbn [length] in *. destruct (hex4 h1 h2 h3 h4); [|discriminate].
      destruct (_ && _); [discriminate|]. apply prepend_len in H. destruct H as [w H]. apply IH in H; lia.
    + destruct (short_escape e); [|discriminate]. apply prepend_len in H. destruct H as [w H]. apply IH in H; lia.
  - destruct (_ <? _)%N; [discriminate|]. apply prepend_len in H. destruct H as [w H]. apply IH in H; lia.
Qed.
Lemma read_word_len w : forall s r, read_word w s = Some r -> (length r + length w <= length s)%nat.
Proof.
  induction w as [|a w IH]; intros s r H; cbn in H; [injection H as <-; cbn; lia|].
  destruct s as [|b s]; [discriminate|]. destruct (Byte.eqb a b); [|discriminate]. apply IH in H. cbn [length]. lia.
Qed.
Lemma read_digits_len s : forall acc n r, read_digits acc s = (n, r) -> (length r <= length s)%nat.
Proof.
  induction s as [|b s IH]; intros acc n r H; cbn in H; [injection H as _ <-; lia|].
  destruct (digit_value b); [apply IH in H; cbn; lia|injection H as _ <-; lia].
Qed.
Lemma read_nat_len s n r : read_nat s = Some (n, r) -> (length r < length s)%nat.
Proof.
  destruct s as [|b s]; [discriminate|]. cbn [read_nat]. destruct (digit_value b) as [k|]; [|discriminate].
  destruct (read_digits k s) as [m rest] eqn:E. apply read_digits_len in E. destruct (_ && _); [discriminate|].
  destruct rest as [|c rest]; [|destruct (_ || _); [discriminate|]]; intros [= _ <-]; cbn [length] in *; lia.
Qed.
Lemma read_int_len s n r : read_int s = Some (n, r) -> (length r < length s)%nat.
Proof.
  unfold read_int. destruct s as [|b s]; [discriminate|]. destruct (Byte.eqb b x2d).
  - destruct (read_nat s) as [[m t]|] eqn:E; [|discriminate]. intros [= _ <-]. apply read_nat_len in E. cbn. lia.
  - destruct (read_nat (b :: s)) as [[m t]|] eqn:E; [|discriminate]. intros [= _ <-]. apply read_nat_len in E. exact E.
Qed.
Lemma read_len f :
  (forall s v r, read_value f s = Some (v, r) -> (length r < length s)%nat) /\
  (forall s v r, read_elems f s = Some (v, r) -> (length r < length s)%nat) /\
  (forall s v r, read_members f s = Some (v, r) -> (length r < length s)%nat).
Proof.
  induction f as [|f (IHv & IHe & IHm)]; [repeat split; discriminate|]. repeat split.
  - intros s v r H. cbn [read_value] in H. pose proof (skip_ws_len s) as L. set (s0 := skip_ws s) in *.
    destruct (read_opening x22 s0) as [s1|] eqn:E1.
    { apply read_opening_len in E1. destruct (read_string s1) as [[w t]|] eqn:E; [|discriminate]. injection H as _ <-.
      apply (@read_string_len (length s1)) in E; lia. }
    destruct (read_opening x5b s0) as [s1|] eqn:E2.
    { apply read_opening_len in E2. destruct (read_opening x5d s1) as [t|] eqn:E; [apply read_opening_len in E; injection H as _ <-; lia|].
      destruct (read_elems f s1) as [[l t]|] eqn:E3; [|discriminate]. injection H as _ <-. apply IHe in E3. lia. }
    destruct (read_opening x7b s0) as [s1|] eqn:E3.
    { apply read_opening_len in E3. destruct (read_opening x7d s1) as [t|] eqn:E; [apply read_opening_len in E; injection H as _ <-; lia|].
      destruct (read_members f s1) as [[l t]|] eqn:E4; [|discriminate]. injection H as _ <-. apply IHm in E4. lia. }
    destruct (read_word (s2b "null") s0) as [t|] eqn:E4; [apply read_word_len in E4; injection H as _ <-; cbn in E4; lia|].
    destruct (read_word (s2b "true") s0) as [t|] eqn:E5; [apply read_word_len in E5; injection H as _ <-; cbn in E5; lia|].
    destruct (read_word (s2b "false") s0) as [t|] eqn:E6; [apply read_word_len in E6; injection H as _ <-; cbn in E6; lia|].
    destruct (read_int s0) as [[z t]|] eqn:E7; [|discriminate]. injection H as _ <-. apply read_int_len in E7. lia.
  - intros s v r H. cbn [read_elems] in H. destruct (read_value f s) as [[w s1]|] eqn:E; [|discriminate]. apply IHv in E.
    destruct (read_opening x2c s1) as [s2|] eqn:E2.
    + apply read_opening_len in E2. destruct (read_elems f s2) as [[l t]|] eqn:E3; [|discriminate]. injection H as _ <-. apply IHe in E3. lia.
    + destruct (read_opening x5d s1) as [t|] eqn:E3; [|discriminate]. apply read_opening_len in E3. injection H as _ <-. lia.
  - intros s v r H. cbn [read_members] in H. destruct (read_opening x22 s) as [s1|] eqn:E1; [|discriminate]. apply read_opening_len in E1.
    destruct (read_string s1) as [[k s2]|] eqn:E2; [|discriminate]. apply (@read_string_len (length s1)) in E2; [|lia].
    destruct (read_opening x3a s2) as [s3|] eqn:E3; [|discriminate]. apply read_opening_len in E3.
    destruct (read_value f s3) as [[w s4]|] eqn:E4; [|discriminate]. apply IHv in E4.
    destruct (read_opening x2c s4) as [s5|] eqn:E5.
    + apply read_opening_len in E5. destruct (read_members f s5) as [[l t]|] eqn:E6; [|discriminate]. injection H as _ <-. apply IHm in E6. lia.
    + destruct (read_opening x7d s4) as [t|] eqn:E6; [|discriminate]. apply read_opening_len in E6. injection H as _ <-. lia.
Qed.
Lemma read_elems_le f g s r : (f <= g)%nat -> read_elems f s = Some r -> read_elems g s = Some r.
Proof. intros H E. induction H as [|g H IH]; [assumption|]. apply (proj1 (proj2 (read_mono g))). assumption. Qed.
Lemma read_members_le f g s r : (f <= g)%nat -> read_members f s = Some r -> read_members g s = Some r.
Proof. intros H E. induction H as [|g H IH]; [assumption|]. apply (proj2 (proj2 (read_mono g))). assumption. Qed.
(** Twice the length is fuel enough. *)
Lemma read_enough f :
  (forall s r, read_value f s = Some r -> read_value (2 * length s + 1) s = Some r) /\
  (forall s r, read_elems f s = Some r -> read_elems (2 * length s + 2) s = Some r) /\
  (forall s r, read_members f s = Some r -> read_members (2 * length s + 2) s = Some r).
Proof.
  induction f as [|f (IHv & IHe & IHm)]; [repeat split; discriminate|]. repeat split.
  - intros s r H. replace (2 * length s + 1)%nat with (S (2 * length s)) by lia. cbn [read_value] in *.
    pose proof (skip_ws_len s) as L. set (s0 := skip_ws s) in *.
    destruct (read_opening x22 s0); [assumption|].
    destruct (read_opening x5b s0) as [s1|] eqn:E1.
    { apply read_opening_len in E1. destruct (read_opening x5d s1); [assumption|]. destruct (read_elems f s1) as [[l r']|] eqn:E; [|discriminate].
      apply IHe in E. apply (@read_elems_le _ (2 * length s)) in E; [|lia]. rewrite E. assumption. }
    destruct (read_opening x7b s0) as [s1|] eqn:E2; [|assumption].
    apply read_opening_len in E2. destruct (read_opening x7d s1); [assumption|]. destruct (read_members f s1) as [[l r']|] eqn:E; [|discriminate].
    apply IHm in E. apply (@read_members_le _ (2 * length s)) in E; [|lia]. rewrite E. assumption.
  - intros s r H. replace (2 * length s + 2)%nat with (S (2 * length s + 1)) by lia. cbn [read_elems] in *.
    destruct (read_value f s) as [[v s1]|] eqn:E; [|discriminate]. pose proof (proj1 (read_len f) _ _ _ E) as L. rewrite (IHv _ _ E).
    destruct (read_opening x2c s1) as [s2|] eqn:E2; [|assumption]. apply read_opening_len in E2.
    destruct (read_elems f s2) as [[l r']|] eqn:E3; [|discriminate]. apply IHe in E3. apply (@read_elems_le _ (2 * length s + 1)) in E3; [|lia].
    rewrite E3. assumption.
  - intros s r H. replace (2 * length s + 2)%nat with (S (2 * length s + 1)) by lia. cbn [read_members] in *.
    destruct (read_opening x22 s) as [s1|] eqn:E0; [|discriminate]. apply read_opening_len in E0.
    destruct (read_string s1) as [[k s2]|] eqn:E1; [|discriminate]. apply (@read_string_len (length s1)) in E1; [|lia].
    destruct (read_opening x3a s2) as [s3|] eqn:E3; [|discriminate]. apply read_opening_len in E3.
    destruct (read_value f s3) as [[v s4]|] eqn:E; [|discriminate]. pose proof (proj1 (read_len f) _ _ _ E) as L.
    apply IHv in E. apply (@read_value_le _ (2 * length s + 1)) in E; [|lia]. rewrite E.
    destruct (read_opening x2c s4) as [s5|] eqn:E5; [|assumption]. apply read_opening_len in E5.
    destruct (read_members f s5) as [[l r']|] eqn:E6; [|discriminate]. apply IHm in E6. apply (@read_members_le _ (2 * length s + 1)) in E6; [|lia].
    rewrite E6. assumption.
Qed.

Definition example_decoder (e : bytes) (body : bytes) : request + bytes :=
  if valid_utf8 body then
    match read_value (2 * length body + 1) body with
    | Some (v, _) => match decoded v with Some r => inl r | None => inr e end
    | None => inr e
    end
  else inr e.
Lemma example_decoder_ok e : json_decoder (example_decoder e).
Proof.
  intros body v (Hv & (f & rest & E) & _). unfold example_decoder. rewrite Hv, (proj1 (read_enough f) _ _ E).
  destruct (decoded v); [reflexivity|eexists; reflexivity].
Qed.

(** ** The demo page *)
Lemma page_mode_ok m mode : page_mode m mode -> demo_mode m = mode.
Proof.
  intros [| |m' H1 H2]; [reflexivity|reflexivity|]. unfold demo_mode.
  destruct (bytes_eqb m' (s2b "Search")) eqn:E1; [apply bytes_eqb_eq in E1; contradiction|].
  destruct (bytes_eqb m' (s2b "Extended")) eqn:E2; [apply bytes_eqb_eq in E2; contradiction|reflexivity].
Qed.
Lemma new_record_ok d u tk : wf_dict d -> wf_udict u -> wf_data d -> from_analyze d u tk -> exists r, new_record tk = Ok r /\ row tk r.
Proof.
  intros Hd Hu Hw F. destruct (c24_token_data_lemma Hd Hu Hw F) as (td & fs & ps & b & r & p & _ & _ & Eps & Eb & Er & Ep & _).
  unfold new_record. rewrite Eps, Eb, Er, Ep. cbn [rbind]. eexists. split; [reflexivity|].
  exists ps, b, r, p. repeat (split; [first [assumption|reflexivity]|]). cbn [rc_pos rc_base rc_reading rc_pron]. split; [|repeat split].
  destruct (bytes_eqb _ []) eqn:E; [apply bytes_eqb_eq in E; right; auto|left; split; [reflexivity|]]. intros H. rewrite H in E. discriminate.
Qed.
Lemma to_records_ok d u ts : wf_dict d -> wf_udict u -> wf_data d -> (forall tk, In tk ts -> from_analyze d u tk) ->
  exists rs, to_records (map without_index_position ts) = Ok rs /\ Forall2 row (no_markers ts) rs.
Proof.
  intros Hd Hu Hw. induction ts as [|tk ts IH]; intros H; [exists []; split; [reflexivity|constructor]|].
  destruct IH as (rs & E & HF); [intros; apply H; right; assumption|].
  destruct (new_record_ok Hd Hu Hw (H tk (or_introl eq_refl))) as (r & Er & Hr).
  cbn [map to_records no_markers filter]. unfold is_marker at 1. change (t_id (without_index_position tk)) with (t_id tk). change bos_eos_id with (-1).
  destruct (t_id tk =? -1); cbn [negb]; [exists rs; auto|].
  change (new_record (without_index_position tk)) with (new_record tk). rewrite Er. cbn [rbind]. rewrite E. cbn [rbind].
  exists (r :: rs). split; [reflexivity|constructor; assumption].
Qed.

Lemma str_index_ok pat s :
  match str_index pat s with
  | Some n => exists p q, s = p ++ pat ++ q /\ length p = n /\ forall p' q', s = p' ++ pat ++ q' -> (n <= length p')%nat
  | None => forall p q, s <> p ++ pat ++ q
  end.
Proof.
  induction s as [|c s IH]; cbn [str_index].
  - destruct (bytes_eqb (firstn (length pat) []) pat) eqn:E.
    + apply bytes_eqb_eq in E. rewrite firstn_nil in E. subst pat. exists [], []. repeat split. intros; lia.
    + intros p q H. destruct p; [|discriminate]. cbn [app] in H. destruct pat; [discriminate|discriminate].
  - destruct (bytes_eqb (firstn (length pat) (c :: s)) pat) eqn:E.
    + apply bytes_eqb_eq in E. exists [], (skipn (length pat) (c :: s)). cbn [app]. split; [|split; [reflexivity|intros; lia]].
      rewrite <- E at 1. symmetry. apply firstn_skipn.
    + assert (Hn : forall q, c :: s <> pat ++ q).
      { intros q H. rewrite H in E. rewrite firstn_app, Nat.sub_diag, firstn_all, app_nil_r in E.
        assert (bytes_eqb pat pat = true) by (apply bytes_eqb_eq; reflexivity). congruence. }
      destruct (str_index pat s) as [n|]; cbn [option_map].
      * destruct IH as (p & q & -> & Hp & Hm). exists (c :: p), q. split; [reflexivity|]. split; [cbn; congruence|].
        intros p' q' H. destruct p' as [|c' p']; [exfalso; exact (Hn _ H)|]. injection H as <- H. apply Hm in H. cbn. lia.
      * intros p q H. destruct p as [|c' p]; [exact (Hn _ H)|]. injection H as <- H. exact (IH _ _ H).
Qed.
Lemma svg_part_ok s : from_svg s (svg_part s).
Proof.
  unfold svg_part. pose proof (str_index_ok (s2b "<svg") s) as H. destruct (str_index (s2b "<svg") s) as [n|].
  - destruct H as (p & q & -> & <- & Hm).
    match goal with |- from_svg _ ?t => replace t with (s2b "<svg" ++ q) end.
    + left. exists p. split; [reflexivity|]. split; [eexists; reflexivity|]. exact Hm.
    + destruct p; [reflexivity|]. cbn [length Nat.ltb Nat.leb]. rewrite skipn_app, Nat.sub_diag, skipn_all2 by (cbn; lia). reflexivity.
  - right. split; [reflexivity|assumption].
Qed.

Theorem demo_page dot addr d u omit ideo sen m mode : wf_dict d -> wf_udict u -> wf_data d -> page_mode m mode ->
  exists ts g rs svg, analyze ideo (Tokenizer d u false) sen mode = Ok ts /\
    graph_text addr ideo (Tokenizer d u omit) sen mode = Ok g /\
    serve_demo dot addr ideo (Tokenizer d u omit) sen m = Ok (rs, svg) /\
    Forall2 row (no_markers ts) rs /\ from_svg (dot g) svg.
Proof.
  intros Hd Hu Hw Hm. unfold serve_demo, demo_graph. rewrite (page_mode_ok Hm).
  destruct (analyze_total Hd Hu ideo false sen mode) as (ts & E).
  assert (exists g, graph_text addr ideo (Tokenizer d u omit) sen mode = Ok g) as (g & Eg).
  { destruct (c18_closed_lemma omit ideo sen mode Hd Hu Hw) as (ss & Es & _). unfold graph_text. rewrite Es. eexists. reflexivity. }
  destruct (@to_records_ok d u ts Hd Hu Hw) as (rs & Er & HF); [intros tk Hin; exists ideo, false, sen, mode, ts; auto|].
  exists ts, g, rs, (svg_part (dot g)). split; [assumption|]. split; [assumption|]. split; [|split; [assumption|apply svg_part_ok]].
  rewrite Eg. cbn [rbind]. rewrite analyze_graph_tokens, E. cbn [rbind]. rewrite Er. reflexivity.
Qed.

(** ** The demo page's process *)
Lemma dot_writes_ok addr ss : concat (dot_writes addr ss) = dot_text addr ss.
Proof. unfold dot_writes, dot_text, header. cbn [app concat]. rewrite concat_app. cbn [concat]. rewrite app_nil_r, <- !app_assoc. reflexivity. Qed.

Lemma many_trans S (step : S -> S -> Prop) a b c : many step a b -> many step b c -> many step a c.
Proof. induction 1; [auto|]. intros H1. econstructor; eauto. Qed.
Lemma many_one S (step : S -> S -> Prop) a b : step a b -> many step a b.
Proof. intros H. econstructor; [exact H|constructor]. Qed.

Lemma hangs cap buf n m l : (1 <= cap)%nat -> (1 <= buf)%nat -> (1 <= n)%nat -> (1 <= m)%nat ->
  exists s, many (demo_step cap buf) (demo_start (n :: m :: l)) s /\ stuck (demo_step cap buf) s /\ dm_p s = PGone /\ dm_h s <> HDone.
Proof.
  intros Hc Hb Hn Hm.
  assert (St : forall k l, (1 <= k)%nat -> stuck (demo_step cap buf) (Demo (HWriting k l) (CEnded false) 0 PGone)).
  { intros k l0 Hk t H. inversion H; lia. }
  assert (R : many (demo_step cap buf) (demo_start (n :: m :: l)) (Demo (HWriting (n - buf) (m :: l)) (CEnded false) 0 PGone)).
  { unfold demo_start. eapply many_step; [constructor|]. eapply many_step; [apply ds_move; lia|]. eapply many_step; [apply ds_exit|].
    eapply many_step; [apply ds_epipe|]. constructor. }
  destruct (n - buf)%nat as [|k] eqn:E.
  - exists (Demo (HWriting m l) (CEnded false) 0 PGone). split; [|split; [apply St; assumption|split; [reflexivity|discriminate]]].
    eapply many_trans; [exact R|]. apply many_one. constructor.
  - exists (Demo (HWriting (S k) (m :: l)) (CEnded false) 0 PGone). split; [assumption|split; [apply St; lia|split; [reflexivity|discriminate]]].
Qed.

(** *** Every execution is finite *)
Definition sum (l : list nat) : nat := fold_right Nat.add 0%nat l.
Definition h_bytes (h : handler) : nat := match h with HWriting n l => n + sum l | _ => 0 end.
Definition h_rank (h : handler) : nat := match h with HWriting _ l => 2 + length l | HWaiting => 1 | HDone => 0 end.
Definition c_bytes (c : copier) : nat := match c with CWriting n => n | _ => 0 end.
Definition c_rank (c : copier) : nat := match c with CEnded _ => 0 | _ => 1 end.
Definition rank (s : demo) : nat :=
  6 * h_bytes (dm_h s) + h_rank (dm_h s) + 4 * c_bytes (dm_c s) + c_rank (dm_c s) + 2 * dm_fill s + (match dm_p s with PRunning => 1 | PGone => 0 end).
Lemma rank_step cap buf s t : demo_step cap buf s t -> (rank t < rank s)%nat.
Proof.
  intros H. inversion H; subst; unfold rank; cbn [dm_h dm_c dm_fill dm_p h_bytes h_rank c_bytes c_rank sum fold_right length]; try fold (sum l); try lia.
  destruct (n - k =? 0)%nat eqn:E; cbn [c_bytes c_rank]; lia.
Qed.
Lemma finite_by {S} (step : S -> S -> Prop) (r : S -> nat) : (forall s t, step s t -> (r t < r s)%nat) -> no_infinite step.
Proof.
  intros H f Hf. assert (G : forall n i, (r (f i) <= n)%nat -> False); [|exact (G (r (f 0%nat)) 0%nat (le_n _))].
  induction n as [|n IH]; intros i Hi; specialize (H _ _ (Hf i)); [lia|]. apply (IH (Datatypes.S i)). lia.
Qed.
Theorem demo_finite cap buf : no_infinite (demo_step cap buf).
Proof. apply finite_by with (r := rank). apply rank_step. Qed.

(** *** Where executions end *)
Definition inv (s : demo) : Prop :=
  (dm_c s = CEnded false -> dm_p s = PGone) /\ (dm_c s = CEnded true -> dm_h s = HWaiting \/ dm_h s = HDone) /\
  (forall n, dm_c s = CWriting n -> (1 <= n)%nat) /\ (dm_h s = HDone -> dm_p s = PGone /\ exists ok, dm_c s = CEnded ok).
Lemma inv_step cap buf s t : demo_step cap buf s t -> inv s -> inv t.
Proof.
  intros H (I1 & I2 & I3 & I4). inversion H; subst; unfold inv; cbn [dm_h dm_c dm_fill dm_p] in *.
  - split; [exact I1|]. split; [intros E; destruct (I2 E); discriminate|]. split; [exact I3|discriminate].
  - split; [exact I1|]. split; [left; reflexivity|]. split; [exact I3|discriminate].
  - split; [discriminate|]. split; [discriminate|]. split; [intros n0 [= <-]; lia|discriminate].
  - split; [discriminate|]. split; [left; reflexivity|]. split; [discriminate|discriminate].
  - split; [destruct (_ =? _)%nat; discriminate|]. split; [destruct (_ =? _)%nat; discriminate|].
    split; [destruct (n - k =? 0)%nat eqn:E; [discriminate|intros n0 [= <-]; lia]|].
    intros E. destruct (I4 E); discriminate.
  - split; [reflexivity|]. split; [discriminate|]. split; [discriminate|]. intros E. destruct (I4 E) as [_ [ok X]]; discriminate.
  - split; [exact I1|]. split; [exact I2|]. split; [exact I3|exact I4].
  - split; [reflexivity|]. split; [exact I2|]. split; [exact I3|]. intros E. destruct (I4 E); discriminate.
  - split; [reflexivity|]. split; [right; reflexivity|]. split; [discriminate|]. intros _. split; [reflexivity|eexists; reflexivity].
Qed.
Lemma inv_start writes : inv (demo_start writes).
Proof. split; [discriminate|]. split; [discriminate|]. split; discriminate. Qed.
Lemma inv_many cap buf s t : many (demo_step cap buf) s t -> inv s -> inv t.
Proof. induction 1; [auto|]. intros Hi. apply IHmany. eapply inv_step; eassumption. Qed.

Theorem demo_ends cap buf writes s : (1 <= buf)%nat -> many (demo_step cap buf) (demo_start writes) s -> stuck (demo_step cap buf) s ->
  dm_p s = PGone /\ (dm_h s = HDone \/ dm_c s = CEnded false /\ exists n l, dm_h s = HWriting n l /\ (1 <= n)%nat).
Proof.
  intros Hb H St. apply inv_many in H; [|apply inv_start]. destruct H as (I1 & I2 & I3 & I4). destruct s as [h c f p]. cbn [dm_h dm_c dm_fill dm_p] in *.
  destruct p; [exfalso; eapply St; apply ds_exit|]. split; [reflexivity|].
  destruct c as [|n|[|]].
  - exfalso. destruct h as [[|n] [|m l]| |]; try (eapply St; constructor; lia). destruct (I4 eq_refl) as [_ [ok X]]; discriminate.
  - exfalso. eapply St. apply ds_epipe.
  - destruct (I2 eq_refl) as [->| ->]; [exfalso; eapply St; apply ds_wait|left; reflexivity].
  - destruct h as [[|n] l| |].
    + exfalso. destruct l; eapply St; constructor.
    + right. split; [reflexivity|]. exists (S n), l. split; [reflexivity|lia].
    + exfalso. eapply St. apply ds_wait.
    + left. reflexivity.
Qed.

Theorem reads_all_finite cap buf : no_infinite (reads_all cap buf).
Proof. apply finite_by with (r := rank). intros s t [H _]. eapply rank_step; exact H. Qed.
Definition inv_all (s : demo) : Prop := dm_p s = PGone -> (dm_h s = HWaiting \/ dm_h s = HDone) /\ dm_c s = CEnded true.
Lemma inv_all_many cap buf s t : many (reads_all cap buf) s t -> inv s /\ inv_all s -> inv t /\ inv_all t.
Proof.
  induction 1 as [|s t v [H Hg] _ IH]; [auto|]. intros [Hi Ha]. apply IH. split; [eapply inv_step; eassumption|]. clear IH.
  intros E. destruct (dm_p s) eqn:Es.
  - destruct (Hg eq_refl E) as (X & Y & _). inversion H; subst; cbn [dm_h dm_c dm_p] in *; try congruence. split; [left; assumption|assumption].
  - destruct (Ha Es) as [X Y]. inversion H; subst; cbn [dm_h dm_c dm_p] in *; try discriminate;
      try (destruct X; discriminate). split; [right; reflexivity|assumption].
Qed.
Theorem reads_all_ends cap buf writes s : (1 <= cap)%nat -> (1 <= buf)%nat -> many (reads_all cap buf) (demo_start writes) s -> stuck (reads_all cap buf) s ->
  dm_h s = HDone /\ dm_c s = CEnded true.
Proof.
  intros Hc Hb H St. apply inv_all_many in H; [|split; [apply inv_start|discriminate]].
  destruct H as ((I1 & I2 & I3 & I4) & Ia). unfold inv_all in Ia. destruct s as [h c f p]. cbn [dm_h dm_c dm_fill dm_p] in *.
  destruct p.
  - exfalso.
    assert (St' : forall t, demo_step cap buf (Demo h c f PRunning) t -> dm_p t = PRunning -> False).
    { intros t Ht E. apply (St t). split; [assumption|]. intros _ X. congruence. }
    destruct c as [|n|[|]].
    + destruct h as [[|n] [|m l]| |].
      * eapply St'; [apply ds_close|reflexivity].
      * eapply St'; [apply ds_next|reflexivity].
      * eapply St'; [apply ds_move; lia|reflexivity].
      * eapply St'; [apply ds_move; lia|reflexivity].
      * eapply St'; [apply ds_eof|reflexivity].
      * destruct (I4 eq_refl); discriminate.
    + specialize (I3 _ eq_refl). destruct f as [|f].
      * eapply St'; [apply (@ds_copy cap buf h n 1 0); lia|reflexivity].
      * eapply St'; [apply (@ds_read cap buf h _ (S f) 1); lia|reflexivity].
    + destruct f as [|f]; [|eapply St'; [apply (@ds_read cap buf h _ (S f) 1); lia|reflexivity]].
      destruct (I2 eq_refl) as [->| ->]; [|destruct (I4 eq_refl); discriminate].
      eapply St. split; [apply ds_exit|]. intros _ _. cbn. auto.
    + specialize (I1 eq_refl). discriminate.
  - destruct (Ia eq_refl) as [X ->]. destruct X as [->| ->]; [|auto]. exfalso. eapply St. split; [apply ds_wait|]. intros E; discriminate.
Qed.

(** ** The server command *)
Definition sinv (s : serve) : Prop :=
  (sv_main s = MReturn false -> sv_cancelled s = true) /\ (sv_main s = MReturn true <-> sv_l s = LSent).
Lemma sinv_many s t : many serve_step s t -> sinv s -> sinv t.
Proof.
  induction 1 as [|s t v H _ IH]; [auto|]. intros (I1 & I2 & I3). apply IH. clear IH. inversion H; subst; unfold sinv; cbn [sv_main sv_l sv_cancelled] in *.
  - split; [reflexivity|split; assumption].
  - split; [assumption|]. split; [intros X; specialize (I2 X); discriminate|discriminate].
  - split; [assumption|]. split; [intros X; specialize (I2 X); discriminate|discriminate].
  - split; [reflexivity|]. split; [discriminate|]. intros X. specialize (I3 X). discriminate.
  - split; [discriminate|]. split; reflexivity.
Qed.
Theorem serve_returns s : many serve_step serve_start s ->
  (sv_main s = MReturn false -> sv_cancelled s = true) /\
  (sv_main s = MReturn true -> sv_l s = LSent) /\
  (sv_main s = MSelect -> sv_cancelled s = true -> exists t, serve_step s t /\ sv_main t = MReturn false) /\
  (sv_main s = MSelect -> sv_l s = LFailed -> exists t, serve_step s t /\ sv_main t = MReturn true) /\
  (sv_main s = MSelect -> sv_cancelled s = false -> sv_l s = LServing -> forall t, serve_step s t -> sv_main t = MSelect).
Proof.
  intros H. apply sinv_many in H; [|split; [discriminate|split; discriminate]]. destruct H as (I1 & I2 & I3). destruct s as [m l c n]. cbn [sv_main sv_l sv_cancelled] in *.
  split; [assumption|]. split; [assumption|]. split; [|split].
  - intros -> ->. eexists. split; [apply ss_done|reflexivity].
  - intros -> ->. eexists. split; [apply ss_error|reflexivity].
  - intros -> -> -> t Ht. inversion Ht; subst; reflexivity.
Qed.
Theorem serves_on k : exists s t, many serve_step serve_start s /\ sv_main s = MReturn false /\ many serve_step s t /\ sv_answered t = (sv_answered s + k)%nat.
Proof.
  exists (Serve (MReturn false) LServing true 0), (Serve (MReturn false) LServing true k).
  split; [|split; [reflexivity|split; [|reflexivity]]].
  - eapply many_step; [apply ss_cancel|]. apply many_one. apply ss_done.
  - assert (G : forall k j, many serve_step (Serve (MReturn false) LServing true j) (Serve (MReturn false) LServing true (j + k))).
    { clear. induction k as [|k IH]; intros j; [rewrite Nat.add_0_r; constructor|]. replace (j + S k)%nat with (S j + k)%nat by lia.
      eapply many_step; [apply ss_answer|apply IH]. }
    exact (G k 0%nat).
Qed.
Theorem listener_blocked : exists s, many serve_step serve_start s /\ sv_main s = MReturn false /\ sv_l s = LFailed /\ stuck serve_step s.
Proof.
  exists (Serve (MReturn false) LFailed true 0). split; [|split; [reflexivity|split; [reflexivity|intros t H; inversion H]]].
  eapply many_step; [apply ss_cancel|]. eapply many_step; [apply ss_done|]. apply many_one. apply ss_fail.
Qed.

(** ** Modes *)
Theorem other_modes decode newer ideo t b1 b2 v1 v2 sen m1 m2 : json_decoder decode -> begins_with b1 v1 -> begins_with b2 v2 ->
  decoded v1 = Some (Request sen m1) -> decoded v2 = Some (Request sen m2) ->
  ~ In m1 [s2b "Search"; s2b "Extended"] -> ~ In m2 [s2b "Search"; s2b "Extended"] ->
  serve_tokenize decode newer ideo t b1 = serve_tokenize decode newer ideo t b2.
Proof.
  intros Hdec H1 H2 E1 E2 N1 N2. pose proof (Hdec _ _ H1) as D1. pose proof (Hdec _ _ H2) as D2. rewrite E1 in D1. rewrite E2 in D2.
  unfold serve_tokenize. rewrite D1, D2. cbn [rq_input rq_mode].
  assert (G : forall m, ~ In m [s2b "Search"; s2b "Extended"] -> api_mode m = mode_normal).
  { intros m N. apply api_mode_ok. apply rm_normal; intros ->; apply N; [left|right; left]; reflexivity. }
  rewrite !G by assumption. reflexivity.
Qed.

(** ** Examples *)
Definition ex_body (sen mode : string) : bytes := s2b "{""sentence"": """ ++ s2b sen ++ s2b """, ""MODE"":""" ++ s2b mode ++ s2b """ } x".
Definition ex_response (sen mode : string) : res response :=
  serve_tokenize (example_decoder quote_error) false ex_ideo (Tokenizer ex_dict (Some ex_udict) false) (ex_body sen mode).
Definition ex_body_value (sen mode : string) : json := JObj [(s2b "sentence", JStr (s2b sen)); (s2b "MODE", JStr (s2b mode))].
Theorem graph_hangs cap buf addr ss : (1 <= cap)%nat -> (1 <= buf)%nat ->
  exists s, many (demo_step cap buf) (demo_start (map (@length byte) (dot_writes addr ss))) s /\
    stuck (demo_step cap buf) s /\ dm_p s = PGone /\ dm_h s <> HDone.
Proof. intros Hc Hb. unfold dot_writes. cbn [app map]. apply hangs; [assumption|assumption|cbn; lia|cbn; lia]. Qed.
Theorem error_refuted : exists e, forall decode newer ideo t body, decode body = inr e ->
  exists r, serve_tokenize decode newer ideo t body = Ok r /\ rs_type r = s2b "text/plain; charset=utf-8" /\ forall v, ~ json_text (rs_body r) v.
Proof.
  exists quote_error. intros decode newer ideo t body H. destruct (serve_error newer ideo t H) as (r & E & _ & Ht & Hb).
  exists r. split; [assumption|]. split; [assumption|]. rewrite Hb. apply error_not_json.
Qed.
Theorem error_answers : forall decode newer ideo t body e, decode body = inr e ->
  exists r, serve_tokenize decode newer ideo t body = Ok r /\ rs_status r = 400 /\
    (plain_text e -> json_text (rs_body r) (JObj [(s2b "status", JBool false); (s2b "error", JStr e)])).
Proof.
  intros decode newer ideo t body e H. destruct (serve_error newer ideo t H) as (r & E & Hs & _ & Hb).
  exists r. split; [assumption|]. split; [assumption|]. rewrite Hb. apply error_json.
Qed.
Lemma response_test_ok x y : test_eq (rs_status x, rs_type x, rs_body x) (rs_status y, rs_type y, rs_body y) = true <-> x = y.
Proof. rewrite test_eq_ok. destruct x, y; cbn. split; congruence. Qed.
#[export] Instance Eqb_response : Eqb response := {| test_eq := fun x y => test_eq (rs_status x, rs_type x, rs_body x) (rs_status y, rs_type y, rs_body y); test_eq_ok := response_test_ok |}.
Lemma record_test_ok x y : test_eq (rc_surface x, rc_pos x, rc_base x, rc_reading x, rc_pron x) (rc_surface y, rc_pos y, rc_base y, rc_reading y, rc_pron y) = true <-> x = y.
Proof. rewrite test_eq_ok. destruct x, y; cbn. split; congruence. Qed.
#[export] Instance Eqb_record : Eqb record := {| test_eq := fun x y => test_eq (rc_surface x, rc_pos x, rc_base x, rc_reading x, rc_pron x) (rc_surface y, rc_pos y, rc_base y, rc_reading y, rc_pron y); test_eq_ok := record_test_ok |}.
Theorem reads_all_answers cap buf : (1 <= cap)%nat -> (1 <= buf)%nat ->
  no_infinite (reads_all cap buf) /\
  forall writes s, many (reads_all cap buf) (demo_start writes) s -> stuck (reads_all cap buf) s -> dm_h s = HDone /\ dm_c s = CEnded true.
Proof. intros Hc Hb. split; [apply reads_all_finite|]. intros writes s. apply reads_all_ends; assumption. Qed.
Lemma reads_all_example : exists s, many (reads_all 2 3) (demo_start [4; 1]%nat) s /\ dm_h s = HDone.
Proof.
  eexists. split.
  - unfold demo_start.
    Ltac quiet_step H := eapply many_step; [split; [H|intros _ X; discriminate X]|]; cbn [Nat.sub Nat.min Nat.eqb Nat.add].
    quiet_step ltac:(apply ds_next). quiet_step ltac:(apply ds_move; lia).
    quiet_step ltac:(apply (@ds_copy 2 3 _ 3 2 0); lia). quiet_step ltac:(apply (@ds_read 2 3 _ _ 2 2); lia).
    quiet_step ltac:(apply (@ds_copy 2 3 _ 1 1 0); lia). quiet_step ltac:(apply ds_move; lia).
    quiet_step ltac:(apply (@ds_copy 2 3 _ 1 1 1); lia). quiet_step ltac:(apply ds_next).
    quiet_step ltac:(apply ds_move; lia). quiet_step ltac:(apply ds_close).
    quiet_step ltac:(apply (@ds_read 2 3 _ _ 2 2); lia). quiet_step ltac:(apply (@ds_copy 2 3 _ 1 1 0); lia).
    quiet_step ltac:(apply (@ds_read 2 3 _ _ 1 1); lia). quiet_step ltac:(apply ds_eof).
    eapply many_step; [split; [apply ds_exit|intros _ _; repeat split]|].
    eapply many_step; [split; [apply ds_wait|intros X; discriminate X]|]. constructor.
  - reflexivity.
Qed.
