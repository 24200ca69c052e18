(** The tokenize endpoint with the decoder of [Decode]. *)
From Verif Require Export DecodeErrors.
From Verif Require Import FilterFacts JsonFacts Utf8Facts SpecCmd TokFacts AnalyzeFacts TokenFacts ServerFacts.
From Coq Require Import ZifyBool ZifyN.
Set Implicit Arguments.
Unset Strict Implicit.
Open Scope N_scope.

Theorem asked_tokens pr d u omit ideo newer body sen m mode :
  wf_dict d -> wf_udict u -> wf_data d -> body_asks body (Request sen m) -> sen <> [] -> request_mode m mode ->
  exists ts tds r, analyze ideo (Tokenizer d u omit) sen mode = Ok ts /\
    serve_tokenize (the_decoder pr) newer ideo (Tokenizer d u omit) body = Ok r /\
    rs_status r = 200%Z /\ rs_type r = s2b "application/json" /\
    Forall2 (fun tk td => new_token_data tk = Ok td) (no_markers ts) tds /\ tds <> [] /\
    json_text (rs_body r) (JObj [(s2b "status", JBool true); (s2b "tokens", JArr (map token_value tds))]).
Proof. intros Hd Hu Hw A. apply (proj2 (decode_asks pr _ _)) in A. exact (serve_request omit ideo newer Hd Hu Hw A). Qed.
Theorem asked_empty pr t ideo newer body m : body_asks body (Request [] m) ->
  exists r, serve_tokenize (the_decoder pr) newer ideo t body = Ok r /\ rs_status r = 200%Z /\ rs_type r = s2b "application/json" /\
    json_text (rs_body r) (JObj [(s2b "status", JBool true); (s2b "tokens", JArr [])]).
Proof.
  intros A. apply (proj2 (decode_asks pr _ _)) in A. unfold serve_tokenize. rewrite A. cbn [rq_input bytes_eqb].
  eexists. split; [reflexivity|]. split; [reflexivity|]. split; [reflexivity|]. cbn [rs_body].
  split; [reflexivity|]. exists 5%nat, []. split; reflexivity.
Qed.
Theorem not_asked pr newer ideo t body : (forall r, ~ body_asks body r) ->
  exists r, serve_tokenize (the_decoder pr) newer ideo t body = Ok r /\ rs_status r = 400%Z /\ rs_type r = s2b "text/plain; charset=utf-8".
Proof.
  intros N. unfold serve_tokenize. destruct (the_decoder pr body) as [r|e] eqn:Q; [apply decode_asks in Q; destruct (N _ Q)|]. eexists. split; [reflexivity|split; reflexivity].
Qed.
Theorem asks_one body r1 r2 : body_asks body r1 -> body_asks body r2 -> r1 = r2.
Proof. intros A1 A2. apply (proj2 (decode_asks (fun _ => true) _ _)) in A1, A2. congruence. Qed.

(** ** The sentence is UTF-8 *)
Lemma encoded_valid r : valid_utf8 (encode_rune r) = true.
Proof.
  destruct (r <? 128) eqn:A; [unfold encode_rune; rewrite A; apply valid_ascii; constructor; [rewrite b2n_n2b; lia|constructor]|].
  pose proof (N.div_mod' r 64) as E1. pose proof (N.mod_lt r 64 ltac:(discriminate)) as L1.
  pose proof (N.div_mod' (r / 64) 64) as E2. pose proof (N.mod_lt (r / 64) 64 ltac:(discriminate)) as L2. rewrite N.div_div in E2 by discriminate. change (64 * 64) with 4096 in E2.
  pose proof (N.div_mod' (r / 4096) 64) as E3. pose proof (N.mod_lt (r / 4096) 64 ltac:(discriminate)) as L3. rewrite N.div_div in E3 by discriminate. change (4096 * 64) with 262144 in E3.
  unfold encode_rune. rewrite A. remember (r mod 64) as m1 eqn:M1. remember (r / 64 mod 64) as m2 eqn:M2. remember (r / 4096 mod 64) as m3 eqn:M3. clear M1 M2 M3.
  remember (r / 64) as q1 eqn:Q1. remember (r / 4096) as q2 eqn:Q2. remember (r / 262144) as q3 eqn:Q3. clear Q1 Q2 Q3. 
  destruct (r <? 2048) eqn:B.
  { eapply valid_seg; [discriminate| |intros (_ & Z); discriminate Z]. unfold decode_rune, in_range. rewrite !b2n_n2b by lia.
    replace (192 + q1 <? 128) with false by lia. replace (192 + q1 <? 194) with false by lia. replace (192 + q1 <? 224) with true by lia.
    replace ((128 <=? 128 + m1) && (128 + m1 <=? 191)) with true by lia. reflexivity. }
  destruct (((55296 <=? r) && (r <=? 57343)) || (1114111 <? r)) eqn:C; [reflexivity|]. destruct (r <? 65536) eqn:D.
  { eapply valid_seg; [discriminate| |intros (_ & Z); discriminate Z]. unfold decode_rune, in_range. rewrite !b2n_n2b by lia.
    replace (224 + q2 <? 128) with false by lia. replace (224 + q2 <? 194) with false by lia. replace (224 + q2 <? 224) with false by lia. replace (224 + q2 <? 240) with true by lia.
    unfold second_lo, second_hi. replace (224 + q2 =? 240) with false by lia. replace (224 + q2 =? 244) with false by lia.
    match goal with |- context [if ?b then (_, 3%nat) else _] => replace b with true; [reflexivity|] end.
    destruct (224 + q2 =? 224) eqn:K1, (224 + q2 =? 237) eqn:K2; lia. }
  eapply valid_seg; [discriminate| |intros (_ & Z); discriminate Z]. unfold decode_rune, in_range. rewrite !b2n_n2b by lia.
  replace (240 + q3 <? 128) with false by lia. replace (240 + q3 <? 194) with false by lia. replace (240 + q3 <? 224) with false by lia. replace (240 + q3 <? 240) with false by lia. replace (240 + q3 <? 245) with true by lia.
  unfold second_lo, second_hi. replace (240 + q3 =? 224) with false by lia. replace (240 + q3 =? 237) with false by lia.
  match goal with |- context [if ?b then (_, 4%nat) else _] => replace b with true; [reflexivity|] end.
  destruct (240 + q3 =? 240) eqn:K1, (240 + q3 =? 244) eqn:K2; lia.
Qed.
Lemma text_valid s v : str_text s v -> valid_utf8 v = true.
Proof.
  induction 1 as [|b raw tail r v _ _ _ _ _ IH|e c tail v E _ IH|s c tail v _ _ _ _ IH|s c s2 c2 tail v _ _ _ _ _ IH|s c tail v _ _ _ IH]; [reflexivity| | | | |];
    try (apply valid_app; [apply encoded_valid|exact IH]).
  change (c :: v) with ([c] ++ v). apply valid_app; [|exact IH]. unfold short_escape in E. repeat match type of E with context [if ?b then _ else _] => destruct b end; try discriminate E; injection E as <-; reflexivity.
Qed.

Lemma members_valid t l : members t l -> forall k s, In (k, TStr s) l -> valid_utf8 s = true.
Proof.
  assert (M : forall m k s, SpecDecode.member m (k, TStr s) -> valid_utf8 s = true).
  { intros m k s H. inversion H as [w1 k' w2 w3 t' w4 kt v _ _ _ _ R _]; subst. inversion R as [| | | |s' v' St| | | |]; subst. exact (text_valid St). }
  induction 1 as [m kv Hm|m kv s' l Hm _ IH]; intros k s I; destruct I as [I|I]; subst; try (eapply M; eassumption); [destruct I|eapply IH; exact I].
Qed.
Lemma texts_valid f l : (forall k s, In (k, TStr s) l -> valid_utf8 s = true) -> valid_utf8 (text_of f l) = true.
Proof.
  intros H. unfold text_of. assert (A : Forall (fun s => valid_utf8 s = true) (texts f l)).
  { apply Forall_forall. intros s I. unfold texts in I. apply in_flat_map in I. destruct I as ((k, v) & Il & I). cbn [fst snd] in I. destruct (names k f); [|destruct I].
    destruct v; try destruct I. - subst. eapply H. exact Il. - destruct H0. }
  induction A as [|x q Hx A IH]; [reflexivity|]. cbn [last]. destruct q; [exact Hx|exact IH].
Qed.
Theorem asks_valid body sen m : body_asks body (Request sen m) -> valid_utf8 sen = true /\ valid_utf8 m = true.
Proof.
  intros (v & (w & t & rest & _ & _ & R & _) & A). inversion A as [|l T1 T2]; subst; [auto|].
  assert (H : forall k s, In (k, TStr s) l -> valid_utf8 s = true).
  { inversion R as [| | | | | | |w' B|t' l' Hm]; subst; [intros k s []|exact (members_valid Hm)]. }
  split; apply texts_valid; exact H.
Qed.

(** ** Examples *)
Definition ascii_only (r : N) : bool := (32 <=? r) && (r <? 127).
Lemma offends_here p c q : match feed 0 top p with Some s => match snd (json_scan s c) with OError => true | _ => false end | None => false end = true -> offends (p ++ c :: q) p c.
Proof.
  intros H. destruct (feed 0 top p) as [s|] eqn:F; [|discriminate H]. split; [eauto|]. split; [exact (fed_viable F)|]. apply (not_viable F). destruct (snd (json_scan s c)); try discriminate H. reflexivity.
Qed.
Lemma looking_here p c x : match feed 0 top p with Some s => match json_scan s c with (Scan (SFail c' ctx) _, OError) => Byte.eqb c' c && bytes_eqb ctx (s2b x) | _ => false end | None => false end = true -> looking p c x.
Proof.
  destruct (feed 0 top p) as [s|] eqn:F; [|discriminate]. destruct (json_scan s c) as [[q st] o] eqn:E. intros H. destruct q; try discriminate H. destruct o; try discriminate H.
  apply andb_true_iff in H. destruct H as (H1 & H2). apply byte_eqb_spec in H1. subst c0. apply bytes_eqb_true in H2.
  destruct (expected F E eq_refl) as (y & L & Ey). replace x with y; [exact L|]. rewrite <- (string_of_list_byte_of_string x), <- (string_of_list_byte_of_string y). unfold s2b in *. congruence.
Qed.
Lemma due_here p h : match feed 0 top p with Some s => Bool.eqb (hex_step (sc_step s)) h | None => false end = true -> if h then digit_due p else ~ digit_due p.
Proof.
  intros H. destruct (feed 0 top p) as [s|] eqn:F; [|discriminate H]. apply eqb_prop in H. pose proof (hex_due F) as D. rewrite H in D. destruct h; [apply D; reflexivity|]. intros Z. apply D in Z. discriminate Z.
Qed.
Lemma no_request body : match the_decoder ascii_only body with inr _ => true | inl _ => false end = true -> forall r, ~ body_asks body r.
Proof. intros H r A. apply (decode_asks ascii_only) in A. rewrite A in H. discriminate H. Qed.
Lemma asked_here body r : match the_decoder ascii_only body with inl q => bytes_eqb (rq_input q) (rq_input r) && bytes_eqb (rq_mode q) (rq_mode r) | inr _ => false end = true -> body_asks body r.
Proof.
  intros H. apply (decode_asks ascii_only). destruct (the_decoder ascii_only body) as [[i m]|]; [|discriminate H]. cbn [rq_input rq_mode] in H. apply andb_true_iff in H. destruct H as (H1 & H2).
  apply bytes_eqb_eq in H1, H2. destruct r as [i' m']. cbn [rq_input rq_mode] in *. congruence.
Qed.
Theorem answer_refuted : forall body, In body [s2b "{'sentence':""a""}"; s2b "{""sentence"" ""a""}"; s2b "{""sentence"":""\u12G4""}"] ->
  forall pr newer ideo t, sober pr -> exists r, serve_tokenize (the_decoder pr) newer ideo t body = Ok r /\ rs_status r = 400%Z /\ forall v, ~ json_text (rs_body r) v.
Proof.
  intros body H pr newer ideo t So.
  assert (O : exists p c, offends body p c /\ (unquotable c \/ digit_due p)).
  { destruct H as [<-|[<-|[<-|[]]]].
    - exists (s2b "{"), x27. split; [|left; right; left; reflexivity]. apply (@offends_here (s2b "{") _ (s2b "sentence':""a""}")); vm_compute; reflexivity.
    - exists (s2b "{""sentence"" "), x22. split; [|left; left; reflexivity]. apply (@offends_here (s2b "{""sentence"" ") _ (s2b "a""}")); vm_compute; reflexivity.
    - exists (s2b "{""sentence"":""\u12"), x47. split; [apply (@offends_here (s2b "{""sentence"":""\u12") _ (s2b "4""}")); vm_compute; reflexivity|right].
      apply (@due_here (s2b "{""sentence"":""\u12") true). vm_compute. reflexivity. }
  assert (N : forall r, ~ body_asks body r).
  { destruct H as [<-|[<-|[<-|[]]]]; apply no_request; vm_compute; reflexivity. }
  destruct (@wrong_answers pr newer ideo t body So N) as (r & E & St & J & _). exists r. split; [exact E|]. split; [exact St|]. intros v Jv. apply J in O; [exact O|eauto].
Qed.
