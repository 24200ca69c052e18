(** The decoder of [Decode] against the grammar of [SpecDecode]. *)
From Verif Require Import Utf8Facts JsonFacts.
From Verif Require Export DecodeValue.
From Coq Require Import ZifyBool ZifyNat ZifyN.
Set Implicit Arguments. Unset Strict Implicit.
Open Scope N_scope.

(** ** The members of the request *)
Definition put_member (p : progress) (kv : bytes * tree) : progress := store_opt (field_of (fst kv)) (snd kv) p.
Lemma object_step f k kt w1 w2 w3 t w4 v c r cur q op p :
  blank w1 -> str_text k kt -> blank w2 -> blank w3 -> reads t v -> blank w4 -> N.of_nat (1 + nesting v) <= 10000 ->
  (q = SBeginString \/ q = SBeginStringOrEmpty) -> (c = x2c \/ c = x7d) ->
  object_loop (S f) (DState cur (w1 ++ x22 :: k ++ x22 :: w2 ++ x3a :: w3 ++ t ++ w4 ++ c :: r) (Scan q [PKey]) op) p =
  if Byte.eqb c x7d then Ok (DState x7d r (jpop []) OEndObject, put_member p (kt, v))
  else object_loop f (DState x2c r (Scan SBeginString [PKey]) OObjectValue) (put_member p (kt, v)).
Proof.
  intros B1 Hk B2 B3 R B4 D Q Hc.
  assert (E0 : skip_spaces (DState cur (w1 ++ x22 :: k ++ x22 :: w2 ++ x3a :: w3 ++ t ++ w4 ++ c :: r) (Scan q [PKey]) op) =
    DState x22 (k ++ x22 :: w2 ++ x3a :: w3 ++ t ++ w4 ++ c :: r) (Scan SInString [PKey]) OBeginLiteral).
  { unfold skip_spaces. cbn [ds_cur ds_scan ds_rest].
    rewrite while_blank; [|assumption|destruct Q as [-> | ->]; reflexivity|destruct Q as [-> | ->]; discriminate|reflexivity].
    destruct Q as [-> | ->]; reflexivity. }
  cbn [object_loop]. rewrite E0. cbn [ds_op].
  unfold rescan_literal. cbn [ds_cur ds_rest ds_scan sc_stack]. 
  replace (rescan_rest x22 (k ++ x22 :: w2 ++ x3a :: w3 ++ t ++ w4 ++ c :: r)) with (k ++ [x22], w2 ++ x3a :: w3 ++ t ++ w4 ++ c :: r) by (symmetry; apply (rescan_str _ Hk)). cbv beta iota zeta. rewrite (unquote_item Hk).
  pose proof (@settle x22 SInString PKey [] w2 x3a (w3 ++ t ++ w4 ++ c :: r) B2 eq_refl) as Sl. unfold next in Sl. rewrite Sl.
  change (end_value [PKey] x3a) with (Scan SBeginValue [PValue], OObjectKey). cbn [ds_op]. unfold skip_spaces. cbn [ds_cur ds_scan ds_rest].
  assert (Sc : json_space c = false) by (destruct Hc as [-> | ->]; reflexivity).
  assert (Nc : number_byte c = false) by (destruct Hc as [-> | ->]; reflexivity).
  pose proof (@field_run t v (field_of kt) p w4 c r x3a [] R D B4 Sc Nc w3 B3) as F.
  destruct (field_value (field_of kt) (scan_while x3a (Scan SBeginValue [PValue]) (w3 ++ t ++ w4 ++ c :: r)) p) as [[d p']| |]; try discriminate F.
  cbn [rbind] in F |- *. injection F as F1 F2. rewrite F1, F2. destruct Hc as [-> | ->]; reflexivity.
Qed.
Lemma member_run f m kv c r cur q op p : member m kv -> N.of_nat (1 + nesting (snd kv)) <= 10000 ->
  (q = SBeginString \/ q = SBeginStringOrEmpty) -> (c = x2c \/ c = x7d) ->
  object_loop (S f) (DState cur (m ++ c :: r) (Scan q [PKey]) op) p =
  if Byte.eqb c x7d then Ok (DState x7d r (jpop []) OEndObject, put_member p kv)
  else object_loop f (DState x2c r (Scan SBeginString [PKey]) OObjectValue) (put_member p kv).
Proof.
  intros [w1 k w2 w3 t w4 kt v B1 Hk B2 B3 R B4] D Q Hc. rewrite <- !app_assoc. cbn [app]. rewrite <- !app_assoc. cbn [app]. rewrite <- !app_assoc. cbn [app]. rewrite <- !app_assoc.
  apply object_step; assumption.
Qed.
Lemma members_run m l : members m l -> forall f r cur q op p, N.of_nat (nesting (TObj l)) <= 10000 -> (length l <= f)%nat ->
  (q = SBeginString \/ q = SBeginStringOrEmpty) ->
  object_loop f (DState cur (m ++ x7d :: r) (Scan q [PKey]) op) p = Ok (DState x7d r (jpop []) OEndObject, fold_left put_member l p).
Proof.
  induction 1 as [m kv M|m kv s l M _ IH]; intros [|f] r cur q op p D L Q; cbn [length] in L; try lia.
  - rewrite (@member_run f m kv x7d r cur q op p M); [reflexivity| |assumption|auto]. destruct (nesting_obj kv []) as (A & _ & _). lia.
  - rewrite <- app_assoc. cbn [app]. rewrite (@member_run f m kv x2c _ cur q op p M); [|destruct (nesting_obj kv l) as (A & _ & _); lia|assumption|auto].
    cbn [Byte.eqb fold_left]. change (Byte.eqb x2c x7d) with false. cbn iota. apply IH; [destruct (nesting_obj kv l) as (_ & A & _); lia|lia|auto].
Qed.
Lemma member_len m kv : member m kv -> (1 <= length m)%nat.
Proof. intros [w1 k w2 w3 t w4 kt v B1 Hk B2 B3 R B4]. rewrite app_length. cbn [length]. lia. Qed.
Lemma members_len m l : members m l -> (length l <= length m)%nat.
Proof. induction 1 as [m kv M|m kv s l M _ IH]; [pose proof (member_len M); cbn; lia|]. rewrite app_length. cbn [length]. lia. Qed.

(** ** A value found *)
Definition start : progress := Progress (Request [] []) None.
Definition result (p : progress) : request + bytes := match pg_err p with None => inl (pg_req p) | Some e => inr e end.
Definition outcome (v : tree) : progress := match v with TObj l => fold_left put_member l start | _ => store TgStruct v start end.
Lemma unmarshal_run w t v : blank w -> reads t v -> N.of_nat (nesting v) <= 10000 -> unmarshal (w ++ t) = Ok (result (outcome v)).
Proof.
  intros B R D. unfold unmarshal. destruct (value_kinds R) as [(_ & L)|[(i & l & -> & -> & Hi)|(i & l & -> & -> & Hi)]].
  - destruct (literal_runs [] R L) as (c & t' & q & -> & E & Rs & St). destruct (value_first R) as (c2 & t2 & E2 & S2). injection E2 as <- <-.
    rewrite while_blank; [|assumption|reflexivity|discriminate|assumption]. rewrite E. cbn [ds_op]. unfold rescan_literal. cbn [ds_cur ds_rest ds_scan sc_stack].
    specialize (Rs [] ltac:(intros ? ? H; discriminate H)). rewrite app_nil_r in Rs. rewrite Rs. cbn [fst]. fold start. rewrite St. cbn [rbind].
    destruct v; try destruct L; reflexivity.
  - rewrite while_blank; [|assumption|reflexivity|discriminate|reflexivity]. pose proof (nesting_pos_arr l). rewrite open_array by (cbn [length]; lia).
    cbn [ds_op]. unfold skip_value. cbn [ds_scan sc_stack ds_rest]. change (length [PArray]) with (S (length (@nil jparse))). rewrite (@skip_array [] _ _ [] Hi) by (cbn [length]; lia). reflexivity.
  - rewrite while_blank; [|assumption|reflexivity|discriminate|reflexivity]. pose proof (nesting_pos_obj l). rewrite open_object by (cbn [length]; lia).
    cbn [ds_op]. fold start. destruct Hi as [(Bi & ->)|Hm].
    + cbn [object_loop]. unfold skip_spaces. cbn [ds_cur ds_scan ds_rest]. rewrite while_blank; [|assumption|reflexivity|discriminate|reflexivity]. reflexivity.
    + rewrite (members_run Hm); [reflexivity|assumption| |auto]. pose proof (members_len Hm). rewrite !app_length. cbn [length]. rewrite app_length. lia.
Qed.

(** ** The names of the fields *)
Lemma upper_high b : 128 <= b2n b -> upper b = b.
Proof. intros H. unfold upper. replace ((97 <=? b2n b) && (b2n b <=? 122)) with false by lia. reflexivity. Qed.
Lemma fold_name_ascii b s : b2n b < 128 -> fold_name (b :: s) = upper b :: fold_name s.
Proof. intros H. destruct b; try reflexivity. cbv in H. discriminate H. Qed.
Lemma fold_name_high b s : 128 <= b2n b -> (exists s', b :: s = xc5 :: xbf :: s' /\ fold_name (b :: s) = x53 :: fold_name s') \/
  (forall s', b :: s <> xc5 :: xbf :: s') /\ fold_name (b :: s) = b :: fold_name s.
Proof.
  intros H. destruct (Byte.eqb b xc5) eqn:Eb; [|right].
  - apply byte_eqb_spec in Eb. subst b. destruct s as [|b1 s]; [right; split; [discriminate|reflexivity]|]. destruct (Byte.eqb b1 xbf) eqn:E1.
    + apply byte_eqb_spec in E1. subst b1. left. exists s. split; reflexivity.
    + right. split; [intros s' E; injection E as -> _; discriminate E1|]. destruct b1; try reflexivity. discriminate E1.
  - split; [intros s' E; injection E as -> _; discriminate Eb|]. rewrite <- (upper_high H) at 2. destruct b; try reflexivity. discriminate Eb.
Qed.
Definition every_byte (f : byte -> bool) : bool := forallb (fun n => f (n2b (N.of_nat n))) (seq 0 256).
Lemma every_byte_ok f : every_byte f = true -> forall b, f b = true.
Proof.
  intros H b. unfold every_byte in H. rewrite forallb_forall in H. specialize (H (N.to_nat (b2n b))). rewrite N2Nat.id, n2b_b2n in H. apply H. apply in_seq. pose proof (b2n_bound b). lia.
Qed.
Definition sentence_letters : bytes := [x73; x65; x6e; x74; x63].
Definition mode_letters : bytes := [x6d; x6f; x64; x65].
Definition one_fold (sb tb : byte) : bool :=
  if Byte.eqb sb tb then true else (65 <=? mask_case sb) && (mask_case sb <=? 90) && (mask_case sb =? mask_case tb).
Lemma letter_fold sb tb : In sb sentence_letters -> b2n tb < 128 -> one_fold sb tb = Byte.eqb (upper tb) (upper sb).
Proof.
  intros H _. assert (G : forallb (fun sb => every_byte (fun tb => Bool.eqb (one_fold sb tb) (Byte.eqb (upper tb) (upper sb)))) sentence_letters = true) by (vm_compute; reflexivity).
  rewrite forallb_forall in G. exact (Bool.eqb_prop _ _ (every_byte_ok (G sb H) tb)).
Qed.
Lemma letter_mask sb tb : In sb mode_letters -> (mask_case sb =? mask_case tb) = Byte.eqb (upper tb) (upper sb).
Proof.
  intros H. assert (G : forallb (fun sb => every_byte (fun tb => Bool.eqb (mask_case sb =? mask_case tb) (Byte.eqb (upper tb) (upper sb)))) mode_letters = true) by (vm_compute; reflexivity).
  rewrite forallb_forall in G. exact (Bool.eqb_prop _ _ (every_byte_ok (G sb H) tb)).
Qed.
Lemma long_s b s tr size : 128 <= b2n b -> decode_rune (b :: s) = (tr, size) -> (tr =? 383) = true -> exists s', b :: s = xc5 :: xbf :: s' /\ size = 2%nat.
Proof.
  intros L H E. assert (N : b :: s <> []) by discriminate. pose proof (decode_dec N) as D. rewrite H in D. cbn [fst snd] in D. apply N.eqb_eq in E.
  inversion D as [b0 t0 Es Lb Er Ew|b0 t0 Es Lb Er Ew|b0 b1 t0 Es L0 L1 Er Ew|b0 b1 b2 t0 Es L0 L1 L2 Er Ew|b0 b1 b2 b3 t0 Es L0 L1 L2 L3 Er Ew].
  - injection Es as -> ->. lia.
  - rewrite E in Er. discriminate Er.
  - exists t0. split; [|reflexivity]. rewrite Es. f_equal; [apply b2n_inj; change (b2n xc5) with 197; lia|]. f_equal. apply b2n_inj. change (b2n xbf) with 191.
    assert (b2n b0 = 197) by lia. lia.
  - pose proof (second_lo_bounds (b2n b0)). unfold second_lo in L1. destruct (b2n b0 =? 224) eqn:Z; lia.
  - pose proof (second_lo_bounds (b2n b0)). unfold second_lo in L1. destruct (b2n b0 =? 224) eqn:Z; try lia. destruct (b2n b0 =? 240) eqn:Z'; lia.
Qed.
Lemma upper_letters sb : In sb sentence_letters \/ In sb mode_letters -> b2n (upper sb) < 128 /\ (sb <> x73 -> upper sb <> x53).
Proof.
  intros [H|H]; repeat (destruct H as [<-|H]; [split; [reflexivity|intros N; try discriminate; congruence]|]); destruct H.
Qed.
Lemma eqb_high b c : 128 <= b2n b -> b2n c < 128 -> Byte.eqb b c = false.
Proof. intros H L. destruct (Byte.eqb b c) eqn:E; [|reflexivity]. apply byte_eqb_spec in E. subst. lia. Qed.
Lemma fold_right_ok name : Forall (fun b => In b sentence_letters) name -> forall key, equal_fold_right name key = bytes_eqb (fold_name key) (map upper name).
Proof.
  induction 1 as [|sb name Hs _ IH]; intros key.
  - destruct key as [|tb key]; [reflexivity|]. cbn [equal_fold_right map]. destruct (b2n tb <? 128) eqn:L.
    + rewrite fold_name_ascii by lia. reflexivity.
    + destruct (@fold_name_high tb key) as [(s' & _ & ->)|(_ & ->)]; [lia|reflexivity|reflexivity].
  - destruct key as [|tb key]; [reflexivity|]. cbn [equal_fold_right map]. fold (one_fold sb tb). destruct (b2n tb <? 128) eqn:L.
    + rewrite fold_name_ascii by lia. cbn [bytes_eqb]. rewrite letter_fold by (assumption || lia). rewrite IH. reflexivity.
    + destruct (@upper_letters sb (or_introl Hs)) as (U1 & U2). destruct (decode_rune (tb :: key)) as [tr size] eqn:E.
      destruct (@fold_name_high tb key) as [(s' & Es & ->)|(Ns & ->)]; [lia| |].
      * rewrite Es in E |- *. rewrite decode_2 in E by (cbv; split; congruence). injection E as <- <-. cbn [skipn bytes_eqb]. rewrite IH. f_equal.
        repeat (destruct Hs as [<-|Hs]; [reflexivity|]). destruct Hs.
      * cbn [bytes_eqb]. rewrite (eqb_high (b := tb) (c := upper sb)) by (lia || assumption). cbn [andb].
        destruct (tr =? 383) eqn:Et; [destruct (@long_s tb key tr size ltac:(lia) E Et) as (s' & Es & _); destruct (Ns _ Es)|].
        assert (K : Byte.eqb sb x6b || Byte.eqb sb x4b = false) by (repeat (destruct Hs as [<-|Hs]; [reflexivity|]); destruct Hs).
        rewrite K. destruct (Byte.eqb sb x73 || Byte.eqb sb x53); reflexivity.
Qed.
Lemma simple_fold_ok name : Forall (fun b => In b mode_letters) name -> forall key, simple_fold name key = bytes_eqb (fold_name key) (map upper name).
Proof.
  induction 1 as [|sb name Hs _ IH]; intros key.
  - destruct key as [|tb key]; [reflexivity|]. cbn [simple_fold map]. destruct (b2n tb <? 128) eqn:L.
    + rewrite fold_name_ascii by lia. reflexivity.
    + destruct (@fold_name_high tb key) as [(s' & _ & ->)|(_ & ->)]; [lia|reflexivity|reflexivity].
  - destruct key as [|tb key]; [reflexivity|]. cbn [simple_fold map]. rewrite letter_mask by assumption. destruct (@upper_letters sb (or_intror Hs)) as (U1 & U2). destruct (b2n tb <? 128) eqn:L.
    + rewrite fold_name_ascii by lia. cbn [bytes_eqb]. rewrite IH. reflexivity.
    + rewrite upper_high by lia. rewrite (eqb_high (b := tb) (c := upper sb)) by (lia || assumption).
      destruct (@fold_name_high tb key) as [(s' & Es & ->)|(Ns & ->)]; [lia| |]; cbn [bytes_eqb].
      * replace (Byte.eqb x53 (upper sb)) with false; [reflexivity|]. repeat (destruct Hs as [<-|Hs]; [reflexivity|]). destruct Hs.
      * rewrite (eqb_high (b := tb) (c := upper sb)) by (lia || assumption). reflexivity.
Qed.
Lemma field_named key : field_of key = if names key "sentence" then Some TgInput else if names key "mode" then Some TgMode else None.
Proof.
  assert (A : equal_fold_right (s2b "sentence") key = names key "sentence").
  { rewrite fold_right_ok; [reflexivity|]. apply Forall_forall. intros b Hb. vm_compute in Hb. repeat (destruct Hb as [<-|Hb]; [vm_compute; tauto|]). destruct Hb. }
  assert (B : simple_fold (s2b "mode") key = names key "mode").
  { rewrite simple_fold_ok; [reflexivity|]. apply Forall_forall. intros b Hb. vm_compute in Hb. repeat (destruct Hb as [<-|Hb]; [vm_compute; tauto|]). destruct Hb. }
  unfold field_of. rewrite A, B. destruct (bytes_eqb key (s2b "sentence")) eqn:E1; [apply bytes_eqb_eq in E1; subst key; reflexivity|].
  destruct (bytes_eqb key (s2b "mode")) eqn:E2; [apply bytes_eqb_eq in E2; subst key; reflexivity|]. reflexivity.
Qed.
Lemma names_one key : names key "sentence" = true -> names key "mode" = false.
Proof. unfold names. intros H. apply bytes_eqb_eq in H. rewrite H. reflexivity. Qed.

(** ** What the members ask for *)
Lemma last_cons (A : Type) (a : A) l d : last (a :: l) d = last l a.
Proof. revert a d. induction l as [|b l IH]; intros a d; [reflexivity|]. change (last (a :: b :: l) d) with (last (b :: l) d). rewrite !IH. reflexivity. Qed.
Lemma member_saved p kv : pg_err p <> None -> pg_err (put_member p kv) <> None.
Proof.
  intros H. unfold put_member, store_opt, store, save_error. destruct (field_of (fst kv)) as [tg|]; [|assumption].
  destruct (snd kv); cbn [pg_err]; try assumption; try (destruct (pg_err p); congruence). destruct tg; cbn [pg_err]; try assumption. destruct (pg_err p); congruence.
Qed.
Lemma members_saved l : forall p, pg_err p <> None -> pg_err (fold_left put_member l p) <> None.
Proof. induction l as [|kv l IH]; intros p H; [assumption|]. cbn [fold_left]. apply IH. apply member_saved. assumption. Qed.
Definition fits (kv : bytes * tree) (field : string) : Prop := names (fst kv) field = true -> snd kv = TNull \/ exists s, snd kv = TStr s.
Lemma typed_cons field kv l : typed field (kv :: l) <-> fits kv field /\ typed field l.
Proof.
  destruct kv as [k v]. unfold typed, fits. cbn [fst snd]. split.
  - intros H. split; [intros N; eapply H; [left; reflexivity|exact N]|intros k' v' I; apply (H k' v'); right; exact I].
  - intros (H1 & H2) k' v' [E|I] N; [injection E as <- <-; auto|eapply H2; eassumption].
Qed.
Lemma member_put p kv : pg_err p = None ->
  (fits kv "sentence" /\ fits kv "mode" /\
   put_member p kv = Progress (Request (last (texts "sentence" [kv]) (rq_input (pg_req p))) (last (texts "mode" [kv]) (rq_mode (pg_req p)))) None) \/
  ((~ fits kv "sentence" \/ ~ fits kv "mode") /\ pg_err (put_member p kv) <> None).
Proof.
  intros E. destruct p as [[i m] e]. cbn [pg_err] in E. subst e. destruct kv as [k v]. unfold put_member, fits, texts. cbn [fst snd flat_map]. rewrite field_named. cbn [pg_req rq_input rq_mode].
  destruct (names k "sentence") eqn:N1.
  - rewrite (names_one N1). destruct v as [|b| |s|l|l]; try (right; split; [left; intros F; destruct (F eq_refl) as [Q|(s & Q)]; discriminate Q|discriminate]);
      left; (split; [intros _; eauto|split; [discriminate|reflexivity]]).
  - destruct (names k "mode") eqn:N2.
    + destruct v as [|b| |s|l|l]; try (right; split; [right; intros F; destruct (F eq_refl) as [Q|(s & Q)]; discriminate Q|discriminate]);
        left; (split; [discriminate|split; [intros _; eauto|reflexivity]]).
    + left. split; [discriminate|]. split; [discriminate|]. reflexivity.
Qed.
Lemma texts_cons field kv l : texts field (kv :: l) = texts field [kv] ++ texts field l.
Proof. unfold texts. cbn [flat_map]. rewrite app_nil_r. reflexivity. Qed.
Lemma texts_one field kv : exists o, texts field [kv] = match o with Some s => [s] | None => [] end.
Proof.
  unfold texts. cbn [flat_map]. rewrite app_nil_r. destruct (names (fst kv) field); [|exists None; reflexivity].
  destruct (snd kv); try (exists None; reflexivity). eexists (Some _). reflexivity.
Qed.
Lemma last_texts field kv l d : last (texts field (kv :: l)) d = last (texts field l) (last (texts field [kv]) d).
Proof. rewrite texts_cons. destruct (texts_one field kv) as ([s|] & ->); [|reflexivity]. cbn [app]. rewrite last_cons. reflexivity. Qed.
Lemma members_put l : forall p, pg_err p = None ->
  (typed "sentence" l /\ typed "mode" l /\
   fold_left put_member l p = Progress (Request (last (texts "sentence" l) (rq_input (pg_req p))) (last (texts "mode" l) (rq_mode (pg_req p)))) None) \/
  (~ (typed "sentence" l /\ typed "mode" l) /\ pg_err (fold_left put_member l p) <> None).
Proof.
  induction l as [|kv l IH]; intros p E.
  - left. split; [intros k v []|]. split; [intros k v []|]. destruct p as [[i m] e]. cbn in E. subst e. reflexivity.
  - cbn [fold_left]. destruct (member_put kv E) as [(F1 & F2 & ->)|(F & S)].
    + destruct (IH (Progress (Request (last (texts "sentence" [kv]) (rq_input (pg_req p))) (last (texts "mode" [kv]) (rq_mode (pg_req p)))) None) eq_refl) as [(T1 & T2 & ->)|(T & S)].
      * left. split; [apply typed_cons; auto|]. split; [apply typed_cons; auto|]. cbn [pg_req rq_input rq_mode]. rewrite (@last_texts "sentence" kv l), (@last_texts "mode" kv l). reflexivity.
      * right. split; [|exact S]. intros (T1 & T2). apply T. apply typed_cons in T1, T2. tauto.
    + right. split; [|apply members_saved; exact S]. intros (T1 & T2). apply typed_cons in T1, T2. tauto.
Qed.
Lemma outcome_asks v r : result (outcome v) = inl r <-> asks v r.
Proof.
  unfold result. split.
  - destruct v as [|b| |s|l|l]; try discriminate; [intros H; injection H as <-; constructor|]. cbn [outcome].
    destruct (@members_put l start eq_refl) as [(T1 & T2 & ->)|(T & S)].
    + intros H. injection H as <-. constructor; assumption.
    + destruct (pg_err (fold_left put_member l start)); [discriminate|congruence].
  - intros [|l T1 T2]; [reflexivity|]. cbn [outcome]. destruct (@members_put l start eq_refl) as [(_ & _ & ->)|(T & _)]; [reflexivity|tauto].
Qed.

(** ** The decoder *)
Theorem decode_ok pr body : exists r, json_decode pr body = Ok r.
Proof.
  unfold json_decode. change (Scan SBeginValue []) with top. destruct (read_shapes pr body) as [(w & t & v & rest & Eb & B & R & D & Mx & ->)|(e & ->)]; [|eauto].
  rewrite Eb, app_assoc, firstn_app, firstn_all, Nat.sub_diag. cbn [firstn]. rewrite app_nil_r, (unmarshal_run B R D). eauto.
Qed.
Theorem decode_asks pr body r : the_decoder pr body = inl r <-> body_asks body r.
Proof.
  unfold the_decoder, json_decode. change (Scan SBeginValue []) with top. split.
  - destruct (read_shapes pr body) as [(w & t & v & rest & Eb & B & R & D & Mx & ->)|(e & ->)]; [|discriminate].
    rewrite Eb, app_assoc, firstn_app, firstn_all, Nat.sub_diag. cbn [firstn]. rewrite app_nil_r, (unmarshal_run B R D). intros H.
    exists v. split; [|apply outcome_asks; exact H]. exists w, t, rest. rewrite app_assoc. repeat split; assumption.
  - intros (v & (w & t & rest & -> & B & R & D & Mx) & A). assert (N : v <> TNum) by (intros ->; inversion A).
    destruct (read_blank pr 0 false (t ++ rest) B) as (seen & ->). rewrite (read_value_found pr _ seen rest R D N).
    cbn [Nat.add]. rewrite <- app_length, app_assoc, firstn_app, firstn_all, Nat.sub_diag. cbn [firstn]. rewrite app_nil_r, (unmarshal_run B R D).
    apply outcome_asks. exact A.
Qed.
