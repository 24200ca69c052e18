(** What the scanner of [Decode] takes is in the grammar of [SpecDecode]. *)
From Verif Require Import Utf8Facts.
From Verif Require Export DecodeFacts.
From Coq Require Import ZifyBool ZifyNat ZifyN.
Set Implicit Arguments. Unset Strict Implicit.
Open Scope N_scope.

(** From [s0] the text [s] leads to an error, or it ends too early. *)
Definition bad (k : nat) (s0 : jscan) (s : bytes) : Prop :=
  (exists p c r s', s = p ++ c :: r /\ feed k s0 p = Some s' /\ snd (json_scan s' c) = OError) \/
  (exists s', feed k s0 s = Some s' /\ snd (json_scan s' x20) <> OEnd).
Lemma bad_app k s0 p s1 s : feed k s0 p = Some s1 -> bad k s1 s -> bad k s0 (p ++ s).
Proof.
  intros E [(p' & c & r & s' & -> & E' & H)|(s' & E' & O)].
  - left. exists (p ++ p'), c, r, s'. rewrite app_assoc. split; [reflexivity|]. split; [rewrite (feed_app_eq _ E); assumption|assumption].
  - right. exists s'. rewrite (feed_app_eq _ E). auto.
Qed.
Lemma bad_cons k s0 c s1 o s : json_scan s0 c = (s1, o) -> quiet o = true -> inside (sc_step s1) = true -> (k <= length (sc_stack s1))%nat ->
  bad k s1 s -> bad k s0 (c :: s).
Proof. intros E Q I L B. change (c :: s) with ([c] ++ s). eapply bad_app; [|exact B]. erewrite feed_cons; [reflexivity|exact E|assumption|assumption|assumption]. Qed.
Lemma bad_now k s0 c s : snd (json_scan s0 c) = OError -> bad k s0 (c :: s).
Proof. intros H. left. exists [], c, s, s0. auto. Qed.
Lemma bad_end k s0 : snd (json_scan s0 x20) <> OEnd -> bad k s0 [].
Proof. intros H. right. exists s0. auto. Qed.

(** ** Strings *)
Lemma unhex_hex_value c : json_unhex c = hex_value c.
Proof.
  unfold json_unhex, hex_value, json_digit. reflexivity.
Qed.
Lemma hex_some c : json_hex c = true -> exists n, hex_value c = Some n.
Proof.
  unfold hex_value, json_hex, json_digit. intros H. destruct ((48 <=? b2n c) && (b2n c <=? 57)); [eauto|].
  destruct ((97 <=? b2n c) && (b2n c <=? 102)); [eauto|]. destruct ((65 <=? b2n c) && (b2n c <=? 70)); [eauto|discriminate H].
Qed.
Lemma get_u4_spec s c : get_u4 s = Some c <-> exists tail, u_escape s c tail.
Proof.
  split.
  - intros H. destruct s as [|b0 [|b1 [|h1 [|h2 [|h3 [|h4 t]]]]]]; try (destruct b0; discriminate H); try discriminate H;
      try (destruct b0; try discriminate H; destruct b1; discriminate H).
    destruct b0; try discriminate H. destruct b1; try discriminate H. exists t, h1, h2, h3, h4. split; [reflexivity|].
    unfold get_u4 in H. rewrite !unhex_hex_value in H. exact H.
  - intros (tail & h1 & h2 & h3 & h4 & -> & H). unfold get_u4. rewrite !unhex_hex_value. exact H.
Qed.
Lemma u_escape_skip s c tail : u_escape s c tail -> skipn 6 s = tail /\ (length s = 6 + length tail)%nat.
Proof. intros (h1 & h2 & h3 & h4 & -> & _). split; reflexivity. Qed.
Lemma u_escape_app s c tail x : u_escape s c tail -> u_escape (s ++ x) c (tail ++ x).
Proof. intros (h1 & h2 & h3 & h4 & -> & H). exists h1, h2, h3, h4. split; [reflexivity|assumption]. Qed.
Lemma escape_shapes e : (exists c, short_escape e = Some c) \/ e = x75 \/ forall st, snd (json_scan (Scan SEsc st) e) = OError.
Proof. destruct e; try (left; eexists; reflexivity); try (right; left; reflexivity); right; right; intros st; reflexivity. Qed.
(** \u: four hexadecimal digits, or an error or the end. *)
Lemma hex_shapes k st s : (k <= length st)%nat -> (exists c tail, u_escape (x5c :: x75 :: s) c tail) \/ bad k (Scan SInString st) (x5c :: x75 :: s).
Proof.
  intros L.
  assert (G : (exists c tail, u_escape (x5c :: x75 :: s) c tail) \/ bad k (Scan SEscU st) s).
  { destruct s as [|h1 s]; [right; apply bad_end; discriminate|]. destruct (json_hex h1) eqn:E1; [|right; apply bad_now; unfold json_scan, state_hex; cbn [sc_step]; rewrite E1; reflexivity].
    destruct s as [|h2 s].
    { right. eapply bad_cons; [exact (scan_hex st SEscU1 E1)|reflexivity|reflexivity|assumption|]. apply bad_end; discriminate. }
    destruct (json_hex h2) eqn:E2.
    2:{ right. eapply bad_cons; [exact (scan_hex st SEscU1 E1)|reflexivity|reflexivity|assumption|]. apply bad_now. unfold json_scan, state_hex; cbn [sc_step]; rewrite E2; reflexivity. }
    destruct s as [|h3 s].
    { right. eapply bad_cons; [exact (scan_hex st SEscU1 E1)|reflexivity|reflexivity|assumption|].
      eapply bad_cons; [exact (scan_hex st SEscU12 E2)|reflexivity|reflexivity|assumption|]. apply bad_end; discriminate. }
    destruct (json_hex h3) eqn:E3.
    2:{ right. eapply bad_cons; [exact (scan_hex st SEscU1 E1)|reflexivity|reflexivity|assumption|].
      eapply bad_cons; [exact (scan_hex st SEscU12 E2)|reflexivity|reflexivity|assumption|].
      apply bad_now. unfold json_scan, state_hex; cbn [sc_step]; rewrite E3; reflexivity. }
    destruct s as [|h4 s].
    { right. eapply bad_cons; [exact (scan_hex st SEscU1 E1)|reflexivity|reflexivity|assumption|].
      eapply bad_cons; [exact (scan_hex st SEscU12 E2)|reflexivity|reflexivity|assumption|].
      eapply bad_cons; [exact (scan_hex st SEscU123 E3)|reflexivity|reflexivity|assumption|]. apply bad_end; discriminate. }
    destruct (json_hex h4) eqn:E4.
    2:{ right. eapply bad_cons; [exact (scan_hex st SEscU1 E1)|reflexivity|reflexivity|assumption|].
      eapply bad_cons; [exact (scan_hex st SEscU12 E2)|reflexivity|reflexivity|assumption|].
      eapply bad_cons; [exact (scan_hex st SEscU123 E3)|reflexivity|reflexivity|assumption|].
      apply bad_now. unfold json_scan, state_hex; cbn [sc_step]; rewrite E4; reflexivity. }
    left. destruct (hex_some E1) as (n1 & N1). destruct (hex_some E2) as (n2 & N2). destruct (hex_some E3) as (n3 & N3). destruct (hex_some E4) as (n4 & N4).
    exists (((n1 * 16 + n2) * 16 + n3) * 16 + n4), s, h1, h2, h3, h4. split; [reflexivity|]. unfold hex4. rewrite N1, N2, N3, N4. reflexivity. }
  destruct G as [G|G]; [left; assumption|right].
  eapply bad_cons; [reflexivity|reflexivity|reflexivity|assumption|]. eapply bad_cons; [reflexivity|reflexivity|reflexivity|assumption|exact G].
Qed.
Lemma hex4_bound a b c d n : hex4 a b c d = Some n -> n < 65536.
Proof.
  unfold hex4. intros H. destruct (hex_value a) as [n1|] eqn:E1; [|discriminate]. destruct (hex_value b) as [n2|] eqn:E2; [|discriminate].
  destruct (hex_value c) as [n3|] eqn:E3; [|discriminate]. destruct (hex_value d) as [n4|] eqn:E4; [|discriminate]. injection H as <-.
  assert (G : forall c n, hex_value c = Some n -> n < 16).
  { clear. intros c n. unfold hex_value. destruct ((48 <=? b2n c) && (b2n c <=? 57)) eqn:H1; [intros H; injection H as <-; lia|].
    destruct ((97 <=? b2n c) && (b2n c <=? 102)) eqn:H2; [intros H; injection H as <-; lia|].
    destruct ((65 <=? b2n c) && (b2n c <=? 70)) eqn:H3; [intros H; injection H as <-; lia|discriminate]. }
  apply G in E1. apply G in E2. apply G in E3. apply G in E4. lia.
Qed.

Lemma string_shapes k st : (k <= length st)%nat -> forall n s, (length s <= n)%nat ->
  (exists b v rest, s = b ++ x22 :: rest /\ str_text b v) \/ bad k (Scan SInString st) s.
Proof.
  intros L. induction n as [|n IH]; intros s Hn.
  { destruct s; [right; apply bad_end; discriminate|cbn in Hn; lia]. }
  destruct s as [|c s]; [right; apply bad_end; discriminate|]. cbn [length] in Hn.
  destruct (Byte.eqb c x22) eqn:E1; [apply byte_eqb_spec in E1; subst c; left; exists [], [], s; split; [reflexivity|constructor]|].
  destruct (Byte.eqb c x5c) eqn:E2.
  - apply byte_eqb_spec in E2. subst c. destruct s as [|e s].
    { right. eapply bad_cons; [reflexivity|reflexivity|reflexivity|assumption|apply bad_end; discriminate]. }
    cbn [length] in Hn. destruct (escape_shapes e) as [(c & Hc)|[->|He]].
    + assert (Es : feed k (Scan SInString st) [x5c; e] = Some (Scan SInString st)).
      { apply (@feed_str k st [x5c; e] [c] L). apply st_short; [assumption|constructor]. }
      destruct (IH s) as [(b & v & rest & -> & Hb)|Hb]; [lia| |right; apply (bad_app Es Hb)].
      left. exists (x5c :: e :: b), (c :: v), rest. split; [reflexivity|]. apply st_short; assumption.
    + destruct (@hex_shapes k st s L) as [(c & tail & Hu)|Hb]; [|right; assumption].
      destruct (u_escape_skip Hu) as (_ & Lu). cbn [length] in Lu.
      assert (Bt : bad k (Scan SInString st) tail -> bad k (Scan SInString st) (x5c :: x75 :: s)).
      { intros Hb. destruct Hu as (h1 & h2 & h3 & h4 & E & H). injection E as ->. change (x5c :: x75 :: h1 :: h2 :: h3 :: h4 :: tail) with ([x5c; x75; h1; h2; h3; h4] ++ tail).
        eapply bad_app; [|exact Hb]. change (Some (Scan SInString st)) with (feed k (Scan SInString st) []). apply (@feed_u k st _ c []); [assumption|].
        exists h1, h2, h3, h4. auto. }
      assert (Split : forall b rest, tail = b ++ x22 :: rest -> exists p, x5c :: x75 :: s = p ++ x22 :: rest /\ u_escape p c b).
      { intros b rest ->. destruct Hu as (h1 & h2 & h3 & h4 & E & H). injection E as ->. exists (x5c :: x75 :: h1 :: h2 :: h3 :: h4 :: b).
        split; [reflexivity|]. exists h1, h2, h3, h4. auto. }
      assert (Cases : (low_surrogate c \/ high_surrogate c /\ forall c2 tail2, u_escape tail c2 tail2 -> ~ low_surrogate c2) \/
        (high_surrogate c /\ exists c2 tail2, u_escape tail c2 tail2 /\ low_surrogate c2) \/ (~ high_surrogate c /\ ~ low_surrogate c)).
      { unfold high_surrogate, low_surrogate. destruct (N.le_gt_cases 55296 c) as [H1|H1]; [|right; right; lia].
        destruct (N.lt_ge_cases c 56320) as [H2|H2].
        2:{ destruct (N.lt_ge_cases c 57344); [left; left; lia|right; right; lia]. }
        destruct (get_u4 tail) as [c2|] eqn:Eg.
        - pose proof Eg as Eg'. apply get_u4_spec in Eg'. destruct Eg' as (tail2 & Hu2).
          destruct (N.le_gt_cases 56320 c2) as [H3|H3]; [destruct (N.lt_ge_cases c2 57344) as [H4|H4]|].
          + right. left. split; [lia|]. exists c2, tail2. split; [assumption|lia].
          + left. right. split; [lia|]. intros c3 t3 Hu3. assert (E3 : get_u4 tail = Some c3) by (apply get_u4_spec; eauto). rewrite Eg in E3. injection E3 as <-. lia.
          + left. right. split; [lia|]. intros c3 t3 Hu3. assert (E3 : get_u4 tail = Some c3) by (apply get_u4_spec; eauto). rewrite Eg in E3. injection E3 as <-. lia.
        - left. right. split; [lia|]. intros c3 t3 Hu3. assert (E3 : get_u4 tail = Some c3) by (apply get_u4_spec; eauto). congruence. }
      destruct Cases as [Cl|[(Ch & c2 & tail2 & Hu2 & Hl2)|(N1 & N2)]].
      * destruct (IH tail) as [(b & v & rest & Et & Hb)|Hb]; [lia| |right; auto].
        destruct (Split _ _ Et) as (p & -> & Hp). left. exists p. eexists. exists rest. split; [reflexivity|]. eapply st_lone; [exact Hp| |exact Hb].
        destruct Cl as [Cl|(Ch & Cn)]; [left; assumption|right; split; [assumption|]]. intros c2 t2 Hu2. eapply Cn. rewrite Et. apply u_escape_app. exact Hu2.
      * destruct (u_escape_skip Hu2) as (_ & Lu2).
        assert (Bt2 : bad k (Scan SInString st) tail2 -> bad k (Scan SInString st) tail).
        { intros Hb. destruct Hu2 as (h1 & h2 & h3 & h4 & E & H). rewrite E. change (x5c :: x75 :: h1 :: h2 :: h3 :: h4 :: tail2) with ([x5c; x75; h1; h2; h3; h4] ++ tail2).
          eapply bad_app; [|exact Hb]. change (Some (Scan SInString st)) with (feed k (Scan SInString st) []). apply (@feed_u k st _ c2 []); [assumption|].
          exists h1, h2, h3, h4. auto. }
        destruct (IH tail2) as [(b & v & rest & Et & Hb)|Hb]; [lia| |right; auto].
        assert (Split2 : exists p, tail = p ++ x22 :: rest /\ u_escape p c2 b).
        { destruct Hu2 as (h1 & h2 & h3 & h4 & E & H). rewrite Et in E. exists (x5c :: x75 :: h1 :: h2 :: h3 :: h4 :: b).
          split; [exact E|]. exists h1, h2, h3, h4. auto. }
        destruct Split2 as (p2 & Et2 & Hp2). destruct (Split _ _ Et2) as (p & -> & Hp). left. exists p. eexists. exists rest. split; [reflexivity|].
        eapply st_pair; eassumption.
      * destruct (IH tail) as [(b & v & rest & Et & Hb)|Hb]; [lia| |right; auto].
        destruct (Split _ _ Et) as (p & -> & Hp). left. exists p. eexists. exists rest. split; [reflexivity|]. eapply st_u; eassumption.
    + right. eapply bad_cons; [reflexivity|reflexivity|reflexivity|assumption|]. apply bad_now. apply He.
  - assert (N1 : c <> x22) by (intros ->; discriminate E1). assert (N2 : c <> x5c) by (intros ->; discriminate E2).
    destruct (b2n c <? 32) eqn:E3.
    { right. apply bad_now. unfold json_scan. cbn [sc_step]. rewrite E1, E2, E3. reflexivity. }
    assert (Ne : c :: s <> []) by discriminate. destruct (decode_rune (c :: s)) as [r w] eqn:Ed. pose proof (decode_width Ne) as W. rewrite Ed in W. cbn [snd length] in W.
    destruct w as [|w]; [lia|]. set (raw := firstn w s). set (tail := skipn w s).
    assert (Es : s = raw ++ tail) by (symmetry; apply firstn_skipn).
    assert (Lr : length raw = w) by (unfold raw; rewrite firstn_length; lia).
    assert (Hraw : Forall (fun c => 128 <= b2n c) raw).
    { apply (@rune_bytes c raw tail r). cbn [app length]. rewrite <- Es, Lr. exact Ed. }
    assert (Ef : feed k (Scan SInString st) (c :: raw) = Some (Scan SInString st)).
    { apply feed_raw; [assumption|]. constructor; [split; [lia|auto]|]. eapply Forall_impl; [|exact Hraw]. intros x Hx. exact (high_byte Hx). }
    assert (Lt : (length tail <= n)%nat) by (unfold tail; rewrite skipn_length; lia).
    destruct (IH tail Lt) as [(b & v & rest & Et & Hb)|Hb].
    + left. exists ((c :: raw) ++ b), (encode_rune r ++ v), rest. split.
      { rewrite Es, Et. cbn [app]. rewrite <- app_assoc. reflexivity. }
      apply st_raw; [|lia|assumption|assumption|assumption].
      replace ((c :: raw) ++ b) with (firstn (S w + length b) (c :: s)).
      2:{ rewrite Es, Et. cbn [Nat.add firstn app]. f_equal. rewrite app_assoc. rewrite firstn_app, (@firstn_all2 _ _ (raw ++ b)) by (rewrite app_length; lia).
          replace (w + length b - length (raw ++ b))%nat with 0%nat by (rewrite app_length; lia). apply app_nil_r. }
      rewrite decode_firstn; [rewrite Ed; cbn [length]; rewrite Lr; reflexivity|discriminate|rewrite Ed; cbn [snd]; lia].
    + right. rewrite Es. change (c :: raw ++ tail) with ((c :: raw) ++ tail). apply (bad_app Ef Hb).
Qed.

(** ** Numbers and words *)
Definition stops (q : jstep) (st : list jparse) (rest : bytes) : Prop := forall c r, rest = c :: r -> json_scan (Scan q st) c = end_value st c.
Lemma stops_nil q st : stops q st [].
Proof. intros c r H. discriminate H. Qed.
Lemma stops_value st rest : stops SEndValue st rest.
Proof. intros c r _. reflexivity. Qed.
Definition no_digit (s : bytes) : Prop := forall c r, s = c :: r -> json_digit c = false.
Lemma digits_span s : exists ds rest, s = ds ++ rest /\ Forall is_digit ds /\ no_digit rest.
Proof.
  induction s as [|c s (ds & rest & -> & H & N)]; [exists [], []; repeat split; [constructor|intros c r H; discriminate H]|].
  destruct (json_digit c) eqn:E; [exists (c :: ds), rest|exists [], (c :: ds ++ rest)].
  - repeat split; [constructor; [apply digit_ok; assumption|assumption]|assumption].
  - repeat split; [constructor|]. intros c0 r H0. injection H0 as <- <-. assumption.
Qed.
Lemma blank_span s : exists w rest, s = w ++ rest /\ blank w /\ forall c r, rest = c :: r -> json_space c = false.
Proof.
  induction s as [|c s (w & rest & -> & H & N)]; [exists [], []; repeat split; [constructor|intros c r H; discriminate H]|].
  destruct (json_space c) eqn:E; [exists (c :: w), rest|exists [], (c :: w ++ rest)].
  - repeat split; [constructor; [apply blank_space; assumption|assumption]|assumption].
  - repeat split; [constructor|]. intros c0 r H0. injection H0 as <- <-. assumption.
Qed.
Definition exp_form (exp : bytes) : Prop :=
  exp = [] \/ exists e sign ds, exp = e :: sign ++ ds /\ In e [x65; x45] /\ In sign [[]; [x2b]; [x2d]] /\ some_digits ds.
Definition frac_form (frac : bytes) : Prop := frac = [] \/ exists ds, frac = x2e :: ds /\ some_digits ds.
(** [SE0] after its digits *)
Lemma stops_digits q st rest : In q [SE0] -> no_digit rest -> stops q st rest.
Proof. intros [<-|[]] N c r ->. unfold json_scan. cbn [sc_step sc_stack]. rewrite (N c r eq_refl). reflexivity. Qed.
Lemma exp_shapes k q st s : (k <= length st)%nat -> In q [S0; S1; SDot0] -> (q = S0 \/ no_digit s) -> (q = SDot0 \/ forall r, s <> x2e :: r) ->
  (exists exp rest q', s = exp ++ rest /\ exp_form exp /\ done q' = true /\ feed k (Scan q st) exp = Some (Scan q' st) /\ stops q' st rest) \/ bad k (Scan q st) s.
Proof.
  intros L Q Nd Np.
  assert (Dq : done q = true) by (destruct Q as [<-|[<-|[<-|[]]]]; reflexivity).
  destruct s as [|c s]; [left; exists [], [], q; repeat split; [left; reflexivity|assumption|apply stops_nil]|].
  destruct (Byte.eqb c x65 || Byte.eqb c x45) eqn:Ee.
  2:{ left. exists [], (c :: s), q. repeat split; [left; reflexivity|assumption|]. intros c0 r H. injection H as <- <-.
      assert (Ep : q = SDot0 \/ Byte.eqb c x2e = false) by (destruct Np as [H|H]; [left; assumption|right; apply eqb_no; intros ->; exact (H s eq_refl)]).
      assert (Ed : q = S0 \/ json_digit c = false) by (destruct Nd as [H|H]; [left; assumption|right; exact (H c s eq_refl)]).
      destruct Q as [<-|[<-|[<-|[]]]]; unfold json_scan, state_0; cbn [sc_step sc_stack];
        repeat match goal with H : _ = _ \/ _ |- _ => destruct H as [H|H]; try discriminate H end; rewrite ?Ep, ?Ed, ?Ee; reflexivity. }
  assert (He : In c [x65; x45]) by (apply orb_true_iff in Ee; destruct Ee as [H|H]; apply byte_eqb_spec in H; subst c; cbn; auto).
  assert (E1 : json_scan (Scan q st) c = (Scan SE st, OContinue)) by (destruct He as [<-|[<-|[]]]; destruct Q as [<-|[<-|[<-|[]]]]; reflexivity).
  (* the digits, from SE or SESign *)
  assert (G : forall q1 sign s1, In sign [[]; [x2b]; [x2d]] -> (sign = [] -> q1 = SE /\ forall c r, s1 = c :: r -> Byte.eqb c x2b || Byte.eqb c x2d = false) ->
    (sign <> [] -> q1 = SESign) -> feed k (Scan SE st) sign = Some (Scan q1 st) ->
    (exists exp rest q', c :: sign ++ s1 = exp ++ rest /\ exp_form exp /\ done q' = true /\ feed k (Scan q st) exp = Some (Scan q' st) /\ stops q' st rest) \/
    bad k (Scan q st) (c :: sign ++ s1)).
  { intros q1 sign s1 Hs Hn Hy Ef.
    assert (Bd : bad k (Scan q1 st) s1 -> bad k (Scan q st) (c :: sign ++ s1)).
    { intros B. eapply bad_cons; [exact E1|reflexivity|reflexivity|assumption|]. apply (bad_app Ef B). }
    destruct s1 as [|d s1]; [right; apply Bd; apply bad_end; destruct sign as [|x sign]; [destruct (Hn eq_refl) as (-> & _)|rewrite (Hy ltac:(discriminate))]; discriminate|].
    destruct (json_digit d) eqn:Ed.
    - left. destruct (digits_span s1) as (ds & rest & -> & Hds & Hr). exists (c :: sign ++ d :: ds), rest, SE0.
      assert (Hf : exp_form (c :: sign ++ d :: ds)) by (right; exists c, sign, (d :: ds); repeat split; [assumption|assumption|discriminate|constructor; [apply digit_ok; assumption|assumption]]).
      split; [cbn [app]; rewrite <- app_assoc; reflexivity|]. split; [assumption|]. split; [reflexivity|]. split; [|apply stops_digits; [left; reflexivity|assumption]].
      erewrite feed_cons; [|exact E1|reflexivity|reflexivity|assumption]. erewrite feed_app_eq; [|exact Ef].
      destruct (digit_not Ed) as (_ & _ & _ & _ & M1 & M2).
      assert (E2 : json_scan (Scan q1 st) d = (Scan SE0 st, OContinue)).
      { destruct sign as [|x sign]; [destruct (Hn eq_refl) as (-> & _)|rewrite (Hy ltac:(discriminate))]; unfold json_scan, state_esign; cbn [sc_step sc_stack]; rewrite ?M1, ?M2, Ed; reflexivity. }
      erewrite feed_cons; [|exact E2|reflexivity|reflexivity|assumption]. apply feed_digits; [assumption|cbn; auto|assumption].
    - right. apply Bd. apply bad_now. destruct sign as [|x sign].
      + destruct (Hn eq_refl) as (-> & Hx). unfold json_scan, state_esign. cbn [sc_step sc_stack]. rewrite (Hx d s1 eq_refl), Ed. reflexivity.
      + rewrite (Hy ltac:(discriminate)). unfold json_scan, state_esign. cbn [sc_step sc_stack]. rewrite Ed. reflexivity. }
  destruct s as [|x s]; [apply (G SE [] []); [cbn; auto|intros _; split; [reflexivity|intros ? ? H; discriminate H]|congruence|reflexivity]|].
  destruct (Byte.eqb x x2b) eqn:X1; [apply byte_eqb_spec in X1; subst x; apply (G SESign [x2b] s); [cbn; auto|discriminate|reflexivity|]|].
  { erewrite feed_cons; [reflexivity|reflexivity|reflexivity|reflexivity|assumption]. }
  destruct (Byte.eqb x x2d) eqn:X2; [apply byte_eqb_spec in X2; subst x; apply (G SESign [x2d] s); [cbn; auto|discriminate|reflexivity|]|].
  { erewrite feed_cons; [reflexivity|reflexivity|reflexivity|reflexivity|assumption]. }
  apply (G SE [] (x :: s)); [cbn; auto|intros _; split; [reflexivity|intros ? ? H; injection H as <- <-; rewrite X1, X2; reflexivity]|congruence|reflexivity].
Qed.
Lemma frac_shapes k q st s : (k <= length st)%nat -> In q [S0; S1] -> (q = S0 \/ no_digit s) ->
  (exists frac exp rest q', s = frac ++ exp ++ rest /\ frac_form frac /\ exp_form exp /\ done q' = true /\ feed k (Scan q st) (frac ++ exp) = Some (Scan q' st) /\ stops q' st rest) \/
  bad k (Scan q st) s.
Proof.
  intros L Q Nd.
  assert (Plain : (forall r, s <> x2e :: r) -> (exists frac exp rest q', s = frac ++ exp ++ rest /\ frac_form frac /\ exp_form exp /\ done q' = true /\ feed k (Scan q st) (frac ++ exp) = Some (Scan q' st) /\ stops q' st rest) \/
    bad k (Scan q st) s).
  { intros Np. destruct (@exp_shapes k q st s L) as [(exp & rest & q' & Es & Hf & D & F & S)|B]; [destruct Q as [<-|[<-|[]]]; cbn; auto|assumption|right; assumption| |right; assumption].
    left. exists [], exp, rest, q'. cbn [app]. repeat split; try assumption. left. reflexivity. }
  destruct s as [|c s]; [apply Plain; discriminate|]. destruct (Byte.eqb c x2e) eqn:Ec.
  2:{ apply Plain. intros r H. injection H as -> _. rewrite eqb_same in Ec. discriminate Ec. }
  apply byte_eqb_spec in Ec. subst c. clear Plain.
  assert (E1 : json_scan (Scan q st) x2e = (Scan SDot st, OContinue)) by (destruct Q as [<-|[<-|[]]]; reflexivity).
  assert (Bd : bad k (Scan SDot st) s -> bad k (Scan q st) (x2e :: s)) by (intros B; eapply bad_cons; [exact E1|reflexivity|reflexivity|assumption|exact B]).
  destruct s as [|d s]; [right; apply Bd; apply bad_end; discriminate|]. destruct (json_digit d) eqn:Ed.
  2:{ right. apply Bd. apply bad_now. unfold json_scan. cbn [sc_step]. rewrite Ed. reflexivity. }
  assert (E2 : json_scan (Scan SDot st) d = (Scan SDot0 st, OContinue)) by (unfold json_scan; cbn [sc_step sc_stack]; rewrite Ed; reflexivity).
  destruct (digits_span s) as (ds & s2 & -> & Hds & Hr).
  assert (F1 : feed k (Scan q st) (x2e :: d :: ds) = Some (Scan SDot0 st)).
  { erewrite feed_cons; [|exact E1|reflexivity|reflexivity|assumption]. erewrite feed_cons; [|exact E2|reflexivity|reflexivity|assumption]. apply feed_digits; [assumption|cbn; auto|assumption]. }
  destruct (@exp_shapes k SDot0 st s2 L) as [(exp & rest & q' & -> & Hf & D & F & S)|B]; [cbn; auto|right; assumption|left; reflexivity| |].
  - left. exists (x2e :: d :: ds), exp, rest, q'. repeat split; try assumption.
    + right. exists (d :: ds). repeat split; [discriminate|constructor; [apply digit_ok; assumption|assumption]].
    + rewrite (feed_app_eq _ F1). assumption.
  - right. change (x2e :: d :: ds ++ s2) with ((x2e :: d :: ds) ++ s2). apply (bad_app F1 B).
Qed.
Definition number_shape (k : nat) (q0 : jstep) (st : list jparse) (good : bytes -> Prop) (s : bytes) : Prop :=
  (exists t rest q, s = t ++ rest /\ good t /\ done q = true /\ feed k (Scan q0 st) t = Some (Scan q st) /\ stops q st rest) \/ bad k (Scan q0 st) s.
Definition int_form (int : bytes) : Prop := int = [x30] \/ exists d ds, int = d :: ds /\ is_digit d /\ d <> x30 /\ Forall is_digit ds.
(** From the first digit on. *)
Lemma int_shapes k q0 st c s : (k <= length st)%nat -> q0 = SBeginValue \/ q0 = SNeg -> json_digit c = true ->
  number_shape k q0 st (fun t => exists int frac exp, t = int ++ frac ++ exp /\ int_form int /\ frac_form frac /\ exp_form exp) (c :: s).
Proof.
  intros L Q0 Hc. destruct (Byte.eqb c x30) eqn:E0.
  - apply byte_eqb_spec in E0. subst c.
    assert (E1 : exists o, json_scan (Scan q0 st) x30 = (Scan S0 st, o) /\ quiet o = true) by (destruct Q0 as [-> | ->]; eexists; split; reflexivity).
    destruct E1 as (o & E1 & Q1).
    destruct (@frac_shapes k S0 st s L) as [(frac & exp & rest & q' & -> & Hf & He & D & F & S)|B]; [cbn; auto|left; reflexivity| |].
    + left. exists (x30 :: frac ++ exp), rest, q'. split; [cbn [app]; rewrite <- app_assoc; reflexivity|].
      split; [exists [x30], frac, exp; split; [reflexivity|]; split; [left; reflexivity|auto]|]. split; [assumption|]. split; [|assumption].
      erewrite feed_cons; [exact F|exact E1|exact Q1|reflexivity|assumption].
    + right. eapply bad_cons; [exact E1|exact Q1|reflexivity|assumption|exact B].
  - assert (Nz : c <> x30) by (intros ->; discriminate E0). pose proof (digit19_ok (proj2 (digit_ok c) Hc) Nz) as H19.
    assert (E1 : exists o, json_scan (Scan q0 st) c = (Scan S1 st, o) /\ quiet o = true).
    { destruct Q0 as [-> | ->]; unfold json_scan; cbn [sc_step sc_stack]; [rewrite (digit19_begin _ _ H19)|rewrite E0, H19]; eexists; split; reflexivity. }
    destruct E1 as (o & E1 & Q1). destruct (digits_span s) as (ds & s2 & -> & Hds & Hr).
    assert (F1 : feed k (Scan q0 st) (c :: ds) = Some (Scan S1 st)).
    { erewrite feed_cons; [|exact E1|exact Q1|reflexivity|assumption]. apply feed_digits; [assumption|cbn; auto|assumption]. }
    destruct (@frac_shapes k S1 st s2 L) as [(frac & exp & rest & q' & -> & Hf & He & D & F & S)|B]; [cbn; auto|right; assumption| |].
    + left. exists ((c :: ds) ++ frac ++ exp), rest, q'. split; [cbn [app]; rewrite <- !app_assoc; reflexivity|].
      split; [exists (c :: ds), frac, exp; split; [reflexivity|]; split; [right; exists c, ds; repeat split; [apply digit_ok; assumption|apply digit_ok; assumption|assumption|assumption]|auto]|].
      split; [assumption|]. split; [|assumption]. rewrite (feed_app_eq _ F1). assumption.
    + right. change (c :: ds ++ s2) with ((c :: ds) ++ s2). apply (bad_app F1 B).
Qed.
Lemma number_shapes k st c s : (k <= length st)%nat -> c = x2d \/ json_digit c = true -> number_shape k SBeginValue st number_text (c :: s).
Proof.
  intros L [->|Hc].
  - assert (E1 : json_scan (Scan SBeginValue st) x2d = (Scan SNeg st, OBeginLiteral)) by reflexivity.
    assert (Bd : bad k (Scan SNeg st) s -> bad k (Scan SBeginValue st) (x2d :: s)) by (intros B; eapply bad_cons; [exact E1|reflexivity|reflexivity|assumption|exact B]).
    destruct s as [|c s]; [right; apply Bd; apply bad_end; discriminate|]. destruct (json_digit c) eqn:Hc.
    + destruct (@int_shapes k SNeg st c s L (or_intror eq_refl) Hc) as [(t & rest & q & E & (int & frac & exp & -> & Hi & Hf & He) & D & F & S)|B]; [|right; auto].
      left. exists (x2d :: int ++ frac ++ exp), rest, q. split; [rewrite E; reflexivity|]. split; [|split; [assumption|split; [|assumption]]].
      * exists [x2d], int, frac, exp. repeat split; auto.
      * erewrite feed_cons; [exact F|exact E1|reflexivity|reflexivity|assumption].
    + right. apply Bd. apply bad_now. unfold json_scan. cbn [sc_step].
      assert (Byte.eqb c x30 = false) as -> by (apply eqb_no; intros ->; discriminate Hc).
      assert (json_digit19 c = false) as -> by (unfold json_digit in Hc; unfold json_digit19; lia). reflexivity.
  - destruct (@int_shapes k SBeginValue st c s L (or_introl eq_refl) Hc) as [(t & rest & q & E & (int & frac & exp & -> & Hi & Hf & He) & D & F & S)|B]; [|right; assumption].
    left. exists (int ++ frac ++ exp), rest, q. repeat split; try assumption. exists [], int, frac, exp. repeat split; auto.
Qed.
Lemma word_shapes k st word : (k <= length st)%nat -> forall w s, w <> [] -> (exists rest, s = w ++ rest) \/ bad k (Scan (STr w word) st) s.
Proof.
  intros L. induction w as [|a w IH]; [congruence|]. intros s _. destruct s as [|c s]; [right; apply bad_end; unfold json_scan; cbn [sc_step]; destruct (Byte.eqb x20 a); discriminate|].
  destruct (Byte.eqb c a) eqn:E.
  - apply byte_eqb_spec in E. subst c. destruct w as [|b w]; [left; exists s; reflexivity|].
    destruct (IH s) as [(rest & ->)|B]; [discriminate|left; exists rest; reflexivity|right].
    eapply bad_cons; [unfold json_scan; cbn [sc_step sc_stack]; rewrite eqb_same; reflexivity|reflexivity|reflexivity|assumption|exact B].
  - right. apply bad_now. unfold json_scan. cbn [sc_step]. rewrite E. reflexivity.
Qed.

(** ** Values *)
Definition begin_kind (c : byte) : bool :=
  json_space c || existsb (Byte.eqb c) [x7b; x5b; x22; x2d; x74; x66; x6e] || json_digit c.
Lemma begin_error c st : begin_kind c = false -> snd (json_scan (Scan SBeginValue st) c) = OError.
Proof.
  unfold begin_kind. cbn [existsb]. rewrite !orb_false_iff. intros ((S & H1 & H2 & H3 & H4 & H5 & H6 & H7 & _) & D).
  unfold json_scan, begin_value. cbn [sc_step sc_stack]. rewrite S, H1, H2, H3, H4, H5, H6, H7.
  assert (Byte.eqb c x30 = false) as -> by (apply eqb_no; intros ->; discriminate D).
  assert (json_digit19 c = false) as -> by (unfold json_digit in D; unfold json_digit19; lia). reflexivity.
Qed.
Lemma begin_shapes c : json_space c = true \/ c = x7b \/ c = x5b \/ c = x22 \/ (c = x2d \/ json_digit c = true) \/ c = x74 \/ c = x66 \/ c = x6e \/
  forall st, snd (json_scan (Scan SBeginValue st) c) = OError.
Proof.
  destruct (begin_kind c) eqn:E; [|do 8 right; intros st; apply begin_error; assumption].
  unfold begin_kind in E. cbn [existsb] in E. rewrite !orb_true_iff, !byte_eqb_spec in E. intuition.
Qed.
(** White space after a value *)
Lemma trail_shapes k q st rest : (k <= length st)%nat -> st <> [] -> done q = true -> stops q st rest ->
  (exists w c r q2, rest = w ++ c :: r /\ blank w /\ json_space c = false /\ feed k (Scan q st) w = Some (Scan q2 st) /\ json_scan (Scan q2 st) c = end_value st c) \/
  bad k (Scan q st) rest.
Proof.
  intros L N D S. destruct (blank_span rest) as (w & r & -> & B & Hr).
  assert (F : exists q2, feed k (Scan q st) w = Some (Scan q2 st) /\ (w = [] /\ q2 = q \/ q2 = SEndValue)).
  { destruct B as [|c w Hc B]; [exists q; auto|]. exists SEndValue. split; [|auto]. apply blank_space in Hc.
    erewrite feed_cons; [|rewrite (scan_done _ D (space_not_number Hc)); apply end_value_space; assumption|reflexivity|reflexivity|assumption].
    apply feed_blank; auto. }
  destruct F as (q2 & F & W). destruct r as [|c r].
  - right. right. rewrite app_nil_r. exists (Scan q2 st). split; [assumption|].
    assert (Dq2 : done q2 = true) by (destruct W as [(_ & ->)| ->]; auto). rewrite (scan_done _ Dq2) by reflexivity. rewrite end_value_space by auto. discriminate.
  - left. exists w, c, r, q2. repeat split; [assumption|exact (Hr c r eq_refl)|assumption|]. destruct W as [(-> & ->)| ->]; [apply (S c r); reflexivity|reflexivity].
Qed.
Definition value_shape (k : nat) (st : list jparse) (s : bytes) : Prop :=
  (exists w t v rest q, s = w ++ t ++ rest /\ blank w /\ reads t v /\ N.of_nat (length st + nesting v) <= 10000 /\ done q = true /\
     feed k (Scan SBeginValue st) (w ++ t) = Some (Scan q st) /\ stops q st rest) \/
  bad k (Scan SBeginValue st) s.
Definition elements_shape (k : nat) (st : list jparse) (s : bytes) : Prop :=
  (exists t l rest, s = t ++ x5d :: rest /\ elements t l /\ N.of_nat (length st + nesting (TArr l)) <= 10000) \/ bad k (Scan SBeginValue (PArray :: st)) s.
Definition members_shape (k : nat) (st : list jparse) (s : bytes) : Prop :=
  (exists t l rest, s = t ++ x7d :: rest /\ members t l /\ N.of_nat (length st + nesting (TObj l)) <= 10000) \/ bad k (Scan SBeginString (PKey :: st)) s.
Definition array_shape (k : nat) (st : list jparse) (s : bytes) : Prop :=
  (exists t l rest, s = t ++ x5d :: rest /\ array_inside t l /\ N.of_nat (length st + nesting (TArr l)) <= 10000) \/ bad k (Scan SBeginValueOrEmpty (PArray :: st)) s.
Definition object_shape (k : nat) (st : list jparse) (s : bytes) : Prop :=
  (exists t l rest, s = t ++ x7d :: rest /\ object_inside t l /\ N.of_nat (length st + nesting (TObj l)) <= 10000) \/ bad k (Scan SBeginStringOrEmpty (PKey :: st)) s.

(** The states that also take a closing bracket *)
Lemma bad_same k s1 s2 c s : json_scan s1 c = json_scan s2 c -> bad k s1 (c :: s) -> bad k s2 (c :: s).
Proof.
  intros E [(p & d & r & s' & Ep & F & O)|(s' & F & O)].
  - destruct p as [|x p].
    + injection Ep as -> ->. injection F as <-. apply bad_now. rewrite <- E. assumption.
    + injection Ep as <- ->. left. exists (c :: p), d, r, s'. split; [reflexivity|]. split; [|assumption]. cbn [feed] in *. rewrite <- E. assumption.
  - right. exists s'. cbn [feed] in *. rewrite <- E. auto.
Qed.
Lemma elements_blank w t l : blank w -> elements t l -> elements (w ++ t) l.
Proof.
  intros B [w1 t0 w2 v B1 R B2|w1 t0 w2 v s l' B1 R B2 H]; rewrite app_assoc; constructor; try assumption; apply Forall_app; split; assumption.
Qed.
Lemma members_blank w t l : blank w -> members t l -> members (w ++ t) l.
Proof.
  intros B [m kv [w1 k w2 w3 t0 w4 kt v B1 Hk B2 B3 R B4]|m kv s l' [w1 k w2 w3 t0 w4 kt v B1 Hk B2 B3 R B4] H].
  - constructor. rewrite app_assoc. constructor; try assumption. apply Forall_app; split; assumption.
  - rewrite app_assoc. constructor; [|assumption]. rewrite app_assoc. constructor; try assumption. apply Forall_app; split; assumption.
Qed.
Lemma array_shapes k st s : (k <= S (length st))%nat -> N.of_nat (S (length st)) <= 10000 -> (forall s', (length s' <= length s)%nat -> elements_shape k st s') -> array_shape k st s.
Proof.
  intros L D H. destruct (blank_span s) as (w & r & -> & B & Hr).
  assert (F1 : feed k (Scan SBeginValueOrEmpty (PArray :: st)) w = Some (Scan SBeginValueOrEmpty (PArray :: st))) by (apply feed_blank; auto; right; discriminate).
  destruct r as [|c r]; [right; right; rewrite app_nil_r; eexists; split; [eassumption|discriminate]|]. pose proof (Hr c r eq_refl) as Sc. destruct (Byte.eqb c x5d) eqn:Ec.
  - apply byte_eqb_spec in Ec. subst c. left. exists w, [], r. split; [reflexivity|]. split; [left; auto|]. cbn. lia.
  - assert (Nc : c <> x5d) by (intros ->; discriminate Ec).
    destruct (H (c :: r)) as [(t & l & rest & E & Ht & Dl)|Bd]; [rewrite app_length; lia| |].
    + left. exists (w ++ t), l, rest. rewrite E, <- app_assoc. split; [reflexivity|]. split; [right; apply elements_blank; assumption|assumption].
    + right. apply (bad_app F1). apply (bad_same (s1 := Scan SBeginValue (PArray :: st))); [|assumption].
      unfold json_scan. cbn [sc_step sc_stack]. rewrite Sc, (eqb_no Nc). reflexivity.
Qed.
Lemma object_shapes k st s : (k <= S (length st))%nat -> N.of_nat (S (length st)) <= 10000 -> (forall s', (length s' <= length s)%nat -> members_shape k st s') -> object_shape k st s.
Proof.
  intros L D H. destruct (blank_span s) as (w & r & -> & B & Hr).
  assert (F1 : feed k (Scan SBeginStringOrEmpty (PKey :: st)) w = Some (Scan SBeginStringOrEmpty (PKey :: st))) by (apply feed_blank; auto; right; discriminate).
  destruct r as [|c r]; [right; right; rewrite app_nil_r; eexists; split; [eassumption|discriminate]|]. pose proof (Hr c r eq_refl) as Sc. destruct (Byte.eqb c x7d) eqn:Ec.
  - apply byte_eqb_spec in Ec. subst c. left. exists w, [], r. split; [reflexivity|]. split; [left; auto|]. cbn. lia.
  - assert (Nc : c <> x7d) by (intros ->; discriminate Ec).
    destruct (H (c :: r)) as [(t & l & rest & E & Ht & Dl)|Bd]; [rewrite app_length; lia| |].
    + left. exists (w ++ t), l, rest. rewrite E, <- app_assoc. split; [reflexivity|]. split; [right; apply members_blank; assumption|assumption].
    + right. apply (bad_app F1). apply (bad_same (s1 := Scan SBeginString (PKey :: st))); [|assumption].
      unfold json_scan. cbn [sc_step sc_stack]. rewrite Sc, (eqb_no Nc). reflexivity.
Qed.
(** One value: what it is after white space. *)
Lemma push_error st c q p o : 10000 < N.of_nat (S (length st)) -> snd (jpush st c q p o) = OError.
Proof. intros H. unfold jpush. cbn [length]. replace (N.of_nat (S (length st)) <=? 10000) with false by lia. reflexivity. Qed.
Lemma value_shapes_step n k st s : (k <= length st)%nat -> st <> [] -> N.of_nat (length st) <= 10000 -> (length s <= S n)%nat ->
  (forall s' st', (length s' <= n)%nat -> (k <= S (length st'))%nat -> N.of_nat (S (length st')) <= 10000 -> array_shape k st' s' /\ object_shape k st' s') ->
  value_shape k st s.
Proof.
  intros L N D Ln H. destruct (blank_span s) as (w & r & -> & B & Hr).
  assert (F1 : feed k (Scan SBeginValue st) w = Some (Scan SBeginValue st)) by (apply feed_blank; auto).
  destruct r as [|c r]; [right; right; rewrite app_nil_r; eexists; split; [eassumption|discriminate]|]. pose proof (Hr c r eq_refl) as Sc. rewrite app_length in Ln. cbn [length] in Ln.
  assert (G : (exists t v rest q, c :: r = t ++ rest /\ reads t v /\ N.of_nat (length st + nesting v) <= 10000 /\ done q = true /\
     feed k (Scan SBeginValue st) t = Some (Scan q st) /\ stops q st rest) \/ bad k (Scan SBeginValue st) (c :: r)).
  { assert (Done : forall t v rest, c :: r = t ++ rest -> reads t v -> N.of_nat (length st + nesting v) <= 10000 -> (forall q, done q = true -> feed k (Scan SBeginValue st) t = Some (Scan q st) -> q = SEndValue) ->
      exists t v rest q, c :: r = t ++ rest /\ reads t v /\ N.of_nat (length st + nesting v) <= 10000 /\ done q = true /\ feed k (Scan SBeginValue st) t = Some (Scan q st) /\ stops q st rest).
    { intros t v rest E R Dv U. destruct (proj1 grammar_fed t v R k st N L Dv) as (q & Dq & F). exists t, v, rest, q. repeat split; try assumption.
      rewrite (U q Dq F). apply stops_value. }
    destruct (begin_shapes c) as [S|[->|[->|[->|[Hnum|[->|[->|[->|He]]]]]]]].
    - congruence.
    - (* object *)
      destruct (N.le_gt_cases (N.of_nat (S (length st))) 10000) as [Dp|Dp]; [|right; apply bad_now; apply push_error; assumption].
      destruct (H r st) as (_ & [(t & l & rest & -> & Hi & Dl)|Bd]); [lia|lia|assumption| |].
      + left. assert (R : reads (x7b :: t ++ [x7d]) (TObj l)) by (destruct Hi as [(Bt & ->)|Hm]; [apply rd_obj0; assumption|apply rd_obj; assumption]).
        apply (Done (x7b :: t ++ [x7d]) (TObj l) rest); [cbn [app]; rewrite <- app_assoc; reflexivity|assumption|assumption|].
        intros q Dq F. erewrite feed_cons in F; [|apply open_object; assumption|reflexivity|reflexivity|cbn [sc_stack length]; lia].
        destruct (@feed_object k st t l (proj1 (proj2 (proj2 grammar_fed)) t l) Hi) as (q1 & p1 & E1 & E2); [lia|assumption|].
        rewrite (feed_app_eq _ E1) in F. rewrite (jpop_in N) in E2. erewrite feed_cons in F; [|exact E2|reflexivity|reflexivity|assumption]. injection F as <-. reflexivity.
      + right. eapply bad_cons; [apply open_object; assumption|reflexivity|reflexivity|cbn [sc_stack length]; lia|exact Bd].
    - destruct (N.le_gt_cases (N.of_nat (S (length st))) 10000) as [Dp|Dp]; [|right; apply bad_now; apply push_error; assumption].
      destruct (H r st) as ([(t & l & rest & -> & Hi & Dl)|Bd] & _); [lia|lia|assumption| |].
      + left. assert (R : reads (x5b :: t ++ [x5d]) (TArr l)) by (destruct Hi as [(Bt & ->)|Hm]; [apply rd_arr0; assumption|apply rd_arr; assumption]).
        apply (Done (x5b :: t ++ [x5d]) (TArr l) rest); [cbn [app]; rewrite <- app_assoc; reflexivity|assumption|assumption|].
        intros q Dq F. erewrite feed_cons in F; [|apply open_array; assumption|reflexivity|reflexivity|cbn [sc_stack length]; lia].
        destruct (@feed_array k st t l (proj1 (proj2 grammar_fed) t l) Hi) as (q1 & E1 & E2); [lia|assumption|].
        rewrite (feed_app_eq _ E1) in F. rewrite (jpop_in N) in E2. erewrite feed_cons in F; [|exact E2|reflexivity|reflexivity|assumption]. injection F as <-. reflexivity.
      + right. eapply bad_cons; [apply open_array; assumption|reflexivity|reflexivity|cbn [sc_stack length]; lia|exact Bd].
    - destruct (@string_shapes k st L (length r) r (le_n _)) as [(b & v & rest & -> & Hs)|Bd].
      + left. apply (Done (x22 :: b ++ [x22]) (TStr v) rest); [cbn [app]; rewrite <- app_assoc; reflexivity|apply rd_str; assumption|cbn; lia|].
        intros q Dq F. assert (E1 : json_scan (Scan SBeginValue st) x22 = (Scan SInString st, OBeginLiteral)) by reflexivity.
        erewrite feed_cons in F; [|exact E1|reflexivity|reflexivity|assumption]. rewrite (feed_quoted L Hs) in F. injection F as <-. reflexivity.
      + right. eapply bad_cons; [reflexivity|reflexivity|reflexivity|assumption|exact Bd].
    - destruct (@number_shapes k st c r L Hnum) as [(t & rest & q & E & Hn & Dq & F & S)|Bd]; [|right; assumption].
      left. exists t, TNum, rest, q. repeat split; try assumption; [apply rd_num; assumption|cbn; lia].
    - destruct (@word_shapes k st (s2b "true") L (s2b "rue") r) as [(rest & ->)|Bd]; [discriminate| |right; eapply bad_cons; [reflexivity|reflexivity|reflexivity|assumption|exact Bd]].
      left. apply (Done (s2b "true") (TBool true) rest); [reflexivity|constructor|cbn; lia|].
      intros q Dq F. change (s2b "true") with (x74 :: s2b "rue") in F. erewrite (@feed_word k st SBeginValue OBeginLiteral) in F; [injection F as <-; reflexivity|assumption|reflexivity|discriminate|reflexivity].
    - destruct (@word_shapes k st (s2b "false") L (s2b "alse") r) as [(rest & ->)|Bd]; [discriminate| |right; eapply bad_cons; [reflexivity|reflexivity|reflexivity|assumption|exact Bd]].
      left. apply (Done (s2b "false") (TBool false) rest); [reflexivity|constructor|cbn; lia|].
      intros q Dq F. change (s2b "false") with (x66 :: s2b "alse") in F. erewrite (@feed_word k st SBeginValue OBeginLiteral) in F; [injection F as <-; reflexivity|assumption|reflexivity|discriminate|reflexivity].
    - destruct (@word_shapes k st (s2b "null") L (s2b "ull") r) as [(rest & ->)|Bd]; [discriminate| |right; eapply bad_cons; [reflexivity|reflexivity|reflexivity|assumption|exact Bd]].
      left. apply (Done (s2b "null") TNull rest); [reflexivity|constructor|cbn; lia|].
      intros q Dq F. change (s2b "null") with (x6e :: s2b "ull") in F. erewrite (@feed_word k st SBeginValue OBeginLiteral) in F; [injection F as <-; reflexivity|assumption|reflexivity|discriminate|reflexivity].
    - right. apply bad_now. apply He. }
  destruct G as [(t & v & rest & q & E & R & Dv & Dq & F & S)|Bd]; [|right; apply (bad_app F1 Bd)].
  left. exists w, t, v, rest, q. rewrite E. repeat split; try assumption. rewrite (feed_app_eq _ F1). assumption.
Qed.
Lemma reads_length t v : reads t v -> (1 <= length t)%nat.
Proof. intros R. destruct (reads_first R) as (c & t' & -> & _). cbn. lia. Qed.
Lemma nesting_cons_arr v l : nesting (TArr (v :: l)) = Nat.max (S (nesting v)) (nesting (TArr l)).
Proof. cbn. lia. Qed.
Lemma nesting_cons_obj kv l : nesting (TObj (kv :: l)) = Nat.max (S (nesting (snd kv))) (nesting (TObj l)).
Proof. cbn. lia. Qed.
Lemma elements_shapes_step n k st s : (k <= S (length st))%nat -> N.of_nat (S (length st)) <= 10000 -> (length s <= n)%nat ->
  value_shape k (PArray :: st) s -> (forall s', (length s' < length s)%nat -> elements_shape k st s') -> elements_shape k st s.
Proof.
  intros L D Ln [(w & t & v & rest & q & Es & B & R & Dv & Dq & F & S)|Bd] H; [|right; assumption]. subst s.
  destruct (@trail_shapes k q (PArray :: st) rest) as [(w2 & c & r & q2 & -> & B2 & Sc & F2 & E)|Bd]; [assumption|discriminate|assumption|assumption| |].
  2:{ right. rewrite app_assoc. apply (bad_app F Bd). }
  assert (F3 : feed k (Scan SBeginValue (PArray :: st)) ((w ++ t) ++ w2) = Some (Scan q2 (PArray :: st))) by (rewrite (feed_app_eq _ F); assumption).
  cbn [length] in Dv. destruct (Byte.eqb c x2c) eqn:E1; [|destruct (Byte.eqb c x5d) eqn:E2].
  - apply byte_eqb_spec in E1. subst c. destruct (H r) as [(t1 & l & rest & -> & Hl & Dl)|Bd].
    + rewrite !app_length. cbn [length]. pose proof (reads_length R). lia.
    + left. exists (w ++ t ++ w2 ++ x2c :: t1), (v :: l), rest. split; [rewrite <- !app_assoc; reflexivity|]. split; [apply el_more; assumption|].
      rewrite nesting_cons_arr. lia.
    + right. replace (w ++ t ++ w2 ++ x2c :: r) with (((w ++ t) ++ w2) ++ x2c :: r) by (rewrite <- !app_assoc; reflexivity).
      apply (bad_app F3). eapply bad_cons; [rewrite E; reflexivity|reflexivity|reflexivity|assumption|exact Bd].
  - apply byte_eqb_spec in E2. subst c. left. exists (w ++ t ++ w2), [v], r. split; [rewrite <- !app_assoc; reflexivity|]. split; [apply el_one; assumption|]. cbn [nesting fold_right]. lia.
  - right. replace (w ++ t ++ w2 ++ c :: r) with (((w ++ t) ++ w2) ++ c :: r) by (rewrite <- !app_assoc; reflexivity).
    apply (bad_app F3). apply bad_now. rewrite E. unfold end_value. rewrite Sc, E1, E2. reflexivity.
Qed.
Lemma members_shapes_step k st s : (k <= S (length st))%nat -> N.of_nat (S (length st)) <= 10000 ->
  (forall s', (length s' < length s)%nat -> value_shape k (PValue :: st) s') -> (forall s', (length s' < length s)%nat -> members_shape k st s') -> members_shape k st s.
Proof.
  intros L D HV H. destruct (blank_span s) as (w & r & -> & B & Hr).
  assert (F1 : feed k (Scan SBeginString (PKey :: st)) w = Some (Scan SBeginString (PKey :: st))) by (apply feed_blank; auto; right; discriminate).
  destruct r as [|c r]; [right; right; rewrite app_nil_r; eexists; split; [eassumption|discriminate]|]. pose proof (Hr c r eq_refl) as Sc.
  destruct (Byte.eqb c x22) eqn:Ec.
  2:{ right. apply (bad_app F1). apply bad_now. unfold json_scan, begin_string. cbn [sc_step sc_stack]. rewrite Sc, Ec. reflexivity. }
  apply byte_eqb_spec in Ec. subst c.
  assert (E1 : json_scan (Scan SBeginString (PKey :: st)) x22 = (Scan SInString (PKey :: st), OBeginLiteral)) by reflexivity.
  destruct (@string_shapes k (PKey :: st) L (length r) r (le_n _)) as [(ke & kt & r2 & -> & Hk)|Bd].
  2:{ right. apply (bad_app F1). eapply bad_cons; [exact E1|reflexivity|reflexivity|assumption|exact Bd]. }
  assert (F2 : feed k (Scan SBeginString (PKey :: st)) (w ++ x22 :: ke ++ [x22]) = Some (Scan SEndValue (PKey :: st))).
  { rewrite (feed_app_eq _ F1). erewrite feed_cons; [|exact E1|reflexivity|reflexivity|assumption]. eapply feed_quoted; eassumption. }
  destruct (@trail_shapes k SEndValue (PKey :: st) r2) as [(w2 & c & r & q2 & -> & B2 & Sc2 & F3 & E)|Bd]; [assumption|discriminate|reflexivity|apply stops_value| |].
  2:{ right. replace (w ++ x22 :: ke ++ x22 :: r2) with ((w ++ x22 :: ke ++ [x22]) ++ r2) by (rewrite <- !app_assoc; cbn [app]; rewrite <- app_assoc; reflexivity). apply (bad_app F2 Bd). }
  assert (F4 : feed k (Scan SBeginString (PKey :: st)) ((w ++ x22 :: ke ++ [x22]) ++ w2) = Some (Scan q2 (PKey :: st))) by (rewrite (feed_app_eq _ F2); assumption).
  assert (Eq : w ++ x22 :: ke ++ x22 :: w2 ++ c :: r = ((w ++ x22 :: ke ++ [x22]) ++ w2) ++ c :: r) by (rewrite <- !app_assoc; cbn [app]; rewrite <- app_assoc; reflexivity).
  destruct (Byte.eqb c x3a) eqn:Ec.
  2:{ right. rewrite Eq. apply (bad_app F4). apply bad_now. rewrite E. unfold end_value. rewrite Sc2, Ec. reflexivity. }
  apply byte_eqb_spec in Ec. subst c.
  assert (F5 : feed k (Scan SBeginString (PKey :: st)) (((w ++ x22 :: ke ++ [x22]) ++ w2) ++ [x3a]) = Some (Scan SBeginValue (PValue :: st))).
  { rewrite (feed_app_eq _ F4). erewrite feed_cons; [reflexivity|rewrite E; reflexivity|reflexivity|reflexivity|assumption]. }
  assert (Eq2 : forall x, w ++ x22 :: ke ++ x22 :: w2 ++ x3a :: x = (((w ++ x22 :: ke ++ [x22]) ++ w2) ++ [x3a]) ++ x) by (intros x; rewrite <- !app_assoc; cbn [app]; rewrite <- app_assoc; reflexivity).
  destruct (HV r) as [(w3 & t & v & rest & q & -> & B3 & R & Dv & Dq & F & S)|Bd].
  { rewrite app_length. cbn [length]. rewrite app_length. cbn [length]. rewrite app_length. cbn [length]. lia. }
  2:{ right. rewrite Eq2. apply (bad_app F5 Bd). }
  destruct (@trail_shapes k q (PValue :: st) rest) as [(w4 & c & r & q4 & -> & B4 & Sc4 & F6 & E6)|Bd]; [assumption|discriminate|assumption|assumption| |].
  2:{ right. rewrite Eq2. apply (bad_app F5). rewrite app_assoc. apply (bad_app F Bd). }
  cbn [length] in Dv.
  assert (F7 : feed k (Scan SBeginString (PKey :: st)) ((((w ++ x22 :: ke ++ [x22]) ++ w2) ++ [x3a]) ++ (w3 ++ t) ++ w4) = Some (Scan q4 (PValue :: st))).
  { rewrite (feed_app_eq _ F5), (feed_app_eq _ F). assumption. }
  assert (Mb : member (w ++ x22 :: ke ++ x22 :: w2 ++ x3a :: w3 ++ t ++ w4) (kt, v)) by (constructor; assumption).
  assert (Eq3 : forall x, w ++ x22 :: ke ++ x22 :: w2 ++ x3a :: w3 ++ t ++ w4 ++ x = ((((w ++ x22 :: ke ++ [x22]) ++ w2) ++ [x3a]) ++ (w3 ++ t) ++ w4) ++ x)
    by (intros x; rewrite Eq2, <- !app_assoc; reflexivity).
  assert (Eq4 : forall x, w ++ x22 :: ke ++ x22 :: w2 ++ x3a :: w3 ++ t ++ w4 ++ x = (w ++ x22 :: ke ++ x22 :: w2 ++ x3a :: w3 ++ t ++ w4) ++ x).
  { intros x. rewrite <- app_assoc. f_equal. cbn [app]. f_equal. rewrite <- app_assoc. f_equal. cbn [app]. f_equal. rewrite <- app_assoc. f_equal. cbn [app]. f_equal.
    rewrite <- !app_assoc. reflexivity. }
  destruct (Byte.eqb c x2c) eqn:Ec1; [|destruct (Byte.eqb c x7d) eqn:Ec2].
  - apply byte_eqb_spec in Ec1. subst c. destruct (H r) as [(t1 & l & rest & -> & Hl & Dl)|Bd].
    + rewrite Eq4, app_length. cbn [length]. lia.
    + left. exists ((w ++ x22 :: ke ++ x22 :: w2 ++ x3a :: w3 ++ t ++ w4) ++ x2c :: t1), ((kt, v) :: l), rest.
      split; [rewrite Eq4, <- !app_assoc; cbn [app]; reflexivity|]. split; [apply mb_more; assumption|]. rewrite nesting_cons_obj. cbn [snd]. lia.
    + right. rewrite Eq3. apply (bad_app F7). eapply bad_cons; [rewrite E6; reflexivity|reflexivity|reflexivity|assumption|exact Bd].
  - apply byte_eqb_spec in Ec2. subst c. left. exists (w ++ x22 :: ke ++ x22 :: w2 ++ x3a :: w3 ++ t ++ w4), [(kt, v)], r.
    split; [rewrite Eq4; reflexivity|]. split; [apply mb_one; assumption|]. cbn [nesting fold_right snd]. lia.
  - right. rewrite Eq3. apply (bad_app F7). apply bad_now. rewrite E6. unfold end_value. rewrite Sc4, Ec1, Ec2. reflexivity.
Qed.
Theorem grammar_shapes n :
  (forall k st s, (length s <= n)%nat -> (k <= length st)%nat -> st <> [] -> N.of_nat (length st) <= 10000 -> value_shape k st s) /\
  (forall k st s, (length s <= n)%nat -> (k <= S (length st))%nat -> N.of_nat (S (length st)) <= 10000 -> elements_shape k st s /\ members_shape k st s).
Proof.
  induction n as [|n (IHV & IHE)].
  - split.
    + intros k st s Ln _ _ _. destruct s; [right; apply bad_end; discriminate|cbn in Ln; lia].
    + intros k st s Ln _ _. destruct s; [split; right; (apply bad_end; discriminate)|cbn in Ln; lia].
  - assert (V : forall k st s, (length s <= S n)%nat -> (k <= length st)%nat -> st <> [] -> N.of_nat (length st) <= 10000 -> value_shape k st s).
    { intros k st s Ln L N D. apply (@value_shapes_step n); try assumption. intros s' st' Ln' L' D'. split.
      - apply array_shapes; [assumption|assumption|]. intros s2 L2. apply IHE; [lia|assumption|assumption].
      - apply object_shapes; [assumption|assumption|]. intros s2 L2. apply IHE; [lia|assumption|assumption]. }
    split; [exact V|]. intros k st s Ln L D. split.
    + apply (@elements_shapes_step (S n)); try assumption; [apply V; [assumption|assumption|discriminate|assumption]|]. intros s' Ls. apply IHE; [lia|assumption|assumption].
    + apply members_shapes_step; try assumption.
      * intros s' Ls. apply V; [lia|assumption|discriminate|assumption].
      * intros s' Ls. apply IHE; [lia|assumption|assumption].
Qed.
