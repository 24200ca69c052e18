(** The errors of the decoder of [Decode]. *)
From Verif Require Import Utf8Facts JsonFacts ServerFacts TextFacts.
From Verif Require Export DecodeContract SpecText.
From Coq Require Import ZifyBool ZifyNat ZifyN.
Set Implicit Arguments. Unset Strict Implicit.
Open Scope N_scope.

(** ** Every state can be completed *)
Section Complete.
Variable pr : N -> bool.
Definition completes (s : jscan) : Prop := exists z, forall n seen, exists m, read_loop pr s n seen z = inl m.
Lemma completes_cons s c s' o : json_scan s c = (s', o) -> o <> OError -> o <> OEnd -> o <> OEndObject -> o <> OEndArray -> completes s' -> completes s.
Proof.
  intros E N1 N2 N3 N4 (z & H). exists (c :: z). intros n seen. cbn [read_loop]. rewrite E. destruct o; try congruence; apply H.
Qed.
Lemma completes_pop s c st o : json_scan s c = (jpop st, o) -> o = OEndObject \/ o = OEndArray -> (st <> [] -> completes (Scan SEndValue st)) -> completes s.
Proof.
  intros E O H. destruct st as [|p st].
  - exists [c]. intros n seen. cbn [read_loop]. rewrite E. exists (S n). destruct O as [-> | ->]; reflexivity.
  - destruct (H ltac:(discriminate)) as (z & G). exists (c :: z). intros n seen. cbn [read_loop]. rewrite E. destruct O as [-> | ->]; cbn [jpop sc_stack end_value]; change (json_space x20) with true; cbn iota; apply G.
Qed.
Lemma completes_done st : forall q, done q = true -> completes (Scan q st).
Proof.
  induction st as [|p st IH]; intros q D.
  - exists []. intros n seen. exists n. apply read_stops; [assumption|]. intros c r Q. discriminate Q.
  - assert (V : completes (Scan SEndValue (PValue :: st))).
    { eapply completes_pop with (c := x7d) (st := st); [reflexivity|auto|]. intros _. apply IH. reflexivity. }
    destruct p.
    + eapply completes_cons with (c := x3a); [rewrite scan_done; [reflexivity|assumption|reflexivity]|discriminate..|].
      eapply completes_cons with (c := x30); [reflexivity|discriminate..|].
      eapply completes_pop with (c := x7d) (st := st); [reflexivity|auto|]. intros _. apply IH. reflexivity.
    + eapply completes_pop with (c := x7d) (st := st); [rewrite scan_done; [reflexivity|assumption|reflexivity]|auto|]. intros _. apply IH. reflexivity.
    + eapply completes_pop with (c := x5d) (st := st); [rewrite scan_done; [reflexivity|assumption|reflexivity]|auto|]. intros _. apply IH. reflexivity.
Qed.
Ltac step x := eapply completes_cons with (c := x); [reflexivity|discriminate..|].
Lemma completes_string st : completes (Scan SInString st).
Proof. step x22. apply completes_done. reflexivity. Qed.
Lemma completes_word w : forall word st, completes (Scan (STr w word) st).
Proof.
  induction w as [|a w IH]; intros word st.
  - destruct (@completes_done st SEndValue eq_refl) as (z & H). exists z. intros n seen. destruct (H n seen) as (m & E). exists m. rewrite <- E. destruct z; reflexivity.
  - eapply completes_cons with (c := a); [unfold json_scan; cbn [sc_step]; rewrite eqb_same; reflexivity|discriminate..|]. destruct w; [apply completes_done; reflexivity|apply IH].
Qed.
Lemma completes_all s : (forall c x, sc_step s <> SFail c x) -> completes s.
Proof.
  destruct s as [q st]. cbn [sc_step]. intros N. destruct q; try (apply completes_done; reflexivity).
  - step x30. apply completes_done. reflexivity.
  - step x30. apply completes_done. reflexivity.
  - step x22. apply completes_string.
  - step x22. apply completes_string.
  - exists []. intros n seen. exists n. reflexivity.
  - apply completes_string.
  - step x6e. apply completes_string.
  - step x30. step x30. step x30. step x30. apply completes_string.
  - step x30. step x30. step x30. apply completes_string.
  - step x30. step x30. apply completes_string.
  - step x30. apply completes_string.
  - step x30. apply completes_done. reflexivity.
  - step x30. apply completes_done. reflexivity.
  - step x30. apply completes_done. reflexivity.
  - step x30. apply completes_done. reflexivity.
  - apply completes_word.
  - destruct (N c context eq_refl).
Qed.
End Complete.

(** ** What can be fed is viable *)
Lemma scan_sound s c : (forall c' x, sc_step s <> SFail c' x) -> let (s', o) := json_scan s c in
  o = OError \/ o = OEnd \/ forall c' x, sc_step s' <> SFail c' x.
Proof.
  assert (V : forall st, let (s', o) := end_value st c in o = OError \/ o = OEnd \/ forall c' x, sc_step s' <> SFail c' x).
  { intros [|p st]; unfold end_value, end_top, jfail, jpop; [break_ifs; auto|]. destruct p; break_ifs; auto; right; right; try discriminate; destruct st; discriminate. }
  destruct s as [q st]. cbn [sc_step]. intros N. unfold json_scan. cbn [sc_step sc_stack].
  destruct q; unfold begin_value, begin_string, state_0, state_esign, state_hex, jpush, jfail, end_top in *; try apply V;
    break_ifs; try apply V; auto; try (right; right; discriminate); try (right; right; assumption).
  destruct rest as [|a rest]; [apply V|]. destruct (Byte.eqb c a); [|auto]. right. right. destruct rest; discriminate.
Qed.
Lemma feed_sound t : forall k s s', (forall c x, sc_step s <> SFail c x) -> feed k s t = Some s' -> forall c x, sc_step s' <> SFail c x.
Proof.
  induction t as [|c t IH]; intros k s s' N H; [injection H as <-; assumption|]. cbn [feed] in H. pose proof (@scan_sound s c N) as S. destruct (json_scan s c) as [s1 o].
  assert (F : o <> OError /\ o <> OEnd /\ feed k s1 t = Some s').
  { destruct o; try discriminate H; (split; [discriminate|split; [discriminate|]]); destruct (sc_step s1); try discriminate H; destruct (k <=? length (sc_stack s1))%nat; try discriminate H; exact H. }
  destruct F as (F1 & F2 & F). destruct S as [S|[S|S]]; [congruence|congruence|]. eapply IH; eassumption.
Qed.
Lemma top_sound c x : sc_step top <> SFail c x.
Proof. discriminate. Qed.
Lemma found_begins pr body n : read_loop pr top 0 false body = inl n -> exists v, begins body v.
Proof.
  intros H. destruct (read_shapes pr body) as [(w & t & v & rest & Eb & B & R & D & Mx & _)|(e & E)]; [|congruence].
  exists v, w, t, rest. auto.
Qed.
Lemma fed_viable p s : feed 0 top p = Some s -> viable p.
Proof.
  intros F. pose (pr := fun _ : N => true). destruct (@completes_all pr s (feed_sound top_sound F)) as (z & H).
  destruct (read_fed pr 0 false z F) as (seen & E). destruct (H (0 + length p)%nat seen) as (m & Em). rewrite Em in E.
  exists z. eapply found_begins. exact E.
Qed.
Lemma number_goes_on t q c : number_text t -> feed 0 top t = Some (Scan q []) -> done q = true -> json_scan (Scan q []) c <> end_value [] c -> exists q2, number_text (t ++ c :: q2).
Proof.
  intros Hn F D N.
  assert (G : exists q2 q', feed 0 top (t ++ c :: q2) = Some (Scan q' []) /\ done q' = true).
  { assert (A : forall q1 z q', json_scan (Scan q []) c = (Scan q1 [], OContinue) -> inside q1 = true -> feed 0 (Scan q1 []) z = Some (Scan q' []) -> done q' = true ->
      exists q2 q', feed 0 top (t ++ c :: q2) = Some (Scan q' []) /\ done q' = true).
    { intros q1 z q' E I Fz D'. exists z, q'. split; [|assumption]. rewrite feed_app, F. erewrite feed_cons; [exact Fz|exact E|reflexivity|exact I|cbn; lia]. }
    destruct q; try discriminate D; unfold json_scan, state_0 in N, A; cbn [sc_step sc_stack] in N, A.
    - congruence.
    - destruct (json_digit c) eqn:E1; [eapply (A _ [] S1); reflexivity|]. destruct (Byte.eqb c x2e) eqn:E2; [eapply (A _ [x30] SDot0); reflexivity|].
      destruct (Byte.eqb c x65 || Byte.eqb c x45) eqn:E3; [eapply (A _ [x30] SE0); reflexivity|congruence].
    - destruct (Byte.eqb c x2e) eqn:E2; [eapply (A _ [x30] SDot0); reflexivity|].
      destruct (Byte.eqb c x65 || Byte.eqb c x45) eqn:E3; [eapply (A _ [x30] SE0); reflexivity|congruence].
    - destruct (json_digit c) eqn:E1; [eapply (A _ [] SDot0); reflexivity|].
      destruct (Byte.eqb c x65 || Byte.eqb c x45) eqn:E3; [eapply (A _ [x30] SE0); reflexivity|congruence].
    - destruct (json_digit c) eqn:E1; [eapply (A _ [] SE0); reflexivity|congruence]. }
  destruct G as (q2 & q' & Fq & D'). exists q2. destruct (number_first Hn) as (c0 & t' & -> & Hc). cbn [app] in Fq |- *. rewrite digit_ok in Hc.
  destruct (@number_shapes 0 [] c0 (t' ++ c :: q2) (le_n _) Hc) as [(t2 & rest & q3 & Er & Hn2 & _ & F3 & S3)|Bd].
  - destruct rest as [|c1 rest]; [rewrite app_nil_r in Er; rewrite Er; assumption|]. exfalso. rewrite Er in Fq. unfold top in Fq. rewrite feed_app, F3 in Fq. cbn [feed] in Fq.
    rewrite (S3 c1 rest eq_refl) in Fq. cbn [end_value] in Fq. pose proof (end_top_op [] c1) as O. destruct (end_top [] c1) as [s o]. cbn [snd] in O. subst o. discriminate Fq.
  - exfalso. destruct Bd as [(p & c1 & r & s' & E & F1 & O)|(s' & F1 & O)].
    + rewrite E in Fq. unfold top in Fq. rewrite feed_app, F1 in Fq. cbn [feed] in Fq. destruct (json_scan s' c1) as [s2 o]. cbn [snd] in O. subst o. discriminate Fq.
    + unfold top in Fq. rewrite Fq in F1. injection F1 as <-. rewrite (scan_done _ D') in O by reflexivity. cbn [end_value] in O. rewrite end_top_op in O. congruence.
Qed.
Lemma end_value_end c : end_value [] c = (fst (end_value [] c), OEnd).
Proof. cbn [end_value]. pose proof (end_top_op [] c) as O. destruct (end_top [] c) as [s o]. cbn [snd] in O. subst o. reflexivity. Qed.
Lemma begins_found pr body v : begins body v -> exists n, read_loop pr top 0 false body = inl n.
Proof.
  intros (w & t & rest & -> & B & R & D & Mx). destruct (read_blank pr 0 false (t ++ rest) B) as (seen & ->).
  assert (K : v = TNum \/ v <> TNum) by (destruct v; (left; reflexivity) || (right; discriminate)). destruct K as [->|K]; [|eexists; apply (read_value_found pr _ _ _ R D K)].
  inversion R as [| | |t0 Hn| | | | |]. subst t0. destruct (@feed_number 0 [] t (le_n _) Hn) as (q & Dq & F). eexists. eapply read_plain; [exact F|exact Dq|].
  intros c r ->. destruct (json_scan (Scan q []) c) as [s1 o] eqn:E.
  assert (Dc : json_scan (Scan q []) c = end_value [] c \/ json_scan (Scan q []) c <> end_value [] c).
  { destruct q; try discriminate Dq; unfold json_scan, state_0; cbn [sc_step sc_stack]; break_ifs; auto; right; rewrite end_value_end; intros Q; injection Q as _ Q; discriminate Q. }
  destruct Dc as [Dc|Dc]; [congruence|]. destruct (number_goes_on Hn F Dq Dc) as (q2 & Hq). destruct (Mx eq_refl c r q2 eq_refl Hq).
Qed.
Lemma viable_app p q : viable (p ++ q) -> viable p.
Proof. intros (z & v & H). exists (q ++ z), v. rewrite app_assoc. exact H. Qed.
Lemma not_viable p s c : feed 0 top p = Some s -> snd (json_scan s c) = OError -> ~ viable (p ++ [c]).
Proof.
  intros F O (z & v & H). apply (@begins_found (fun _ => true)) in H. destruct H as (n & H). rewrite <- app_assoc in H. cbn [app] in H.
  destruct (read_fed (fun _ => true) 0 false (c :: z) F) as (seen & E). rewrite E in H. cbn [read_loop] in H. destruct (json_scan s c) as [s' o]. cbn [snd] in O. subst o. discriminate H.
Qed.
Lemma scan_top s c : sc_step s <> SEndTop -> let (s', o) := json_scan s c in sc_step s' = SEndTop ->
  o = OEnd \/ o = OError \/ ((o = OEndObject \/ o = OEndArray) /\ sc_stack s' = []).
Proof.
  assert (V : forall st, let (s', o) := end_value st c in sc_step s' = SEndTop -> o = OEnd \/ o = OError \/ ((o = OEndObject \/ o = OEndArray) /\ sc_stack s' = [])).
  { intros [|p st]; unfold end_value, end_top, jfail, jpop; [break_ifs; auto|]. destruct p; break_ifs; auto; cbn [sc_step sc_stack]; intros H; try discriminate H; destruct st; try discriminate H; auto. }
  destruct s as [q st]. cbn [sc_step]. intros N. unfold json_scan. cbn [sc_step sc_stack].
  destruct q; unfold begin_value, begin_string, state_0, state_esign, state_hex, jpush, jfail, end_top in *; try apply V; try congruence;
    break_ifs; try apply V; auto; try (intros H; discriminate H).
  destruct rest as [|a rest]; [apply V|]. destruct (Byte.eqb c a); [|auto]. destruct rest; intros H; discriminate H.
Qed.
Lemma feed_step k s t s' : feed k s t = Some s' -> t = [] /\ s' = s \/ sc_step s' <> SEndTop.
Proof.
  revert s. induction t as [|c t IH]; intros s H; [injection H as <-; auto|]. right. cbn [feed] in H. destruct (json_scan s c) as [s1 o].
  assert (F : sc_step s1 <> SEndTop /\ feed k s1 t = Some s').
  { destruct o; try discriminate H; destruct (sc_step s1); try discriminate H; destruct (k <=? length (sc_stack s1))%nat; try discriminate H; split; (discriminate || exact H). }
  destruct F as (F1 & F2). destruct (IH _ F2) as [(_ & ->)|F3]; assumption.
Qed.
Lemma viable_next p s c : feed 0 top p = Some s -> snd (json_scan s c) <> OError -> viable (p ++ [c]).
Proof.
  intros F O. assert (Nt : sc_step s <> SEndTop) by (destruct (feed_step F) as [(_ & ->)|H]; [discriminate|assumption]).
  pose proof (@scan_top s c Nt) as T. destruct (json_scan s c) as [s' o] eqn:E. cbn [snd] in O.
  assert (Found : (forall n seen, exists m, read_loop (fun _ => true) s n seen [c] = inl m) -> viable (p ++ [c])).
  { intros H. destruct (read_fed (fun _ => true) 0 false [c] F) as (seen & Er). destruct (H (0 + length p)%nat seen) as (m & Em). rewrite Em in Er.
    exists []. rewrite app_nil_r. eapply found_begins. exact Er. }
  assert (D : o = OEnd \/ sc_step s' = SEndTop \/ (o <> OEnd /\ sc_step s' <> SEndTop)).
  { destruct o; auto; right; (destruct (sc_step s'); (left; reflexivity) || (right; split; discriminate)). }
  destruct D as [->|[D|(D1 & D2)]].
  - apply Found. intros n seen. exists n. cbn [read_loop]. rewrite E. reflexivity.
  - destruct (T D) as [->|[T'|(T' & Es)]]; [|congruence|].
    + apply Found. intros n seen. exists n. cbn [read_loop]. rewrite E. reflexivity.
    + apply Found. intros n seen. exists (S n). cbn [read_loop]. rewrite E, Es. destruct T' as [-> | ->]; reflexivity.
  - apply fed_viable with (s := s'). rewrite feed_app, F. cbn [feed]. rewrite E. destruct o; try congruence; destruct (sc_step s'); try congruence; reflexivity.
Qed.

(** ** The text of an error *)
Definition plain_byte (b : byte) : bool := (32 <=? b2n b) && (b2n b <? 127) && negb (Byte.eqb b x22) && negb (Byte.eqb b x5c).
Definition plain (s : bytes) : Prop := forallb plain_byte s = true.
Definition hex_step (q : jstep) : bool := match q with SEscU | SEscU1 | SEscU12 | SEscU123 => true | _ => false end.
Definition hex_context : bytes := s2b "in \u hexadecimal character escape".
Definition sane (q : jstep) : Prop := match q with STr rest word => plain rest /\ plain word | SFail _ _ => False | _ => True end.
Definition failed (q : jstep) (c : byte) (s : jscan) : Prop :=
  exists ctx, sc_step s = SFail c ctx /\ (if hex_step q then ctx = hex_context else plain ctx).
Lemma scan_failed s c : sane (sc_step s) -> let (s', o) := json_scan s c in
  (o = OError /\ failed (sc_step s) c s') \/ (o <> OError /\ (o = OEnd \/ sane (sc_step s'))).
Proof.
  assert (V : forall q st, hex_step q = false -> let (s', o) := end_value st c in (o = OError /\ failed q c s') \/ (o <> OError /\ (o = OEnd \/ sane (sc_step s')))).
  { intros q st Hq. assert (P : forall ctx st, plain ctx -> failed q c (Scan (SFail c ctx) st)) by (intros ctx st' H; exists ctx; rewrite Hq; auto).
    destruct st as [|p st]; unfold end_value, end_top, jfail, jpop; [break_ifs; right; split; (discriminate || auto)|].
    destruct p; break_ifs; try (right; split; [discriminate|right; try exact I; destruct st; exact I]); left; (split; [reflexivity|apply P; reflexivity]). }
  destruct s as [q st]. cbn [sc_step]. intros N. unfold json_scan. cbn [sc_step sc_stack].
  assert (P : forall ctx st, hex_step q = false -> plain ctx -> failed q c (Scan (SFail c ctx) st)) by (intros ctx st' Hq H; exists ctx; rewrite Hq; auto).
  destruct q; unfold begin_value, begin_string, state_0, state_esign, state_hex, jpush, jfail, end_top in *;
    try (apply V; reflexivity); break_ifs; try (apply V; reflexivity);
    try (right; split; [discriminate|right; exact I]); try (right; split; [discriminate|right; split; reflexivity]); try (right; split; [discriminate|left; reflexivity]);
    try (left; split; [reflexivity|apply P; reflexivity]); try (left; split; [reflexivity|exists hex_context; split; reflexivity]).
  - destruct N as (N1 & N2). destruct rest as [|a rest]; [apply V; reflexivity|]. unfold plain in N1. cbn [forallb] in N1. apply andb_true_iff in N1. destruct N1 as (Na & Nr).
    destruct (Byte.eqb c a).
    + right. split; [discriminate|]. right. destruct rest; [exact I|split; assumption].
    + left. split; [reflexivity|]. apply P; [reflexivity|]. unfold plain in *. rewrite !forallb_app, N2. cbn [forallb]. rewrite Na. reflexivity.
  - destruct N.
Qed.
Lemma feed_sane t : forall k s s', sane (sc_step s) -> feed k s t = Some s' -> sane (sc_step s').
Proof.
  induction t as [|c t IH]; intros k s s' N H; [injection H as <-; assumption|]. cbn [feed] in H. pose proof (@scan_failed s c N) as S. destruct (json_scan s c) as [s1 o].
  assert (F : o <> OError /\ o <> OEnd /\ feed k s1 t = Some s').
  { destruct o; try discriminate H; (split; [discriminate|split; [discriminate|]]); destruct (sc_step s1); try discriminate H; destruct (k <=? length (sc_stack s1))%nat; try discriminate H; exact H. }
  destruct F as (F1 & F2 & F). destruct S as [(S & _)|(_ & [S|S])]; [congruence|congruence|]. eapply IH; eassumption.
Qed.
Lemma read_errors pr body : forall s n seen e, sc_step s <> SEndTop -> read_loop pr s n seen body = inr e ->
  (exists p c q s1 s2, body = p ++ c :: q /\ feed 0 s p = Some s1 /\ json_scan s1 c = (s2, OError) /\ e = scan_error pr s2) \/
  (e = (if seen || negb (forallb json_space body) then s2b "unexpected EOF" else s2b "EOF") /\ exists s', feed 0 s body = Some s').
Proof.
  induction body as [|c body IH]; intros s n seen e Nt H; cbn [read_loop] in H.
  - right. split; [|exists s; reflexivity]. cbn [forallb negb]. rewrite orb_false_r. destruct (snd (json_scan s x20)); try discriminate H; destruct seen; injection H as <-; auto.
  - pose proof (@scan_top s c Nt) as T. pose proof (scan_ops s c) as P. destruct (json_scan s c) as [s' o] eqn:E.
    assert (G : forall n, o <> OError -> o <> OEnd -> sc_step s' <> SEndTop -> read_loop pr s' n (seen || negb (json_space c)) body = inr e ->
      (exists p c0 q s1 s2, c :: body = p ++ c0 :: q /\ feed 0 s p = Some s1 /\ json_scan s1 c0 = (s2, OError) /\ e = scan_error pr s2) \/
      (e = (if seen || negb (forallb json_space (c :: body)) then s2b "unexpected EOF" else s2b "EOF") /\ exists s', feed 0 s (c :: body) = Some s')).
    { intros n' N1 N2 N3 R. assert (F : forall t, feed 0 s (c :: t) = feed 0 s' t).
      { intros t. cbn [feed]. rewrite E. destruct o; try congruence; destruct (sc_step s'); try congruence; reflexivity. }
      destruct (IH _ _ _ _ N3 R) as [(p & c0 & q & s1 & s2 & -> & F1 & E1 & E2)|(He & s1 & F1)].
      - left. exists (c :: p), c0, q, s1, s2. rewrite F. auto.
      - right. split; [rewrite He; cbn [forallb]; destruct (json_space c), seen, (forallb json_space body); reflexivity|]. exists s1. rewrite F. assumption. }
    assert (Q : (o = OEndObject \/ o = OEndArray) -> sc_stack s' <> [] -> sc_step s' <> SEndTop /\ end_value (sc_stack s') x20 = (s', OSkipSpace)).
    { intros O Ns. specialize (P O). destruct s' as [q1 st1]. cbn [sc_stack sc_step] in *. unfold jpop in P. destruct st1 as [|p st]; [congruence|]. injection P as ->. split; [discriminate|reflexivity]. }
    destruct o; try discriminate H;
      try (eapply G; [discriminate|discriminate| |exact H]; intros Z; destruct (T Z) as [Z'|[Z'|([Z'|Z'] & _)]]; discriminate Z').
    + destruct (sc_stack s') as [|p st] eqn:Es; [cbn in H; discriminate H|]. destruct Q as (Q1 & Q2); [auto|discriminate|]. rewrite Q2 in H. eapply G; [discriminate|discriminate|exact Q1|exact H].
    + destruct (sc_stack s') as [|p st] eqn:Es; [cbn in H; discriminate H|]. destruct Q as (Q1 & Q2); [auto|discriminate|]. rewrite Q2 in H. eapply G; [discriminate|discriminate|exact Q1|exact H].
    + left. exists [], c, body, s, s'. injection H as <-. auto.
Qed.

(** ** A digit is due *)
Lemma hex_json b : json_hex b = true <-> exists x, hex_value b = Some x.
Proof.
  unfold json_hex, json_digit, hex_value. destruct ((48 <=? b2n b) && (b2n b <=? 57)); cbn [orb]; [split; eauto|].
  destruct ((97 <=? b2n b) && (b2n b <=? 102)); cbn [orb]; [split; eauto|]. destruct ((65 <=? b2n b) && (b2n b <=? 70)); split; eauto; try discriminate. intros (x & H). discriminate H.
Qed.
Lemma op_error (o : jop) : o = OError \/ o <> OError.
Proof. destruct o; (left; reflexivity) || (right; discriminate). Qed.
Lemma hex_due p s : feed 0 top p = Some s -> hex_step (sc_step s) = true <-> digit_due p.
Proof.
  intros F. assert (Vi : forall b, viable (p ++ [b]) <-> snd (json_scan s b) <> OError).
  { intros b. split; [intros V O; exact (not_viable F O V)|intros O; exact (viable_next F O)]. }
  assert (Sn : sane (sc_step s)) by (eapply feed_sane; [|exact F]; exact I).
  unfold digit_due. split.
  - intros H b. rewrite Vi, <- hex_json. destruct s as [q st]. cbn [sc_step] in H. destruct q; try discriminate H; unfold json_scan, state_hex, jfail; cbn [sc_step sc_stack];
      destruct (json_hex b); split; intros Z; try discriminate; try reflexivity; try (exfalso; apply Z; reflexivity); discriminate Z.
  - intros H. destruct (hex_step (sc_step s)) eqn:Hq; [reflexivity|]. exfalso.
    assert (G : (exists b, snd (json_scan s b) <> OError /\ json_hex b = false) \/ (exists b, snd (json_scan s b) = OError /\ json_hex b = true)).
    { destruct s as [q st]. cbn [sc_step] in Hq, Sn. assert (Sp : forall st, snd (end_value st x20) <> OError) by (intros [|pp st0]; discriminate).
      destruct q; try discriminate Hq; try (left; exists x20; split; [apply Sp|reflexivity]); try (left; exists x20; split; [discriminate|reflexivity]); try (right; exists x61; split; reflexivity).
      - destruct rest as [|a rest]; [left; exists x20; split; [apply Sp|reflexivity]|]. right. unfold json_scan. cbn [sc_step].
        destruct (Byte.eqb x30 a) eqn:Ea; [exists x31|exists x30].
        + apply byte_eqb_spec in Ea. subst a. split; reflexivity.
        + rewrite Ea. split; reflexivity.
      }
    destruct G as [(b & O & Hb)|(b & O & Hb)].
    + apply Vi in O. apply H in O. apply hex_json in O. congruence.
    + apply hex_json in Hb. apply H in Hb. apply Vi in Hb. congruence.
Qed.

(** ** Where the error is *)
(** ** What was expected *)
Definition came_by (s : jscan) (c : byte) (q : jstep) : Prop :=
  match q with
  | SBeginValue | SBeginValueOrEmpty => ~ In c [x65; x45]
  | SNeg => c = x2d /\ In (sc_step s) [SBeginValue; SBeginValueOrEmpty]
  | SDot => c = x2e
  | SE => In c [x65; x45]
  | SESign => In c [x2b; x2d] /\ sc_step s = SE
  | STr rest word => rest <> [] /\ (In (c :: rest) [s2b "true"; s2b "false"; s2b "null"] /\ word = c :: rest \/ sc_step s = STr (c :: rest) word)
  | _ => True
  end.
Lemma scan_came s c s' o : json_scan s c = (s', o) -> o <> OError -> o <> OEnd -> came_by s c (sc_step s').
Proof.
  assert (V : forall st, end_value st c = (s', o) -> o <> OError -> o <> OEnd -> came_by s c (sc_step s')).
  { intros [|p st]; unfold end_value, end_top, jfail, jpop; intros E N1 N2; [destruct (json_space c); congruence|].
    destruct (json_space c); [injection E as <- <-; exact I|]. destruct p.
    - destruct (Byte.eqb c x3a) eqn:B; [|congruence]. injection E as <- <-. apply byte_eqb_spec in B. subst c. intros [H|[H|[]]]; discriminate H.
    - destruct (Byte.eqb c x2c) eqn:B; [injection E as <- <-; exact I|]. destruct (Byte.eqb c x7d); [|congruence]. injection E as <- <-. destruct st; exact I.
    - destruct (Byte.eqb c x2c) eqn:B; [injection E as <- <-; apply byte_eqb_spec in B; subst c; intros [H|[H|[]]]; discriminate H|].
      destruct (Byte.eqb c x5d); [|congruence]. injection E as <- <-. destruct st; exact I. }
  assert (Sp : json_space c = true -> ~ In c [x65; x45]) by (intros B [<-|[<-|[]]]; discriminate B).
  assert (W : forall q st, In q [SBeginValue; SBeginValueOrEmpty] -> sc_step s = q -> begin_value st SBeginValue c = (s', o) -> o <> OError -> o <> OEnd -> came_by s c (sc_step s')).
  { intros q st Iq Eq. unfold begin_value, jpush, jfail. intros E N1 N2. destruct (json_space c) eqn:B; [injection E as <- <-; exact (Sp eq_refl)|].
    destruct (Byte.eqb c x7b) eqn:B1; [destruct (_ <=? _); [|congruence]; injection E as <- <-; exact I|].
    destruct (Byte.eqb c x5b) eqn:B2; [destruct (_ <=? _); [|congruence]; injection E as <- <-; apply byte_eqb_spec in B2; subst c; intros [H|[H|[]]]; discriminate H|].
    destruct (Byte.eqb c x22); [injection E as <- <-; exact I|].
    destruct (Byte.eqb c x2d) eqn:B3; [injection E as <- <-; apply byte_eqb_spec in B3; cbn [came_by sc_step]; rewrite Eq; auto|].
    destruct (Byte.eqb c x30); [injection E as <- <-; exact I|].
    destruct (Byte.eqb c x74) eqn:B4; [injection E as <- <-; apply byte_eqb_spec in B4; subst c; split; [discriminate|left; split; [left; reflexivity|reflexivity]]|].
    destruct (Byte.eqb c x66) eqn:B5; [injection E as <- <-; apply byte_eqb_spec in B5; subst c; split; [discriminate|left; split; [right; left; reflexivity|reflexivity]]|].
    destruct (Byte.eqb c x6e) eqn:B6; [injection E as <- <-; apply byte_eqb_spec in B6; subst c; split; [discriminate|left; split; [right; right; left; reflexivity|reflexivity]]|].
    destruct (json_digit19 c); [injection E as <- <-; exact I|congruence]. }
  assert (X : forall st, state_0 st c = (s', o) -> o <> OError -> o <> OEnd -> came_by s c (sc_step s')).
  { intros st. unfold state_0. intros E N1 N2. destruct (Byte.eqb c x2e) eqn:B; [injection E as <- <-; apply byte_eqb_spec in B; exact B|].
    destruct (Byte.eqb c x65) eqn:B1; [injection E as <- <-; apply byte_eqb_spec in B1; subst c; left; reflexivity|].
    destruct (Byte.eqb c x45) eqn:B2; [injection E as <- <-; apply byte_eqb_spec in B2; subst c; right; left; reflexivity|]. cbn [orb] in E. eapply V; eassumption. }
  assert (G : forall st q, came_by s c q -> (Scan q st, OContinue) = (s', o) -> came_by s c (sc_step s')) by (intros st q Y E; injection E as <- <-; exact Y).
  destruct s as [q st]. unfold json_scan. cbn [sc_step sc_stack]. intros E N1 N2.
  destruct q; unfold begin_string, state_esign, state_hex, jfail in E; cbn [orb] in E.
  - eapply W; try eassumption; [left|]; reflexivity.
  - destruct (json_space c) eqn:B; [injection E as <- <-; exact (Sp eq_refl)|]. destruct (Byte.eqb c x5d); [eapply V; eassumption|]. eapply W; try eassumption; [right; left|]; reflexivity.
  - destruct (json_space c); [injection E as <- <-; exact I|]. destruct (Byte.eqb c x22); [injection E as <- <-; exact I|congruence].
  - destruct (json_space c); [injection E as <- <-; exact I|]. destruct (Byte.eqb c x7d); [eapply V; eassumption|]. destruct (Byte.eqb c x22); [injection E as <- <-; exact I|congruence].
  - eapply V; eassumption.
  - unfold end_top in E. destruct (json_space c); injection E as <- <-; congruence.
  - destruct (Byte.eqb c x22); [injection E as <- <-; exact I|]. destruct (Byte.eqb c x5c); [injection E as <- <-; exact I|]. destruct (_ <? _); [congruence|]. injection E as <- <-; exact I.
  - destruct (existsb _ _); [injection E as <- <-; exact I|]. destruct (Byte.eqb c x75); [injection E as <- <-; exact I|congruence].
  - destruct (json_hex c); [injection E as <- <-; exact I|congruence].
  - destruct (json_hex c); [injection E as <- <-; exact I|congruence].
  - destruct (json_hex c); [injection E as <- <-; exact I|congruence].
  - destruct (json_hex c); [injection E as <- <-; exact I|congruence].
  - destruct (Byte.eqb c x30); [injection E as <- <-; exact I|]. destruct (json_digit19 c); [injection E as <- <-; exact I|congruence].
  - destruct (json_digit c); [injection E as <- <-; exact I|]. eapply X; eassumption.
  - eapply X; eassumption.
  - destruct (json_digit c); [injection E as <- <-; exact I|congruence].
  - destruct (json_digit c); [injection E as <- <-; exact I|]. destruct (Byte.eqb c x65) eqn:B1; [injection E as <- <-; apply byte_eqb_spec in B1; subst c; left; reflexivity|].
    destruct (Byte.eqb c x45) eqn:B2; [injection E as <- <-; apply byte_eqb_spec in B2; subst c; right; left; reflexivity|]. cbn [orb] in E. eapply V; eassumption.
  - destruct (Byte.eqb c x2b) eqn:B1; [injection E as <- <-; apply byte_eqb_spec in B1; subst c; split; [left|]; reflexivity|].
    destruct (Byte.eqb c x2d) eqn:B2; [injection E as <- <-; apply byte_eqb_spec in B2; subst c; split; [right; left|]; reflexivity|].
    cbn [orb] in E. destruct (json_digit c); [injection E as <- <-; exact I|congruence].
  - destruct (json_digit c); [injection E as <- <-; exact I|congruence].
  - destruct (json_digit c); [injection E as <- <-; exact I|]. eapply V; eassumption.
  - destruct rest as [|a rest]; [eapply V; eassumption|]. destruct (Byte.eqb c a) eqn:B; [|congruence]. apply byte_eqb_spec in B. subst a. injection E as <- <-.
    destruct rest; [exact I|]. split; [discriminate|right; reflexivity].
  - congruence.
Qed.
Lemma feed_last p c s' : feed 0 top (p ++ [c]) = Some s' -> exists s, feed 0 top p = Some s /\ came_by s c (sc_step s').
Proof.
  rewrite feed_app. destruct (feed 0 top p) as [s|]; [|discriminate]. intros H. exists s. split; [reflexivity|]. cbn [feed] in H. destruct (json_scan s c) as [s1 o] eqn:E.
  assert (F : o <> OError /\ o <> OEnd /\ s1 = s').
  { destruct o; try discriminate H; (split; [discriminate|split; [discriminate|]]); destruct (sc_step s1); try discriminate H; destruct (0 <=? length (sc_stack s1))%nat; congruence. }
  destruct F as (F1 & F2 & <-). eapply scan_came; eassumption.
Qed.
Lemma snoc_inj (p q : bytes) x y : p ++ [x] = q ++ [y] -> p = q /\ x = y.
Proof. apply app_inj_tail. Qed.
Lemma at_neg p st : feed 0 top p = Some (Scan SNeg st) -> ends_with p [x2d] /\ ~ in_exponent p.
Proof.
  destruct p as [|c p] using rev_ind; [discriminate|]. intros F. destruct (feed_last F) as (s & Fs & -> & Q). split; [exists p; reflexivity|].
  intros (e & sign & Ie & Is & q & E). destruct Is as [<-|[<-|[<-|[]]]].
  - apply snoc_inj in E. destruct E as (_ & <-). destruct Ie as [H|[H|[]]]; discriminate H.
  - change (q ++ [e; x2b]) with (q ++ [e] ++ [x2b]) in E. rewrite app_assoc in E. apply snoc_inj in E. destruct E as (_ & E). discriminate E.
  - change (q ++ [e; x2d]) with (q ++ [e] ++ [x2d]) in E. rewrite app_assoc in E. apply snoc_inj in E. destruct E as (-> & _).
    destruct (feed_last Fs) as (s0 & _ & C). destruct Q as [Q|[Q|[]]]; rewrite <- Q in C; exact (C Ie).
Qed.
Lemma at_dot p st : feed 0 top p = Some (Scan SDot st) -> ends_with p [x2e].
Proof. destruct p as [|c p] using rev_ind; [discriminate|]. intros F. destruct (feed_last F) as (s & Fs & ->). exists p. reflexivity. Qed.
Lemma at_e p st : feed 0 top p = Some (Scan SE st) -> exists e, In e [x65; x45] /\ ends_with p [e].
Proof. destruct p as [|c p] using rev_ind; [discriminate|]. intros F. destruct (feed_last F) as (s & Fs & H). exists c. split; [exact H|]. exists p. reflexivity. Qed.
Lemma at_esign p st : feed 0 top p = Some (Scan SESign st) -> in_exponent p.
Proof.
  destruct p as [|c p] using rev_ind; [discriminate|]. intros F. destruct (feed_last F) as ([q st'] & Fs & H & Es). cbn in Es. subst q. destruct (at_e Fs) as (e & Ie & q & ->).
  exists e, [c]. split; [exact Ie|]. split; [destruct H as [<-|[<-|[]]]; cbn; auto|]. exists q. rewrite <- app_assoc. reflexivity.
Qed.
Lemma at_word p : forall rest word st, feed 0 top p = Some (Scan (STr rest word) st) ->
  rest <> [] /\ In word [s2b "true"; s2b "false"; s2b "null"] /\ exists before, word = before ++ rest /\ before <> [] /\ ends_with p before.
Proof.
  induction p as [|c p IH] using rev_ind; intros rest word st F; [discriminate F|]. destruct (feed_last F) as ([q st'] & Fs & N & [(I1 & ->)|Es]).
  - split; [exact N|]. split; [exact I1|]. exists [c]. split; [reflexivity|]. split; [discriminate|]. exists p. reflexivity.
  - cbn in Es. subst q. destruct (IH _ _ _ Fs) as (_ & I1 & before & -> & N1 & q & ->). split; [exact N|]. split; [exact I1|]. exists (before ++ [c]).
    split; [rewrite <- app_assoc; reflexivity|]. split; [destruct before; discriminate|]. exists q. rewrite <- !app_assoc. reflexivity.
Qed.
Ltac break_in E := repeat match type of E with context [if ?b then _ else _] => destruct b end.
Lemma scan_empty s c s' o : json_scan s c = (s', o) -> sc_step s' = SBeginValueOrEmpty -> s' = s \/ exists st, sc_stack s' = PArray :: st.
Proof.
  assert (V : forall st, end_value st c = (s', o) -> sc_step s' <> SBeginValueOrEmpty).
  { intros [|p st]; unfold end_value, end_top, jfail, jpop; intros E; [destruct (json_space c); injection E as <- <-; discriminate|].
    destruct (json_space c); [injection E as <- <-; discriminate|]. destruct p; break_in E; injection E as <- <-; try discriminate; destruct st; discriminate. }
  destruct s as [q st]. unfold json_scan, begin_value, begin_string, state_0, state_esign, state_hex, jpush, jfail, end_top. cbn [sc_step sc_stack]. intros E Es.
  destruct q; break_in E; try (destruct (V _ E Es)); try (injection E as <- <-; (discriminate Es || (right; eexists; reflexivity) || (left; reflexivity))).
  - destruct rest as [|a rest]; [destruct (V _ E Es)|]. destruct (Byte.eqb c a); injection E as <- <-; [destruct rest|]; discriminate Es.
Qed.
Lemma at_empty p : forall s, feed 0 top p = Some s -> sc_step s = SBeginValueOrEmpty -> exists st, sc_stack s = PArray :: st.
Proof.
  induction p as [|c p IH] using rev_ind; intros s F Es; [injection F as <-; discriminate Es|]. rewrite feed_app in F. destruct (feed 0 top p) as [s0|]; [|discriminate F].
  cbn [feed] in F. destruct (json_scan s0 c) as [s1 o] eqn:E.
  assert (G : s1 = s) by (destruct o; try discriminate F; destruct (sc_step s1); try discriminate F; destruct (0 <=? length (sc_stack s1))%nat; congruence).
  subst s1. destruct (scan_empty E Es) as [->|H]; [apply IH; [reflexivity|exact Es]|exact H].
Qed.
Lemma expected p s c s' ctx : feed 0 top p = Some s -> json_scan s c = (s', OError) -> sc_step s' = SFail c ctx -> exists x, looking p c x /\ ctx = s2b x.
Proof.
  intros F E Es.
  assert (Y : forall b, snd (json_scan s b) <> OError -> may_follow p b) by (intros b; exact (@viable_next p s b F)).
  assert (N : forall b, snd (json_scan s b) = OError -> ~ may_follow p b) by (intros b; exact (@not_viable p s b F)).
  assert (Fin : forall x, ctx = s2b x -> looking p c x -> exists x, looking p c x /\ ctx = s2b x) by eauto.
  destruct s as [q st].
  assert (V : (forall b, In b [x20; x22; x3a; x2c; x7d; x5d] -> json_scan (Scan q st) b = end_value st b) -> end_value st c = (s', OError) -> exists x, looking p c x /\ ctx = s2b x).
  { intros Q Ev. assert (Q20 := Q x20 ltac:(cbn; tauto)). assert (Q22 := Q x22 ltac:(cbn; tauto)). assert (Q3a := Q x3a ltac:(cbn; tauto)). assert (Q2c := Q x2c ltac:(cbn; tauto)). assert (Q7d := Q x7d ltac:(cbn; tauto)). assert (Q5d := Q x5d ltac:(cbn; tauto)).
    destruct st as [|pp st]; unfold end_value, end_top, jfail in Ev; [destruct (json_space c); discriminate Ev|]. destruct (json_space c); [discriminate Ev|].
    destruct pp.
    - destruct (Byte.eqb c x3a); [discriminate Ev|]. injection Ev as <-. injection Es as <-. apply (Fin "after object key"%string); [reflexivity|]. constructor; [apply Y; rewrite Q3a; discriminate|apply Y; rewrite Q20; discriminate|apply N; rewrite Q22; reflexivity|apply N; rewrite Q2c; reflexivity].
    - destruct (Byte.eqb c x2c); [discriminate Ev|]. destruct (Byte.eqb c x7d); [discriminate Ev|]. injection Ev as <-. injection Es as <-. apply (Fin "after object key:value pair"%string); [reflexivity|].
      constructor; [apply Y; rewrite Q2c; discriminate|apply Y; rewrite Q7d; discriminate|apply Y; rewrite Q20; discriminate|apply N; rewrite Q22; reflexivity|apply N; rewrite Q5d; reflexivity].
    - destruct (Byte.eqb c x2c); [discriminate Ev|]. destruct (Byte.eqb c x5d); [discriminate Ev|]. injection Ev as <-. injection Es as <-. apply (Fin "after array element"%string); [reflexivity|].
      constructor; [apply Y; rewrite Q2c; discriminate|apply Y; rewrite Q5d; discriminate|apply Y; rewrite Q20; discriminate|apply N; rewrite Q22; reflexivity]. }
  assert (W : In q [SBeginValue; SBeginValueOrEmpty] -> begin_value st SBeginValue c = (s', OError) -> exists x, looking p c x /\ ctx = s2b x).
  { intros Iq Ev. assert (Vd : value_due p).
    { split; [|apply N; destruct Iq as [<-|[<-|[]]]; reflexivity]. intros b Ib. apply Y. destruct Iq as [<-|[<-|[]]]; repeat (destruct Ib as [<-|Ib]; [discriminate|]); destruct Ib. }
    unfold begin_value, jpush, jfail in Ev. destruct (json_space c); [discriminate Ev|].
    destruct (Byte.eqb c x7b) eqn:B1.
    { apply byte_eqb_spec in B1. destruct (_ <=? _); [discriminate Ev|]. injection Ev as <-. injection Es as <-. apply (Fin "exceeded max depth"%string); [reflexivity|]. constructor; [exact Vd|subst c; left; reflexivity]. }
    destruct (Byte.eqb c x5b) eqn:B2.
    { apply byte_eqb_spec in B2. destruct (_ <=? _); [discriminate Ev|]. injection Ev as <-. injection Es as <-. apply (Fin "exceeded max depth"%string); [reflexivity|]. constructor; [exact Vd|subst c; right; left; reflexivity]. }
    repeat (match type of Ev with (if ?b then _ else _) = _ => destruct b; [discriminate Ev|] end). injection Ev as <-. injection Es as <-.
    apply (Fin "looking for beginning of value"%string); [reflexivity|]. constructor; [exact Vd|]. intros [<-|[<-|[]]]; discriminate. }
  assert (K : In q [SBeginString; SBeginStringOrEmpty] -> begin_string st SBeginString c = (s', OError) -> exists x, looking p c x /\ ctx = s2b x).
  { intros Iq Ev. unfold begin_string, jfail in Ev. destruct (json_space c); [discriminate Ev|]. destruct (Byte.eqb c x22); [discriminate Ev|]. injection Ev as <-. injection Es as <-.
    apply (Fin "looking for beginning of object key string"%string); [reflexivity|]. destruct Iq as [<-|[<-|[]]]; (constructor; [apply Y; discriminate|apply Y; discriminate|apply N; reflexivity]). }
  assert (H : hex_step q = true -> ctx = hex_context -> exists x, looking p c x /\ ctx = s2b x).
  { intros Hq Hc. apply (Fin "in \u hexadecimal character escape"%string); [exact Hc|]. apply lk_hex. apply (hex_due F). exact Hq. }
  assert (D : (forall b, json_digit b = true -> snd (json_scan (Scan q st) b) <> OError) -> snd (json_scan (Scan q st) x20) = OError -> snd (json_scan (Scan q st) x22) = OError -> snd (json_scan (Scan q st) x41) = OError -> digits_due p).
  { intros D1 D2 D3 D4. split; [|split; [apply N; exact D2|split; [apply N; exact D3|apply N; exact D4]]]. intros b Ib. apply Y. apply D1. unfold is_digit in Ib. unfold json_digit. lia. }
  assert (T : forall b, json_digit b = true -> json_digit19 b = true \/ b = x30).
  { intros b Hb. unfold json_digit in Hb. unfold json_digit19. destruct (Byte.byte_eq_dec b x30) as [->|Nb]; [auto|]. left. assert (b2n b <> 48) by (intros Z; apply Nb; apply b2n_inj; exact Z). lia. }
  unfold json_scan in E. cbn [sc_step sc_stack] in E. destruct q; unfold state_0, state_esign, state_hex, jfail in E.
  - apply W; [left; reflexivity|exact E].
  - destruct (json_space c); [discriminate E|]. destruct (Byte.eqb c x5d) eqn:B; [|apply W; [right; left; reflexivity|exact E]].
    apply byte_eqb_spec in B. subst c. destruct (at_empty F eq_refl) as (st' & Est). cbn [sc_stack] in Est. subst st. discriminate E.
  - apply K; [left; reflexivity|exact E].
  - destruct (json_space c); [discriminate E|]. destruct (Byte.eqb c x7d) eqn:B; [|apply K; [right; left; reflexivity|exact E]].
    apply byte_eqb_spec in B. subst c. destruct st as [|pp st]; cbn in E; discriminate E.
  - apply V; [reflexivity|exact E].
  - destruct (feed_step F) as [(_ & Z)|Z]; [discriminate Z|exfalso; apply Z; reflexivity].
  - destruct (Byte.eqb c x22); [discriminate E|]. destruct (Byte.eqb c x5c); [discriminate E|]. destruct (_ <? _); [|discriminate E]. injection E as <-. injection Es as <-.
    apply (Fin "in string literal"%string); [reflexivity|]. apply lk_string. intros b Hb. apply Y. unfold json_scan. cbn [sc_step sc_stack].
    destruct (Byte.eqb b x22); [discriminate|]. destruct (Byte.eqb b x5c); [discriminate|]. assert (Lb : (b2n b <? 32) = false) by lia. rewrite Lb. discriminate.
  - destruct (existsb _ _); [discriminate E|]. destruct (Byte.eqb c x75); [discriminate E|]. injection E as <-. injection Es as <-.
    apply (Fin "in string escape code"%string); [reflexivity|]. apply lk_escape; [|apply N; reflexivity|apply N; reflexivity].
    intros b Ib. apply Y. repeat (destruct Ib as [<-|Ib]; [discriminate|]). destruct Ib.
  - destruct (json_hex c); [discriminate E|]. injection E as <-. injection Es as <-. apply H; reflexivity.
  - destruct (json_hex c); [discriminate E|]. injection E as <-. injection Es as <-. apply H; reflexivity.
  - destruct (json_hex c); [discriminate E|]. injection E as <-. injection Es as <-. apply H; reflexivity.
  - destruct (json_hex c); [discriminate E|]. injection E as <-. injection Es as <-. apply H; reflexivity.
  - destruct (Byte.eqb c x30); [discriminate E|]. destruct (json_digit19 c); [discriminate E|]. injection E as <-. injection Es as <-. destruct (at_neg F) as (A1 & A2).
    apply (Fin "in numeric literal"%string); [reflexivity|]. apply lk_number; [apply D; [|reflexivity|reflexivity|reflexivity]|exact A1|exact A2].
    intros b Hb. unfold json_scan. cbn [sc_step sc_stack]. destruct (Byte.eqb b x30) eqn:B; [discriminate|]. destruct (T b Hb) as [-> | ->]; [discriminate|discriminate B].
  - destruct (json_digit c) eqn:Dc; [discriminate E|]. destruct (Byte.eqb c x2e); [discriminate E|]. destruct (_ || _); [discriminate E|]. apply V; [|exact E].
    intros b Ib. repeat (destruct Ib as [<-|Ib]; [reflexivity|]). destruct Ib.
  - destruct (Byte.eqb c x2e); [discriminate E|]. destruct (_ || _); [discriminate E|]. apply V; [|exact E]. intros b Ib. repeat (destruct Ib as [<-|Ib]; [reflexivity|]). destruct Ib.
  - destruct (json_digit c) eqn:Dc; [discriminate E|]. injection E as <-. injection Es as <-. apply (Fin "after decimal point in numeric literal"%string); [reflexivity|].
    apply lk_decimal; [apply D; [|reflexivity|reflexivity|reflexivity]|exact (at_dot F)]. intros b Hb. unfold json_scan. cbn [sc_step]. rewrite Hb. discriminate.
  - destruct (json_digit c) eqn:Dc; [discriminate E|]. destruct (_ || _); [discriminate E|]. apply V; [|exact E]. intros b Ib. repeat (destruct Ib as [<-|Ib]; [reflexivity|]). destruct Ib.
  - destruct (_ || _); [discriminate E|]. destruct (json_digit c) eqn:Dc; [discriminate E|]. injection E as <-. injection Es as <-. apply (Fin "in exponent of numeric literal"%string); [reflexivity|].
    destruct (at_e F) as (e & Ie & q & Ee). apply lk_exponent; [apply D; [|reflexivity|reflexivity|reflexivity]|exists e, []; split; [exact Ie|split; [left; reflexivity|exists q; exact Ee]]].
    intros b Hb. unfold json_scan, state_esign. cbn [sc_step]. rewrite Hb. destruct (_ || _); discriminate.
  - destruct (json_digit c) eqn:Dc; [discriminate E|]. injection E as <-. injection Es as <-. apply (Fin "in exponent of numeric literal"%string); [reflexivity|].
    apply lk_exponent; [apply D; [|reflexivity|reflexivity|reflexivity]|exact (at_esign F)]. intros b Hb. unfold json_scan, state_esign. cbn [sc_step]. rewrite Hb. discriminate.
  - destruct (json_digit c) eqn:Dc; [discriminate E|]. apply V; [|exact E]. intros b Ib. repeat (destruct Ib as [<-|Ib]; [reflexivity|]). destruct Ib.
  - destruct (at_word F) as (Nr & Iw & before & Ew & Nb & Ends). destruct rest as [|a rest]; [congruence|]. destruct (Byte.eqb c a) eqn:B; [discriminate E|]. injection E as <-. injection Es as <-.
    assert (Iff : forall b, may_follow p b <-> b = a).
    { intros b. split.
      - intros Hd. destruct (Byte.eqb b a) eqn:Bb; [apply byte_eqb_spec; exact Bb|]. exfalso. apply (N b); [|exact Hd]. unfold json_scan. cbn [sc_step]. rewrite Bb. reflexivity.
      - intros ->. apply Y. unfold json_scan. cbn [sc_step]. assert (Ra : Byte.eqb a a = true) by (apply byte_eqb_spec; reflexivity). rewrite Ra. discriminate. }
    assert (Iw' : exists w, In w ["true"; "false"; "null"]%string /\ word = s2b w) by (destruct Iw as [<-|[<-|[<-|[]]]]; eexists; (split; [|reflexivity]); cbn; auto).
    destruct Iw' as (w & Iw' & ->). eapply Fin; [|eapply lk_word; [exact Iw'|exact Ew|exact Nb|exact Ends|exact Iff]].
    unfold s2b. destruct Iw' as [<-|[<-|[<-|[]]]]; cbn; rewrite ?Ascii.byte_of_ascii_of_byte; reflexivity.
  - injection E as <-. exfalso. exact (feed_sound top_sound F eq_refl).
Qed.
Lemma prefix_cases (a b c d : bytes) (x y : byte) : a ++ x :: b = c ++ y :: d -> (a = c /\ x = y) \/ (exists e, c = (a ++ [x]) ++ e) \/ (exists e, a = (c ++ [y]) ++ e).
Proof.
  revert c. induction a as [|h a IH]; intros [|k c] H; cbn [app] in H; injection H as H1 H2.
  - auto.
  - right. left. exists c. cbn. congruence.
  - right. right. exists a. cbn. congruence.
  - subst k. destruct (IH _ H2) as [(-> & ->)|[(e & ->)|(e & ->)]]; [auto|right; left; exists e; reflexivity|right; right; exists e; reflexivity].
Qed.
Lemma offends_unique body p c p' c' : offends body p c -> offends body p' c' -> p = p' /\ c = c'.
Proof.
  intros ((q & ->) & V & N) ((q' & E) & V' & N'). destruct (prefix_cases E) as [H|[(e & ->)|(e & ->)]]; [assumption| |].
  - destruct N. eapply viable_app. exact V'.
  - destruct N'. eapply viable_app. exact V.
Qed.
Lemma viable_no_offence body p c : viable body -> ~ offends body p c.
Proof. intros V ((q & ->) & _ & N). apply N. replace (p ++ c :: q) with ((p ++ [c]) ++ q) in V by (rewrite <- app_assoc; reflexivity). eapply viable_app. exact V. Qed.

(** ** The answer *)
Lemma read_plain_text l t : plain l -> read_string (l ++ t) = prepend l (read_string t).
Proof.
  unfold plain. induction l as [|b l IH]; intros H; cbn [app]; [destruct (read_string t) as [[? ?]|]; reflexivity|]. cbn [forallb] in H. apply andb_true_iff in H. destruct H as (Hb & Hl).
  unfold plain_byte in Hb. assert (Nb : b <> x22 /\ b <> x5c /\ 32 <= b2n b) by (repeat split; [intros -> ; discriminate Hb|intros ->; discriminate Hb|lia]).
  destruct Nb as (N1 & N2 & N3). rewrite read_copy by assumption. rewrite (IH Hl). destruct (read_string t) as [[? ?]|]; reflexivity.
Qed.
Lemma plain_valid l : plain l -> valid_utf8 l = true.
Proof. intros H. apply valid_ascii. unfold plain in H. rewrite forallb_forall in H. apply Forall_forall. intros b Hb. specialize (H b Hb). unfold plain_byte in H. lia. Qed.
Lemma escape_here pr c : quote_char pr c = if Byte.eqb c x27 then s2b "'\''" else if Byte.eqb c x22 then s2b "'""'" else s2b "'" ++ escaped_rune pr (b2n c) ++ s2b "'".
Proof.
  unfold quote_char. destruct (Byte.eqb c x27); [reflexivity|]. destruct (Byte.eqb c x22); [reflexivity|]. f_equal. f_equal. unfold go_quote.
  assert (S : segs (encode_rune (b2n c)) = [(b2n c, encode_rune (b2n c))]) by (destruct c; reflexivity). rewrite S. cbn [map concat]. rewrite app_nil_r.
  unfold quote. cbn [app tl]. rewrite removelast_last. unfold quoted_rune. pose proof (b2n_bound c).
  assert (E : (b2n c =? rune_error) = false) by (unfold rune_error; lia). rewrite E. destruct (encode_rune (b2n c)) as [|x [|y l]]; reflexivity.
Qed.
Lemma read_u h1 h2 h3 h4 c t : hex4 h1 h2 h3 h4 = Some c -> c < 55296 -> read_string (x5c :: x75 :: h1 :: h2 :: h3 :: h4 :: t) = prepend (encode_rune c) (read_string t).
Proof. intros H L. cbn [read_string]. change (Byte.eqb x5c x22) with false. rewrite !eqb_same. rewrite H. replace ((55296 <=? c) && (c <=? 57343)) with false by lia. reflexivity. Qed.
Lemma hex4_here c : exists h1 h2 h3 h4, hex4_of (b2n c) = [h1; h2; h3; h4] /\ hex4 h1 h2 h3 h4 = Some (b2n c) /\ plain [h1; h2; h3; h4].
Proof.
  assert (G : every_byte (fun c => match hex4_of (b2n c) with
    | [h1; h2; h3; h4] => match hex4 h1 h2 h3 h4 with Some x => (x =? b2n c) && forallb plain_byte [h1; h2; h3; h4] | None => false end | _ => false end) = true) by (vm_compute; reflexivity).
  pose proof (every_byte_ok G c) as H. cbv beta in H. destruct (hex4_of (b2n c)) as [|h1 [|h2 [|h3 [|h4 [|]]]]]; try discriminate H. exists h1, h2, h3, h4. split; [reflexivity|].
  destruct (hex4 h1 h2 h3 h4) as [x|]; [|discriminate H]. apply andb_true_iff in H. destruct H as (H1 & H2). apply N.eqb_eq in H1. subst x. split; [reflexivity|exact H2].
Qed.
Lemma encode_high r : 128 <= r < 256 -> Forall (fun b => 128 <= b2n b) (encode_rune r) /\ valid_utf8 (encode_rune r) = true.
Proof.
  intros H. assert (G : every_byte (fun c => (b2n c <? 128) || forallb (fun b => 128 <=? b2n b) (encode_rune (b2n c)) && valid_utf8 (encode_rune (b2n c))) = true) by (vm_compute; reflexivity).
  pose proof (every_byte_ok G (n2b r)) as E. cbv beta in E. rewrite b2n_n2b in E by lia. replace (r <? 128) with false in E by lia. cbn [orb] in E. apply andb_true_iff in E. destruct E as (E1 & E2). split; [|assumption].
  rewrite forallb_forall in E1. apply Forall_forall. intros b Hb. specialize (E1 b Hb). cbv beta in E1. lia.
Qed.
Lemma escape_read pr c : sober pr -> ~ unquotable c -> (forall t, read_string (escaped_rune pr (b2n c) ++ t) = prepend (encode_rune (b2n c)) (read_string t)) /\ valid_utf8 (escaped_rune pr (b2n c)) = true.
Proof.
  intros So U. unfold unquotable in U. assert (N22 : c <> x22) by tauto. assert (N7f : c <> x7f) by tauto.
  assert (Nn : b2n c <> 34 /\ b2n c <> 127) by (split; intros E; [apply N22|apply N7f]; apply b2n_inj; rewrite E; reflexivity). destruct Nn as (N34 & N127).
  assert (Ctl : b2n c < 32 -> In (b2n c) [8; 9; 10; 12; 13]).
  { intros L. destruct (in_dec N.eq_dec (b2n c) [8; 9; 10; 12; 13]) as [I|I]; [assumption|]. exfalso. apply U. right. right. right. split; [assumption|]. intros J. apply I.
    repeat (destruct J as [<-|J]; [cbv; tauto|]). destruct J. }
  unfold escaped_rune. replace (b2n c =? 34) with false by lia. cbn [orb]. destruct (b2n c =? 92) eqn:E92.
  { apply N.eqb_eq in E92. rewrite E92. split; [intros t; reflexivity|reflexivity]. }
  destruct (pr (b2n c)) eqn:Pr.
  { assert (L32 : 32 <= b2n c) by (destruct (b2n c <? 32) eqn:L32; [rewrite So in Pr by lia; discriminate Pr|lia]). destruct (b2n c <? 128) eqn:L.
    - rewrite encode_ascii by lia. rewrite n2b_b2n. split; [|apply valid_ascii; constructor; [lia|constructor]].
      intros t; cbn [app]; apply read_copy; [assumption|intros ->; discriminate E92|lia].
    - pose proof (b2n_bound c). destruct (@encode_high (b2n c)) as (E1 & E2); [lia|]. split; [|assumption]. intros t. apply read_copies. assumption. }
  destruct (b2n c <? 32) eqn:L32.
  { apply N.ltb_lt in L32. specialize (Ctl L32). repeat (destruct Ctl as [Ctl|Ctl]; [rewrite <- Ctl; split; [intros t; reflexivity|reflexivity]|]). destruct Ctl. }
  replace (b2n c =? 7) with false by lia. replace (b2n c =? 8) with false by lia. replace (b2n c =? 12) with false by lia. replace (b2n c =? 10) with false by lia.
  replace (b2n c =? 13) with false by lia. replace (b2n c =? 9) with false by lia. replace (b2n c =? 11) with false by lia. replace (b2n c =? 127) with false by lia. cbn [orb].
  pose proof (b2n_bound c). unfold valid_rune. replace (b2n c <? 55296) with true by lia. cbn [orb]. replace (b2n c <? 65536) with true by lia.
  destruct (hex4_here c) as (h1 & h2 & h3 & h4 & -> & Hx & Pl). split.
  - intros t. change (s2b "\u") with [x5c; x75]. cbn [app]. apply read_u; [assumption|lia].
  - apply valid_app; [reflexivity|]. apply plain_valid. assumption.
Qed.

Lemma quote_read pr c : sober pr -> ~ unquotable c ->
  (forall t, read_string (quote_char pr c ++ t) = prepend (s2b "'" ++ encode_rune (b2n c) ++ s2b "'") (read_string t)) /\ valid_utf8 (quote_char pr c) = true.
Proof.
  intros So U. rewrite escape_here. assert (E1 : Byte.eqb c x27 = false) by (apply eqb_no; unfold unquotable in U; tauto). assert (E2 : Byte.eqb c x22 = false) by (apply eqb_no; unfold unquotable in U; tauto). rewrite E1, E2.
  destruct (@escape_read pr c So U) as (R & V). split.
  - intros t. rewrite <- !app_assoc. rewrite read_plain_text by reflexivity. rewrite R. rewrite (@read_plain_text (s2b "'") t) by reflexivity.
    destruct (read_string t) as [[? ?]|]; [|reflexivity]. cbn [prepend]. rewrite <- !app_assoc. reflexivity.
  - apply valid_app; [reflexivity|]. apply valid_app; [assumption|reflexivity].
Qed.
Lemma quote_unread pr c : sober pr -> unquotable c -> forall t, read_string (quote_char pr c ++ t) = None \/ exists v, read_string (quote_char pr c ++ t) = Some (v, x27 :: t).
Proof.
  intros So U t. destruct U as [->|[->|U]]; [right; eexists; reflexivity|left; reflexivity|]. left. rewrite escape_here.
  assert (L : b2n c < 32 \/ b2n c = 127) by (destruct U as [->|(U & _)]; [right; reflexivity|auto]).
  assert (N : c <> x27 /\ c <> x22) by (split; intros ->; cbv in L; destruct L as [L|L]; discriminate L). rewrite (eqb_no (proj1 N)), (eqb_no (proj2 N)).
  unfold escaped_rune. rewrite (So _ L).
  assert (Nn : b2n c <> 8 /\ b2n c <> 9 /\ b2n c <> 10 /\ b2n c <> 12 /\ b2n c <> 13).
  { destruct U as [->|(_ & U)]; [repeat split; discriminate|]. repeat split; intros E; apply U; [replace c with x08|replace c with x09|replace c with x0a|replace c with x0c|replace c with x0d]; try (cbn; tauto); apply b2n_inj; rewrite E; reflexivity. }
  replace (b2n c =? 34) with false by lia. replace (b2n c =? 92) with false by lia. replace (b2n c =? 8) with false by lia. replace (b2n c =? 12) with false by lia. replace (b2n c =? 10) with false by lia.
  replace (b2n c =? 13) with false by lia. replace (b2n c =? 9) with false by lia. cbn [orb]. destruct (b2n c =? 7); [reflexivity|]. destruct (b2n c =? 11); [reflexivity|].
  replace ((b2n c <? 32) || (b2n c =? 127)) with true by lia. reflexivity.
Qed.
Definition after_error (X : bytes) : option (json * bytes) :=
  match read_string X with
  | None => None
  | Some (v, s) =>
    match read_opening x2c s with
    | Some _ => None
    | None => match read_opening x7d s with Some r => Some (JObj [(s2b "status", JBool false); (s2b "error", JStr v)], r) | None => None end
    end
  end.
Lemma answer_read f X : (forall v s, read_string X = Some (v, s) -> read_opening x2c s = None) ->
  read_value (6 + f) (s2b "{""status"":false,""error"":""" ++ X) = after_error X.
Proof.
  intros H. assert (E1 : forall f s, read_value (S f) (x7b :: x22 :: s) = match read_members f (x22 :: s) with Some (l, r) => Some (JObj l, r) | None => None end) by reflexivity.
  change (s2b "{""status"":false,""error"":""" ++ X) with (x7b :: x22 :: (s2b "status"":false,""error"":""" ++ X)). change (6 + f)%nat with (S (S (S (S (S (S f)))))). rewrite E1.
  assert (E2 : forall f Y, read_members (S (S f)) (x22 :: s2b "status"":false," ++ Y) = match read_members (S f) Y with Some (l, r) => Some ((s2b "status", JBool false) :: l, r) | None => None end) by reflexivity.
  change (x22 :: s2b "status"":false,""error"":""" ++ X) with (x22 :: s2b "status"":false," ++ (s2b """error"":""" ++ X)). rewrite E2.
  assert (E3 : forall f X, read_members (S (S f)) (s2b """error"":""" ++ X) = match read_string X with
    | None => None
    | Some (v, s) => match read_opening x2c s with
      | Some s5 => match read_members (S f) s5 with Some (l, r) => Some ((s2b "error", JStr v) :: l, r) | None => None end
      | None => match read_opening x7d s with Some r => Some ([(s2b "error", JStr v)], r) | None => None end end end).
  { intros f' X'. change (read_members (S (S f')) (s2b """error"":""" ++ X')) with
      match (match read_string X' with Some (v, r) => Some (JStr v, r) | None => None end) with
      | None => None
      | Some (v, s4) => match read_opening x2c s4 with
        | Some s5 => match read_members (S f') s5 with Some (l, r) => Some ((s2b "error", v) :: l, r) | None => None end
        | None => match read_opening x7d s4 with Some r => Some ([(s2b "error", v)], r) | None => None end end end.
    destruct (read_string X') as [[v s]|]; reflexivity. }
  rewrite E3. unfold after_error. destruct (read_string X) as [[v s]|] eqn:R; [|reflexivity]. rewrite (H v s eq_refl). destruct (read_opening x7d s); reflexivity.
Qed.
Definition ending : bytes := s2b """}" ++ [x0a].
Definition says (s : bytes) (m : bytes) : Prop := json_text s (JObj [(s2b "status", JBool false); (s2b "error", JStr m)]).
Lemma answer_body e : error_body e ++ [x0a] = s2b "{""status"":false,""error"":""" ++ (e ++ ending).
Proof. unfold error_body, ending. rewrite <- !app_assoc. reflexivity. Qed.
Lemma answer_good e v : read_string (e ++ ending) = Some (v, x7d :: [x0a]) -> valid_utf8 e = true -> says (error_body e ++ [x0a]) v.
Proof.
  intros R V. split.
  - unfold error_body. apply valid_app; [|reflexivity]. apply valid_app; [reflexivity|]. apply valid_app; [assumption|reflexivity].
  - rewrite answer_body. exists 6%nat, [x0a]. split; [|reflexivity]. rewrite (answer_read 0).
    + unfold after_error. rewrite R. reflexivity.
    + intros v' s' R'. rewrite R in R'. injection R' as <- <-. reflexivity.
Qed.
Lemma answer_bad e : (read_string (e ++ ending) = None \/ exists v t, read_string (e ++ ending) = Some (v, x27 :: t)) -> forall v, ~ json_text (error_body e ++ [x0a]) v.
Proof.
  intros R v (_ & f & rest & E & _). apply (@read_value_le _ (f + 6)) in E; [|lia]. replace (f + 6)%nat with (6 + f)%nat in E by lia.
  rewrite answer_body, answer_read in E.
  - unfold after_error in E. destruct R as [R|(v' & t & R)]; rewrite R in E; discriminate E.
  - intros v' s' R'. destruct R as [R|(v2 & t & R)]; rewrite R in R'; [discriminate R'|]. injection R' as <- <-. reflexivity.
Qed.
Lemma json_text_fun s v v' : json_text s v -> json_text s v' -> v = v'.
Proof.
  intros (_ & f & r & E & _) (_ & f' & r' & E' & _). apply (@read_value_le _ (f + f')) in E; [|lia]. apply (@read_value_le _ (f + f')) in E'; [|lia]. congruence.
Qed.
Lemma plain_answer e : plain e -> says (error_body e ++ [x0a]) e.
Proof.
  intros P. apply answer_good; [|apply plain_valid; assumption]. rewrite read_plain_text by assumption. cbn. rewrite app_nil_r. reflexivity.
Qed.
Lemma hex_unread t : read_string (hex_context ++ t) = None.
Proof. reflexivity. Qed.
Lemma failed_answer pr q c s : sober pr -> failed q c s ->
  (~ unquotable c /\ hex_step q = false /\ exists ctx, sc_step s = SFail c ctx /\ says (error_body (scan_error pr s) ++ [x0a]) (s2b "invalid character '" ++ encode_rune (b2n c) ++ s2b "' " ++ ctx)) \/
  ((unquotable c \/ hex_step q = true) /\ forall v, ~ json_text (error_body (scan_error pr s) ++ [x0a]) v).
Proof.
  intros So (ctx & Es & P). unfold scan_error. rewrite Es.
  assert (D : unquotable c \/ ~ unquotable c).
  { unfold unquotable. destruct (Byte.byte_eq_dec c x22) as [E1|E1]; [tauto|]. destruct (Byte.byte_eq_dec c x27) as [E2|E2]; [tauto|]. destruct (Byte.byte_eq_dec c x7f) as [E3|E3]; [tauto|].
    destruct (b2n c <? 32) eqn:L; [|right; intros [H|[H|[H|(H & _)]]]; [tauto|tauto|tauto|lia]].
    destruct (in_dec Byte.byte_eq_dec c [x08; x09; x0a; x0c; x0d]) as [I|I]; [right; intros [H|[H|[H|(_ & H)]]]; tauto|left; right; right; right; split; [lia|assumption]]. }
  destruct D as [U|U].
  - right. split; [auto|]. apply answer_bad. rewrite <- !app_assoc. rewrite read_plain_text by reflexivity.
    destruct (@quote_unread pr c So U ((s2b " " ++ ctx) ++ ending)) as [H|(v & H)]; rewrite <- ?app_assoc in H; rewrite H; [left; reflexivity|right; cbn; eauto].
  - destruct (@quote_read pr c So U) as (R & V). destruct (hex_step q) eqn:Hq.
    + right. split; [auto|]. apply answer_bad. left. rewrite P. rewrite <- !app_assoc. rewrite read_plain_text by reflexivity. rewrite R. rewrite (@read_plain_text (s2b " ")) by reflexivity. rewrite hex_unread. reflexivity.
    + left. split; [assumption|]. split; [reflexivity|]. exists ctx. split; [reflexivity|]. apply answer_good.
      * rewrite <- !app_assoc. rewrite read_plain_text by reflexivity. rewrite R. rewrite (@read_plain_text (s2b " ")) by reflexivity. rewrite read_plain_text by assumption.
        change (read_string ending) with (Some (@nil byte, [x7d; x0a])). cbn [prepend]. rewrite app_nil_r. rewrite <- !app_assoc. reflexivity.
      * apply valid_app; [reflexivity|]. apply valid_app; [assumption|]. apply valid_app; [reflexivity|]. apply plain_valid. assumption.
Qed.

(** ** The wrong type *)
Lemma save_keeps e p : pg_err p <> None -> save_error e p = p.
Proof. intros H. destruct p as [r [e'|]]; [reflexivity|destruct H; reflexivity]. Qed.
Lemma store_keeps t v p : pg_err p <> None -> pg_err (store t v p) = pg_err p.
Proof. intros H. destruct v, t; cbn [store]; rewrite ?save_keeps by assumption; reflexivity. Qed.
Lemma put_keeps l : forall p, pg_err p <> None -> pg_err (fold_left put_member l p) = pg_err p.
Proof.
  induction l as [|(k, v) l IH]; intros p H; [reflexivity|]. cbn [fold_left]. unfold put_member at 2. unfold store_opt. cbn [fst snd]. destruct (field_of k) as [t|]; [|apply IH; assumption].
  rewrite IH; rewrite store_keeps by assumption; [reflexivity|assumption].
Qed.
Definition field_type (t : target) : bytes := s2b (match t with TgStruct => "" | TgInput => "sentence" | TgMode => "mode" end).
Lemma put_wrong l : forall p e, pg_err p = None -> pg_err (fold_left put_member l p) = Some e ->
  exists l1 k v l2 t, l = l1 ++ (k, v) :: l2 /\ pg_err (fold_left put_member l1 p) = None /\ field_of k = Some t /\ ~ In (kind v) ["null"; "string"]%string /\ e = type_error (kind v) t.
Proof.
  induction l as [|(k, v) l IH]; intros p e N H; [cbn in H; congruence|]. cbn [fold_left] in H.
  destruct (pg_err (put_member p (k, v))) as [e'|] eqn:E.
  - rewrite put_keeps in H by (rewrite E; discriminate). rewrite E in H. injection H as <-. exists [], k, v, l.
    unfold put_member, store_opt in E. cbn [fst snd] in E. destruct (field_of k) as [t|] eqn:F; [|congruence].
    assert (T : t <> TgStruct) by (intros ->; unfold field_of in F; repeat match type of F with context [if ?b then _ else _] => destruct b end; discriminate F).
    exists t. split; [reflexivity|]. split; [exact N|]. split; [reflexivity|]. destruct v, t; cbn [store save_error pg_err] in E; try congruence; rewrite N in E; injection E as <-;
      (split; [intros [Z|[Z|[]]]; discriminate Z|reflexivity]).
  - destruct (IH _ _ E H) as (l1 & k1 & v1 & l2 & t & -> & G). exists ((k, v) :: l1), k1, v1, l2, t. split; [reflexivity|]. exact G.
Qed.
Lemma type_plain v t : plain (type_error (kind v) t).
Proof. destruct v, t; reflexivity. Qed.
Lemma outcome_wrong v e : result (outcome v) = inr e -> plain e /\ forall body, begins body v -> complains body e.
Proof.
  unfold result. destruct (pg_err (outcome v)) as [e'|] eqn:E; [|discriminate]. intros H. injection H as ->.
  assert (D : (exists l, v = TObj l) \/ (forall l, v <> TObj l)) by (destruct v; [right..|left]; try discriminate; eauto). destruct D as [(l & ->)|D].
  - cbn [outcome] in E. destruct (@put_wrong l start e eq_refl E) as (l1 & k & v & l2 & t & -> & N & F & K & ->). split; [apply type_plain|]. intros body B.
    destruct (@members_put l1 start eq_refl) as [(T1 & T2 & _)|(_ & Z)]; [|congruence].
    destruct t; [unfold field_of in F; repeat match type of F with context [if ?b then _ else _] => destruct b end; discriminate F| |].
    + refine (@co_field body l1 k v l2 "sentence"%string B T1 T2 _ _ K); [cbn; auto|]. pose proof (field_named k) as Fn. rewrite F in Fn. destruct (names k "sentence"), (names k "mode"); congruence.
    + refine (@co_field body l1 k v l2 "mode"%string B T1 T2 _ _ K); [cbn; auto|]. pose proof (field_named k) as Fn. rewrite F in Fn. destruct (names k "sentence"), (names k "mode"); congruence.
  - assert (G : e = type_error (kind v) TgStruct /\ ~ In (kind v) ["null"; "object"]%string).
    { destruct v; cbn [outcome store save_error start pg_err] in E; try discriminate E; try (exfalso; eapply D; reflexivity); injection E as <-; (split; [reflexivity|intros [Z|[Z|[]]]; discriminate Z]). }
    destruct G as (-> & K). split; [apply type_plain|]. intros body B. exact (@co_value body v B K).
Qed.

(** ** The answer to what is no request *)
Lemma blank_all body : forallb json_space body = true <-> blank body.
Proof. unfold blank. rewrite forallb_forall, Forall_forall. split; intros H b I; specialize (H b I); apply blank_space; assumption. Qed.
Lemma begins_viable body v : begins body v -> viable body.
Proof. intros H. exists [], v. rewrite app_nil_r. assumption. Qed.
Theorem wrong_answers pr newer ideo t body : sober pr -> (forall r, ~ body_asks body r) ->
  exists r, serve_tokenize (the_decoder pr) newer ideo t body = Ok r /\ rs_status r = 400%Z /\
    ((exists v, json_text (rs_body r) v) <-> ~ exists p c, offends body p c /\ (unquotable c \/ digit_due p)) /\
    (forall v, json_text (rs_body r) v -> exists m, v = JObj [(s2b "status", JBool false); (s2b "error", JStr m)] /\ complains body m).
Proof.
  intros So NA. destruct (the_decoder pr body) as [r|e] eqn:Q; [apply decode_asks in Q; destruct (NA _ Q)|].
  exists (http_error (error_body e) 400). split; [unfold serve_tokenize; rewrite Q; reflexivity|]. split; [reflexivity|]. cbn [rs_body http_error].
  assert (Good : forall m, says (error_body e ++ [x0a]) m -> complains body m -> (~ exists p c, offends body p c /\ (unquotable c \/ digit_due p)) ->
    ((exists v, json_text (error_body e ++ [x0a]) v) <-> ~ exists p c, offends body p c /\ (unquotable c \/ digit_due p)) /\
    (forall v, json_text (error_body e ++ [x0a]) v -> exists m, v = JObj [(s2b "status", JBool false); (s2b "error", JStr m)] /\ complains body m)).
  { intros m S C N. split; [split; [auto|intros _; eexists; exact S]|]. intros v J. exists m. split; [eapply json_text_fun; [exact J|exact S]|exact C]. }
  unfold the_decoder, json_decode in Q. change (Scan SBeginValue []) with top in Q. destruct (read_loop pr top 0 false body) as [n|e'] eqn:L.
  - destruct (read_shapes pr body) as [(w & tx & v & rest & Eb & B & R & D & Mx & L')|(e' & L')]; [|congruence]. rewrite L in L'. injection L' as ->.
    rewrite Eb in Q. rewrite app_assoc, firstn_app, firstn_all, Nat.sub_diag in Q. cbn [firstn] in Q. rewrite app_nil_r, (unmarshal_run B R D) in Q.
    assert (Bv : begins body v) by (exists w, tx, rest; repeat split; assumption). destruct (outcome_wrong Q) as (P & C).
    apply (Good e); [apply plain_answer; assumption|apply C; assumption|]. intros (p & c & O & _). exact (viable_no_offence (begins_viable Bv) O).
  - injection Q as ->. destruct (@read_errors pr body top 0%nat false e ltac:(discriminate) L) as [(p & c & q & s1 & s2 & Eb & F & Es & ->)|(Ee & s' & F)].
    + assert (O : offends body p c) by (split; [exists q; exact Eb|split; [exact (fed_viable F)|apply (not_viable F); rewrite Es; reflexivity]]).
      pose proof (@scan_failed s1 c ltac:(eapply feed_sane; [|exact F]; exact I)) as Fl. rewrite Es in Fl. destruct Fl as [(_ & Fl)|(Z & _)]; [|congruence].
      destruct (failed_answer So Fl) as [(U & Hq & ctx & Ec & S)|(U & N)].
      * destruct (expected F Es Ec) as (x & Lk & ->). eapply Good; [exact S|eapply co_byte; [exact O|exact Lk]|]. intros (p' & c' & O' & H). destruct (offends_unique O O') as (<- & <-).
        destruct H as [H|H]; [tauto|]. apply (hex_due F) in H. congruence.
      * split; [|intros v J; destruct (N v J)]. split; [intros (v & J); destruct (N v J)|]. intros H. exfalso. apply H. exists p, c. split; [exact O|].
        destruct U as [U|U]; [auto|]. right. apply (hex_due F). exact U.
    + pose proof (fed_viable F) as V. cbn [orb] in Ee. apply (Good e).
      * apply plain_answer. rewrite Ee. destruct (forallb json_space body); reflexivity.
      * rewrite Ee. destruct (forallb json_space body) eqn:Bl; cbn [negb].
        -- constructor. apply blank_all. exact Bl.
        -- constructor; [rewrite <- blank_all; congruence| |exact V]. intros v H. apply (@begins_found pr) in H. destruct H as (m & H). congruence.
      * intros (p & c & O & _). exact (viable_no_offence V O).
Qed.

(** ** The text of the answer about a byte, JSON or not *)
Lemma quote_shown pr c : sober pr -> exists shown, quote_char pr c = s2b "'" ++ shown ++ s2b "'" /\ shown_as c shown.
Proof.
  intros So. rewrite escape_here. destruct (Byte.eqb c x27) eqn:B1; [apply byte_eqb_spec in B1; subst c; exists (s2b "\'"); split; [reflexivity|left; auto]|].
  destruct (Byte.eqb c x22) eqn:B2; [apply byte_eqb_spec in B2; subst c; exists (s2b """"); split; [reflexivity|right; left; auto]|].
  exists (escaped_rune pr (b2n c)). split; [reflexivity|]. right. right. split; [intros [<-|[<-|[]]]; discriminate|].
  destruct (b2n c <? 128) eqn:L.
  - rewrite escaped_low by (assumption || lia). cbn. f_equal. f_equal. rewrite encode_ascii by lia. rewrite n2b_b2n. reflexivity.
  - pose proof (b2n_bound c). assert (Dc : decode_rune (encode_rune (b2n c)) = (b2n c, length (encode_rune (b2n c)))) by (destruct c; first [discriminate L|reflexivity]).
    destruct (@encode_high (b2n c) ltac:(lia)) as (Hi & _).
    assert (Nn : encode_rune (b2n c) <> []) by (unfold encode_rune; repeat match goal with |- context [if ?b then _ else _] => destruct b end; discriminate).
    rewrite (@escaped_high pr (b2n c) (encode_rune (b2n c)) (s2b """")); [cbn; rewrite app_nil_r; reflexivity|exact Nn|exact Dc| |lia|unfold code_point; lia|exact Hi].
    intros (Z & _). unfold rune_error in Z. lia.
Qed.
Theorem offence_text pr newer ideo t body p c : sober pr -> offends body p c -> exists shown context,
  serve_tokenize (the_decoder pr) newer ideo t body =
    Ok (Response 400 (s2b "text/plain; charset=utf-8") (s2b "{""status"":false,""error"":""invalid character '" ++ shown ++ s2b "' " ++ s2b context ++ s2b """}" ++ [x0a])) /\
  shown_as c shown /\ looking p c context.
Proof.
  intros So O. destruct (read_loop pr top 0 false body) as [n|e] eqn:L.
  { destruct (found_begins L) as (v & Bv). destruct (viable_no_offence (begins_viable Bv) O). }
  destruct (@read_errors pr body top 0%nat false e ltac:(discriminate) L) as [(p' & c' & q & s1 & s2 & Eb & F & Es & ->)|(Ee & s' & F)]; [|destruct (viable_no_offence (fed_viable F) O)].
  assert (O' : offends body p' c') by (split; [exists q; exact Eb|split; [exact (fed_viable F)|apply (not_viable F); rewrite Es; reflexivity]]).
  destruct (offends_unique O O') as (<- & <-).
  pose proof (@scan_failed s1 c ltac:(eapply feed_sane; [|exact F]; exact I)) as Fl. rewrite Es in Fl. destruct Fl as [(_ & ctx & Ec & _)|(Z & _)]; [|congruence].
  destruct (expected F Es Ec) as (x & Lk & ->). destruct (quote_shown c So) as (shown & Eq & Sh). exists shown, x. split; [|auto].
  unfold serve_tokenize, the_decoder, json_decode. change (Scan SBeginValue []) with top. rewrite L. unfold http_error. rewrite answer_body. unfold scan_error. rewrite Ec, Eq. f_equal. f_equal.
  unfold ending. rewrite <- !app_assoc. reflexivity.
Qed.
(** What was expected is told by one of the phrases only. *)
Lemma last_app (q s : bytes) : s <> [] -> last (q ++ s) x00 = last s x00.
Proof. intros N. induction q as [|b q IH]; [reflexivity|]. cbn [app]. destruct (q ++ s) eqn:E; [apply app_eq_nil in E; destruct E; congruence|]. rewrite <- IH. reflexivity. Qed.
Lemma ends_last p s : s <> [] -> ends_with p s -> last p x00 = last s x00.
Proof. intros N (q & ->). apply last_app. exact N. Qed.
Lemma exponent_last p : in_exponent p -> In (last p x00) [x65; x45; x2b; x2d].
Proof. intros (e & sign & Ie & Is & H). rewrite (ends_last (s := e :: sign) ltac:(discriminate) H). destruct Is as [<-|[<-|[<-|[]]]]; destruct Ie as [<-|[<-|[]]]; cbn; auto. Qed.
Ltac split_word E b0 := destruct b0 as [|? b0]; cbn [app] in E; [first [discriminate E|injection E as <- _; cbn; tauto]|first [discriminate E|injection E as <- E; split_word E b0]].
Lemma word_of w before a after : In w ["true"; "false"; "null"]%string -> s2b w = before ++ a :: after -> before <> [] ->
  forall w' before' after', In w' ["true"; "false"; "null"]%string -> s2b w' = before' ++ a :: after' -> before' <> [] -> last before x00 = last before' x00 -> w = w'.
Proof.
  assert (G : forall w before a after, In w ["true"; "false"; "null"]%string -> s2b w = before ++ a :: after -> before <> [] ->
    In (w, last before x00, a) [("true", x74, x72); ("true", x72, x75); ("true", x75, x65); ("false", x66, x61); ("false", x61, x6c); ("false", x6c, x73); ("false", x73, x65);
      ("null", x6e, x75); ("null", x75, x6c); ("null", x6c, x6c)]%string).
  { intros w0 b0 a0 f0 Iw E N. destruct b0 as [|y b0]; [congruence|]. destruct Iw as [<-|[<-|[<-|[]]]]; injection E as <- E; split_word E b0. }
  intros Iw E N w' b' f' Iw' E' N' El. pose proof (G _ _ _ _ Iw E N) as H. pose proof (G _ _ _ _ Iw' E' N') as H'. rewrite El in H. clear - H H'.
  cbn in H, H'.
  repeat (destruct H as [H|H]; [injection H as <- H1 <-; repeat (destruct H' as [H'|H']; [first [discriminate H'|injection H' as <- H2; first [reflexivity|exfalso; congruence]]|]); destruct H'|]). destruct H.
Qed.
Theorem looking_one p c x y : looking p c x -> looking p c y -> x = y.
Proof.
  assert (D5 : is_digit x35) by (split; [intros Z; discriminate Z|intros Z; discriminate Z]). assert (D6 : is_digit x36) by (split; [intros Z; discriminate Z|intros Z; discriminate Z]).
  assert (Hd : digit_due p -> ~ may_follow p x22 /\ ~ may_follow p x20 /\ ~ may_follow p x75 /\ ~ may_follow p x3a /\ ~ may_follow p x2c /\ may_follow p x41 /\ may_follow p x35 /\ may_follow p x36).
  { intros H. unfold digit_due in H. fold (may_follow p) in H. repeat split; try (intros Z; apply H in Z; destruct Z as (v & Z); discriminate Z); apply H; eexists; reflexivity. }
  assert (Dd : digits_due p -> ~ may_follow p x22 /\ ~ may_follow p x20 /\ ~ may_follow p x41 /\ may_follow p x35 /\ may_follow p x36) by (intros (H & H1 & H2 & H3); auto 6).
  assert (Vd : value_due p -> may_follow p x22 /\ may_follow p x2d /\ ~ may_follow p x61) by (intros (H & H1); repeat split; auto; apply H; cbn; auto).
  assert (Sd : (forall b, 32 <= b2n b -> may_follow p b) -> may_follow p x20 /\ may_follow p x22 /\ may_follow p x2d /\ may_follow p x61 /\ may_follow p x75) by (intros H; repeat split; apply H; intros Z; discriminate Z).
  assert (Ed : (forall b, In b [x22; x62; x75] -> may_follow p b) -> may_follow p x22 /\ may_follow p x75) by (intros H; split; apply H; cbn; auto).
  assert (Wd : forall a, (forall b, may_follow p b <-> b = a) -> forall b b', may_follow p b -> may_follow p b' -> b = b') by (intros a H b b' H1 H2; apply H in H1, H2; congruence).
  assert (Ex := @exponent_last p).
  intros H1 H2.
  assert (Sym : forall z, looking p c z -> (exists w before a after, In w ["true"; "false"; "null"]%string /\ s2b w = before ++ a :: after /\ before <> [] /\ ends_with p before /\
     (forall b, may_follow p b <-> b = a) /\ z = ("in literal " ++ w ++ " (expecting '" ++ String (Ascii.ascii_of_byte a) "')")%string) \/
     exists b b', may_follow p b /\ may_follow p b' /\ b <> b').
  { intros z Hz. destruct Hz as [V|V|? ?|? ?|? ?|? ?|S|E ? ?|E|E|E|E|w before a after]; [..|left; exists w, before, a, after; auto 8]; right.
    1-2: exists x22, x2d; destruct (Vd V) as (? & ? & ?); repeat split; auto; discriminate.
    - exists x22, x20; repeat split; auto; discriminate.
    - exists x3a, x20; repeat split; auto; discriminate.
    - exists x2c, x20; repeat split; auto; discriminate.
    - exists x2c, x20; repeat split; auto; discriminate.
    - exists x20, x22; destruct (Sd S) as (? & ? & ?); repeat split; auto; discriminate.
    - exists x22, x75; destruct (Ed E) as (? & ?); repeat split; auto; discriminate.
    - exists x35, x36; destruct (Hd E) as (? & ? & ? & ? & ? & ? & ? & ?); repeat split; auto; discriminate.
    - exists x35, x36; destruct (Dd E) as (? & ? & ? & ? & ?); repeat split; auto; discriminate.
    - exists x35, x36; destruct (Dd E) as (? & ? & ? & ? & ?); repeat split; auto; discriminate.
    - exists x35, x36; destruct (Dd E) as (? & ? & ? & ? & ?); repeat split; auto; discriminate. }
  destruct (Sym _ H1) as [(w & before & a & after & Iw & Ew & Nb & En & Ia & ->)|(b1 & b2 & B1 & B2 & B3)].
  - destruct (Sym _ H2) as [(w' & before' & a' & after' & Iw' & Ew' & Nb' & En' & Ia' & ->)|(b1 & b2 & B1 & B2 & B3)]; [|exfalso; apply B3; eapply Wd; eassumption].
    assert (a = a') by (apply Ia'; apply Ia; reflexivity). subst a'.
    assert (w = w') by (eapply word_of; [exact Iw|exact Ew|exact Nb|exact Iw'|exact Ew'|exact Nb'|]; rewrite <- (ends_last Nb En), <- (ends_last Nb' En'); reflexivity). subst w'. reflexivity.
  - destruct (Sym _ H2) as [(w' & before' & a' & after' & Iw' & Ew' & Nb' & En' & Ia' & ->)|(b1' & b2' & B1' & B2' & B3')]; [exfalso; apply B3; eapply Wd; eassumption|].
    assert (Dot : ends_with p [x2e] -> last p x00 = x2e) by (intros H; exact (ends_last (s := [x2e]) ltac:(discriminate) H)).
    assert (Neg : ends_with p [x2d] -> last p x00 = x2d) by (intros H; exact (ends_last (s := [x2d]) ltac:(discriminate) H)).
    assert (DE : ends_with p [x2e] -> in_exponent p -> False) by (intros Z1 Z2; apply Ex in Z2; rewrite (Dot Z1) in Z2; cbn in Z2; destruct Z2 as [Z|[Z|[Z|[Z|[]]]]]; discriminate Z).
    assert (DN : ends_with p [x2e] -> ends_with p [x2d] -> False) by (intros Z1 Z2; rewrite (Dot Z1) in Neg; specialize (Neg Z2); discriminate Neg).
    clear Sym Ex Dot Neg D5 D6. destruct H1; destruct H2; try reflexivity; exfalso; try (apply B3; eapply Wd; eassumption); try (apply B3'; eapply Wd; eassumption); clear Wd; tauto.
Qed.
