(** The scanner of [Decode] follows the grammar of [SpecDecode]. *)
From Verif Require Import Utf8Facts.
From Verif Require Export Decode SpecDecode.
From Coq Require Import ZifyBool ZifyNat ZifyN.
Set Implicit Arguments. Unset Strict Implicit.
Open Scope N_scope.

(** ** Feeding the scanner *)
(** The bytes [t] one after the other, without an error and an end, the stack never below [k]. *)
Fixpoint feed (k : nat) (s : jscan) (t : bytes) : option jscan :=
  match t with
  | [] => Some s
  | c :: t' =>
    let (s', o) := json_scan s c in
    match o, sc_step s' with
    | OError, _ | OEnd, _ | _, SEndTop => None
    | _, _ => if (k <=? length (sc_stack s'))%nat then feed k s' t' else None
    end
  end.
Lemma feed_app k a b : forall s, feed k s (a ++ b) = match feed k s a with Some s' => feed k s' b | None => None end.
Proof.
  induction a as [|c a IH]; intros s; [reflexivity|]. cbn [app feed]. destruct (json_scan s c) as [s' o].
  destruct o; try reflexivity; destruct (sc_step s'); try reflexivity; destruct (k <=? length (sc_stack s'))%nat; auto.
Qed.
Lemma feed_app_eq k a b s s' : feed k s a = Some s' -> feed k s (a ++ b) = feed k s' b.
Proof. intros H. rewrite feed_app, H. reflexivity. Qed.
Definition quiet (o : jop) : bool := match o with OError | OEnd => false | _ => true end.
Definition inside (q : jstep) : bool := match q with SEndTop => false | _ => true end.
Lemma feed_cons k s c t s' o : json_scan s c = (s', o) -> quiet o = true -> inside (sc_step s') = true -> (k <= length (sc_stack s'))%nat ->
  feed k s (c :: t) = feed k s' t.
Proof.
  intros E Q I L. cbn [feed]. rewrite E. apply Nat.leb_le in L. rewrite L.
  destruct o; try discriminate Q; destruct (sc_step s'); try reflexivity; discriminate I.
Qed.
Lemma feed_le k s t s' : feed k s t = Some s' -> (k <= length (sc_stack s))%nat -> (k <= length (sc_stack s'))%nat.
Proof.
  revert s. induction t as [|c t IH]; intros s H L; [injection H as <-; assumption|]. cbn [feed] in H. destruct (json_scan s c) as [s1 o].
  destruct o; try discriminate H; destruct (sc_step s1); try discriminate H;
    (destruct (k <=? length (sc_stack s1))%nat eqn:E; [|discriminate H]; apply Nat.leb_le in E; eapply IH; eassumption).
Qed.
Lemma feed_weaken k j s t s' : (j <= k)%nat -> feed k s t = Some s' -> feed j s t = Some s'.
Proof.
  intros L. revert s. induction t as [|c t IH]; intros s H; [assumption|]. cbn [feed] in *. destruct (json_scan s c) as [s1 o].
  destruct o; try discriminate H; destruct (sc_step s1); try discriminate H;
    (destruct (k <=? length (sc_stack s1))%nat eqn:E; [|discriminate H]; apply Nat.leb_le in E;
     replace (j <=? length (sc_stack s1))%nat with true by (symmetry; apply Nat.leb_le; lia); auto).
Qed.

(** ** Bytes *)
Lemma eqb_same c : Byte.eqb c c = true.
Proof. apply byte_eqb_spec. reflexivity. Qed.
Lemma eqb_no a b : a <> b -> Byte.eqb a b = false.
Proof. intros H. destruct (Byte.eqb a b) eqn:E; [apply byte_eqb_spec in E; contradiction|reflexivity]. Qed.
Lemma blank_space c : In c [x20; x09; x0a; x0d] <-> json_space c = true.
Proof. split; [intros [<-|[<-|[<-|[<-|[]]]]]; reflexivity|]. destruct c; intros H; try discriminate H; cbv; intuition. Qed.
Lemma space_cases c : json_space c = true -> c = x20 \/ c = x09 \/ c = x0a \/ c = x0d.
Proof. intros H. apply blank_space in H. destruct H as [<-|[<-|[<-|[<-|[]]]]]; auto. Qed.
Lemma digit_ok c : is_digit c <-> json_digit c = true.
Proof. unfold is_digit, json_digit. lia. Qed.
Lemma digit19_ok c : is_digit c -> c <> x30 -> json_digit19 c = true.
Proof. unfold is_digit, json_digit19. intros H N. assert (b2n c <> 48) by (intros E; apply N; apply b2n_inj; rewrite E; reflexivity). lia. Qed.
Lemma digit19_digit c : json_digit19 c = true -> is_digit c /\ c <> x30.
Proof. intros H. split; [unfold is_digit; unfold json_digit19 in H; lia|]. intros ->. discriminate H. Qed.
Lemma digit19_begin st q c : json_digit19 c = true -> begin_value st q c = (Scan S1 st, OBeginLiteral).
Proof. destruct c; intros H; try discriminate H; reflexivity. Qed.
Lemma digit_not c : json_digit c = true -> json_space c = false /\ Byte.eqb c x2e = false /\ Byte.eqb c x65 = false /\ Byte.eqb c x45 = false /\
  Byte.eqb c x2b = false /\ Byte.eqb c x2d = false.
Proof. destruct c; intros H; try discriminate H; repeat split; reflexivity. Qed.
Lemma plain_number c : number_byte c = false -> json_digit c = false /\ Byte.eqb c x2e = false /\ (Byte.eqb c x65 || Byte.eqb c x45 = false) /\
  (Byte.eqb c x2b || Byte.eqb c x2d = false).
Proof.
  unfold number_byte. cbn [existsb]. intros H. apply orb_false_iff in H. destruct H as (H1 & H).
  repeat (apply orb_false_iff in H; destruct H as (? & H)). repeat split; [assumption|assumption| |]; apply orb_false_iff; split; assumption.
Qed.

(** ** White space *)
Definition waits (q : jstep) : bool :=
  match q with SBeginValue | SBeginValueOrEmpty | SBeginString | SBeginStringOrEmpty | SEndValue => true | _ => false end.
Lemma scan_space q st c : waits q = true -> st <> [] \/ q <> SEndValue -> json_space c = true -> json_scan (Scan q st) c = (Scan q st, OSkipSpace).
Proof.
  intros W N S. destruct q; try discriminate W; unfold json_scan, begin_value, begin_string, end_value; cbn [sc_step sc_stack]; rewrite ?S; try reflexivity.
  destruct st; [destruct N as [N|N]; congruence|reflexivity].
Qed.
Lemma feed_blank k q st w : waits q = true -> st <> [] \/ q <> SEndValue -> (k <= length st)%nat -> blank w -> feed k (Scan q st) w = Some (Scan q st).
Proof.
  intros W N L B. induction B as [|c w Hc _ IH]; [reflexivity|]. apply blank_space in Hc.
  erewrite feed_cons; [exact IH|apply scan_space; eassumption|reflexivity|destruct q; try discriminate W; reflexivity|assumption].
Qed.

(** ** Strings *)
Lemma scan_in_string st c : 32 <= b2n c -> c <> x22 -> c <> x5c -> json_scan (Scan SInString st) c = (Scan SInString st, OContinue).
Proof.
  intros H N1 N2. unfold json_scan. cbn [sc_step sc_stack]. rewrite (eqb_no N1), (eqb_no N2).
  replace (b2n c <? 32) with false by lia. reflexivity.
Qed.
Lemma feed_raw k st l : (k <= length st)%nat -> Forall (fun c => 32 <= b2n c /\ c <> x22 /\ c <> x5c) l -> feed k (Scan SInString st) l = Some (Scan SInString st).
Proof.
  intros L H. induction H as [|c l (H1 & H2 & H3) _ IH]; [reflexivity|].
  erewrite feed_cons; [exact IH|apply scan_in_string; assumption|reflexivity|reflexivity|assumption].
Qed.
Lemma high_byte c : 128 <= b2n c -> 32 <= b2n c /\ c <> x22 /\ c <> x5c.
Proof. intros H. split; [lia|]. split; intros ->; cbv in H; lia. Qed.
(** The bytes of a rune but the first are high. *)
Lemma rune_bytes b raw tail r : decode_rune ((b :: raw) ++ tail) = (r, length (b :: raw)) -> Forall (fun c => 128 <= b2n c) raw.
Proof.
  intros H. assert (N : (b :: raw) ++ tail <> []) by discriminate. pose proof (decode_dec N) as D. rewrite H in D. cbn [fst snd] in D.
  assert (G : forall w, w = length (b :: raw) -> dec ((b :: raw) ++ tail) r w -> Forall (fun c => 128 <= b2n c) raw).
  { clear. intros w Ew D. destruct D as [c t Hs Hb|c t Hs Hb|b0 b1 t Hs H0 H1|b0 b1 b2 t Hs H0 H1 H2|b0 b1 b2 b3 t Hs H0 H1 H2 H3].
    - destruct raw; [constructor|discriminate Ew].
    - destruct raw; [constructor|discriminate Ew].
    - destruct raw as [|c1 [|c2 raw]]; try discriminate Ew. cbn [app] in Hs. injection Hs as -> -> ->. repeat constructor; lia.
    - destruct raw as [|c1 [|c2 [|c3 raw]]]; try discriminate Ew. cbn [app] in Hs. injection Hs as -> -> -> ->.
      pose proof (second_lo_bounds (b2n b0)). repeat constructor; lia.
    - destruct raw as [|c1 [|c2 [|c3 [|c4 raw]]]]; try discriminate Ew. cbn [app] in Hs. injection Hs as -> -> -> -> ->.
      pose proof (second_lo_bounds (b2n b0)). repeat constructor; lia. }
  exact (G _ eq_refl D).
Qed.
Lemma hex_value_ok b n : hex_value b = Some n -> json_hex b = true.
Proof.
  unfold hex_value, json_hex, json_digit. intros H.
  destruct ((48 <=? b2n b) && (b2n b <=? 57)) eqn:E1; [reflexivity|]. destruct ((97 <=? b2n b) && (b2n b <=? 102)) eqn:E2; [reflexivity|].
  destruct ((65 <=? b2n b) && (b2n b <=? 70)) eqn:E3; [reflexivity|discriminate H].
Qed.
Lemma hex4_ok a b c d n : hex4 a b c d = Some n -> json_hex a = true /\ json_hex b = true /\ json_hex c = true /\ json_hex d = true.
Proof.
  unfold hex4. destruct (hex_value a) eqn:Ea; [|discriminate]. destruct (hex_value b) eqn:Eb; [|discriminate].
  destruct (hex_value c) eqn:Ec; [|discriminate]. destruct (hex_value d) eqn:Ed; [|discriminate]. intros _.
  repeat split; eapply hex_value_ok; eassumption.
Qed.
Lemma scan_hex st q c : json_hex c = true -> state_hex st q c = (Scan q st, OContinue).
Proof. intros H. unfold state_hex. rewrite H. reflexivity. Qed.
Lemma feed_u k st s c tail : (k <= length st)%nat -> u_escape s c tail -> feed k (Scan SInString st) s = feed k (Scan SInString st) tail.
Proof.
  intros L (h1 & h2 & h3 & h4 & -> & H). apply hex4_ok in H. destruct H as (H1 & H2 & H3 & H4).
  erewrite feed_cons; [|reflexivity|reflexivity|reflexivity|assumption].
  erewrite feed_cons; [|reflexivity|reflexivity|reflexivity|assumption].
  erewrite feed_cons; [|exact (scan_hex st SEscU1 H1)|reflexivity|reflexivity|assumption].
  erewrite feed_cons; [|exact (scan_hex st SEscU12 H2)|reflexivity|reflexivity|assumption].
  erewrite feed_cons; [|exact (scan_hex st SEscU123 H3)|reflexivity|reflexivity|assumption].
  erewrite feed_cons; [|exact (scan_hex st SInString H4)|reflexivity|reflexivity|assumption]. reflexivity.
Qed.
Lemma short_escape_cases e c : short_escape e = Some c ->
  (e = x22 /\ c = x22) \/ (e = x5c /\ c = x5c) \/ (e = x2f /\ c = x2f) \/ (e = x62 /\ c = x08) \/ (e = x66 /\ c = x0c) \/
  (e = x6e /\ c = x0a) \/ (e = x72 /\ c = x0d) \/ (e = x74 /\ c = x09).
Proof. destruct e; intros H; try discriminate H; injection H as <-; intuition. Qed.
Lemma feed_str k st s v : (k <= length st)%nat -> str_text s v -> feed k (Scan SInString st) s = Some (Scan SInString st).
Proof.
  intros L H. induction H as [|b raw tail r v E H1 H2 H3 _ IH|e c tail v E _ IH|s c tail v E _ _ _ IH|s c s2 c2 tail v E _ E2 _ _ IH|s c tail v E _ _ IH].
  - reflexivity.
  - pose proof (rune_bytes E) as R. erewrite feed_app_eq; [exact IH|]. apply feed_raw; [assumption|].
    constructor; [auto|]. eapply Forall_impl; [|exact R]. intros c Hc. exact (high_byte Hc).
  - erewrite feed_cons; [|reflexivity|reflexivity|reflexivity|assumption].
    apply short_escape_cases in E.
    assert (E1 : json_scan (Scan SEsc st) e = (Scan SInString st, OContinue)).
    { destruct E as [(-> & _)|[(-> & _)|[(-> & _)|[(-> & _)|[(-> & _)|[(-> & _)|[(-> & _)|(-> & _)]]]]]]]; reflexivity. }
    erewrite feed_cons; [exact IH|exact E1|reflexivity|reflexivity|assumption].
  - rewrite (feed_u L E). assumption.
  - rewrite (feed_u L E), (feed_u L E2). assumption.
  - rewrite (feed_u L E). assumption.
Qed.
(** From the opening quotation mark on. *)
Lemma feed_quoted k st s v : (k <= length st)%nat -> str_text s v -> feed k (Scan SInString st) (s ++ [x22]) = Some (Scan SEndValue st).
Proof.
  intros L H. erewrite feed_app_eq; [|eapply feed_str; eassumption]. erewrite feed_cons; [|reflexivity|reflexivity|reflexivity|assumption]. reflexivity.
Qed.

(** ** Numbers *)
(** The states in which a value may end. *)
Definition done (q : jstep) : bool := match q with SEndValue | S1 | S0 | SDot0 | SE0 => true | _ => false end.
Lemma scan_done q st c : done q = true -> number_byte c = false -> json_scan (Scan q st) c = end_value st c.
Proof.
  intros D H. apply plain_number in H. destruct H as (H1 & H2 & H3 & H4).
  destruct q; try discriminate D; unfold json_scan, state_0; cbn [sc_step sc_stack]; rewrite ?H1, ?H2, ?H3; reflexivity.
Qed.
Lemma scan_done_value st c : json_scan (Scan SEndValue st) c = end_value st c.
Proof. reflexivity. Qed.
Lemma feed_digits k q st ds : (k <= length st)%nat -> In q [S1; SDot0; SE0] -> Forall is_digit ds -> feed k (Scan q st) ds = Some (Scan q st).
Proof.
  intros L Q H. induction H as [|c ds Hc _ IH]; [reflexivity|]. apply digit_ok in Hc.
  assert (E : json_scan (Scan q st) c = (Scan q st, OContinue)).
  { destruct Q as [<-|[<-|[<-|[]]]]; unfold json_scan; cbn [sc_step sc_stack]; rewrite ?Hc; reflexivity. }
  erewrite feed_cons; [exact IH|exact E|reflexivity|destruct Q as [<-|[<-|[<-|[]]]]; reflexivity|assumption].
Qed.
Lemma feed_exp k q st exp : (k <= length st)%nat -> In q [S0; S1; SDot0] ->
  (exp = [] \/ exists e sign ds, exp = e :: sign ++ ds /\ In e [x65; x45] /\ In sign [[]; [x2b]; [x2d]] /\ some_digits ds) ->
  exists q', done q' = true /\ feed k (Scan q st) exp = Some (Scan q' st).
Proof.
  intros L Q [->|(e & sign & ds & -> & He & Hs & (Hn & Hd))].
  { exists q. split; [destruct Q as [<-|[<-|[<-|[]]]]; reflexivity|reflexivity]. }
  exists SE0. split; [reflexivity|]. destruct ds as [|d ds]; [contradiction|]. inversion Hd as [|? ? Hd1 Hd2]; subst. apply digit_ok in Hd1.
  assert (E1 : feed k (Scan q st) (e :: sign ++ d :: ds) = feed k (Scan SE st) (sign ++ d :: ds)).
  { assert (E : json_scan (Scan q st) e = (Scan SE st, OContinue)) by (destruct He as [<-|[<-|[]]]; destruct Q as [<-|[<-|[<-|[]]]]; reflexivity).
    eapply feed_cons; [exact E|reflexivity|reflexivity|assumption]. }
  rewrite E1. clear E1. destruct (digit_not Hd1) as (_ & _ & _ & _ & N1 & N2).
  assert (F : forall q1, q1 = SE \/ q1 = SESign -> feed k (Scan q1 st) (d :: ds) = Some (Scan SE0 st)).
  { intros q1 Q1. assert (E : json_scan (Scan q1 st) d = (Scan SE0 st, OContinue)).
    { destruct Q1 as [-> | ->]; unfold json_scan, state_esign; cbn [sc_step sc_stack]; rewrite ?N1, ?N2, Hd1; reflexivity. }
    erewrite feed_cons; [|exact E|reflexivity|reflexivity|assumption]. apply feed_digits; [assumption|cbn; auto|assumption]. }
  destruct Hs as [<-|[<-|[<-|[]]]]; cbn [app]; [apply F; auto| |];
    (erewrite feed_cons; [apply F; auto|reflexivity|reflexivity|reflexivity|assumption]).
Qed.
Lemma feed_frac k q st frac exp : (k <= length st)%nat -> In q [S0; S1] ->
  (frac = [] \/ exists ds, frac = x2e :: ds /\ some_digits ds) ->
  (exp = [] \/ exists e sign ds, exp = e :: sign ++ ds /\ In e [x65; x45] /\ In sign [[]; [x2b]; [x2d]] /\ some_digits ds) ->
  exists q', done q' = true /\ feed k (Scan q st) (frac ++ exp) = Some (Scan q' st).
Proof.
  intros L Q HF HE. destruct HF as [->|(ds & -> & (Hn & Hd))].
  { apply feed_exp; [assumption|destruct Q as [<-|[<-|[]]]; cbn; auto|assumption]. }
  destruct ds as [|d ds]; [contradiction|]. inversion Hd as [|? ? Hd1 Hd2]; subst. apply digit_ok in Hd1.
  destruct (@feed_exp k SDot0 st exp) as (q' & D & E); [assumption|cbn; auto|assumption|]. exists q'. split; [assumption|].
  assert (E1 : json_scan (Scan q st) x2e = (Scan SDot st, OContinue)) by (destruct Q as [<-|[<-|[]]]; reflexivity).
  assert (E2 : json_scan (Scan SDot st) d = (Scan SDot0 st, OContinue)) by (unfold json_scan; cbn [sc_step sc_stack]; rewrite Hd1; reflexivity).
  cbn [app]. erewrite feed_cons; [|exact E1|reflexivity|reflexivity|assumption].
  erewrite feed_cons; [|exact E2|reflexivity|reflexivity|assumption].
  erewrite feed_app_eq; [exact E|]. apply feed_digits; [assumption|cbn; auto|assumption].
Qed.
Lemma feed_number k st t : (k <= length st)%nat -> number_text t -> exists q, done q = true /\ feed k (Scan SBeginValue st) t = Some (Scan q st).
Proof.
  intros L (minus & int & frac & exp & -> & HM & HI & HF & HE).
  assert (G : forall q0, q0 = SBeginValue \/ q0 = SNeg -> exists q, done q = true /\ feed k (Scan q0 st) (int ++ frac ++ exp) = Some (Scan q st)).
  { intros q0 Q0. destruct HI as [->|(d & ds & -> & Hd & Hz & Hds)].
    - destruct (@feed_frac k S0 st frac exp) as (q & D & E); [assumption|cbn; auto|assumption|assumption|]. exists q. split; [assumption|].
      assert (E1 : exists o, json_scan (Scan q0 st) x30 = (Scan S0 st, o) /\ quiet o = true) by (destruct Q0 as [-> | ->]; eexists; split; reflexivity).
      destruct E1 as (o & E1 & Q1). cbn [app]. erewrite feed_cons; [exact E|exact E1|exact Q1|reflexivity|assumption].
    - destruct (@feed_frac k S1 st frac exp) as (q & D & E); [assumption|cbn; auto|assumption|assumption|]. exists q. split; [assumption|].
      cbn [app]. pose proof (digit19_ok Hd Hz) as H19.
      assert (E1 : exists o, json_scan (Scan q0 st) d = (Scan S1 st, o) /\ quiet o = true).
      { destruct Q0 as [-> | ->]; unfold json_scan; cbn [sc_step sc_stack]; [rewrite (digit19_begin _ _ H19)|rewrite (eqb_no Hz), H19]; eexists; split; reflexivity. }
      destruct E1 as (o & E1 & Q1). erewrite feed_cons; [|exact E1|exact Q1|reflexivity|assumption].
      rewrite feed_app, feed_digits; [exact E|assumption|cbn; auto|assumption]. }
  destruct HM as [-> | ->]; [apply G; auto|]. destruct (G SNeg) as (q & D & E); [auto|]. exists q. split; [assumption|].
  cbn [app]. erewrite feed_cons; [exact E|reflexivity|reflexivity|reflexivity|assumption].
Qed.

(** ** Values *)
Scheme reads_mut := Minimality for reads Sort Prop
  with elements_mut := Minimality for elements Sort Prop
  with members_mut := Minimality for members Sort Prop
  with member_mut := Minimality for member Sort Prop.
Combined Scheme grammar_ind from reads_mut, elements_mut, members_mut, member_mut.

Lemma number_first t : number_text t -> exists c t', t = c :: t' /\ (c = x2d \/ is_digit c).
Proof.
  intros (minus & int & frac & exp & -> & HM & HI & _ & _). destruct HM as [-> | ->].
  - destruct HI as [->|(d & ds & -> & Hd & _)]; cbn [app]; eexists; eexists; (split; [reflexivity|]); right; [cbv; split; discriminate|assumption].
  - cbn [app]. eexists; eexists; split; [reflexivity|auto].
Qed.
Lemma reads_first t v : reads t v -> exists c t', t = c :: t' /\ json_space c = false /\ c <> x5d /\ c <> x7d.
Proof.
  intros [| | |t' H|s v' H|w H|t' l H|w H|t' l H];
    try (eexists; eexists; split; [reflexivity|]; split; [reflexivity|]; split; discriminate).
  destruct (number_first H) as (c & t0 & -> & [->|D]); exists c || exists x2d; exists t0; (split; [reflexivity|]).
  - split; [reflexivity|]. split; discriminate.
  - apply digit_ok in D. split; [exact (proj1 (digit_not D))|]. split; intros ->; discriminate D.
Qed.
Lemma end_value_space st c : st <> [] -> json_space c = true -> end_value st c = (Scan SEndValue st, OSkipSpace).
Proof. intros N S. destruct st; [congruence|]. unfold end_value. rewrite S. reflexivity. Qed.
Lemma space_not_number c : json_space c = true -> number_byte c = false.
Proof. intros H. destruct (space_cases H) as [->|[->|[->| ->]]]; reflexivity. Qed.
Lemma feed_trail k q st w : (k <= length st)%nat -> st <> [] -> done q = true -> blank w -> exists q', done q' = true /\ feed k (Scan q st) w = Some (Scan q' st).
Proof.
  intros L N D B. destruct B as [|c w Hc B]; [exists q; auto|]. exists SEndValue. split; [reflexivity|]. apply blank_space in Hc.
  erewrite feed_cons; [|rewrite (scan_done _ D (space_not_number Hc)); apply end_value_space; assumption|reflexivity|reflexivity|assumption].
  apply feed_blank; auto.
Qed.
Lemma feed_or_empty k st w c t : (k <= length st)%nat -> blank w -> json_space c = false -> c <> x5d ->
  feed k (Scan SBeginValueOrEmpty st) (w ++ c :: t) = feed k (Scan SBeginValue st) (w ++ c :: t).
Proof.
  intros L B S N. rewrite !feed_app, (@feed_blank k SBeginValueOrEmpty), (@feed_blank k SBeginValue) by (auto; right; discriminate).
  cbn [feed]. assert (E : json_scan (Scan SBeginValueOrEmpty st) c = json_scan (Scan SBeginValue st) c).
  { unfold json_scan. cbn [sc_step sc_stack]. rewrite S, (eqb_no N). reflexivity. }
  rewrite E. reflexivity.
Qed.
Lemma feed_string_or_empty k st w c t : (k <= length st)%nat -> blank w -> json_space c = false -> c <> x7d ->
  feed k (Scan SBeginStringOrEmpty st) (w ++ c :: t) = feed k (Scan SBeginString st) (w ++ c :: t).
Proof.
  intros L B S N. rewrite !feed_app, (@feed_blank k SBeginStringOrEmpty), (@feed_blank k SBeginString) by (auto; right; discriminate).
  cbn [feed]. assert (E : json_scan (Scan SBeginStringOrEmpty st) c = json_scan (Scan SBeginString st) c).
  { unfold json_scan. cbn [sc_step sc_stack]. rewrite S, (eqb_no N). reflexivity. }
  rewrite E. reflexivity.
Qed.
Lemma elements_first t l : elements t l -> exists w c t', t = w ++ c :: t' /\ blank w /\ json_space c = false /\ c <> x5d.
Proof.
  intros [w1 t0 w2 v B R _|w1 t0 w2 v s l' B R _ _]; destruct (reads_first R) as (c & t1 & -> & S & N & _);
    exists w1, c; eexists; (split; [cbn [app]; reflexivity|auto]).
Qed.
Lemma members_first t l : members t l -> exists w t', t = w ++ x22 :: t' /\ blank w.
Proof.
  intros [m kv [w1 k w2 w3 t0 w4 kt v B _ _ _ _ _]|m kv s l' [w1 k w2 w3 t0 w4 kt v B _ _ _ _ _] _]; exists w1; eexists; (split; [|exact B]).
  - reflexivity.
  - rewrite <- app_assoc. cbn [app]. reflexivity.
Qed.

Definition value_fed (t : bytes) (v : tree) : Prop := forall k st, st <> [] -> (k <= length st)%nat -> N.of_nat (length st + nesting v) <= 10000 ->
  exists q, done q = true /\ feed k (Scan SBeginValue st) t = Some (Scan q st).
Definition elements_fed (t : bytes) (l : list tree) : Prop := forall k st, (k <= S (length st))%nat -> N.of_nat (length st + nesting (TArr l)) <= 10000 ->
  exists q, done q = true /\ feed k (Scan SBeginValue (PArray :: st)) t = Some (Scan q (PArray :: st)).
Definition members_fed (t : bytes) (l : list (bytes * tree)) : Prop := forall k st, (k <= S (length st))%nat -> N.of_nat (length st + nesting (TObj l)) <= 10000 ->
  exists q, done q = true /\ feed k (Scan SBeginString (PKey :: st)) t = Some (Scan q (PValue :: st)).
Definition member_fed (t : bytes) (kv : bytes * tree) : Prop := forall k st, (k <= S (length st))%nat -> N.of_nat (length st + nesting (TObj [kv])) <= 10000 ->
  exists q, done q = true /\ feed k (Scan SBeginString (PKey :: st)) t = Some (Scan q (PValue :: st)).

(** What is between the brackets; the closing bracket then ends the value. *)
Definition array_inside (t : bytes) (l : list tree) : Prop := (blank t /\ l = []) \/ elements t l.
Definition object_inside (t : bytes) (l : list (bytes * tree)) : Prop := (blank t /\ l = []) \/ members t l.
Lemma end_array st : end_value (PArray :: st) x5d = (jpop st, OEndArray).
Proof. reflexivity. Qed.
Lemma end_object st : end_value (PValue :: st) x7d = (jpop st, OEndObject).
Proof. reflexivity. Qed.
Lemma feed_array k st t l : (elements t l -> elements_fed t l) -> array_inside t l -> (k <= S (length st))%nat -> N.of_nat (length st + nesting (TArr l)) <= 10000 ->
  exists q, feed k (Scan SBeginValueOrEmpty (PArray :: st)) t = Some (Scan q (PArray :: st)) /\
    json_scan (Scan q (PArray :: st)) x5d = (jpop st, OEndArray).
Proof.
  intros IH [(B & ->)|H] L D.
  - exists SBeginValueOrEmpty. split; [apply feed_blank; auto; right; discriminate|reflexivity].
  - destruct (IH H k st L D) as (q & Dq & E). exists q. destruct (elements_first H) as (w & c & t' & Et & B & S & N).
    split; [rewrite <- E, Et; apply feed_or_empty; auto|]. rewrite (scan_done _ Dq) by reflexivity. apply end_array.
Qed.
Lemma feed_object k st t l : (members t l -> members_fed t l) -> object_inside t l -> (k <= S (length st))%nat -> N.of_nat (length st + nesting (TObj l)) <= 10000 ->
  exists q p, feed k (Scan SBeginStringOrEmpty (PKey :: st)) t = Some (Scan q (p :: st)) /\
    json_scan (Scan q (p :: st)) x7d = (jpop st, OEndObject).
Proof.
  intros IH [(B & ->)|H] L D.
  - exists SBeginStringOrEmpty, PKey. split; [apply feed_blank; auto; right; discriminate|reflexivity].
  - destruct (IH H k st L D) as (q & Dq & E). exists q, PValue. destruct (members_first H) as (w & t' & Et & B).
    split; [rewrite <- E, Et; apply feed_string_or_empty; auto; discriminate|]. rewrite (scan_done _ Dq) by reflexivity. apply end_object.
Qed.
Lemma push_ok st c q p o : N.of_nat (S (length st)) <= 10000 -> jpush st c q p o = (Scan q (p :: st), o).
Proof. intros H. unfold jpush. cbn [length]. replace (N.of_nat (S (length st)) <=? 10000) with true by lia. reflexivity. Qed.
Lemma jpop_in st : st <> [] -> jpop st = Scan SEndValue st.
Proof. intros N. destruct st; [congruence|reflexivity]. Qed.
Lemma feed_word k st q0 o (c : byte) (w word : bytes) : (k <= length st)%nat -> quiet o = true -> w <> [] ->
  json_scan (Scan q0 st) c = (Scan (STr w word) st, o) -> feed k (Scan q0 st) (c :: w) = Some (Scan SEndValue st).
Proof.
  intros L Q N E. erewrite feed_cons; [|exact E|exact Q|reflexivity|assumption]. clear E Q.
  induction w as [|a w IH]; [congruence|]. assert (E : json_scan (Scan (STr (a :: w) word) st) a =
    (Scan (match w with [] => SEndValue | _ => STr w word end) st, OContinue)) by (unfold json_scan; cbn [sc_step sc_stack]; rewrite eqb_same; reflexivity).
  erewrite feed_cons; [|exact E|reflexivity|destruct w; reflexivity|assumption]. destruct w as [|b w]; [reflexivity|]. apply IH. discriminate.
Qed.
Lemma nesting_arr v l : (nesting v < nesting (TArr (v :: l)))%nat /\ (nesting (TArr l) <= nesting (TArr (v :: l)))%nat.
Proof. cbn. lia. Qed.
Lemma nesting_obj kv l : (nesting (snd kv) < nesting (TObj (kv :: l)))%nat /\ (nesting (TObj l) <= nesting (TObj (kv :: l)))%nat /\ (nesting (TObj [kv]) <= nesting (TObj (kv :: l)))%nat.
Proof. cbn. lia. Qed.
Lemma nesting_pos_arr l : (1 <= nesting (TArr l))%nat.
Proof. cbn. lia. Qed.
Lemma nesting_pos_obj l : (1 <= nesting (TObj l))%nat.
Proof. cbn. lia. Qed.
Lemma open_array st : N.of_nat (S (length st)) <= 10000 -> json_scan (Scan SBeginValue st) x5b = (Scan SBeginValueOrEmpty (PArray :: st), OBeginArray).
Proof. intros H. unfold json_scan. cbn [sc_step sc_stack]. unfold begin_value. apply push_ok. assumption. Qed.
Lemma open_object st : N.of_nat (S (length st)) <= 10000 -> json_scan (Scan SBeginValue st) x7b = (Scan SBeginStringOrEmpty (PKey :: st), OBeginObject).
Proof. intros H. unfold json_scan. cbn [sc_step sc_stack]. unfold begin_value. apply push_ok. assumption. Qed.
Lemma value_array t l : (elements t l -> elements_fed t l) -> array_inside t l -> value_fed (x5b :: t ++ [x5d]) (TArr l).
Proof.
  intros IH H k st N L D. exists SEndValue. split; [reflexivity|]. pose proof (nesting_pos_arr l).
  erewrite feed_cons; [|apply open_array; lia|reflexivity|reflexivity|cbn [sc_stack length]; lia].
  destruct (@feed_array k st t l IH H) as (q & E1 & E2); [lia|assumption|].
  erewrite feed_app_eq; [|exact E1]. rewrite jpop_in in E2 by assumption.
  erewrite feed_cons; [reflexivity|exact E2|reflexivity|reflexivity|assumption].
Qed.
Lemma value_object t l : (members t l -> members_fed t l) -> object_inside t l -> value_fed (x7b :: t ++ [x7d]) (TObj l).
Proof.
  intros IH H k st N L D. exists SEndValue. split; [reflexivity|]. pose proof (nesting_pos_obj l).
  erewrite feed_cons; [|apply open_object; lia|reflexivity|reflexivity|cbn [sc_stack length]; lia].
  destruct (@feed_object k st t l IH H) as (q & p & E1 & E2); [lia|assumption|].
  erewrite feed_app_eq; [|exact E1]. rewrite jpop_in in E2 by assumption.
  erewrite feed_cons; [reflexivity|exact E2|reflexivity|reflexivity|assumption].
Qed.
Ltac eat_blank B := erewrite feed_app_eq; [|apply feed_blank; [reflexivity|left; discriminate|eassumption|exact B]].
Theorem grammar_fed : (forall t v, reads t v -> value_fed t v) /\ (forall t l, elements t l -> elements_fed t l) /\
  (forall t l, members t l -> members_fed t l) /\ (forall t kv, member t kv -> member_fed t kv).
Proof.
  apply grammar_ind.
  - intros k st N L D. exists SEndValue. split; [reflexivity|]. eapply feed_word; [assumption| |discriminate|reflexivity]. reflexivity.
  - intros k st N L D. exists SEndValue. split; [reflexivity|]. eapply feed_word; [assumption| |discriminate|reflexivity]. reflexivity.
  - intros k st N L D. exists SEndValue. split; [reflexivity|]. eapply feed_word; [assumption| |discriminate|reflexivity]. reflexivity.
  - intros t H k st N L D. apply feed_number; assumption.
  - intros s v H k st N L D. exists SEndValue. split; [reflexivity|].
    erewrite feed_cons; [|reflexivity|reflexivity|reflexivity|assumption]. eapply feed_quoted; eassumption.
  - intros w B. apply value_array; [intros H; apply elements_first in H as (w' & c & t' & -> & _ & S & _)|left; auto].
    exfalso. apply Forall_app in B. destruct B as (_ & B). inversion B as [|? ? Hc _]; subst. apply blank_space in Hc. congruence.
  - intros t l H IH. apply value_array; [auto|right; assumption].
  - intros w B. apply value_object; [intros H; apply members_first in H as (w' & t' & -> & _)|left; auto].
    exfalso. apply Forall_app in B. destruct B as (_ & B). inversion B as [|? ? Hc _]; subst. apply blank_space in Hc. discriminate.
  - intros t l H IH. apply value_object; [auto|right; assumption].
  - intros w1 t w2 v B1 _ IH B2 k st L D. destruct (nesting_arr v []) as (D1 & _).
    destruct (IH k (PArray :: st)) as (q & Dq & E); [discriminate|cbn [length]; lia|cbn [length]; lia|].
    eat_blank B1.
    erewrite feed_app_eq; [|exact E]. apply feed_trail; [assumption|discriminate|assumption|assumption].
  - intros w1 t w2 v s l B1 _ IH B2 _ IHl k st L D. destruct (nesting_arr v l) as (D1 & D2).
    destruct (IH k (PArray :: st)) as (q & Dq & E); [discriminate|cbn [length]; lia|cbn [length]; lia|].
    eat_blank B1.
    erewrite feed_app_eq; [|exact E]. destruct (@feed_trail k q (PArray :: st) w2) as (q2 & Dq2 & E2); [assumption|discriminate|assumption|assumption|].
    erewrite feed_app_eq; [|exact E2]. destruct (IHl k st L) as (q3 & Dq3 & E3); [lia|]. exists q3. split; [assumption|].
    erewrite feed_cons; [exact E3|rewrite (scan_done _ Dq2) by reflexivity; reflexivity|reflexivity|reflexivity|assumption].
  - intros m kv _ IH. exact IH.
  - intros m kv s l _ IH _ IHl k st L D. destruct (nesting_obj kv l) as (_ & D2 & D3).
    destruct (IH k st L) as (q & Dq & E); [lia|]. erewrite feed_app_eq; [|exact E].
    destruct (IHl k st L) as (q3 & Dq3 & E3); [lia|]. exists q3. split; [assumption|].
    erewrite feed_cons; [exact E3|rewrite (scan_done _ Dq) by reflexivity; reflexivity|reflexivity|reflexivity|assumption].
  - intros w1 ke w2 w3 t w4 kt v B1 Hk B2 B3 _ IH B4 k st L D. destruct (nesting_obj (kt, v) []) as (D1 & _). cbn [snd] in D1.
    eat_blank B1.
    erewrite feed_cons; [|reflexivity|reflexivity|reflexivity|assumption].
    replace (ke ++ x22 :: w2 ++ x3a :: w3 ++ t ++ w4) with ((ke ++ [x22]) ++ w2 ++ x3a :: w3 ++ t ++ w4) by (rewrite <- app_assoc; reflexivity).
    erewrite feed_app_eq; [|eapply feed_quoted; eassumption].
    eat_blank B2.
    erewrite feed_cons; [|reflexivity|reflexivity|reflexivity|assumption].
    eat_blank B3.
    destruct (IH k (PValue :: st)) as (q & Dq & E); [discriminate|cbn [length]; lia|cbn [length]; lia|].
    erewrite feed_app_eq; [|exact E]. apply feed_trail; [assumption|discriminate|assumption|assumption].
Qed.
