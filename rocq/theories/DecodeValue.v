(** What the second pass of the decoder of [Decode] makes of a value. *)
From Verif Require Import Utf8Facts JsonFacts.
From Verif Require Export DecodeRuns.
From Coq Require Import ZifyBool ZifyNat ZifyN.
Set Implicit Arguments. Unset Strict Implicit.
Open Scope N_scope.

(** ** Strings *)
Lemma rescan_plain l x : Forall (fun c => c <> x22 /\ c <> x5c) l -> rescan_string (l ++ x) = let (a, b) := rescan_string x in (l ++ a, b).
Proof.
  induction 1 as [|c l (N1 & N2) _ IH]; cbn [app rescan_string]; [destruct (rescan_string x); reflexivity|].
  rewrite (eqb_no N2), (eqb_no N1), IH. destruct (rescan_string x). reflexivity.
Qed.
Lemma rescan_esc e s : rescan_string (x5c :: e :: s) = let (l, r) := rescan_string s in (x5c :: e :: l, r).
Proof. reflexivity. Qed.
Lemma hex_plain h v : hex_value h = Some v -> h <> x22 /\ h <> x5c.
Proof. destruct h; intros H; try discriminate H; split; discriminate. Qed.
Lemma hex4_plain a b c d v : hex4 a b c d = Some v -> Forall (fun c => c <> x22 /\ c <> x5c) [a; b; c; d].
Proof.
  unfold hex4. destruct (hex_value a) eqn:Ea; [|discriminate]. destruct (hex_value b) eqn:Eb; [|discriminate].
  destruct (hex_value c) eqn:Ec; [|discriminate]. destruct (hex_value d) eqn:Ed; [|discriminate]. intros _.
  repeat constructor; eapply hex_plain; eassumption.
Qed.
Lemma rescan_u s c tail x : u_escape s c tail -> exists h, s = h ++ tail /\ rescan_string (s ++ x) = let (a, b) := rescan_string (tail ++ x) in (h ++ a, b).
Proof.
  intros (h1 & h2 & h3 & h4 & -> & H). exists [x5c; x75; h1; h2; h3; h4]. split; [reflexivity|].
  pose proof (rescan_plain (tail ++ x) (hex4_plain H)) as R. cbn [app] in R. cbn [app]. rewrite rescan_esc, R.
  destruct (rescan_string (tail ++ x)). reflexivity.
Qed.
Lemma rescan_str s v r : str_text s v -> rescan_string (s ++ x22 :: r) = (s ++ [x22], r).
Proof.
  induction 1 as [|b raw tail rr v E L N1 N2 H IH|e c tail v E H IH|s c tail v U _ _ H IH|s c s2 c2 tail v U _ U2 _ H IH|s c tail v U _ H IH].
  - reflexivity.
  - rewrite <- app_assoc, rescan_plain.
    + rewrite IH. rewrite <- app_assoc. reflexivity.
    + constructor; [auto|]. eapply Forall_impl; [|exact (rune_bytes E)]. intros c Hc. apply high_byte. exact Hc.
  - cbn [app]. rewrite rescan_esc, IH. reflexivity.
  - destruct (rescan_u (x22 :: r) U) as (h & -> & ->). rewrite IH, <- app_assoc. reflexivity.
  - destruct (rescan_u (x22 :: r) U) as (h & -> & ->). destruct (rescan_u (x22 :: r) U2) as (h2 & -> & ->). rewrite IH, <- !app_assoc. reflexivity.
  - destruct (rescan_u (x22 :: r) U) as (h & -> & ->). rewrite IH, <- app_assoc. reflexivity.
Qed.
Lemma ascii_rune b s : b2n b < 128 -> decode_rune (b :: s) = (b2n b, 1%nat).
Proof. apply decode_ascii. Qed.
Lemma unquote_ok s v : str_text s v -> forall fuel, (length s < fuel)%nat -> unquote_loop fuel s = Some v.
Proof.
  induction 1 as [|b raw tail rr v E L N1 N2 H IH|e c tail v E H IH|s c tail v U N1 N2 H IH|s c s2 c2 tail v U Hh U2 Hl H IH|s c tail v U D H IH];
    intros [|f] F; try lia.
  - reflexivity.
  - cbn [app]. cbn [unquote_loop]. rewrite (eqb_no N2), (eqb_no N1).
    replace (b2n b <? 32) with false by lia. cbn [orb]. rewrite app_length in F. cbn [length] in F.
    destruct (b2n b <? 128) eqn:Lb.
    + pose proof E as E'. cbn [app] in E'. rewrite ascii_rune in E' by lia. injection E' as <- Er. destruct raw; [|discriminate Er].
      cbn [app]. rewrite IH by lia. unfold put. rewrite encode_ascii by lia. cbn [app]. rewrite n2b_b2n. reflexivity.
    + change (b :: raw ++ tail) with ((b :: raw) ++ tail). rewrite E. rewrite skipn_app, skipn_all, Nat.sub_diag. cbn [app skipn].
      rewrite IH by lia. reflexivity.
  - cbn [unquote_loop]. rewrite eqb_same. cbn [length] in F. rewrite IH by lia.
    apply short_escape_cases in E. repeat (destruct E as [(-> & ->)|E]; [reflexivity|]). destruct E as (-> & ->). reflexivity.
  - pose proof (proj2 (get_u4_spec s c) (ex_intro _ tail U)) as G. destruct (u_escape_skip U) as (Sk & Ln).
    destruct U as (h1 & h2 & h3 & h4 & Es & Hx). subst s. cbn [unquote_loop]. rewrite eqb_same. cbn [existsb]. unfold high_surrogate, low_surrogate in *.
    cbn [Byte.eqb]. rewrite G. cbn zeta. rewrite Sk. replace ((55296 <=? c) && (c <? 57344)) with false by lia. rewrite IH by lia. reflexivity.
  - pose proof (proj2 (get_u4_spec s c) (ex_intro _ s2 U)) as G. destruct (u_escape_skip U) as (Sk & Ln).
    pose proof (proj2 (get_u4_spec s2 c2) (ex_intro _ tail U2)) as G2. destruct (u_escape_skip U2) as (Sk2 & Ln2).
    destruct U as (h1 & h2 & h3 & h4 & Es & Hx). rewrite Es. cbn [unquote_loop]. rewrite <- Es. rewrite eqb_same. unfold high_surrogate, low_surrogate in *.
    cbn [existsb Byte.eqb]. rewrite G. cbn zeta. rewrite Sk, G2. replace ((55296 <=? c) && (c <? 57344)) with true by lia.
    unfold utf16_pair. replace ((55296 <=? c) && (c <? 56320) && (56320 <=? c2) && (c2 <? 57344)) with true by lia. rewrite Sk2, IH by lia.
    unfold put. replace ((c - 55296) * 1024 + (c2 - 56320) + 65536) with (65536 + (c - 55296) * 1024 + (c2 - 56320)) by lia. reflexivity.
  - pose proof (proj2 (get_u4_spec s c) (ex_intro _ tail U)) as G. destruct (u_escape_skip U) as (Sk & Ln).
    destruct U as (h1 & h2 & h3 & h4 & Es & Hx). subst s. cbn [unquote_loop]. rewrite eqb_same. unfold high_surrogate, low_surrogate in *.
    cbn [existsb Byte.eqb]. rewrite G. cbn zeta. rewrite Sk. replace ((55296 <=? c) && (c <? 57344)) with true by lia.
    replace (match get_u4 tail with Some rr1 => utf16_pair c rr1 | None => None end) with (@None N); [rewrite IH by lia; reflexivity|].
    destruct (get_u4 tail) as [c2|] eqn:G2; [|reflexivity]. apply get_u4_spec in G2. destruct G2 as (tail2 & U2). unfold utf16_pair.
    destruct D as [D|(D & D2)]; [|specialize (D2 _ _ U2)]; match goal with |- _ = if ?b then _ else _ => destruct b eqn:Q end; try reflexivity; exfalso; lia.
Qed.
Lemma unquote_item s v : str_text s v -> unquote_bytes (x22 :: s ++ [x22]) = Some v.
Proof.
  intros H. unfold unquote_bytes. rewrite rev_app_distr. cbn [rev app]. rewrite rev_involutive. apply (unquote_ok H). rewrite app_length. cbn. lia.
Qed.

(** ** Numbers *)
Lemma number_bytes t : number_text t -> Forall (fun c => number_byte c = true) t.
Proof.
  assert (D : forall ds, Forall is_digit ds -> Forall (fun c => number_byte c = true) ds).
  { intros ds. apply Forall_impl. intros c Hc. unfold number_byte. rewrite (proj1 (digit_ok c) Hc). reflexivity. }
  intros (minus & int & frac & exp & -> & Hm & Hi & Hf & He). repeat (apply Forall_app; split).
  - destruct Hm as [-> | ->]; repeat constructor.
  - destruct Hi as [->|(d & ds & -> & Hd & _ & Hds)]; [repeat constructor|apply (D (d :: ds)); constructor; assumption].
  - destruct Hf as [->|(ds & -> & _ & Hds)]; [constructor|constructor; [reflexivity|apply D; assumption]].
  - destruct He as [->|(e & sign & ds & -> & Ie & Is & _ & Hds)]; [constructor|]. constructor; [destruct Ie as [<- |[<- |[]]]; reflexivity|].
    apply Forall_app. split; [|apply D; assumption]. destruct Is as [<- |[<- |[<- |[]]]]; repeat constructor.
Qed.
(** What follows a number does not lengthen it. *)
Definition ends_number (x : bytes) : Prop := forall c r, x = c :: r -> number_byte c = false.
Lemma rescan_num t x : Forall (fun c => number_byte c = true) t -> ends_number x -> rescan_number (t ++ x) = (t, x).
Proof.
  intros H Hx. induction H as [|c t Hc _ IH]; cbn [app].
  - destruct x as [|c r]; [reflexivity|]. cbn [rescan_number]. rewrite (Hx c r eq_refl). reflexivity.
  - cbn [rescan_number]. rewrite Hc, IH. reflexivity.
Qed.

(** ** Literals *)
Definition literal (v : tree) : Prop := match v with TArr _ | TObj _ => False | _ => True end.
Definition store (t : target) (v : tree) (p : progress) : progress :=
  match v with
  | TNull => p
  | TBool _ => save_error (type_error "bool" t) p
  | TNum => save_error (type_error "number" t) p
  | TStr s =>
    match t with
    | TgStruct => save_error (type_error "string" t) p
    | TgInput => Progress (Request s (rq_mode (pg_req p))) (pg_err p)
    | TgMode => Progress (Request (rq_input (pg_req p)) s) (pg_err p)
    end
  | TArr _ => save_error (type_error "array" t) p
  | TObj _ => save_error (type_error "object" t) p
  end.
Lemma literal_runs st t v : reads t v -> literal v -> exists c t' q, t = c :: t' /\
  json_scan (Scan SBeginValue st) c = (Scan q st, OBeginLiteral) /\
  (forall x, ends_number x -> rescan_rest c (t' ++ x) = (t', x)) /\
  (forall tg p, literal_store t tg p = Ok (store tg v p)).
Proof.
  intros [| | |t' H|s v' H|w H|t' l H|w H|t' l H] L; try destruct L.
  - exists x6e, (s2b "ull"), (STr (s2b "ull") (s2b "null")). repeat split.
  - exists x74, (s2b "rue"), (STr (s2b "rue") (s2b "true")). repeat split.
  - exists x66, (s2b "alse"), (STr (s2b "alse") (s2b "false")). repeat split.
  - destruct (number_first H) as (c & r & -> & Hc). exists c, r.
    assert (P : exists q, json_scan (Scan SBeginValue st) c = (Scan q st, OBeginLiteral)).
    { destruct Hc as [->|Hd]; [eexists; reflexivity|]. apply digit_ok in Hd; destruct c; try discriminate Hd; eexists; reflexivity. }
    destruct P as (q & P). exists q. split; [reflexivity|]. split; [exact P|]. pose proof (number_bytes H) as B. inversion B as [|c' r' B1 B2 E1]. subst.
    assert (G : Byte.eqb c x22 = false /\ Byte.eqb c x2d || json_digit c = true /\ Byte.eqb c x6e = false /\ Byte.eqb c x74 || Byte.eqb c x66 = false).
    { destruct Hc as [->|Hd]; [repeat split|]. apply digit_ok in Hd; destruct c; try discriminate Hd; repeat split. }
    destruct G as (G1 & G2 & G3 & G4). split.
    + intros x Hx. unfold rescan_rest. rewrite G1, G2. apply rescan_num; assumption.
    + intros tg p. unfold literal_store. rewrite G3, G4, G1, G2. reflexivity.
  - exists x22, (s ++ [x22]), SInString. split; [reflexivity|]. split; [reflexivity|]. split.
    + intros x _. unfold rescan_rest. rewrite eqb_same, <- app_assoc. cbn [app]. eapply rescan_str. eassumption.
    + intros tg p. unfold literal_store. cbn [Byte.eqb orb]. change (Byte.eqb x22 x6e) with false. change (Byte.eqb x22 x74) with false. change (Byte.eqb x22 x66) with false.
      rewrite eqb_same. cbn [orb]. rewrite (unquote_item H). destruct tg; reflexivity.
Qed.

(** ** White space *)
Lemma no_skip s c : json_space c = false -> snd (json_scan s c) <> OSkipSpace.
Proof.
  intros S. assert (V : forall st, snd (end_value st c) <> OSkipSpace).
  { intros [|p st]; unfold end_value, end_top, jfail; rewrite S; [discriminate|]. destruct p; break_ifs; discriminate. }
  destruct s as [q st]. unfold json_scan. cbn [sc_step sc_stack].
  destruct q; unfold begin_value, begin_string, state_0, state_esign, state_hex, jpush, jfail, end_top in *; try rewrite S; try apply V;
    break_ifs; try apply V; try discriminate.
  destruct rest; [apply V|]. destruct (Byte.eqb c b); discriminate.
Qed.
Lemma while_blank w : blank w -> forall cur q st c r, waits q = true -> (q = SEndValue -> st <> []) -> json_space c = false ->
  scan_while cur (Scan q st) (w ++ c :: r) = let (s, o) := json_scan (Scan q st) c in DState c r s o.
Proof.
  induction 1 as [|b w Hb _ IH]; intros cur q st c r W E S; cbn [app scan_while].
  - pose proof (@no_skip (Scan q st) c S) as N. destruct (json_scan (Scan q st) c) as [s o]. destruct o; try reflexivity. cbn in N. congruence.
  - assert (E1 : json_scan (Scan q st) b = (Scan q st, OSkipSpace)).
    { apply scan_space; [assumption|destruct q; (right; discriminate) || (left; apply E; reflexivity)|]. apply blank_space. assumption. }
    rewrite E1. apply IH; assumption.
Qed.
(** After a literal *)
Definition next (cur : byte) (q : jstep) (st : list jparse) (x : bytes) : dstate :=
  match x with
  | [] => DState cur [] (Scan q st) OEnd
  | c :: r => let (s, o) := end_value st c in DState c r s o
  end.
Lemma settle cur q p st w c r : blank w -> json_space c = false ->
  skip_spaces_if (next cur q (p :: st) (w ++ c :: r)) = let (s, o) := end_value (p :: st) c in DState c r s o.
Proof.
  intros B S. pose proof (@no_skip (Scan SEndValue (p :: st)) c S) as N. change (json_scan (Scan SEndValue (p :: st)) c) with (end_value (p :: st) c) in N.
  destruct w as [|b w]; cbn [app next].
  - destruct (end_value (p :: st) c) as [s o]. destruct o; try reflexivity. cbn in N. congruence.
  - inversion B as [|b' w' Hb Hw]. subst. cbn [end_value]. rewrite (proj1 (blank_space b) Hb). cbn [skip_spaces_if ds_op]. unfold skip_spaces. cbn [ds_cur ds_scan ds_rest].
    rewrite while_blank; [reflexivity|assumption|reflexivity|intros _ Q; discriminate Q|assumption].
Qed.

(** ** Values of fields *)
Lemma skip_fed t : forall k s s' x, feed k s t = Some s' -> skip_loop k s (t ++ x) = skip_loop k s' x.
Proof.
  induction t as [|c t IH]; intros k s s' x H; [injection H as <-; reflexivity|].
  cbn [feed] in H. cbn [app skip_loop]. destruct (json_scan s c) as [s1 o].
  assert (F : (k <= length (sc_stack s1))%nat /\ feed k s1 t = Some s').
  { destruct o; try discriminate H; destruct (sc_step s1); try discriminate H; destruct (k <=? length (sc_stack s1))%nat eqn:L; try discriminate H; split; (lia || exact H). }
  destruct F as (L & F). replace (length (sc_stack s1) <? k)%nat with false by lia. apply IH. assumption.
Qed.
Lemma skip_array st t l x : array_inside t l -> N.of_nat (length st + nesting (TArr l)) <= 10000 ->
  skip_loop (S (length st)) (Scan SBeginValueOrEmpty (PArray :: st)) (t ++ x5d :: x) = Ok (DState x5d x (jpop st) OEndArray).
Proof.
  intros H D. destruct (@feed_array (S (length st)) st t l (proj1 (proj2 grammar_fed) t l) H (le_n _) D) as (q & F & E).
  rewrite (skip_fed _ F). cbn [skip_loop]. rewrite E. assert (Z : sc_stack (jpop st) = st) by (destruct st; reflexivity). rewrite Z. replace (length st <? S (length st))%nat with true by lia. reflexivity.
Qed.
Lemma skip_object st t l x : object_inside t l -> N.of_nat (length st + nesting (TObj l)) <= 10000 ->
  skip_loop (S (length st)) (Scan SBeginStringOrEmpty (PKey :: st)) (t ++ x7d :: x) = Ok (DState x7d x (jpop st) OEndObject).
Proof.
  intros H D. destruct (@feed_object (S (length st)) st t l (proj1 (proj2 (proj2 grammar_fed)) t l) H (le_n _) D) as (q & p & F & E).
  rewrite (skip_fed _ F). cbn [skip_loop]. rewrite E. assert (Z : sc_stack (jpop st) = st) by (destruct st; reflexivity). rewrite Z. replace (length st <? S (length st))%nat with true by lia. reflexivity.
Qed.
Definition store_opt (t : option target) (v : tree) (p : progress) : progress := match t with Some t => store t v p | None => p end.
Definition container (v : tree) (t : bytes) : Prop :=
  (exists i l, v = TArr l /\ t = x5b :: i ++ [x5d] /\ array_inside i l) \/ (exists i l, v = TObj l /\ t = x7b :: i ++ [x7d] /\ object_inside i l).
Lemma value_kinds t v : reads t v -> (reads t v /\ literal v) \/ container v t.
Proof.
  intros H. destruct H as [| | |t' H|s v' H|w H|t' l H|w H|t' l H]; try (left; split; [constructor; assumption|exact I]); right; [left|left|right|right].
  - exists w, []. repeat split. left. auto.
  - exists t', l. repeat split. right. assumption.
  - exists w, []. repeat split. left. auto.
  - exists t', l. repeat split. right. assumption.
Qed.
Lemma value_first t v : reads t v -> exists c t', t = c :: t' /\ json_space c = false.
Proof.
  intros H. destruct (value_kinds H) as [(R & L)|[(i & l & _ & -> & _)|(i & l & _ & -> & _)]].
  - destruct (literal_runs [] R L) as (c & t' & q & -> & E & _ & _). exists c, t'. split; [reflexivity|].
    destruct (json_space c) eqn:S; [|reflexivity]. rewrite (@scan_space SBeginValue [] c) in E; [discriminate E|reflexivity|right; discriminate|assumption].
  - exists x5b, (i ++ [x5d]). split; reflexivity.
  - exists x7b, (i ++ [x7d]). split; reflexivity.
Qed.
(** The value of a member, up to the comma or the brace after it *)
Lemma field_run t v tg p w c r cur st : reads t v -> N.of_nat (S (length st) + nesting v) <= 10000 -> blank w -> json_space c = false -> number_byte c = false ->
  forall w0, blank w0 ->
  (let* (d, p) := field_value tg (scan_while cur (Scan SBeginValue (PValue :: st)) (w0 ++ t ++ w ++ c :: r)) p in Ok (skip_spaces_if d, p)) =
  Ok ((let (s, o) := end_value (PValue :: st) c in DState c r s o), store_opt tg v p).
Proof.
  intros R D B Sc Nc w0 B0.
  assert (En : ends_number (w ++ c :: r)).
  { intros c' r' E. destruct w as [|b w]; cbn [app] in E; injection E as <- _; [assumption|]. inversion B as [|b' w' Hb Hw]. apply space_not_number. apply blank_space. assumption. }
  destruct (value_kinds R) as [(_ & L)|[(i & l & -> & -> & Hi)|(i & l & -> & -> & Hi)]].
  - destruct (literal_runs (PValue :: st) R L) as (c1 & t' & q & -> & E & Rs & St). destruct (value_first R) as (c2 & t2 & E2 & S2). injection E2 as <- <-.
    cbn [app]. rewrite while_blank; [|assumption|reflexivity|discriminate|assumption]. rewrite E. unfold field_value. cbn [ds_op]. unfold rescan_literal. cbn [ds_cur ds_rest ds_scan].
    rewrite (Rs _ En). cbn [sc_stack]. 
    assert (Sl : skip_spaces_if (next c1 q (PValue :: st) (w ++ c :: r)) = let (s, o) := end_value (PValue :: st) c in DState c r s o) by (apply settle; assumption).
    unfold next in Sl. destruct tg as [tg|].
    + rewrite St. cbn [rbind]. rewrite Sl. reflexivity.
    + cbn [rbind]. rewrite Sl. reflexivity.
  - cbn [app]. rewrite while_blank; [|assumption|reflexivity|discriminate|reflexivity]. pose proof (nesting_pos_arr l). rewrite open_array by (cbn [length]; lia).
    unfold field_value. cbn [ds_op]. unfold skip_value. cbn [ds_scan sc_stack ds_rest]. rewrite <- app_assoc. cbn [app]. change (length (PArray :: PValue :: st)) with (S (length (PValue :: st))). change (length (PKey :: PValue :: st)) with (S (length (PValue :: st))).
    rewrite (@skip_array (PValue :: st) _ _ _ Hi) by (cbn [length]; lia). cbn [rbind].
    replace (skip_spaces_if (scan_next _)) with (skip_spaces_if (next x5d SEndValue (PValue :: st) (w ++ c :: r))) by (destruct w; reflexivity).
    rewrite settle by assumption. destruct tg; reflexivity.
  - cbn [app]. rewrite while_blank; [|assumption|reflexivity|discriminate|reflexivity]. pose proof (nesting_pos_obj l). rewrite open_object by (cbn [length]; lia).
    unfold field_value. cbn [ds_op]. unfold skip_value. cbn [ds_scan sc_stack ds_rest]. rewrite <- app_assoc. cbn [app]. change (length (PArray :: PValue :: st)) with (S (length (PValue :: st))). change (length (PKey :: PValue :: st)) with (S (length (PValue :: st))).
    rewrite (@skip_object (PValue :: st) _ _ _ Hi) by (cbn [length]; lia). cbn [rbind].
    replace (skip_spaces_if (scan_next _)) with (skip_spaces_if (next x7d SEndValue (PValue :: st) (w ++ c :: r))) by (destruct w; reflexivity).
    rewrite settle by assumption. destruct tg; reflexivity.
Qed.
