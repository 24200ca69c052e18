(** String methods: what they write can be read back. *)
From Verif Require Import Text SpecText Utf8Facts DotSyntax JsonFacts SpecCmd OptFacts CmdMain Check.
From Coq Require Import Lia ZifyBool ZifyNat ZifyN.
Open Scope N_scope.
Set Implicit Arguments.
Unset Strict Implicit.

Ltac Zify.zify_post_hook ::= Z.div_mod_to_equations.

Lemma hex2_ok n : n < 256 -> exists a b, hex2 n = [a; b] /\ hex_value a = Some (n / 16) /\ hex_value b = Some (n mod 16).
Proof.
  intros H. unfold hex2. eexists _, _. split; [reflexivity|]. rewrite (N.mod_small (n / 16) 16) by lia. split; apply hex_ok; lia.
Qed.
Lemma hex_number_2 n : n < 256 -> exists a b, hex2 n = [a; b] /\ hex_number 0 [a; b] = Some n.
Proof.
  intros H. destruct (hex2_ok H) as (a & b & E & Ha & Hb). exists a, b. split; [assumption|]. cbn [hex_number]. rewrite Ha, Hb. f_equal. lia.
Qed.
Lemma hex_number_4 n : n < 65536 -> exists a b c d, hex4_of n = [a; b; c; d] /\
  forall acc l, hex_number acc (a :: b :: c :: d :: l) = hex_number (acc * 65536 + n) l.
Proof.
  intros H. unfold hex4_of. rewrite (N.mod_small (n / 256) 256) by lia.
  destruct (@hex2_ok (n / 256)) as (a & b & -> & Ha & Hb); [lia|]. destruct (@hex2_ok (n mod 256)) as (c & d & -> & Hc & Hd); [lia|].
  exists a, b, c, d. split; [reflexivity|]. intros acc l. cbn [hex_number]. rewrite Ha, Hb, Hc, Hd. f_equal. lia.
Qed.
Lemma hex_number_8 n : n < 4294967296 -> exists a b c d e f g h, hex8_of n = [a; b; c; d; e; f; g; h] /\
  hex_number 0 [a; b; c; d; e; f; g; h] = Some n.
Proof.
  intros H. unfold hex8_of.
  destruct (@hex_number_4 (n / 65536)) as (a & b & c & d & -> & E1); [lia|]. destruct (@hex_number_4 (n mod 65536)) as (e & f & g & h & -> & E2); [lia|].
  exists a, b, c, d, e, f, g, h. split; [reflexivity|]. rewrite E1, E2. cbn [hex_number]. f_equal. lia.
Qed.

Lemma lit_copy b t : b <> x22 -> b <> x5c -> b <> x0a -> go_literal (b :: t) = prepend [b] (go_literal t).
Proof. intros H1 H2 H3. cbn [go_literal]. rewrite !byte_eqb_neq by assumption. reflexivity. Qed.
Lemma lit_copies raw t : Forall (fun b => 128 <= b2n b) raw -> go_literal (raw ++ t) = prepend raw (go_literal t).
Proof.
  induction 1 as [|b raw Hb _ IH]; cbn [app].
  - destruct (go_literal t) as [[v s]|]; reflexivity.
  - destruct (high_not Hb). rewrite lit_copy, IH, prepend_app; try assumption; [reflexivity|]. intros ->. vm_compute in Hb. apply Hb. reflexivity.
Qed.
Lemma lit_hex2 n t : n < 256 -> go_literal ((s2b "\x" ++ hex2 n) ++ t) = prepend [n2b n] (go_literal t).
Proof. intros H. destruct (hex_number_2 H) as (a & b & -> & E). change ((s2b "\x" ++ [a; b]) ++ t) with (x5c :: x78 :: a :: b :: t).
  cbn [go_literal]. change (Byte.eqb x5c x22) with false. change (Byte.eqb x5c x0a) with false. change (Byte.eqb x5c x5c) with true. change (Byte.eqb x78 x78) with true.
  cbv iota. rewrite E. reflexivity. Qed.
Lemma lit_hex4 n t : n < 65536 -> code_point n = true -> go_literal ((s2b "\u" ++ hex4_of n) ++ t) = prepend (encode_rune n) (go_literal t).
Proof. intros H Hc. destruct (hex_number_4 H) as (a & b & c & d & -> & E). change ((s2b "\u" ++ [a; b; c; d]) ++ t) with (x5c :: x75 :: a :: b :: c :: d :: t).
  cbn [go_literal]. change (Byte.eqb x5c x22) with false. change (Byte.eqb x5c x0a) with false. change (Byte.eqb x5c x5c) with true.
  change (Byte.eqb x75 x78) with false. change (Byte.eqb x75 x75) with true.
  cbv iota. rewrite E. cbn [hex_number]. change (0 * 65536 + n) with n. rewrite Hc. reflexivity. Qed.
Lemma lit_hex8 n t : n < 4294967296 -> code_point n = true -> go_literal ((s2b "\U" ++ hex8_of n) ++ t) = prepend (encode_rune n) (go_literal t).
Proof. intros H Hc. destruct (hex_number_8 H) as (a & b & c & d & e & f & g & h & -> & E).
  change ((s2b "\U" ++ [a; b; c; d; e; f; g; h]) ++ t) with (x5c :: x55 :: a :: b :: c :: d :: e :: f :: g :: h :: t).
  cbn [go_literal]. change (Byte.eqb x5c x22) with false. change (Byte.eqb x5c x0a) with false. change (Byte.eqb x5c x5c) with true.
  change (Byte.eqb x55 x78) with false. change (Byte.eqb x55 x75) with false. change (Byte.eqb x55 x55) with true.
  cbv iota. rewrite E, Hc. reflexivity. Qed.

Lemma escaped_high pr c raw t : raw <> [] -> decode_rune raw = (c, length raw) -> ~ (c = rune_error /\ length raw = 1%nat) -> 128 <= c ->
  code_point c = true -> Forall (fun b => 128 <= b2n b) raw ->
  go_literal (escaped_rune pr c ++ t) = prepend raw (go_literal t).
Proof.
  intros Hn E Hok Hc Hp Hraw. pose proof (encode_decode E Hn Hok) as Ee.
  assert (Hb : c <= 1114111) by (unfold code_point in Hp; lia).
  unfold escaped_rune. destruct (N.eqb_spec c 34); [lia|]. destruct (N.eqb_spec c 92); [lia|]. cbn [orb].
  destruct (pr c); [rewrite Ee; apply lit_copies; assumption|].
  destruct (N.eqb_spec c 7); [lia|]. destruct (N.eqb_spec c 8); [lia|]. destruct (N.eqb_spec c 12); [lia|]. destruct (N.eqb_spec c 10); [lia|].
  destruct (N.eqb_spec c 13); [lia|]. destruct (N.eqb_spec c 9); [lia|]. destruct (N.eqb_spec c 11); [lia|]. destruct (N.ltb_spec c 32); [lia|].
  destruct (N.eqb_spec c 127); [lia|]. cbn [orb]. change (valid_rune c) with (code_point c). rewrite Hp. cbv zeta. rewrite <- Ee.
  destruct (N.ltb_spec c 65536); [apply lit_hex4|apply lit_hex8]; (assumption || lia).
Qed.

Lemma escaped_low pr b t : sober pr -> b2n b < 128 -> go_literal (escaped_rune pr (b2n b) ++ t) = prepend [b] (go_literal t).
Proof.
  intros Hpr Hb. unfold escaped_rune.
  destruct (N.eqb_spec (b2n b) 34) as [E|N1]; [assert (b = x22) as -> by (apply b2n_inj; assumption); reflexivity|].
  destruct (N.eqb_spec (b2n b) 92) as [E|N2]; [assert (b = x5c) as -> by (apply b2n_inj; assumption); reflexivity|]. cbn [orb].
  destruct (pr (b2n b)) eqn:Ep.
  - rewrite encode_ascii, n2b_b2n by assumption. apply (@lit_copy b t); intros ->; try (apply N1; reflexivity); try (apply N2; reflexivity).
    rewrite Hpr in Ep; [discriminate|left; reflexivity].
  - repeat match goal with |- context [if b2n b =? ?k then _ else _] =>
      destruct (N.eqb_spec (b2n b) k) as [E|?]; [rewrite <- (n2b_b2n b), E; reflexivity|] end.
    destruct ((b2n b <? 32) || (b2n b =? 127)) eqn:Ec; [rewrite lit_hex2, n2b_b2n by lia; reflexivity|].
    assert (Hv : valid_rune (b2n b) = true) by (unfold valid_rune; lia). rewrite Hv. cbv zeta. destruct (N.ltb_spec (b2n b) 65536); [|lia].
    rewrite lit_hex4 by (assumption || lia). rewrite encode_ascii, n2b_b2n by assumption. reflexivity.
Qed.

Lemma quoted_rune_ok pr c raw t : sober pr -> raw <> [] -> decode_rune raw = (c, length raw) ->
  go_literal (quoted_rune pr (c, raw) ++ t) = prepend raw (go_literal t).
Proof.
  intros Hpr Hn E. pose proof (decode_dec Hn) as D. rewrite E in D. cbn [fst snd] in D.
  inversion D as [b t0 Hs Hb Hr Hlb|b t0 Hs Hb Hr Hlb|b0 b1 t0 Hs H0 H1 Hr Hlb|b0 b1 b2 t0 Hs H0 H1 H2 Hr Hlb|b0 b1 b2 b3 t0 Hs H0 H1 H2 H3 Hr Hlb];
    rewrite Hs in Hlb; cbn [length] in Hlb; assert (t0 = []) as -> by (destruct t0; [reflexivity|cbn [length] in Hlb; lia]).
  - rewrite Hs. unfold quoted_rune. destruct (N.eqb_spec (b2n b) rune_error); [unfold rune_error in *; lia|]. apply escaped_low; assumption.
  - rewrite Hs. unfold quoted_rune. rewrite N.eqb_refl, lit_hex2, n2b_b2n by apply b2n_bound. reflexivity.
  - assert (Hok : ~ (c = rune_error /\ length raw = 1%nat)) by (rewrite Hs; cbn; lia).
    assert (Hc : 128 <= c < 2048) by lia. rewrite Hr in *. rewrite Hs at 1. cbn [quoted_rune].
    apply escaped_high; try assumption; [lia|unfold code_point; lia|rewrite Hs; repeat constructor; lia].
  - pose proof (second_lo_bounds (b2n b0)). pose proof (second_hi_bounds (b2n b0)).
    assert (Hok : ~ (c = rune_error /\ length raw = 1%nat)) by (rewrite Hs; cbn; lia).
    assert (Hc : 128 <= c /\ code_point c = true).
    { rewrite <- Hr. unfold second_lo, second_hi in H1. unfold code_point.
      destruct (N.eqb_spec (b2n b0) 224) as [E0|E0]; destruct (N.eqb_spec (b2n b0) 237) as [E1|E1]; 
      destruct (N.eqb_spec (b2n b0) 240) as [E2|E2]; destruct (N.eqb_spec (b2n b0) 244) as [E3|E3]; try lia. }
    rewrite Hr in *. rewrite Hs at 1. cbn [quoted_rune]. apply escaped_high; try assumption; [lia|tauto|rewrite Hs; repeat constructor; lia].
  - pose proof (second_lo_bounds (b2n b0)). pose proof (second_hi_bounds (b2n b0)).
    assert (Hok : ~ (c = rune_error /\ length raw = 1%nat)) by (rewrite Hs; cbn; lia).
    assert (Hc : 65536 <= c /\ code_point c = true).
    { rewrite <- Hr. unfold second_lo, second_hi in H1. unfold code_point.
      destruct (N.eqb_spec (b2n b0) 224) as [E0|E0]; destruct (N.eqb_spec (b2n b0) 237) as [E1|E1]; 
      destruct (N.eqb_spec (b2n b0) 240) as [E2|E2]; destruct (N.eqb_spec (b2n b0) 244) as [E3|E3]; try lia. }
    rewrite Hr in *. rewrite Hs at 1. cbn [quoted_rune]. apply escaped_high; try assumption; [lia|tauto|rewrite Hs; repeat constructor; lia].
Qed.

Theorem quote_read pr s t : sober pr -> go_literal (skipn 1 (go_quote pr s) ++ t) = Some (s, t).
Proof.
  intros Hpr. unfold go_quote, quote. cbn [skipn app]. rewrite <- app_assoc.
  assert (G : forall l t, Forall (fun g => snd g <> [] /\ decode_rune (snd g) = (fst g, length (snd g))) l ->
    go_literal (concat (map (quoted_rune pr) l) ++ t) = prepend (segs_text l) (go_literal t)).
  { clear s t. intros l t. induction 1 as [|[c raw] l [H1 H2] _ IH]; cbn [map concat].
    - cbn [app]. destruct (go_literal t) as [[v s]|]; reflexivity.
    - cbn [fst snd] in *. rewrite <- app_assoc, quoted_rune_ok, IH, prepend_app by assumption. rewrite segs_text_cons. reflexivity. }
  rewrite G by apply segs_good. rewrite segs_concat. cbn. rewrite app_nil_r. reflexivity.
Qed.

(** ** Integers *)
Definition no_digit (rest : bytes) : Prop := match rest with [] => True | b :: _ => digit_value b = None end.
Lemma read_decimal_ok n rest : no_digit rest -> exists k ds, digits (S (N.to_nat (N.log2 n))) n [] = digit k :: ds /\ k < 10 /\
  read_decimal ((digit k :: ds) ++ rest) = Some (n, rest).
Proof.
  intros Hr. destruct (@digits_form (S (N.to_nat (N.log2 n))) n []) as (k & ds & E & F & V & _); [|lia|].
  - rewrite Nat2N.inj_succ, N2Nat.id. destruct (N.eq_dec n 0) as [->|Hn]; [reflexivity|]. apply N.log2_spec. lia.
  - exists k, (map digit ds). rewrite app_nil_r in E. inversion F as [|? ? F1 F2]; subst. split; [assumption|]. split; [assumption|].
    cbn [app read_decimal]. rewrite digit_val, read_digits_ok by assumption. reflexivity.
Qed.
Lemma read_integer_ok z rest : no_digit rest -> read_integer (itoa z ++ rest) = Some (z, rest).
Proof.
  intros Hr. unfold itoa. destruct (@read_decimal_ok (Z.abs_N z) rest Hr) as (k & ds & E & Hk & R).
  rewrite E. destruct (Z.ltb_spec z 0).
  - change ((s2b "-" ++ digit k :: ds) ++ rest) with (x2d :: (digit k :: ds) ++ rest). cbn [read_integer]. change (Byte.eqb x2d x2d) with true.
    cbv iota. rewrite R. do 2 f_equal. lia.
  - change (([] ++ digit k :: ds) ++ rest) with ((digit k :: ds) ++ rest). cbn [read_integer app] in *.
    rewrite (@byte_eqb_neq (digit k) x2d).
    + cbn [app] in R. rewrite R. do 2 f_equal. lia.
    + intros Ed. pose proof (digit_val Hk) as D. rewrite Ed in D. discriminate D.
Qed.
Lemma expect_app lit rest : expect lit (lit ++ rest) = Some rest.
Proof. induction lit as [|b lit IH]; cbn [expect app]; [reflexivity|]. rewrite (proj2 (byte_eqb_spec b b) eq_refl). assumption. Qed.
Lemma read_class_ok c rest : read_class class_words (class_string c ++ rest) = Some (c, rest).
Proof. destruct c; reflexivity. Qed.

Theorem token_read pr t : sober pr -> read_token (token_string pr t) = Some (fields_of t).
Proof.
  intros Hpr. unfold read_token, token_string. rewrite read_integer_ok by reflexivity. cbn [obind].
  change (s2b ":" ++ go_quote pr (t_surface t) ++ ?x) with (s2b ":""" ++ skipn 1 (go_quote pr (t_surface t)) ++ x).
  rewrite expect_app. cbn [obind]. rewrite quote_read by assumption. cbn [obind]. rewrite expect_app. cbn [obind].
  rewrite read_integer_ok by reflexivity. cbn [obind]. rewrite expect_app. cbn [obind].
  rewrite read_integer_ok by reflexivity. cbn [obind]. rewrite expect_app. cbn [obind].
  rewrite read_integer_ok by reflexivity. cbn [obind]. rewrite expect_app. cbn [obind].
  rewrite read_class_ok. cbn [obind]. rewrite expect_app. cbn [obind].
  rewrite read_integer_ok by reflexivity. cbn [obind]. reflexivity.
Qed.
Theorem token_text_inj pr a b : sober pr -> token_string pr a = token_string pr b -> fields_of a = fields_of b.
Proof. intros Hpr E. pose proof (token_read a Hpr) as Ha. rewrite E, token_read in Ha by assumption. congruence. Qed.

(** ** One line *)
Definition visible (s : bytes) : Prop := Forall (fun b => 32 <= b2n b /\ b <> x7f) s.
Lemma visible_app a b : visible a -> visible b -> visible (a ++ b).
Proof. intros. apply Forall_app. auto. Qed.
Definition visible_b (s : bytes) : bool := forallb (fun b => (32 <=? b2n b) && negb (Byte.eqb b x7f)) s.
Lemma visible_ok s : visible_b s = true -> visible s.
Proof.
  unfold visible_b. rewrite forallb_forall. intros H. apply Forall_forall. intros b Hb. specialize (H b Hb).
  apply andb_true_iff in H. destruct H as [H1 H2]. split; [lia|]. intros ->. discriminate H2.
Qed.
Lemma visible_hex n : n < 16 -> 32 <= b2n (hex_digit n) /\ hex_digit n <> x7f.
Proof.
  intros H. unfold hex_digit. destruct (N.ltb_spec n 10); (split; [rewrite b2n_n2b by lia; lia|]); intros E; apply (f_equal b2n) in E; rewrite b2n_n2b in E by lia; change (b2n x7f) with 127 in E; lia.
Qed.
Lemma visible_hex2 n : visible (hex2 n).
Proof. repeat constructor; apply visible_hex; lia. Qed.
Lemma visible_hex4 n : visible (hex4_of n).
Proof. apply visible_app; apply visible_hex2. Qed.
Lemma visible_hex8 n : visible (hex8_of n).
Proof. apply visible_app; apply visible_hex4. Qed.
Lemma visible_high raw : Forall (fun b => 128 <= b2n b) raw -> visible raw.
Proof. apply Forall_impl. intros b H. split; [lia|]. intros ->. vm_compute in H. apply H. reflexivity. Qed.
Lemma encode_high r : 128 <= r -> Forall (fun b => 128 <= b2n b) (encode_rune r).
Proof.
  intros H. unfold encode_rune. destruct (N.ltb_spec r 128); [lia|]. destruct (N.ltb_spec r 2048).
  - repeat constructor; rewrite b2n_n2b; lia.
  - destruct (_ || _) eqn:E; [repeat constructor; vm_compute; discriminate|]. destruct (N.ltb_spec r 65536); repeat constructor; rewrite b2n_n2b; lia.
Qed.
Lemma visible_escaped pr r : sober pr -> visible (escaped_rune pr r).
Proof.
  intros Hpr. unfold escaped_rune. destruct (N.eqb_spec r 34) as [->|N1]; [apply visible_ok; reflexivity|].
  destruct (N.eqb_spec r 92) as [->|N2]; [apply visible_ok; reflexivity|]. cbn [orb].
  destruct (pr r) eqn:Ep.
  - assert (32 <= r) by (destruct (N.ltb_spec r 32); [rewrite Hpr in Ep; [discriminate|auto]|lia]).
    destruct (N.ltb_spec r 128); [|apply visible_high, encode_high; lia]. rewrite encode_ascii by assumption. constructor; [|constructor].
    split; [rewrite b2n_n2b; lia|]. intros E. apply (f_equal b2n) in E. rewrite b2n_n2b in E by lia. change (b2n x7f) with 127 in E.
    rewrite Hpr in Ep; [discriminate|auto].
  - repeat (match goal with |- context [if r =? ?k then _ else _] => destruct (r =? k) end; [apply visible_ok; reflexivity|]).
    destruct (_ || _); [apply visible_app; [apply visible_ok; reflexivity|apply visible_hex2]|]. cbv zeta.
    destruct (_ <? 65536); (apply visible_app; [apply visible_ok; reflexivity|]); [apply visible_hex4|apply visible_hex8].
Qed.
Lemma visible_quote pr s : sober pr -> visible (go_quote pr s).
Proof.
  intros Hpr. unfold go_quote. apply visible_app; [apply visible_ok; reflexivity|]. apply visible_app; [|apply visible_ok; reflexivity].
  induction (segs s) as [|[r raw] l IH]; cbn [map concat]; [constructor|]. apply visible_app; [|assumption]. unfold quoted_rune.
  assert (V : visible (escaped_rune pr r)) by (apply visible_escaped; assumption).
  destruct raw as [|b [|]]; try assumption. destruct (r =? rune_error); [|assumption].
  apply visible_app; [apply visible_ok; reflexivity|apply visible_hex2].
Qed.
Lemma visible_itoa z : visible (itoa z).
Proof.
  unfold itoa. apply visible_app; [destruct (z <? 0)%Z; apply visible_ok; reflexivity|].
  destruct (@read_decimal_ok (Z.abs_N z) [] I) as (k & ds & E & _).
  destruct (@digits_form (S (N.to_nat (N.log2 (Z.abs_N z)))) (Z.abs_N z) []) as (k' & ds' & E' & F & _); [|lia|].
  - rewrite Nat2N.inj_succ, N2Nat.id. destruct (N.eq_dec (Z.abs_N z) 0) as [->|Hn]; [reflexivity|]. apply N.log2_spec. lia.
  - rewrite E', app_nil_r. clear E E'. induction F as [|d l H _ IH]; cbn [map]; constructor; [|assumption].
    unfold digit. split; [rewrite b2n_n2b; lia|]. intros E. apply (f_equal b2n) in E. rewrite b2n_n2b in E by lia. change (b2n x7f) with 127 in E. lia.
Qed.
Theorem token_visible pr t : sober pr -> visible (token_string pr t).
Proof.
  intros Hpr. unfold token_string.
  repeat (apply visible_app; [first [apply visible_itoa|apply visible_quote; assumption|destruct (t_class t); apply visible_ok; reflexivity|apply visible_ok; reflexivity]|]).
  apply visible_ok. reflexivity.
Qed.

(** ** Modes *)
Theorem mode_names_inj a b : mode_string a = mode_string b -> a = b.
Proof.
  assert (R : forall m, m <> mode_normal -> m <> mode_search -> m <> mode_extended ->
    (let? s := expect (s2b "unknown tokenize mode (") (mode_string m) in read_integer s) = Some (m, s2b ")")).
  { intros m H1 H2 H3. unfold mode_string. destruct (Z.eqb_spec m mode_normal); [contradiction|]. destruct (Z.eqb_spec m mode_search); [contradiction|].
    destruct (Z.eqb_spec m mode_extended); [contradiction|]. rewrite expect_app. cbn [obind]. apply read_integer_ok. reflexivity. }
  destruct (Z.eq_dec a mode_normal) as [->|A1]; [|destruct (Z.eq_dec a mode_search) as [->|A2]; [|destruct (Z.eq_dec a mode_extended) as [->|A3]; [|specialize (R a A1 A2 A3) as Ra]]];
  (destruct (Z.eq_dec b mode_normal) as [->|B1]; [|destruct (Z.eq_dec b mode_search) as [->|B2]; [|destruct (Z.eq_dec b mode_extended) as [->|B3]; [|specialize (R b B1 B2 B3) as Rb]]]);
  intros E; try reflexivity; try discriminate E; try (rewrite <- E in Rb; discriminate Rb); try (rewrite E in Ra; discriminate Ra).
  rewrite E, Rb in Ra. congruence.
Qed.

Theorem extended_name_rejected : exists m, In m [mode_normal; mode_search; mode_extended] /\ mode_string m = s2b "extend" /\
  forall w prog, exists tr, kagome w [prog; s2b "-mode"; mode_string m] = (tr, Status 1) /\ only_messages tr.
Proof.
  exists mode_extended. split; [right; right; left; reflexivity|]. split; [reflexivity|]. intros w prog. apply kagome_rejects.
  - intros name rest [= <- _]. cbn. intros H. repeat (destruct H as [H|H]; [discriminate H|]). exact H.
  - intros o H. apply tok_parse_ok in H. discriminate H.
Qed.
Theorem mode_names_accepted m : In m [mode_normal; mode_search] ->
  exists o, tok_args [s2b "-mode"; mode_string m] o /\ mode_of (to_mode o) m.
Proof.
  intros [<-|[<-|[]]]; (eexists; split; [apply tok_parse_ok; reflexivity|]).
  - left. split; reflexivity.
  - right. left. split; reflexivity.
Qed.
