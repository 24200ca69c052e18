(** The decoder of [Decode] meets the contract [json_decoder] of [SpecServer]. *)
From Verif Require Import Utf8Facts JsonFacts ServerFacts.
From Verif Require Export DecodeAll.
From Coq Require Import ZifyBool ZifyNat ZifyN.
Set Implicit Arguments. Unset Strict Implicit.
Open Scope N_scope.

Fixpoint tree_of (v : json) : tree :=
  match v with
  | JNull => TNull
  | JBool b => TBool b
  | JInt _ => TNum
  | JStr s => TStr s
  | JArr l => TArr (map tree_of l)
  | JObj l => TObj (map (fun kv => (fst kv, tree_of (snd kv))) l)
  end.
Lemma nesting_depth : forall v, Z.of_nat (nesting (tree_of v)) = depth v.
Proof.
  fix IH 1. intros [|b|z|s|l|l]; try reflexivity; cbn [tree_of nesting depth].
  - assert (G : Z.of_nat (fold_right (fun v m => Nat.max (nesting v) m) 0%nat (map tree_of l)) = fold_right (fun v m => Z.max (depth v) m) 0%Z l); [|lia].
    induction l as [|v l IHl]; [reflexivity|]. cbn [map fold_right]. rewrite Nat2Z.inj_max, IHl. rewrite (IH v). reflexivity.
  - assert (G : Z.of_nat (fold_right (fun kv m => Nat.max (nesting (snd kv)) m) 0%nat (map (fun kv => (fst kv, tree_of (snd kv))) l)) = fold_right (fun kv m => Z.max (depth (snd kv)) m) 0%Z l); [|lia].
    induction l as [|[k v] l IHl]; [reflexivity|]. cbn [map fold_right snd]. rewrite Nat2Z.inj_max, IHl. rewrite (IH v). reflexivity.
Qed.

(** ** Reading *)
Lemma valid_step b s : valid_utf8 (b :: s) = true -> exists r n, decode_rune (b :: s) = (r, n) /\ (1 <= n <= length (b :: s))%nat /\
  ~ (r = rune_error /\ n = 1%nat) /\ valid_utf8 (skipn n (b :: s)) = true.
Proof.
  intros H. assert (N : b :: s <> []) by discriminate. pose proof (decode_width N) as W. unfold valid_utf8 in *. rewrite segs_unfold in H by discriminate.
  destruct (decode_rune (b :: s)) as [r n]. cbn [fst snd] in *. exists r, n. split; [reflexivity|]. split; [assumption|]. cbn [forallb] in H. apply andb_true_iff in H. destruct H as (H1 & H2).
  split; [|assumption]. intros (-> & ->). vm_compute in H1. discriminate H1.
Qed.
Lemma valid_tail b s : b2n b < 128 -> valid_utf8 (b :: s) = true -> valid_utf8 s = true.
Proof. intros L H. destruct (valid_step H) as (r & n & E & _ & _ & V). rewrite decode_ascii in E by assumption. injection E as <- <-. exact V. Qed.
Lemma valid_hex4 a b c d v s : hex4 a b c d = Some v -> valid_utf8 (a :: b :: c :: d :: s) = true -> valid_utf8 s = true.
Proof.
  assert (G : forall h x, hex_value h = Some x -> b2n h < 128) by (intros h x; unfold hex_value; destruct h; intros H; try discriminate H; reflexivity).
  unfold hex4. destruct (hex_value a) eqn:Ea; [|discriminate]. destruct (hex_value b) eqn:Eb; [|discriminate].
  destruct (hex_value c) eqn:Ec; [|discriminate]. destruct (hex_value d) eqn:Ed; [|discriminate]. intros _ V.
  do 4 (apply valid_tail in V; [|eapply G; eassumption]). exact V.
Qed.
Lemma string_read n : forall s v r, (length s <= n)%nat -> valid_utf8 s = true -> read_string s = Some (v, r) ->
  exists b, s = b ++ x22 :: r /\ str_text b v /\ valid_utf8 r = true.
Proof.
  induction n as [|n IH]; intros s v r L V H; (destruct s as [|b s1]; [discriminate H|]); cbn [length] in L; [lia|].
  cbn [read_string] in H. destruct (Byte.eqb b x22) eqn:E1.
  { apply byte_eqb_spec in E1. subst b. injection H as <- <-. exists []. split; [reflexivity|]. split; [constructor|]. eapply valid_tail; [|exact V]. reflexivity. }
  assert (N1 : b <> x22) by (intros ->; discriminate E1). destruct (Byte.eqb b x5c) eqn:E2.
  { apply byte_eqb_spec in E2. subst b. apply valid_tail in V; [|reflexivity]. destruct s1 as [|e s2]; [discriminate H|]. cbn [length] in L. destruct (Byte.eqb e x75) eqn:E3.
    - apply byte_eqb_spec in E3. subst e. apply valid_tail in V; [|reflexivity]. destruct s2 as [|h1 [|h2 [|h3 [|h4 s3]]]]; try discriminate H. destruct (hex4 h1 h2 h3 h4) as [c|] eqn:Hx; [|discriminate H].
      destruct ((55296 <=? c) && (c <=? 57343)) eqn:Sg; [discriminate H|]. cbn [length] in L. destruct (read_string s3) as [[v' r']|] eqn:Er; [|discriminate H]. cbn [prepend] in H. injection H as <- <-.
      destruct (IH s3 v' r' ltac:(lia) (valid_hex4 Hx V) Er) as (b & -> & Hs & Vr). exists (x5c :: x75 :: h1 :: h2 :: h3 :: h4 :: b). split; [reflexivity|]. split; [|assumption].
      apply st_u with (tail := b); [exists h1, h2, h3, h4; auto| | |assumption]; unfold high_surrogate, low_surrogate; lia.
    - destruct (short_escape e) as [c|] eqn:Es; [|discriminate H]. destruct (read_string s2) as [[v' r']|] eqn:Er; [|discriminate H]. cbn [prepend] in H. injection H as <- <-.
      assert (Le : b2n e < 128) by (clear - Es; destruct e; try discriminate Es; reflexivity). apply valid_tail in V; [|exact Le].
      destruct (IH s2 v' r' ltac:(lia) V Er) as (b & -> & Hs & Vr). exists (x5c :: e :: b). split; [reflexivity|]. split; [|assumption]. apply st_short; assumption. }
  assert (N2 : b <> x5c) by (intros ->; discriminate E2). destruct (b2n b <? 32) eqn:L32; [discriminate H|].
  destruct (valid_step V) as (c & m & E & W & Ok1 & Vm).
  assert (Sp : b :: s1 = firstn m (b :: s1) ++ skipn m (b :: s1)) by (symmetry; apply firstn_skipn).
  destruct (firstn m (b :: s1)) as [|b' raw] eqn:F; [apply (f_equal (@length byte)) in F; rewrite firstn_length in F; cbn [length] in *; lia|].
  assert (b' = b) as -> by (destruct m; [lia|]; cbn [firstn] in F; congruence).
  assert (Lm : length (b :: raw) = m) by (rewrite <- F, firstn_length; lia).
  set (tl := skipn m (b :: s1)) in *. assert (Es : s1 = raw ++ tl) by (cbn [app] in Sp; congruence).
  assert (Ed : decode_rune ((b :: raw) ++ tl) = (c, length (b :: raw))) by (rewrite Lm; cbn [app]; rewrite <- Es; exact E).
  rewrite Es in H. rewrite read_copies in H by (eapply rune_bytes; exact Ed).
  destruct (read_string tl) as [[v' r']|] eqn:Er; [|discriminate H]. cbn [prepend] in H. injection H as <- <-.
  assert (Lt : (length tl <= n)%nat) by (unfold tl; rewrite skipn_length; cbn [length] in *; lia).
  destruct (IH tl v' r' Lt Vm Er) as (t & Et & Hs & Vr). exists ((b :: raw) ++ t). split; [rewrite Es, Et; cbn [app]; rewrite <- app_assoc; reflexivity|]. split; [|assumption].
  assert (Ed' : decode_rune (b :: raw) = (c, length (b :: raw))).
  { rewrite <- F. rewrite decode_firstn; [rewrite E, firstn_length; f_equal; lia|discriminate|rewrite E; cbn; lia]. }
  assert (Er' : encode_rune c = b :: raw) by (apply encode_decode; [exact Ed'|discriminate|rewrite Lm; assumption]).
  replace (b :: raw ++ v') with (encode_rune c ++ v') by (rewrite Er'; reflexivity).
  apply st_raw; [|lia|assumption|assumption|assumption]. apply decode_app; [exact Ed'|discriminate|rewrite Lm; assumption].
Qed.
Lemma digits_read s : forall acc n r, read_digits acc s = (n, r) -> exists ds, s = ds ++ r /\ Forall is_digit ds.
Proof.
  induction s as [|b s IH]; intros acc n r H; cbn [read_digits] in H; [injection H as <- <-; exists []; split; [reflexivity|constructor]|].
  unfold digit_value in H. destruct ((48 <=? b2n b) && (b2n b <=? 57)) eqn:D.
  - destruct (IH _ _ _ H) as (ds & -> & F). exists (b :: ds). split; [reflexivity|]. constructor; [unfold is_digit; lia|assumption].
  - injection H as <- <-. exists []. split; [reflexivity|constructor].
Qed.
Lemma nat_read s n r : read_nat s = Some (n, r) -> exists t, s = t ++ r /\ Forall is_digit t /\ t <> [] /\ forall m, m = [] \/ m = [x2d] -> number_text (m ++ t).
Proof.
  destruct s as [|b s]; [discriminate|]. cbn [read_nat]. unfold digit_value. destruct ((48 <=? b2n b) && (b2n b <=? 57)) eqn:D; [|discriminate].
  destruct (read_digits (b2n b - 48) s) as [n' rest] eqn:E. intros H. destruct (digits_read E) as (ds & -> & F).
  destruct ((b2n b - 48 =? 0) && negb (length rest =? length (ds ++ rest))%nat) eqn:Z; [discriminate|].
  assert (R : rest = r) by (destruct rest as [|c rest]; [congruence|]; destruct (Byte.eqb c x2e || Byte.eqb c x65 || Byte.eqb c x45); [discriminate|congruence]). subst r.
  exists (b :: ds). split; [reflexivity|]. split; [constructor; [unfold is_digit; lia|assumption]|]. split; [discriminate|]. intros m Hm. exists m, (b :: ds), [], []. rewrite !app_nil_r. split; [reflexivity|]. split; [assumption|].
  split; [|auto]. destruct (b2n b - 48 =? 0) eqn:B0.
  - left. rewrite app_length in Z. assert (length ds = 0)%nat by lia. destruct ds; [|discriminate]. f_equal. apply b2n_inj. change (b2n x30) with 48. lia.
  - right. exists b, ds. repeat split; [unfold is_digit; lia|unfold is_digit; lia| |assumption]. intros ->. discriminate B0.
Qed.
Lemma int_read s z r : read_int s = Some (z, r) -> exists t, s = t ++ r /\ number_text t /\ Forall (fun b => b2n b < 128) t.
Proof.
  assert (A : forall t, Forall is_digit t -> Forall (fun b => b2n b < 128) t) by (intros t; apply Forall_impl; unfold is_digit; lia).
  destruct s as [|b s]; [discriminate|]. unfold read_int. destruct (Byte.eqb b x2d) eqn:E.
  - apply byte_eqb_spec in E. subst b. destruct (read_nat s) as [[n r']|] eqn:En; [|discriminate]. intros H. injection H as _ <-. destruct (nat_read En) as (t & -> & F & _ & Hn).
    exists (x2d :: t). split; [reflexivity|]. split; [apply (Hn [x2d]); auto|]. constructor; [reflexivity|auto].
  - destruct (read_nat (b :: s)) as [[n r']|] eqn:En; [|discriminate]. intros H. injection H as _ <-. destruct (nat_read En) as (t & Es & F & _ & Hn).
    exists t. split; [assumption|]. split; [apply (Hn []); auto|auto].
Qed.
Lemma ws_read s : exists w, s = w ++ skip_ws s /\ blank w.
Proof.
  induction s as [|b s (w & E & B)]; [exists []; split; [reflexivity|constructor]|]. cbn [skip_ws].
  destruct (Byte.eqb b x20 || Byte.eqb b x09 || Byte.eqb b x0a || Byte.eqb b x0d) eqn:Q; [|exists []; split; [reflexivity|constructor]].
  exists (b :: w). split; [cbn [app]; congruence|]. constructor; [|assumption]. repeat rewrite orb_true_iff in Q. rewrite !byte_eqb_spec in Q. cbn [In]. intuition.
Qed.
Lemma blank_valid w s : blank w -> valid_utf8 (w ++ s) = true -> valid_utf8 s = true.
Proof.
  induction 1 as [|b w Hb _ IH]; [auto|]. cbn [app]. intros V. apply IH. eapply valid_tail; [|exact V]. destruct Hb as [<-|[<-|[<-|[<-|[]]]]]; reflexivity.
Qed.
Lemma ascii_valid w s : Forall (fun b => b2n b < 128) w -> valid_utf8 (w ++ s) = true -> valid_utf8 s = true.
Proof. induction 1 as [|b w Hb _ IH]; [auto|]. cbn [app]. intros V. apply IH. eapply valid_tail; eassumption. Qed.
Lemma opening_read b s r : read_opening b s = Some r -> exists w, s = w ++ b :: r /\ blank w.
Proof.
  unfold read_opening. destruct (ws_read s) as (w & E & B). destruct (skip_ws s) as [|c s']; [discriminate|]. destruct (Byte.eqb b c) eqn:Q; [|discriminate].
  apply byte_eqb_spec in Q. subst c. intros H. injection H as ->. eauto.
Qed.
Lemma opening_valid b s r : b2n b < 128 -> valid_utf8 s = true -> read_opening b s = Some r -> exists w, s = w ++ b :: r /\ blank w /\ valid_utf8 r = true.
Proof.
  intros L V H. destruct (opening_read H) as (w & -> & B). exists w. split; [reflexivity|]. split; [assumption|]. apply (blank_valid B) in V. eapply valid_tail; eassumption.
Qed.
Lemma opening_now b s r : read_opening b (skip_ws s) = Some r -> skip_ws s = b :: r.
Proof.
  unfold read_opening. rewrite skip_ws_idem. destruct (skip_ws s) as [|c s']; [discriminate|]. destruct (Byte.eqb b c) eqn:Q; [|discriminate].
  apply byte_eqb_spec in Q. subst c. intros H. injection H as ->. reflexivity.
Qed.
Lemma word_read w : forall s r, read_word w s = Some r -> s = w ++ r.
Proof.
  induction w as [|a w IH]; intros s r H; [destruct s; injection H as <-; reflexivity|]. destruct s as [|b s]; [discriminate|]. cbn [read_word] in H. destruct (Byte.eqb a b) eqn:E; [|discriminate].
  apply byte_eqb_spec in E. subst b. cbn [app]. f_equal. apply IH. assumption.
Qed.
Lemma value_read f :
  (forall s v r, valid_utf8 s = true -> read_value f s = Some (v, r) -> exists w t, s = w ++ t ++ r /\ blank w /\ reads t (tree_of v) /\ valid_utf8 r = true) /\
  (forall s l r, valid_utf8 s = true -> read_elems f s = Some (l, r) -> exists t, s = t ++ x5d :: r /\ elements t (map tree_of l) /\ valid_utf8 r = true) /\
  (forall s l r, valid_utf8 s = true -> read_members f s = Some (l, r) -> exists t, s = t ++ x7d :: r /\ members t (map (fun kv => (fst kv, tree_of (snd kv))) l) /\ valid_utf8 r = true).
Proof.
  induction f as [|f (IHv & IHe & IHm)]; [split; [|split]; discriminate|]. split; [|split].
  - intros s v r V H. cbn [read_value] in H. destruct (ws_read s) as (w & E & B). rewrite E in V. apply (blank_valid B) in V.
    assert (W : forall t, skip_ws s = t ++ r -> reads t (tree_of v) -> valid_utf8 r = true -> exists w t, s = w ++ t ++ r /\ blank w /\ reads t (tree_of v) /\ valid_utf8 r = true).
    { intros t Et Rt Vr. exists w, t. split; [rewrite <- Et; exact E|auto]. }
    destruct (read_opening x22 (skip_ws s)) as [s'|] eqn:O1.
    { apply opening_now in O1. rewrite O1 in V. apply valid_tail in V; [|reflexivity]. destruct (read_string s') as [[v' r']|] eqn:R; [|discriminate H]. injection H as <- <-.
      destruct (string_read (le_n _) V R) as (b & -> & Hs & Vr). apply (W (x22 :: b ++ [x22])); [rewrite O1; cbn [app]; rewrite <- app_assoc; reflexivity|apply rd_str; assumption|assumption]. }
    destruct (read_opening x5b (skip_ws s)) as [s'|] eqn:O2.
    { apply opening_now in O2. rewrite O2 in V. apply valid_tail in V; [|reflexivity]. destruct (read_opening x5d s') as [r'|] eqn:O3.
      - injection H as <- <-. destruct (@opening_valid x5d s' r' eq_refl V O3) as (w' & -> & B' & Vr). apply (W (x5b :: w' ++ [x5d])); [rewrite O2; cbn [app]; rewrite <- app_assoc; reflexivity|apply rd_arr0; assumption|assumption].
      - destruct (read_elems f s') as [[l r']|] eqn:R; [|discriminate H]. injection H as <- <-. destruct (IHe _ _ _ V R) as (t & -> & Ht & Vr).
        apply (W (x5b :: t ++ [x5d])); [rewrite O2; cbn [app]; rewrite <- app_assoc; reflexivity|apply rd_arr; assumption|assumption]. }
    destruct (read_opening x7b (skip_ws s)) as [s'|] eqn:O4.
    { apply opening_now in O4. rewrite O4 in V. apply valid_tail in V; [|reflexivity]. destruct (read_opening x7d s') as [r'|] eqn:O3.
      - injection H as <- <-. destruct (@opening_valid x7d s' r' eq_refl V O3) as (w' & -> & B' & Vr). apply (W (x7b :: w' ++ [x7d])); [rewrite O4; cbn [app]; rewrite <- app_assoc; reflexivity|apply rd_obj0; assumption|assumption].
      - destruct (read_members f s') as [[l r']|] eqn:R; [|discriminate H]. injection H as <- <-. destruct (IHm _ _ _ V R) as (t & -> & Ht & Vr).
        apply (W (x7b :: t ++ [x7d])); [rewrite O4; cbn [app]; rewrite <- app_assoc; reflexivity|apply rd_obj; assumption|assumption]. }
    assert (Wd : forall wd r', read_word wd (skip_ws s) = Some r' -> Forall (fun b => b2n b < 128) wd -> skip_ws s = wd ++ r' /\ valid_utf8 r' = true).
    { intros wd r' Rw A. apply word_read in Rw. split; [assumption|]. rewrite Rw in V. apply (ascii_valid A V). }
    destruct (read_word (s2b "null") (skip_ws s)) as [r'|] eqn:R1.
    { injection H as <- <-. destruct (Wd _ _ R1) as (E1 & Vr); [repeat constructor|]. apply (W _ E1); [constructor|assumption]. }
    destruct (read_word (s2b "true") (skip_ws s)) as [r'|] eqn:R2.
    { injection H as <- <-. destruct (Wd _ _ R2) as (E1 & Vr); [repeat constructor|]. apply (W _ E1); [constructor|assumption]. }
    destruct (read_word (s2b "false") (skip_ws s)) as [r'|] eqn:R3.
    { injection H as <- <-. destruct (Wd _ _ R3) as (E1 & Vr); [repeat constructor|]. apply (W _ E1); [constructor|assumption]. }
    destruct (read_int (skip_ws s)) as [[z r']|] eqn:R4; [|discriminate H]. injection H as <- <-. destruct (int_read R4) as (t & Et & Hn & A).
    apply (W _ Et); [constructor; assumption|]. rewrite Et in V. apply (ascii_valid A V).
  - intros s l r V H. cbn [read_elems] in H. destruct (read_value f s) as [[v s1]|] eqn:R; [|discriminate H]. destruct (IHv _ _ _ V R) as (w & t & -> & B & Rt & V1).
    destruct (read_opening x2c s1) as [s2|] eqn:O.
    + destruct (@opening_valid x2c s1 s2 eq_refl V1 O) as (w2 & -> & B2 & V2). destruct (read_elems f s2) as [[l' r']|] eqn:R2; [|discriminate H]. injection H as <- <-.
      destruct (IHe _ _ _ V2 R2) as (t2 & -> & E2 & Vr). exists (w ++ t ++ w2 ++ x2c :: t2). split; [rewrite <- !app_assoc; reflexivity|]. split; [apply el_more; assumption|assumption].
    + destruct (read_opening x5d s1) as [r'|] eqn:O2; [|discriminate H]. injection H as <- <-. destruct (@opening_valid x5d s1 r' eq_refl V1 O2) as (w2 & -> & B2 & V2).
      exists (w ++ t ++ w2). split; [rewrite <- !app_assoc; reflexivity|]. split; [apply el_one; assumption|assumption].
  - intros s l r V H. cbn [read_members] in H. destruct (read_opening x22 s) as [s1|] eqn:O1; [|discriminate H]. destruct (@opening_valid x22 s s1 eq_refl V O1) as (w1 & -> & B1 & V1).
    destruct (read_string s1) as [[k s2]|] eqn:R1; [|discriminate H]. destruct (string_read (le_n _) V1 R1) as (kt & -> & Hk & V2).
    destruct (read_opening x3a s2) as [s3|] eqn:O2; [|discriminate H]. destruct (@opening_valid x3a s2 s3 eq_refl V2 O2) as (w2 & -> & B2 & V3).
    destruct (read_value f s3) as [[v s4]|] eqn:R2; [|discriminate H]. destruct (IHv _ _ _ V3 R2) as (w3 & t & -> & B3 & Rt & V4).
    assert (Mb : forall w4, blank w4 -> member (w1 ++ x22 :: kt ++ x22 :: w2 ++ x3a :: w3 ++ t ++ w4) (k, tree_of v)) by (intros w4 B4; apply mb; assumption).
    destruct (read_opening x2c s4) as [s5|] eqn:O3.
    + destruct (@opening_valid x2c s4 s5 eq_refl V4 O3) as (w4 & -> & B4 & V5). destruct (read_members f s5) as [[l' r']|] eqn:R3; [|discriminate H]. injection H as <- <-.
      destruct (IHm _ _ _ V5 R3) as (t2 & -> & M2 & Vr). exists ((w1 ++ x22 :: kt ++ x22 :: w2 ++ x3a :: w3 ++ t ++ w4) ++ x2c :: t2).
      split; [repeat (rewrite <- app_assoc || (progress cbn [app])); reflexivity|]. split; [apply mb_more; [apply Mb; assumption|assumption]|assumption].
    + destruct (read_opening x7d s4) as [r'|] eqn:O4; [|discriminate H]. injection H as <- <-. destruct (@opening_valid x7d s4 r' eq_refl V4 O4) as (w4 & -> & B4 & V5).
      exists (w1 ++ x22 :: kt ++ x22 :: w2 ++ x3a :: w3 ++ t ++ w4). split; [repeat (rewrite <- app_assoc || (progress cbn [app])); reflexivity|]. split; [apply mb_one; apply Mb; assumption|assumption].
Qed.

(** ** The request *)
Lemma member_decoded p kv : pg_err p = None ->
  match set_member (pg_req p) kv with
  | Some r => put_member p (fst kv, tree_of (snd kv)) = Progress r None
  | None => pg_err (put_member p (fst kv, tree_of (snd kv))) <> None
  end.
Proof.
  intros E. destruct p as [[i m] e]. cbn [pg_err] in E. subst e. destruct kv as [k v]. unfold put_member, set_member. cbn [fst snd]. rewrite field_named. cbn [pg_req].
  destruct (names k "sentence"); [destruct v; cbn; (reflexivity || discriminate)|].
  destruct (names k "mode"); [destruct v; cbn; (reflexivity || discriminate)|]. reflexivity.
Qed.
Lemma members_decoded l : forall p, pg_err p = None ->
  match set_members (pg_req p) l with
  | Some r => fold_left put_member (map (fun kv => (fst kv, tree_of (snd kv))) l) p = Progress r None
  | None => pg_err (fold_left put_member (map (fun kv => (fst kv, tree_of (snd kv))) l) p) <> None
  end.
Proof.
  induction l as [|kv l IH]; intros p E; cbn [set_members map fold_left].
  - destruct p as [r e]. cbn in E |- *. subst e. reflexivity.
  - pose proof (member_decoded kv E) as M. destruct (set_member (pg_req p) kv) as [r|].
    + rewrite M. apply (IH (Progress r None)). reflexivity.
    + apply members_saved. exact M.
Qed.
Lemma outcome_decoded v : match decoded v with Some r => result (outcome (tree_of v)) = inl r | None => exists e, result (outcome (tree_of v)) = inr e end.
Proof.
  destruct v as [|b|z|s|l|l]; cbn [decoded tree_of]; try (eexists; reflexivity).
  pose proof (@members_decoded l start eq_refl) as M. change (pg_req start) with (Request [] []) in M. cbn [outcome]. destruct (set_members (Request [] []) l) as [r|].
  - rewrite M. reflexivity.
  - unfold result. destruct (pg_err (fold_left put_member _ start)) as [e|]; [eexists; reflexivity|congruence].
Qed.
Lemma blank_unique w1 : forall w2 c1 r1 c2 r2, blank w1 -> blank w2 -> json_space c1 = false -> json_space c2 = false -> w1 ++ c1 :: r1 = w2 ++ c2 :: r2 -> c1 = c2.
Proof.
  induction w1 as [|b w1 IH]; intros [|b2 w2] c1 r1 c2 r2 B1 B2 S1 S2 E; cbn [app] in E; injection E as E1 E2.
  - assumption.
  - inversion B2 as [|x y H]. subst. apply blank_space in H. congruence.
  - inversion B1 as [|x y H]. subst. apply blank_space in H. congruence.
  - inversion B1; subst. inversion B2; subst. eapply IH; eassumption.
Qed.
Lemma asks_no_number v r w1 t1 rest1 w2 t2 rest2 : asks v r -> blank w1 -> reads t1 v -> blank w2 -> number_text t2 -> w1 ++ t1 ++ rest1 = w2 ++ t2 ++ rest2 -> False.
Proof.
  intros A B1 R1 B2 N E. destruct (number_first N) as (c & t & -> & Hc).
  assert (S2 : json_space c = false) by (destruct Hc as [->|Hd]; [reflexivity|]; apply digit_ok in Hd; destruct c; try discriminate Hd; reflexivity).
  assert (F : exists c1 t', t1 = c1 :: t' /\ (c1 = x6e \/ c1 = x7b)) by (inversion A; subst; inversion R1; subst; (eexists; eexists; split; [reflexivity|auto])).
  destruct F as (c1 & t' & -> & F). cbn [app] in E. apply blank_unique in E; try assumption; [|destruct F as [-> | ->]; reflexivity]. subst c1.
  destruct F as [-> | ->]; destruct Hc as [Hc|Hc]; try discriminate Hc; apply digit_ok in Hc; discriminate Hc.
Qed.
Theorem decoder_contract pr : json_decoder (the_decoder pr).
Proof.
  intros body v (V & (f & rest & E) & D). destruct (proj1 (value_read f) _ _ _ V E) as (w & t & Eb & B & R & _).
  assert (Dn : N.of_nat (nesting (tree_of v)) <= 10000) by (pose proof (nesting_depth v); lia).
  pose proof (outcome_decoded v) as O. assert (K : (exists z, v = JInt z) \/ tree_of v <> TNum) by (destruct v; eauto; right; discriminate).
  destruct K as [(z & ->)|K].
  - cbn [decoded]. destruct (the_decoder pr body) as [r|e] eqn:Q; [|eauto]. exfalso. apply decode_asks in Q. destruct Q as (v2 & (w2 & t2 & rest2 & Eb2 & B2 & R2 & _) & A).
    rewrite Eb2 in Eb. assert (Hn : number_text t) by (inversion R; assumption). exact (asks_no_number A B2 R2 B Hn Eb).
  - assert (G : the_decoder pr body = result (outcome (tree_of v))).
    { unfold the_decoder, json_decode. change (Scan SBeginValue []) with top. rewrite Eb. destruct (read_blank pr 0 false (t ++ rest) B) as (seen & ->).
      rewrite (read_value_found pr _ seen rest R Dn K). cbn [Nat.add]. rewrite <- app_length, app_assoc, firstn_app, firstn_all, Nat.sub_diag. cbn [firstn].
      rewrite app_nil_r, (unmarshal_run B R Dn). reflexivity. }
    rewrite G. exact O.
Qed.
