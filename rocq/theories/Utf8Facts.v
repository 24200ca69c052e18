(** Facts about the UTF-8 model. *)
From Verif Require Import Utf8.
From Coq Require Import ZifyBool ZifyNat ZifyN.
Ltac Zify.zify_post_hook ::= Z.div_mod_to_equations.
Set Implicit Arguments.
Unset Strict Implicit.
Open Scope N_scope.

Lemma b2n_bound b : b2n b < 256.
Proof. unfold b2n. pose proof (Byte.to_N_bounded b). lia. Qed.

Lemma n2b_b2n b : n2b (b2n b) = b.
Proof. unfold n2b, b2n. rewrite Byte.of_to_N. reflexivity. Qed.

Lemma b2n_n2b n : n < 256 -> b2n (n2b n) = n.
Proof.
  intros H. unfold n2b, b2n. destruct (Byte.of_N n) as [b|] eqn:E.
  - apply Byte.to_of_N in E. exact E.
  - apply Byte.of_N_None_iff in E. lia.
Qed.

Lemma b2n_inj a b : b2n a = b2n b -> a = b.
Proof. intros H. rewrite <- (n2b_b2n a), <- (n2b_b2n b), H. reflexivity. Qed.

Lemma byte_eqb_spec a b : Byte.eqb a b = true <-> a = b.
Proof. split; [apply Byte.byte_dec_bl|intros ->; apply Byte.byte_dec_lb; reflexivity]. Qed.

Lemma bytes_eqb_eq a b : bytes_eqb a b = true <-> a = b.
Proof.
  revert b; induction a as [|x a IH]; intros [|y b]; cbn [bytes_eqb]; try (split; congruence).
  rewrite andb_true_iff, byte_eqb_spec, IH. split; [intros [-> ->]; reflexivity|intros [= -> ->]; auto].
Qed.

Lemma bytes_eqb_refl a : bytes_eqb a a = true.
Proof. apply bytes_eqb_eq. reflexivity. Qed.

Lemma bytes_eqb_neq a b : bytes_eqb a b = false <-> a <> b.
Proof.
  rewrite <- bytes_eqb_eq. destruct (bytes_eqb a b); split; congruence.
Qed.

(** Case analysis of decode_rune on a non-empty string. *)
Inductive dec (s : bytes) : N -> nat -> Prop :=
| dec_ascii b t : s = b :: t -> b2n b < 128 -> dec s (b2n b) 1
| dec_bad b t : s = b :: t -> 128 <= b2n b -> dec s rune_error 1
| dec_2 b0 b1 t : s = b0 :: b1 :: t -> 194 <= b2n b0 < 224 -> 128 <= b2n b1 <= 191 ->
    dec s ((b2n b0 - 192) * 64 + (b2n b1 - 128)) 2
| dec_3 b0 b1 b2 t : s = b0 :: b1 :: b2 :: t -> 224 <= b2n b0 < 240 ->
    second_lo (b2n b0) <= b2n b1 <= second_hi (b2n b0) -> 128 <= b2n b2 <= 191 ->
    dec s ((b2n b0 - 224) * 4096 + (b2n b1 - 128) * 64 + (b2n b2 - 128)) 3
| dec_4 b0 b1 b2 b3 t : s = b0 :: b1 :: b2 :: b3 :: t -> 240 <= b2n b0 < 245 ->
    second_lo (b2n b0) <= b2n b1 <= second_hi (b2n b0) -> 128 <= b2n b2 <= 191 ->
    128 <= b2n b3 <= 191 ->
    dec s ((b2n b0 - 240) * 262144 + (b2n b1 - 128) * 4096 + (b2n b2 - 128) * 64 + (b2n b3 - 128)) 4.

Lemma in_range_spec lo hi b : in_range lo hi b = true <-> lo <= b2n b <= hi.
Proof. unfold in_range. rewrite andb_true_iff, !N.leb_le. tauto. Qed.

Lemma decode_dec s : s <> [] -> dec s (fst (decode_rune s)) (snd (decode_rune s)).
Proof.
  destruct s as [|b0 t]; [congruence|intros _]. unfold decode_rune.
  destruct (N.ltb_spec (b2n b0) 128); [eapply dec_ascii; eauto|].
  destruct (N.ltb_spec (b2n b0) 194); [eapply dec_bad; eauto|].
  destruct (N.ltb_spec (b2n b0) 224).
  { destruct t as [|b1 t]; [eapply dec_bad; eauto|].
    destruct (in_range 128 191 b1) eqn:E; [|eapply dec_bad; eauto].
    apply in_range_spec in E. eapply dec_2; eauto. }
  destruct (N.ltb_spec (b2n b0) 240).
  { destruct t as [|b1 [|b2 t]]; try (eapply dec_bad; eauto; fail).
    destruct (in_range (second_lo (b2n b0)) (second_hi (b2n b0)) b1) eqn:E1; cbn [andb]; [|eapply dec_bad; eauto].
    destruct (in_range 128 191 b2) eqn:E2; [|eapply dec_bad; eauto].
    apply in_range_spec in E1, E2. eapply dec_3; eauto. }
  destruct (N.ltb_spec (b2n b0) 245); [|eapply dec_bad; eauto].
  destruct t as [|b1 [|b2 [|b3 t]]]; try (eapply dec_bad; eauto; fail).
  destruct (in_range (second_lo (b2n b0)) (second_hi (b2n b0)) b1) eqn:E1; cbn [andb]; [|eapply dec_bad; eauto].
  destruct (in_range 128 191 b2) eqn:E2; cbn [andb]; [|eapply dec_bad; eauto].
  destruct (in_range 128 191 b3) eqn:E3; [|eapply dec_bad; eauto].
  apply in_range_spec in E1, E2, E3. eapply dec_4; eauto.
Qed.

(** The non-error cases determine the decoding, whatever follows. *)
Lemma decode_ascii b t : b2n b < 128 -> decode_rune (b :: t) = (b2n b, 1%nat).
Proof. intros H. unfold decode_rune. destruct (N.ltb_spec (b2n b) 128); [reflexivity|lia]. Qed.

Lemma decode_2 b0 b1 t : 194 <= b2n b0 < 224 -> 128 <= b2n b1 <= 191 ->
  decode_rune (b0 :: b1 :: t) = ((b2n b0 - 192) * 64 + (b2n b1 - 128), 2%nat).
Proof.
  intros H H1. unfold decode_rune.
  destruct (N.ltb_spec (b2n b0) 128); [lia|]. destruct (N.ltb_spec (b2n b0) 194); [lia|].
  destruct (N.ltb_spec (b2n b0) 224); [|lia].
  apply in_range_spec in H1. rewrite H1. reflexivity.
Qed.

Lemma decode_3 b0 b1 b2 t : 224 <= b2n b0 < 240 ->
  second_lo (b2n b0) <= b2n b1 <= second_hi (b2n b0) -> 128 <= b2n b2 <= 191 ->
  decode_rune (b0 :: b1 :: b2 :: t) =
    ((b2n b0 - 224) * 4096 + (b2n b1 - 128) * 64 + (b2n b2 - 128), 3%nat).
Proof.
  intros H H1 H2. unfold decode_rune.
  destruct (N.ltb_spec (b2n b0) 128); [lia|]. destruct (N.ltb_spec (b2n b0) 194); [lia|].
  destruct (N.ltb_spec (b2n b0) 224); [lia|]. destruct (N.ltb_spec (b2n b0) 240); [|lia].
  apply in_range_spec in H1, H2. rewrite H1, H2. reflexivity.
Qed.

Lemma decode_4 b0 b1 b2 b3 t : 240 <= b2n b0 < 245 ->
  second_lo (b2n b0) <= b2n b1 <= second_hi (b2n b0) -> 128 <= b2n b2 <= 191 -> 128 <= b2n b3 <= 191 ->
  decode_rune (b0 :: b1 :: b2 :: b3 :: t) =
    ((b2n b0 - 240) * 262144 + (b2n b1 - 128) * 4096 + (b2n b2 - 128) * 64 + (b2n b3 - 128), 4%nat).
Proof.
  intros H H1 H2 H3. unfold decode_rune.
  destruct (N.ltb_spec (b2n b0) 128); [lia|]. destruct (N.ltb_spec (b2n b0) 194); [lia|].
  destruct (N.ltb_spec (b2n b0) 224); [lia|]. destruct (N.ltb_spec (b2n b0) 240); [lia|].
  destruct (N.ltb_spec (b2n b0) 245); [|lia].
  apply in_range_spec in H1, H2, H3. rewrite H1, H2, H3. reflexivity.
Qed.

Lemma second_lo_bounds c : 128 <= second_lo c <= 160.
Proof. unfold second_lo. destruct (c =? 224); [lia|]. destruct (c =? 240); lia. Qed.
Lemma second_hi_bounds c : 143 <= second_hi c <= 191.
Proof. unfold second_hi. destruct (c =? 237); [lia|]. destruct (c =? 244); lia. Qed.

(** If the decoding is not the invalid-byte case, any continuation gives the same result. *)
Lemma decode_app s r w : decode_rune s = (r, w) -> s <> [] -> ~ (r = rune_error /\ w = 1%nat) ->
  forall t, decode_rune (s ++ t) = (r, w).
Proof.
  intros E Hne Hok t0. pose proof (decode_dec Hne) as D. rewrite E in D. cbn [fst snd] in D.
  destruct D; subst s; cbn [app].
  - apply decode_ascii; assumption.
  - exfalso; apply Hok; auto.
  - apply decode_2; assumption.
  - apply decode_3; assumption.
  - apply decode_4; assumption.
Qed.

Lemma decode_width s : s <> [] -> (1 <= snd (decode_rune s) <= length s)%nat.
Proof.
  intros Hne. destruct (decode_dec Hne); subst s; cbn [length]; lia.
Qed.

Lemma decode_width4 s : (snd (decode_rune s) <= 4)%nat.
Proof.
  destruct s as [|b t]; [cbn; lia|].
  assert (Hne : b :: t <> []) by discriminate. destruct (decode_dec Hne); lia.
Qed.

(** Cutting the string after the decoded rune does not change the decoding. *)
Lemma decode_firstn s k : s <> [] -> (snd (decode_rune s) <= k)%nat ->
  decode_rune (firstn k s) = decode_rune s.
Proof.
  intros Hne Hk.
  assert (Hw := decode_width Hne).
  destruct (decode_rune (firstn k s)) as [r' w'] eqn:E'.
  assert (Hne' : firstn k s <> []).
  { destruct s as [|b0 s]; [congruence|]. destruct k; [lia|]. discriminate. }
  destruct (N.eq_dec r' rune_error) as [Hr|Hr]; [destruct (Nat.eq_dec w' 1) as [Hw1|Hw1]|].
  - subst r' w'.
    assert (D := decode_dec Hne). destruct (decode_rune s) as [r w] eqn:E. cbn [fst snd] in *.
    destruct D as [b t Hs Hb|b t Hs Hb|b0 b1 t Hs H0 H1|b0 b1 b2 t Hs H0 H1 H2|b0 b1 b2 b3 t Hs H0 H1 H2 H3];
      subst s.
    + destruct k; [lia|]. cbn [firstn] in E'. rewrite decode_ascii in E' by assumption. congruence.
    + reflexivity.
    + destruct k as [|[|k]]; try lia. cbn [firstn] in E'. rewrite decode_2 in E' by assumption. congruence.
    + destruct k as [|[|[|k]]]; try lia. cbn [firstn] in E'. rewrite decode_3 in E' by assumption. congruence.
    + destruct k as [|[|[|[|k]]]]; try lia. cbn [firstn] in E'. rewrite decode_4 in E' by assumption. congruence.
  - rewrite <- (firstn_skipn k s), (decode_app E'); [reflexivity|assumption|tauto].
  - rewrite <- (firstn_skipn k s), (decode_app E'); [reflexivity|assumption|tauto].
Qed.

(** A decoded rune other than RuneError has the width utf8.RuneLen gives. *)
Lemma decode_rune_len s : s <> [] -> fst (decode_rune s) <> rune_error ->
  rune_len (fst (decode_rune s)) = snd (decode_rune s).
Proof.
  intros Hne Hr. destruct (decode_dec Hne) as [b t Hs Hb|b t Hs Hb|b0 b1 t Hs H0 H1|b0 b1 b2 t Hs H0 H1 H2|b0 b1 b2 b3 t Hs H0 H1 H2 H3].
  - unfold rune_len. destruct (N.ltb_spec (b2n b) 128); [reflexivity|lia].
  - congruence.
  - unfold rune_len. set (x := (b2n b0 - 192) * 64 + (b2n b1 - 128)).
    assert (128 <= x < 2048) by (unfold x; lia).
    destruct (N.ltb_spec x 128); [lia|]. destruct (N.ltb_spec x 2048); [reflexivity|lia].
  - unfold rune_len. set (x := (b2n b0 - 224) * 4096 + (b2n b1 - 128) * 64 + (b2n b2 - 128)).
    assert (2048 <= x < 65536).
    { pose proof (second_lo_bounds (b2n b0)). pose proof (second_hi_bounds (b2n b0)).
      unfold x. destruct (N.eq_dec (b2n b0) 224) as [E|E].
      - unfold second_lo in H1. rewrite E in *. cbn in H1. lia.
      - lia. }
    destruct (N.ltb_spec x 128); [lia|]. destruct (N.ltb_spec x 2048); [lia|].
    destruct (N.ltb_spec x 65536); [reflexivity|lia].
  - unfold rune_len. set (x := (b2n b0 - 240) * 262144 + (b2n b1 - 128) * 4096 + (b2n b2 - 128) * 64 + (b2n b3 - 128)).
    assert (65536 <= x).
    { pose proof (second_lo_bounds (b2n b0)). pose proof (second_hi_bounds (b2n b0)).
      unfold x. destruct (N.eq_dec (b2n b0) 240) as [E|E].
      - unfold second_lo in H1. rewrite E in *. cbn in H1. lia.
      - lia. }
    destruct (N.ltb_spec x 128); [lia|]. destruct (N.ltb_spec x 2048); [lia|].
    destruct (N.ltb_spec x 65536); [lia|reflexivity].
Qed.

(** ** Segments *)
Lemma segs_fuel_enough f s : (length s <= f)%nat -> segs_fuel f s = segs s.
Proof.
  unfold segs. remember (length s) as n eqn:En. assert (Hn : (length s <= n)%nat) by lia. clear En.
  revert f s Hn. induction n as [n IH] using lt_wf_ind. intros f s Hn Hf.
  destruct s as [|b t].
  { destruct f, n; reflexivity. }
  destruct n as [|n]; [cbn in Hn; lia|]. destruct f as [|f]; [cbn in Hf; lia|].
  cbn [segs_fuel]. assert (Hne : b :: t <> []) by discriminate.
  pose proof (decode_width Hne) as Hw. destruct (decode_rune (b :: t)) as [r w] eqn:E. cbn [fst snd] in Hw.
  f_equal. assert (Hl : (length (skipn w (b :: t)) <= n)%nat) by (rewrite skipn_length; lia).
  apply IH; try assumption; lia.
Qed.

Lemma segs_nil : segs [] = [].
Proof. reflexivity. Qed.

Lemma segs_unfold s : s <> [] ->
  segs s = (fst (decode_rune s), firstn (snd (decode_rune s)) s) :: segs (skipn (snd (decode_rune s)) s).
Proof.
  intros Hne. pose proof (decode_width Hne) as Hw. unfold segs at 1. destruct s as [|b t]; [congruence|].
  cbn [length segs_fuel]. destruct (decode_rune (b :: t)) as [r w] eqn:E. cbn [fst snd] in *.
  f_equal. apply segs_fuel_enough. rewrite skipn_length. cbn [length] in *. lia.
Qed.

(** Induction over the segments of a string. *)
Lemma segs_ind (P : bytes -> list (N * bytes) -> Prop) :
  P [] [] ->
  (forall s r w, s <> [] -> decode_rune s = (r, w) -> (1 <= w <= length s)%nat ->
     P (skipn w s) (segs (skipn w s)) -> P s ((r, firstn w s) :: segs (skipn w s))) ->
  forall s, P s (segs s).
Proof.
  intros H0 H1 s. remember (length s) as n eqn:En. revert s En.
  induction n as [n IH] using lt_wf_ind. intros s ->.
  destruct s as [|b t]; [exact H0|]. assert (Hne : b :: t <> []) by discriminate.
  rewrite (segs_unfold Hne). pose proof (decode_width Hne) as Hw.
  destruct (decode_rune (b :: t)) as [r w] eqn:E. cbn [fst snd] in *.
  apply H1; try assumption.
  eapply IH; [|reflexivity]. rewrite skipn_length. lia.
Qed.

Arguments segs_ind : clear implicits.

Definition segs_text (l : list (N * bytes)) : bytes := concat (map snd l).

Lemma segs_text_app a b : segs_text (a ++ b) = segs_text a ++ segs_text b.
Proof. unfold segs_text. rewrite map_app, concat_app. reflexivity. Qed.

Lemma segs_text_cons r b l : segs_text ((r, b) :: l) = b ++ segs_text l.
Proof. reflexivity. Qed.

Lemma segs_concat s : segs_text (segs s) = s.
Proof.
  apply (segs_ind (fun s l => segs_text l = s)).
  - reflexivity.
  - intros s0 r w Hne E Hw IH. rewrite segs_text_cons, IH. apply firstn_skipn.
Qed.

Lemma segs_nonempty_seg s g : In g (segs s) -> (1 <= length (snd g) <= 4)%nat.
Proof.
  apply (segs_ind (fun s l => In g l -> (1 <= length (snd g) <= 4)%nat)).
  - intros [].
  - intros s0 r w Hne E Hw IH [<-|H]; [|auto]. cbn [snd]. rewrite firstn_length.
    pose proof (decode_width4 s0) as H4. rewrite E in H4. cbn [snd] in H4. lia.
Qed.

(** Each segment is what its own bytes decode to. *)
Lemma segs_decode s g : In g (segs s) -> decode_rune (snd g) = (fst g, length (snd g)).
Proof.
  apply (segs_ind (fun s l => In g l -> decode_rune (snd g) = (fst g, length (snd g)))).
  - intros [].
  - intros s0 r w Hne E Hw IH [<-|H]; [|auto]. cbn [fst snd].
    rewrite firstn_length, Nat.min_l by lia.
    rewrite decode_firstn; [assumption|assumption|rewrite E; cbn; lia].
Qed.

(** Cutting at a segment boundary: both halves keep their segments. *)
Lemma segs_split s : forall a b, segs s = a ++ b ->
  segs (segs_text a) = a /\ segs (segs_text b) = b /\ s = segs_text a ++ segs_text b.
Proof.
  apply (segs_ind (fun s l => forall a b, l = a ++ b ->
    segs (segs_text a) = a /\ segs (segs_text b) = b /\ s = segs_text a ++ segs_text b)).
  - intros a b H. symmetry in H. apply app_eq_nil in H. destruct H as [-> ->]. auto.
  - intros s0 r w Hne E Hw IH a b H.
    destruct a as [|x a].
    + cbn [app] in H. cbn [segs_text map concat app]. split; [reflexivity|].
      rewrite <- H, segs_text_cons, segs_concat, firstn_skipn. split; [|reflexivity].
      rewrite (segs_unfold Hne), E. reflexivity.
    + cbn [app] in H. injection H as <- H. destruct (IH _ _ H) as (IHa & IHb & IHs).
      rewrite segs_text_cons.
      assert (Hs : s0 = firstn w s0 ++ segs_text a ++ segs_text b)
        by (rewrite <- IHs, firstn_skipn; reflexivity).
      assert (Hlw : length (firstn w s0) = w) by (rewrite firstn_length; lia).
      split; [|split; [assumption|rewrite <- app_assoc; assumption]].
      assert (Hpre : firstn w s0 ++ segs_text a = firstn (w + length (segs_text a)) s0).
      { remember (firstn w s0) as p eqn:Ep. rewrite Hs, app_assoc, firstn_app, app_length, Hlw, Nat.sub_diag, firstn_O, app_nil_r.
        rewrite firstn_all2; [reflexivity|rewrite app_length, Hlw; lia]. }
      assert (Hne' : firstn w s0 ++ segs_text a <> []).
      { intros C. apply app_eq_nil in C. destruct C as [C _]. rewrite C in Hlw. cbn in Hlw. lia. }
      assert (Ed : decode_rune (firstn w s0 ++ segs_text a) = (r, w)).
      { rewrite Hpre, decode_firstn; [assumption|assumption|rewrite E; cbn [snd]; lia]. }
      rewrite (segs_unfold Hne'), Ed. cbn [fst snd].
      rewrite firstn_app, Hlw, Nat.sub_diag, firstn_O, app_nil_r, firstn_firstn, Nat.min_id.
      rewrite skipn_app, Hlw, Nat.sub_diag, skipn_all2 by lia. cbn [skipn app].
      rewrite IHa. reflexivity.
Qed.

(** A valid string keeps its segments whatever follows. *)
Lemma segs_valid_app k t : valid_utf8 k = true -> segs (k ++ t) = segs k ++ segs t.
Proof.
  unfold valid_utf8.
  apply (segs_ind (fun k l => forallb seg_ok l = true -> segs (k ++ t) = l ++ segs t)).
  - reflexivity.
  - intros s r w Hne E Hw IH H. cbn [forallb] in H. apply andb_true_iff in H. destruct H as [H1 H2].
    assert (Hok : ~ (r = rune_error /\ w = 1%nat)).
    { intros [-> ->]. unfold seg_ok in H1. cbn [fst snd] in H1. rewrite firstn_length in H1.
      rewrite Nat.min_l in H1 by lia. discriminate. }
    assert (Hne' : s ++ t <> []) by (destruct s; [congruence|discriminate]).
    rewrite (segs_unfold Hne'), (decode_app E Hne Hok). cbn [fst snd app].
    rewrite firstn_app, skipn_app. replace (w - length s)%nat with 0%nat by lia.
    cbn [firstn skipn]. rewrite app_nil_r, (IH H2). reflexivity.
Qed.

Lemma rune_count_app_valid k t : valid_utf8 k = true -> rune_count (k ++ t) = (rune_count k + rune_count t)%nat.
Proof. intros H. unfold rune_count. rewrite segs_valid_app, app_length; auto. Qed.

Lemma rune_count_le s : (rune_count s <= length s)%nat.
Proof.
  unfold rune_count. apply (segs_ind (fun s l => (length l <= length s)%nat)).
  - cbn; lia.
  - intros s0 r w Hne E Hw IH. rewrite skipn_length in IH. cbn [length]. lia.
Qed.

Lemma rune_count_0 s : rune_count s = 0%nat -> s = [].
Proof.
  intros H. rewrite <- (segs_concat s). unfold rune_count in H. apply length_zero_iff_nil in H.
  rewrite H. reflexivity.
Qed.

Lemma rune_count_pos s : s <> [] -> (1 <= rune_count s)%nat.
Proof.
  intros H. destruct (rune_count s) eqn:E; [apply rune_count_0 in E; congruence|lia].
Qed.

(** ** Decoding from the end *)
Lemma rune_start_spec b : rune_start b = true <-> (b2n b < 128 \/ 192 <= b2n b).
Proof.
  unfold rune_start. rewrite negb_true_iff. unfold in_range. rewrite andb_false_iff, !N.leb_gt. lia.
Qed.

Lemma rune_start_false b : rune_start b = false <-> 128 <= b2n b <= 191.
Proof.
  unfold rune_start. rewrite negb_false_iff. apply in_range_spec.
Qed.

(** A byte that can start a rune does start a segment. *)
Lemma start_boundary s : forall k, (k < length s)%nat -> rune_start (nth k s x00) = true ->
  exists a c, segs s = a ++ c /\ length (segs_text a) = k.
Proof.
  apply (segs_ind (fun s l => forall k, (k < length s)%nat -> rune_start (nth k s x00) = true ->
    exists a c, l = a ++ c /\ length (segs_text a) = k)).
  - cbn. intros; lia.
  - intros s0 r w Hne E Hw IH k Hk Hs.
    destruct (Nat.lt_ge_cases k w) as [Hkw|Hkw].
    + assert (k = 0%nat) as ->.
      { apply rune_start_spec in Hs.
        pose proof (decode_dec Hne) as D. rewrite E in D. cbn [fst snd] in D.
        destruct D as [b t Hs' Hb|b t Hs' Hb|b0 b1 t Hs' H0 H1|b0 b1 b2 t Hs' H0 H1 H2|b0 b1 b2 b3 t Hs' H0 H1 H2 H3];
          subst s0; try lia; pose proof (second_lo_bounds (b2n b0)); pose proof (second_hi_bounds (b2n b0)).
        - destruct k as [|[|k]]; cbn [nth] in Hs; lia.
        - destruct k as [|[|[|k]]]; cbn [nth] in Hs; lia.
        - destruct k as [|[|[|[|k]]]]; cbn [nth] in Hs; lia. }
      exists [], ((r, firstn w s0) :: segs (skipn w s0)). auto.
    + assert (Hn : nth k s0 x00 = nth (k - w) (skipn w s0) x00).
      { rewrite <- (firstn_skipn w s0) at 1. rewrite app_nth2; rewrite firstn_length, Nat.min_l by lia; [reflexivity|lia]. }
      rewrite Hn in Hs. destruct (IH (k - w)%nat) as (a & c & Ha & Hl); [rewrite skipn_length; lia|assumption|].
      exists ((r, firstn w s0) :: a), c. rewrite Ha, segs_text_cons, app_length, firstn_length, Hl. split; [reflexivity|lia].
Qed.

Lemma scan_back_spec f s : forall start lim, (start - lim < Z.of_nat f)%Z -> (start + 1 >= lim)%Z ->
  let r := scan_back f s start lim in
  (r <= start)%Z /\
  ((lim <= r)%Z /\ rune_start (nth (Z.to_nat r) s x00) = true \/ r = (lim - 1)%Z) /\
  (forall k, (r < k <= start)%Z -> rune_start (nth (Z.to_nat k) s x00) = false).
Proof.
  induction f as [|f IH]; intros start lim Hf Hl; cbn [scan_back].
  - repeat split; try lia.
  - destruct (Z.ltb_spec start lim).
    + repeat split; try lia.
    + destruct (rune_start (nth (Z.to_nat start) s x00)) eqn:E.
      * repeat split; try lia. left. auto.
      * destruct (IH (start - 1)%Z lim) as (A & B & C); [lia|lia|].
        repeat split; [lia|assumption|].
        intros k Hk. destruct (Z.eq_dec k start) as [->|]; [assumption|]. apply C. lia.
Qed.

Lemma decode_last_spec s l r b : segs s = l ++ [(r, b)] -> decode_last_rune s = (r, length b).
Proof.
  intros Hsegs. destruct (segs_split Hsegs) as (Hl & Hb & Hs).
  assert (Hin : In (r, b) (segs s)) by (rewrite Hsegs; apply in_or_app; right; left; reflexivity).
  pose proof (segs_nonempty_seg Hin) as Hbl. pose proof (segs_decode Hin) as Hd. cbn [fst snd] in *.
  assert (Htx : segs_text [(r, b)] = b) by (cbn; apply app_nil_r). rewrite Htx in Hs.
  set (pre := segs_text l) in *. clearbody pre.
  assert (Hne : s <> []). { rewrite Hs. destruct pre, b; cbn [length] in *; try lia; discriminate. }
  assert (Hbne : b <> []) by (destruct b; cbn [length] in *; [lia|discriminate]).
  assert (Hlen : length s = (length pre + length b)%nat) by (rewrite Hs, app_length; reflexivity).
  assert (Hnth : forall k, nth (length pre + k) s x00 = nth k b x00) by (intros k; rewrite Hs; apply app_nth2_plus).
  unfold decode_last_rune. destruct s as [|s0 st] eqn:Es; [congruence|]. rewrite <- Es in *. clear Es s0 st.
  cbv zeta.
  destruct (N.ltb_spec (b2n (nth (length s - 1) s x00)) 128) as [Hascii|Hasc].
  { replace (length s - 1)%nat with (length pre + (length b - 1))%nat in * by lia. rewrite Hnth in *.
    pose proof (decode_dec Hbne) as D. rewrite Hd in D. cbn [fst snd] in D.
    inversion D as [b0 t Hs' Hb' Hr Hlb|b0 t Hs' Hb' Hr Hlb|b0 b1 t Hs' H0 H1 Hr Hlb|b0 b1 b2 t Hs' H0 H1 H2 Hr Hlb|b0 b1 b2 b3 t Hs' H0 H1 H2 H3 Hr Hlb];
      rewrite <- Hlb in *; cbn [length Nat.sub] in *; try (rewrite Hs' in Hascii; cbn [nth] in Hascii; lia).
    rewrite Hs'. reflexivity. }
  assert (Hsb := @scan_back_spec 4 s (Z.of_nat (length s) - 2) (Z.max 0 (Z.of_nat (length s) - 4))).
  cbv zeta in Hsb. destruct Hsb as (A & B & C); [lia|lia|].
  set (start := scan_back 4 s (Z.of_nat (length s) - 2) (Z.max 0 (Z.of_nat (length s) - 4))) in *. clearbody start.
  destruct (Nat.eq_dec (length b) 1) as [Hb1|Hb1].
  - (* last segment is one byte, not ASCII *)
    assert (r = rune_error) as ->.
    { pose proof (decode_dec Hbne) as D. rewrite Hd in D. cbn [fst snd] in D.
      replace (length s - 1)%nat with (length pre + 0)%nat in Hasc by lia. rewrite Hnth in Hasc.
      inversion D; try reflexivity; subst b; cbn [nth length] in *; lia. }
    rewrite Hb1.
    assert (Hk : (Z.to_nat (Z.max 0 start) < length s)%nat) by lia.
    set (k := Z.to_nat (Z.max 0 start)) in *. assert (Hkd : k = Z.to_nat (Z.max 0 start)) by reflexivity.
    assert (Hsk : skipn k s <> []).
    { intros Ck. apply (f_equal (@length byte)) in Ck. rewrite skipn_length in Ck. cbn in Ck. lia. }
    pose proof (decode_width Hsk) as Hw. pose proof (decode_width4 (skipn k s)) as Hw4.
    rewrite skipn_length in Hw.
    destruct (decode_rune (skipn k s)) as [r' size] eqn:E. cbn [fst snd] in Hw, Hw4.
    destruct (Z.eqb_spec (Z.max 0 start + Z.of_nat size) (Z.of_nat (length s))) as [Heq|]; [|reflexivity].
    destruct B as [[B1 B2]|B].
    + assert (Hkb : rune_start (nth k s x00) = true) by (unfold k; rewrite Z.max_r by lia; assumption).
      destruct (start_boundary Hk Hkb) as (a & c & Hac & Hla).
      destruct (segs_split Hac) as (_ & Hc & Hsac).
      assert (Hskc : skipn k s = segs_text c).
      { rewrite Hsac at 1. rewrite skipn_app, Hla, Nat.sub_diag, skipn_all2 by lia. reflexivity. }
      assert (c = [(r', skipn k s)]) as ->.
      { rewrite <- Hc, <- Hskc, (segs_unfold Hsk), E. cbn [fst snd].
        assert (size = length (skipn k s)) by (rewrite skipn_length; lia).
        rewrite firstn_all2 by lia. rewrite (@skipn_all2 _ size (skipn k s)) by lia. reflexivity. }
      rewrite Hsegs in Hac. apply app_inj_tail in Hac. destruct Hac as [_ Hac]. injection Hac as Hr Hsb.
      subst r'. f_equal. apply (f_equal (@length byte)) in Hsb. rewrite skipn_length in Hsb. lia.
    + assert (length s <= 1 \/ 2 <= length s)%nat as [Hs1|Hs2] by lia.
      * assert (k = 0%nat) by lia. rewrite H in *. cbn [skipn] in E.
        assert (length pre = 0%nat) by lia. apply length_zero_iff_nil in H0. rewrite H0 in Hs. cbn [app] in Hs.
        rewrite Hs, Hd, Hb1 in E. congruence.
      * assert (k = 0%nat) by lia. assert (size = length s) by lia.
        rewrite H in *. cbn [skipn] in E.
        exfalso. clear Hsk. pose proof (decode_dec Hne) as D. rewrite E in D. cbn [fst snd] in D.
        assert (Hn0 : rune_start (nth (Z.to_nat 0) s x00) = false) by (apply C; lia).
        apply rune_start_false in Hn0. cbn [Z.to_nat] in Hn0.
        inversion D as [b0 t Hs' Hb' Hr Hlb|b0 t Hs' Hb' Hr Hlb|b0 b1 t Hs' H0' H1 Hr Hlb|b0 b1 b2 t Hs' H0' H1 H2 Hr Hlb|b0 b1 b2 b3 t Hs' H0' H1 H2 H3 Hr Hlb];
        try lia; rewrite Hs' in Hn0; cbn [nth] in Hn0; lia.
  - (* last segment is a multi-byte rune: the scan stops at its first byte *)
    assert (Hst : start = Z.of_nat (length pre)).
    { assert (Hb0 : rune_start (nth (length pre) s x00) = true /\
                    forall k, (length pre < k < length s)%nat -> rune_start (nth k s x00) = false).
      { pose proof (decode_dec Hbne) as D. rewrite Hd in D. cbn [fst snd] in D.
        assert (Hn0 := Hnth 0%nat). rewrite Nat.add_0_r in Hn0. rewrite Hn0.
        assert (Hk : forall k, (length pre < k < length s)%nat -> nth k s x00 = nth (k - length pre) b x00 /\ (0 < k - length pre < length b)%nat).
        { intros k Hk. split; [|lia]. rewrite <- Hnth. f_equal. lia. }
        inversion D as [b0 t Hs' Hb' Hr Hlb|b0 t Hs' Hb' Hr Hlb|b0 b1 t Hs' H0' H1 Hr Hlb|b0 b1 b2 t Hs' H0' H1 H2 Hr Hlb|b0 b1 b2 b3 t Hs' H0' H1 H2 H3 Hr Hlb];
          try lia; rewrite Hs' in Hk |- *;
          pose proof (second_lo_bounds (b2n b0)); pose proof (second_hi_bounds (b2n b0));
          (split; [apply rune_start_spec; cbn [nth]; lia|]);
          intros k Hkk; destruct (Hk _ Hkk) as [-> Hk']; apply rune_start_false; rewrite <- Hs', <- Hlb in Hk'.
        - assert (k - length pre = 1)%nat as -> by lia. cbn [nth]. lia.
        - assert (k - length pre = 1 \/ k - length pre = 2)%nat as [-> | ->] by lia; cbn [nth]; lia.
        - assert (k - length pre = 1 \/ k - length pre = 2 \/ k - length pre = 3)%nat as [-> | [-> | ->]] by lia; cbn [nth]; lia. }
      destruct Hb0 as [Hb0 Hbk].
      destruct (Z.lt_trichotomy start (Z.of_nat (length pre))) as [Hlt|[Heq|Hgt]]; [|assumption|].
      - specialize (C (Z.of_nat (length pre))). rewrite Nat2Z.id, Hb0 in C. discriminate C. lia.
      - destruct B as [[B1 B2]|B]; [|lia].
        rewrite Hbk in B2 by lia. discriminate. }
    rewrite Hst. replace (Z.to_nat (Z.max 0 (Z.of_nat (length pre)))) with (length pre) by lia.
    assert (Hsk : skipn (length pre) s = b).
    { rewrite Hs, skipn_app, Nat.sub_diag, skipn_all2 by lia. reflexivity. }
    rewrite Hsk, Hd. destruct (Z.eqb_spec (Z.max 0 (Z.of_nat (length pre)) + Z.of_nat (length b)) (Z.of_nat (length s))); [reflexivity|lia].
Qed.

(** ** string(r) of a decoded rune gives back its bytes (for well-formed segments). *)
Lemma encode_decode b r : decode_rune b = (r, length b) -> b <> [] ->
  ~ (r = rune_error /\ length b = 1%nat) -> encode_rune r = b.
Proof.
  intros E Hne Hok. pose proof (decode_dec Hne) as D. rewrite E in D. cbn [fst snd] in D.
  inversion D as [b0 t Hs Hb Hr Hlb|b0 t Hs Hb Hr Hlb|b0 b1 t Hs H0 H1 Hr Hlb|b0 b1 b2 t Hs H0 H1 H2 Hr Hlb|b0 b1 b2 b3 t Hs H0 H1 H2 H3 Hr Hlb];
    rewrite Hs in Hlb; cbn [length] in Hlb; try (assert (t = []) as -> by (destruct t; [reflexivity|cbn [length] in Hlb; lia]));
    unfold encode_rune; rewrite Hs.
  - destruct (N.ltb_spec (b2n b0) 128); [|lia]. rewrite n2b_b2n. reflexivity.
  - exfalso. apply Hok. rewrite Hs. auto.
  - set (x := (b2n b0 - 192) * 64 + (b2n b1 - 128)).
    assert (128 <= x < 2048) by (unfold x; lia).
    destruct (N.ltb_spec x 128); [lia|]. destruct (N.ltb_spec x 2048); [|lia].
    replace (192 + x / 64) with (b2n b0) by (unfold x; lia).
    replace (128 + x mod 64) with (b2n b1) by (unfold x; lia).
    rewrite !n2b_b2n. reflexivity.
  - set (x := (b2n b0 - 224) * 4096 + (b2n b1 - 128) * 64 + (b2n b2 - 128)).
    pose proof (second_lo_bounds (b2n b0)). pose proof (second_hi_bounds (b2n b0)).
    assert (2048 <= x < 65536).
    { unfold x. destruct (N.eq_dec (b2n b0) 224) as [E0|E0]; [|lia].
      unfold second_lo in H1. rewrite E0 in *. cbn in H1. lia. }
    assert (~ (55296 <= x <= 57343)).
    { intros C. destruct (N.eq_dec (b2n b0) 237) as [E0|E0]; [|unfold x in C; lia].
      unfold second_hi in H1. rewrite E0 in *. cbn in H1. unfold x in C; lia. }
    destruct (N.ltb_spec x 128); [lia|]. destruct (N.ltb_spec x 2048); [lia|].
    destruct (N.leb_spec 55296 x); destruct (N.leb_spec x 57343); try lia;
    destruct (N.ltb_spec 1114111 x); try lia; destruct (N.ltb_spec x 65536); try lia; cbn [andb orb];
    replace (224 + x / 4096) with (b2n b0) by (unfold x; lia);
    replace (128 + x / 64 mod 64) with (b2n b1) by (unfold x; lia);
    replace (128 + x mod 64) with (b2n b2) by (unfold x; lia);
    rewrite !n2b_b2n; reflexivity.
  - set (x := (b2n b0 - 240) * 262144 + (b2n b1 - 128) * 4096 + (b2n b2 - 128) * 64 + (b2n b3 - 128)).
    pose proof (second_lo_bounds (b2n b0)). pose proof (second_hi_bounds (b2n b0)).
    assert (65536 <= x <= 1114111).
    { unfold x. destruct (N.eq_dec (b2n b0) 240) as [E0|E0]; [|destruct (N.eq_dec (b2n b0) 244) as [E1|E1]].
      - unfold second_lo in H1. rewrite E0 in *. cbn in H1. lia.
      - unfold second_hi in H1. rewrite E1 in *. cbn in H1. lia.
      - lia. }
    destruct (N.ltb_spec x 128); [lia|]. destruct (N.ltb_spec x 2048); [lia|].
    destruct (N.leb_spec 55296 x); destruct (N.leb_spec x 57343); try lia;
    destruct (N.ltb_spec 1114111 x); try lia; destruct (N.ltb_spec x 65536); try lia; cbn [andb orb];
    replace (240 + x / 262144) with (b2n b0) by (unfold x; lia);
    replace (128 + x / 4096 mod 64) with (b2n b1) by (unfold x; lia);
    replace (128 + x / 64 mod 64) with (b2n b2) by (unfold x; lia);
    replace (128 + x mod 64) with (b2n b3) by (unfold x; lia);
    rewrite !n2b_b2n; reflexivity.
Qed.
