(** Extended mode on any bytes: invalid UTF-8 comes back as U+FFFD. *)
From Verif Require Import Utf8Facts BuildFacts TokFacts AnalyzeFacts.
From Coq Require Import List Arith Lia ZifyBool ZifyNat ZifyN.
Import ListNotations.
Set Implicit Arguments.
Unset Strict Implicit.

Lemma firstn_in A (l : list A) m k : k < m -> nth_error (firstn m l) k = nth_error l k.
Proof. revert l k. induction m as [|m IH]; intros l k H; [lia|]. destruct l as [|x l]; [destruct k; reflexivity|]. destruct k as [|k]; [reflexivity|]. cbn. apply IH. lia. Qed.
Lemma skipn_in A (l : list A) m k : nth_error (skipn m l) k = nth_error l (m + k).
Proof. revert l. induction m as [|m IH]; intros l; [reflexivity|]. destruct l as [|x l]; [destruct k; reflexivity|]. apply IH. Qed.

Section Any.
Variables (d : dict) (u : option udict) (omit : bool) (inp : bytes).
Notation n := (rcount inp).
Notation t := (Tokenizer d u omit).

(** In any text: the words of the dictionaries are valid, and the runes of the others are encoded again. *)
Lemma runes_sub i s k j : valid_utf8 (text inp i j) = true -> i <= s -> s + k <= j -> j <= n ->
  concat (map (fun x => encode_rune (rune_at inp x)) (seq s k)) = text inp s (s + k).
Proof.
  intros Hv. revert s; induction k as [|k IH]; intros s Hi Hk Hj; cbn [seq map concat].
  - unfold text. replace (s + 0 - s) with 0 by lia. reflexivity.
  - rewrite IH by lia. assert (Hs : s < n) by lia. destruct (encode_rune_at Hs) as [_ E]. rewrite E.
    + replace (s + S k) with (S s + k) by lia. symmetry. apply text_app. lia.
    + unfold valid_utf8 in Hv. rewrite text_segs in Hv by lia. rewrite forallb_forall in Hv.
      destruct (seg_at Hs) as (b & E1 & E2). apply Hv. rewrite E2. apply (nth_error_In _ (s - i)). rewrite firstn_in by lia. rewrite skipn_in. replace (i + (s - i)) with s by lia. exact E1.
Qed.
Lemma words_surfaces_any i ws j : wf_dict d -> wf_udict u -> chain d u inp i ws j ->
  concat (map t_surface (flat_map (word_tokens t inp LExtended) ws)) = concat (map (fun x => encode_rune (rune_at inp x)) (seq i (j - i))).
Proof.
  intros Hd Hu. induction 1 as [|w ws0 j Hc Hch IH]; cbn [flat_map map concat]; [rewrite Nat.sub_diag; reflexivity|].
  assert (R2 : w_stop w <= j).
  { clear - Hch. remember (w_stop w) as i eqn:E. clear E. induction Hch as [|w' ws0 j Hc' Hch IH]; [lia|]. pose proof (candidate_range Hc'). lia. }
  rewrite map_app, concat_app, IH. pose proof (candidate_range Hc) as R.
  replace (j - w_start w) with ((w_stop w - w_start w) + (j - w_stop w)) by lia. rewrite seq_app, map_app, concat_app. replace (w_start w + (w_stop w - w_start w)) with (w_stop w) by lia. f_equal.
  assert (K : w_class w <> UNKNOWN -> valid_utf8 (text inp (w_start w) (w_stop w)) = true).
  { destruct Hc as [ud id i' j' -> (K1 & K2)|id i' j' _ (K1 & K2)|]; cbn [w_class w_start w_stop]; intros Hn; [apply (Hu _ _ K2)|apply (@wf_idx _ Hd _ _ K2)|congruence]. }
  unfold word_tokens.
  destruct (w_class w) eqn:Ec; try (cbn [map concat t_surface word_token]; rewrite app_nil_r; unfold word_surface; rewrite Ec; unfold word_text; rewrite (runes_sub (K ltac:(discriminate))) by lia; f_equal; lia).
  rewrite map_map. reflexivity.
Qed.
End Any.

(** C48 for any bytes *)
Theorem analyze_extended_any d u ideo omit inp (Hd : wf_dict d) (Hu : wf_udict u) : no_loss d u inp mode_extended ->
  exists ts, analyze ideo (Tokenizer d u omit) inp mode_extended = Ok ts /\ surfaces ts = concat (map (fun g => encode_rune (fst g)) (segs inp)).
Proof.
  intros Hlen. destruct (analyze_final inp ideo mode_extended Hd Hu) as (i & ws & E & C & I & O).
  eexists. split; [apply E|]. assert (i = 0) as -> by (eapply no_loss_start; eauto; tauto). unfold surfaces.
  rewrite (map_final Hd Hu omit (to_lmode mode_extended) surface_free C).
  change (to_lmode mode_extended) with LExtended.
  rewrite (words_surfaces_any omit Hd Hu C). f_equal. rewrite Nat.sub_0_r. unfold rcount, rune_at.
  assert (Z : forall l, map (fun x => encode_rune (fst (nth x l (0%N, [])))) (seq 0 (length l)) = map (fun g : N * bytes => encode_rune (fst g)) l).
  { induction l as [|g l IH]; [reflexivity|]. cbn [length seq map nth]. f_equal. rewrite <- IH, <- seq_shift, map_map. reflexivity. }
  apply Z.
Qed.
