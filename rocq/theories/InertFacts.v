(** The JSON answers hold no control character and none of the signs < > & as such. *)
From Verif Require Import Utf8Facts Json JsonFacts Server TextFacts.
From Coq Require Import Lia ZifyBool ZifyN ZifyNat.
Set Implicit Arguments. Unset Strict Implicit.
Open Scope N_scope.

Definition inert (s : bytes) : Prop := Forall (fun b => 32 <= b2n b /\ ~ In b [x3c; x3e; x26]) s.
Definition inert_b (s : bytes) : bool := forallb (fun b => (32 <=? b2n b) && negb (existsb (Byte.eqb b) [x3c; x3e; x26])) s.
Lemma inert_ok s : inert_b s = true -> inert s.
Proof.
  unfold inert_b. rewrite forallb_forall. intros H. apply Forall_forall. intros b Hb. specialize (H b Hb).
  apply andb_true_iff in H. destruct H as [H1 H2]. split; [lia|]. intros Hin. apply negb_true_iff in H2.
  assert (E : existsb (Byte.eqb b) [x3c; x3e; x26] = true); [|congruence].
  apply existsb_exists. exists b. split; [assumption|]. apply Byte.byte_dec_lb. reflexivity.
Qed.
Lemma inert_app a b : inert a -> inert b -> inert (a ++ b).
Proof. intros. apply Forall_app. auto. Qed.
Lemma inert_high raw : Forall (fun b => 128 <= b2n b) raw -> inert raw.
Proof.
  apply Forall_impl. intros b H. split; [lia|]. intros [<-|[<-|[<-|[]]]]; vm_compute in H; apply H; reflexivity.
Qed.
Lemma inert_rune_low nw b : b2n b < 128 -> inert (json_rune nw (b2n b, [b])).
Proof. intros H. apply N.ltb_lt in H. destruct b; try discriminate H; destruct nw; apply inert_ok; reflexivity. Qed.
Lemma inert_rune nw c raw : raw <> [] -> decode_rune raw = (c, length raw) -> inert (json_rune nw (c, raw)).
Proof.
  intros Hn E. pose proof (decode_dec Hn) as D. rewrite E in D. cbn [fst snd] in D.
  assert (High : 128 <= c -> Forall (fun b => 128 <= b2n b) raw -> inert (json_rune nw (c, raw))).
  { intros Hc Hr. unfold json_rune. destruct (N.ltb_spec c 128); [lia|]. destruct (_ && _); [apply inert_ok; reflexivity|].
    destruct (N.eqb_spec c 8232) as [->|]; [apply inert_ok; reflexivity|]. destruct (N.eqb_spec c 8233) as [->|]; [apply inert_ok; reflexivity|].
    cbn [orb]. apply inert_high. assumption. }
  inversion D as [b t0 Hs Hb Hr Hlb|b t0 Hs Hb Hr Hlb|b0 b1 t0 Hs H0 H1 Hr Hlb|b0 b1 b2 t0 Hs H0 H1 H2 Hr Hlb|b0 b1 b2 b3 t0 Hs H0 H1 H2 H3 Hr Hlb];
    rewrite Hs in Hlb; cbn [length] in Hlb; assert (t0 = []) as -> by (destruct t0; [reflexivity|cbn [length] in Hlb; lia]).
  - rewrite Hs. apply inert_rune_low. assumption.
  - rewrite Hr. apply High; [rewrite <- Hr; vm_compute; discriminate|]. rewrite Hs. repeat constructor. lia.
  - rewrite Hr. apply High; [lia|]. rewrite Hs. repeat constructor; lia.
  - pose proof (second_lo_bounds (b2n b0)). pose proof (second_hi_bounds (b2n b0)).
    rewrite Hr. apply High; [|rewrite Hs; repeat constructor; lia].
    rewrite <- Hr. destruct (N.eq_dec (b2n b0) 224) as [E0|E0]; [|lia]. unfold second_lo in H1. rewrite E0 in *. cbn in H1. lia.
  - pose proof (second_lo_bounds (b2n b0)). pose proof (second_hi_bounds (b2n b0)).
    rewrite Hr. apply High; [|rewrite Hs; repeat constructor; lia].
    rewrite <- Hr. destruct (N.eq_dec (b2n b0) 240) as [E0|E0]; [|lia]. unfold second_lo in H1. rewrite E0 in *. cbn in H1. lia.
Qed.
Lemma inert_string nw s : inert (json_string nw s).
Proof.
  unfold json_string. apply inert_app; [apply inert_ok; reflexivity|]. apply inert_app; [|apply inert_ok; reflexivity].
  apply Forall_concat. apply Forall_map. apply Forall_forall. intros [c raw] Hg.
  apply inert_rune; [pose proof (segs_nonempty_seg Hg) as H; destruct raw; [cbn in H; lia|discriminate]|apply (segs_decode Hg)].
Qed.
Lemma inert_join sep l : inert sep -> Forall inert l -> inert (join sep l).
Proof.
  intros Hs. induction l as [|x l IH]; intros H; [constructor|]. inversion H as [|? ? Hx Hl]; subst. destruct l as [|y l]; [exact Hx|].
  change (join sep (x :: y :: l)) with (x ++ sep ++ join sep (y :: l)). apply inert_app; [assumption|]. apply inert_app; [assumption|]. apply IH. assumption.
Qed.
Lemma inert_array l : Forall inert l -> inert (json_array l).
Proof.
  intros H. unfold json_array. apply inert_app; [apply inert_ok; reflexivity|]. apply inert_app; [|apply inert_ok; reflexivity].
  apply inert_join; [apply inert_ok; reflexivity|assumption].
Qed.
Lemma inert_strings nw l : inert (json_strings nw l).
Proof.
  destruct l as [l|]; [|apply inert_ok; reflexivity]. apply inert_array. apply Forall_map. apply Forall_forall. intros x _. apply inert_string.
Qed.
Lemma inert_object nw l : Forall (fun kv => inert (snd kv)) l -> inert (json_object nw l).
Proof.
  intros H. unfold json_object. apply inert_app; [apply inert_ok; reflexivity|]. apply inert_app; [|apply inert_ok; reflexivity].
  apply inert_join; [apply inert_ok; reflexivity|]. apply Forall_map. eapply Forall_impl; [|exact H]. intros kv Hkv.
  apply inert_app; [apply inert_string|]. apply inert_app; [apply inert_ok; reflexivity|exact Hkv].
Qed.
Lemma inert_itoa z : inert (itoa z).
Proof.
  unfold itoa. apply inert_app; [destruct (z <? 0)%Z; apply inert_ok; reflexivity|].
  destruct (@digits_form (S (N.to_nat (N.log2 (Z.abs_N z)))) (Z.abs_N z) []) as (k' & ds' & E' & F & _); [|lia|].
  - rewrite Nat2N.inj_succ, N2Nat.id. destruct (N.eq_dec (Z.abs_N z) 0) as [->|Hn]; [reflexivity|]. apply N.log2_spec. lia.
  - rewrite E', app_nil_r. clear E'. induction F as [|d l H _ IH]; cbn [map]; constructor; [|assumption].
    unfold digit. split; [rewrite b2n_n2b; lia|]. intros [E|[E|[E|[]]]]; apply (f_equal b2n) in E; rewrite b2n_n2b in E by lia; [change (b2n x3c) with 60 in E|change (b2n x3e) with 62 in E|change (b2n x26) with 38 in E]; lia.
Qed.
Lemma inert_token nw td : inert (marshal_token nw td).
Proof.
  apply inert_object. repeat (constructor; [cbn [snd]; first [apply inert_itoa|apply inert_string|apply inert_strings]|]). constructor.
Qed.
Lemma inert_response nw st l : inert (marshal_response nw st l).
Proof.
  apply inert_object. constructor; [destruct st; apply inert_ok; reflexivity|]. constructor; [|constructor]. cbn [snd].
  destruct l as [l|]; [|apply inert_ok; reflexivity]. apply inert_array. apply Forall_map. apply Forall_forall. intros x _. apply inert_token.
Qed.
Theorem serve_inert decode nw ideo t body r : serve_tokenize decode nw ideo t body = Ok r -> rs_status r = 200%Z ->
  Forall (fun b => 32 <= b2n b /\ ~ In b [x3c; x3e; x26]) (rs_body r).
Proof.
  unfold serve_tokenize. destruct (decode body) as [req|err].
  - destruct (bytes_eqb _ _); [intros H _; injection H as <-; apply inert_ok; reflexivity|].
    destruct (analyze _ _ _ _) as [ts| |]; cbn [rbind]; [|discriminate|discriminate].
    destruct (collect _ _) as [data| |]; cbn [rbind]; [|discriminate|discriminate].
    intros H _. injection H as <-. apply inert_response.
  - intros H. injection H as <-. cbn. discriminate.
Qed.
