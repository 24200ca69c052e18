(** The length limits are exact: one rune more and costs saturate, or wrap around. *)
From Verif Require Export AnalyzeFacts.
From Coq Require Import ZifyBool ZifyNat ZifyN.
Set Implicit Arguments.
Unset Strict Implicit.
Open Scope nat_scope.

(** The last word of the answer is the predecessor Forward chose for EOS. *)
Lemma analyze_last d u inp ideo mode : wf_dict d -> wf_udict u -> 0 < rcount inp -> exists la la' i ws w j q,
  built d u inp la /\ forwarded d ideo (to_lmode mode) la la' /\
  (forall omit, analyze ideo (Tokenizer d u omit) inp mode =
     Ok (final_tokens (Tokenizer d u omit) inp (to_lmode mode) i (ws ++ [w]))) /\
  chain d u inp i (ws ++ [w]) (rcount inp) /\ (i = 0 \/ 0 < i /\ forall w, candidate d u inp w -> w_stop w <> i) /\
  nth_error (nth (rcount inp) la' []) j = Some q /\ core q = node_of d inp w /\
  (forall j' q', nth_error (nth (rcount inp) la' []) j' = Some q' ->
     (new_cost d ideo (to_lmode mode) q (eos_node inp) <= new_cost d ideo (to_lmode mode) q' (eos_node inp))%Z).
Proof.
  intros Hd Hu Hpos. set (n := rcount inp) in *. set (m := to_lmode mode).
  destruct (lattice_ok inp Hd Hu ideo m) as (la & la' & E1 & Hb & E2 & Hf).
  destruct (eos_at Hb Hf) as (eos & He & Hr).
  destruct Hr as [[Hem _]|(j & q & Hq & Hbest & Heos)].
  - exfalso. cbn [n_start eos_node] in Hem. fold n in Hem.
    destruct (@segmentation_from d u inp Hd Hu la Hb n 0 eq_refl) as (ws & Hws).
    destruct ws as [|w ws _] using rev_ind.
    + assert (Hx : n = 0) by (inversion Hws; unfold n; congruence). lia.
    + apply chain_inv_snoc in Hws. destruct Hws as (_ & Hc & Hst). fold n in Hst.
      pose proof (candidate_range Hc) as R. fold n in R.
      assert (Hin : In (node_of d inp w) (nth n la [])).
      { apply (b_mid Hb); [fold n; lia|]. exists w. auto. }
      apply In_nth_error in Hin. destruct Hin as (j & Hj).
      assert (F := fw_step Hf (i := n)). rewrite (b_len Hb) in F. specialize (F ltac:(fold n; lia)).
      destruct (Forall2_nth_l F Hj) as (t' & Hj' & _). rewrite Hem in Hj'. destruct j; discriminate.
  - cbn [n_start eos_node] in Hq, Hbest, Heos. fold n in Hq, Hbest, Heos.
    destruct (walk_chain Hb Hf (Nat.le_refl n) Hq) as (l & i & ws & tail & B & C & E & T). fold n in C.
    destruct ws as [|w ws _] using rev_ind.
    { exfalso. assert (i = n) by (inversion C; congruence). destruct T as [[-> _]|(_ & _ & Hne & _)]; [lia|congruence]. }
    exists la, la', i, ws, w, j, q. split; [assumption|]. split; [assumption|]. split.
    { intros omit. unfold analyze, run_lattice. cbn [tk_dict tk_udict]. rewrite E1. cbn [rbind]. fold m. rewrite E2. cbn [rbind].
      assert (Bk : back la' eos (eos :: l)).
      { eapply back_step; [rewrite Heos; reflexivity| |exact B]. apply (get2_la' Hb Hf); [fold n; lia|exact Hq]. }
      rewrite (@backward_ok _ _ _ _ _ m _ _ _ _ Hb Hf He Bk). cbn [rbind snd].
      eapply (@tokens_of_walk d u inp Hd Hu omit m (eos :: l) i (ws ++ [w]) tail); [exact C| |tauto].
      cbn [map]. rewrite E, Heos. reflexivity. }
    split; [assumption|]. split; [tauto|]. split; [assumption|]. split.
    { rewrite map_app, rev_app_distr in E. cbn [map rev app] in E. apply (f_equal (@hd_error _)) in E. destruct B as [t Hp|t i0 j0 q0 l Hp Hg Hbk]; cbn [map hd_error] in E; apply (f_equal (fun o => match o with Some x => x | None => bos_node end)) in E; exact E. }
    intros j' q' Hq'. destruct Hbest as (q1 & Hq1 & Hb1). assert (q1 = q) as -> by congruence. apply (Hb1 _ _ Hq').
Qed.

(** ** One word over the whole input against single runes *)
Definition kawa : bytes := s2b "川".
Definition kawa_input (n : nat) : bytes := concat (repeat kawa n).
Definition kawa_dict (n : nat) : dict :=
  Dict [(kawa_input n, 0%Z)] [Morph 0 0 32767] 2 [32767; 32767; -32768; -32768]%Z
       (fun _ => 0) [false] [false] [(0, 0)]%Z [] [Morph 1 1 (-32768)]%Z [] [] None [] [] [].

Lemma kawa_segs n : segs (kawa_input n) = repeat (24029%N, kawa) n.
Proof.
  unfold kawa_input. induction n as [|n IH]; [reflexivity|]. cbn [repeat concat].
  rewrite segs_unfold by discriminate. change (decode_rune (kawa ++ concat (repeat kawa n))) with (24029%N, 3).
  cbn [fst snd]. change (firstn 3 (kawa ++ concat (repeat kawa n))) with kawa. change (skipn 3 (kawa ++ concat (repeat kawa n))) with (concat (repeat kawa n)).
  rewrite IH. reflexivity.
Qed.
Lemma kawa_rcount n : rcount (kawa_input n) = n.
Proof. unfold rcount. rewrite kawa_segs. apply repeat_length. Qed.
Lemma firstn_repeat' {A} (a : A) k n : firstn k (repeat a n) = repeat a (Nat.min k n).
Proof. revert n; induction k as [|k IH]; intros [|n]; cbn; [reflexivity..|]. rewrite IH. reflexivity. Qed.
Lemma skipn_repeat' {A} (a : A) k n : skipn k (repeat a n) = repeat a (n - k).
Proof. revert n; induction k as [|k IH]; intros [|n]; cbn; [reflexivity..|]. apply IH. Qed.
Lemma kawa_text n i j : i <= j <= n -> text (kawa_input n) i j = kawa_input (j - i).
Proof.
  intros H. unfold text. rewrite kawa_segs, skipn_repeat', firstn_repeat'. replace (Nat.min (j - i) (n - i)) with (j - i) by lia.
  unfold kawa_input. generalize (j - i). intros k. induction k as [|k IH]; [reflexivity|]. cbn [repeat map concat snd]. rewrite IH. reflexivity.
Qed.
Lemma kawa_length n : length (kawa_input n) = 3 * n.
Proof. unfold kawa_input. induction n as [|n IH]; [reflexivity|]. cbn [repeat concat]. rewrite app_length, IH. change (length kawa) with 3. lia. Qed.
Lemma kawa_inj a b : kawa_input a = kawa_input b -> a = b.
Proof. intros H. apply (f_equal (@length _)) in H. rewrite !kawa_length in H. lia. Qed.
Lemma kawa_valid n : valid_utf8 (kawa_input n) = true.
Proof. unfold valid_utf8. rewrite kawa_segs. apply forallb_forall. intros x Hx. apply repeat_spec in Hx. subst. reflexivity. Qed.

Lemma pen_core m ideo p : node_penalty m ideo p = node_penalty m ideo (core p).
Proof. reflexivity. Qed.

Section Kawa.
Variable n : nat.
Hypothesis Hn : 2 <= n.
Let inp := kawa_input n.
Let d := kawa_dict n.

Lemma wf_kawa : wf_dict d.
Proof.
  constructor.
  - intros key id [[= <- <-]|[]]. split; [|split; [apply kawa_valid|cbn; lia]].
    intros E. apply (f_equal (@length _)) in E. rewrite kawa_length in E. cbn in E. lia.
  - exists 2%Z. repeat split; cbn in *; try lia;
      repeat match goal with H : _ \/ _ |- _ => destruct H as [H|H] end; subst; try contradiction; cbn; unfold int16; lia.
  - cbn. intros c H. repeat destruct H as [<-|H]; try contradiction; unfold int16; lia.
  - intros r. cbn. lia.
  - intros r. cbn. lia.
Qed.

Lemma kawa_keyword id i j : keyword_at (d_index d) inp id i j <-> id = 0%Z /\ i = 0 /\ j = n.
Proof.
  unfold keyword_at, inp. rewrite kawa_rcount. split.
  - intros [Hr [E|[]]]. injection E as E <-. rewrite kawa_text in E by lia. apply kawa_inj in E. lia.
  - intros (-> & -> & ->). split; [lia|]. left. rewrite kawa_text, Nat.sub_0_r by lia. reflexivity.
Qed.

Lemma kawa_candidate w : candidate d None inp w <-> w = Word KNOWN 0 0 n \/ exists k, 1 <= k < n /\ w = Word UNKNOWN 0 k (S k).
Proof.
  split.
  - intros H. pose proof (candidate_range H) as R. unfold inp in R. rewrite kawa_rcount in R.
    destruct H as [ud id i j Eu Hk|id i j Hu Hk|id i j e Hu Hor He Hj Hid]; [discriminate| |]; cbn [w_start w_stop] in R.
    + apply kawa_keyword in Hk. destruct Hk as (-> & -> & ->). auto.
    + destruct He as [He1 He2]. change (groups d (cat d inp i)) with false in He2. cbv iota in He2.
      right. exists i. assert (j = S i) as -> by lia. split.
      * destruct (Nat.eq_dec i 0) as [->|]; [|lia]. exfalso. destruct Hor as [Hor|Hor]; [|discriminate].
        apply (Hor 0%Z n). apply kawa_keyword. auto.
      * f_equal. cbn in Hid. lia.
  - intros [->|(k & Hk & ->)].
    + apply cand_known; [exact I|]. apply kawa_keyword. auto.
    + eapply cand_unknown with (e := S k); cbn [no_user_keyword]; trivial.
      * left. intros id j H. apply kawa_keyword in H. lia.
      * split; [unfold inp; rewrite kawa_rcount; lia|]. change (groups d (cat d inp k)) with false. reflexivity.
      * left. reflexivity.
      * cbn. lia.
Qed.

Variables (ideo : ideographic) (mode : Z).
Hypothesis Hideo : ideo 24029%N = true.
Hypothesis Hlong : (lossless_limit mode < Z.of_nat n <= 65000)%Z.

Theorem kawa_lost omit : exists ts, analyze ideo (Tokenizer d None omit) inp mode = Ok ts /\
  surfaces ts = kawa_input (n - 1).
Proof.
  set (m := to_lmode mode).
  assert (L : rcount inp = n) by apply kawa_rcount.
  destruct (@analyze_last d None inp ideo mode wf_kawa I ltac:(lia)) as (la & la' & i & ws & w & j & q & Hb & Hf & E & C & Hi & Hq & Hcore & Hbest).
  fold m in Hb, Hf, Hbest, E. rewrite L in Hq, Hbest, C.
  assert (Hnode : forall s j p, 0 < s <= n -> nth_error (nth s la' []) j = Some p ->
     exists w, candidate d None inp w /\ w_stop w = s /\ relaxed d ideo m la' (node_of d inp w) p).
  { intros s j0 p Hs Hp. destruct (@fw_node _ _ _ _ _ _ _ Hb Hf s j0 p ltac:(lia) Hp) as (t0 & Ht & _ & Hr).
    destruct (built_node Hb Ht) as [[? _]|[[? _]|(_ & w0 & Hc & Hst & ->)]]; [lia|lia|]. exists w0. auto. }
  assert (Hex : forall w0, candidate d None inp w0 -> exists j0 p, nth_error (nth (w_stop w0) la' []) j0 = Some p /\ relaxed d ideo m la' (node_of d inp w0) p).
  { intros w0 Hc. pose proof (candidate_range Hc) as R.
    assert (Hin : In (node_of d inp w0) (nth (w_stop w0) la [])) by (apply (b_mid Hb); [lia|]; exists w0; auto).
    apply In_nth_error in Hin. destruct Hin as (j0 & Hj).
    assert (F := fw_step Hf (i := w_stop w0)). rewrite (b_len Hb) in F. specialize (F ltac:(lia)).
    destruct (Forall2_nth_l F Hj) as (p & Hp & Hr). eauto. }
  assert (Hrel : forall t t', relaxed d ideo m la' t t' -> core t' = core t).
  { intros t t' [[_ ->]|(j0 & p & _ & _ & ->)]; reflexivity. }
  assert (H1 : nth 1 la' [] = []).
  { destruct (nth 1 la' []) as [|p l] eqn:El; [reflexivity|]. exfalso.
    destruct (Hnode 1 0 p ltac:(lia)) as (w0 & Hc & Hst & _); [rewrite El; reflexivity|].
    apply kawa_candidate in Hc. destruct Hc as [->|(k & Hk & ->)]; cbn [w_stop] in Hst; lia. }
  assert (Hp1 : forall k q, core q = node_of d inp (Word UNKNOWN 0 k (S k)) -> k < n -> node_penalty m ideo q = 0%Z).
  { intros k p Hc Hk. rewrite pen_core, Hc. unfold node_penalty, additional_cost, kanji_length, other_length.
    assert (Hr : rune_count (n_surface (node_of d inp (Word UNKNOWN 0 k (S k)))) <= 1).
    { cbn [node_of n_surface]. unfold surface_of. destruct (odd_b _ _ _).
      - cbn. lia.
      - unfold word_text. cbn [w_start w_stop]. unfold inp. rewrite kawa_text by lia. replace (S k - k) with 1 by lia. reflexivity. }
    destruct m; [reflexivity| |]; destruct (Z.ltb_spec 2 (Z.of_nat (rune_count (n_surface (node_of d inp (Word UNKNOWN 0 k (S k))))))); try lia; cbn [andb];
    destruct (Z.ltb_spec 7 (Z.of_nat (rune_count (n_surface (node_of d inp (Word UNKNOWN 0 k (S k))))))); lia. }
  (* costs of the runs *)
  assert (Hrun : forall k, 1 <= k -> k < n -> forall j0 p, nth_error (nth (S k) la' []) j0 = Some p ->
     core p = node_of d inp (Word UNKNOWN 0 k (S k)) -> n_cost p = (2147483647 - 65536 * (Z.of_nat k - 1))%Z).
  { intros k Hk. induction Hk as [|k Hk IH]; intros Hkn j0 p Hp Hc.
    - destruct (Hnode 2 j0 p ltac:(lia) Hp) as (w0 & Hw & Hst & Hr). pose proof (Hrel _ _ Hr) as Hc0. rewrite Hc in Hc0.
      apply (f_equal n_start) in Hc0 as Hs0. cbn in Hs0.
      destruct Hr as [[_ ->]|(j1 & p1 & Hp1' & _ & _)]; [reflexivity|].
      cbn [node_of n_start] in Hp1'. rewrite <- Hs0 in Hp1'. rewrite H1 in Hp1'. destruct j1; discriminate.
    - destruct (Hnode (S (S k)) j0 p ltac:(lia) Hp) as (w0 & Hw & Hst & Hr). pose proof (Hrel _ _ Hr) as Hc0. rewrite Hc in Hc0.
      assert (w0 = Word UNKNOWN 0 (S k) (S (S k))) as ->.
      { apply kawa_candidate in Hw. destruct Hw as [->|(k' & Hk' & ->)]; cbn [w_stop] in Hst.
        - apply (f_equal n_start) in Hc0. cbn in Hc0. lia.
        - f_equal; lia. }
      clear Hc0 Hst Hw. destruct Hr as [[He _]|(j1 & p1 & Hp1' & _ & ->)].
      { exfalso. cbn [node_of n_start w_start] in He.
        destruct (Hex (Word UNKNOWN 0 k (S k))) as (j1 & p1 & Hp1' & _); [apply kawa_candidate; right; exists k; split; [lia|reflexivity]|].
        cbn [w_stop] in Hp1'. rewrite He in Hp1'. destruct j1; discriminate. }
      cbn [node_of n_start w_start] in Hp1'.
      destruct (Hnode (S k) j1 p1 ltac:(lia) Hp1') as (w1 & Hw1 & Hst1 & Hr1). pose proof (Hrel _ _ Hr1) as Hc1. rewrite core_node_of in Hc1.
      assert (w1 = Word UNKNOWN 0 k (S k)) as ->.
      { apply kawa_candidate in Hw1. destruct Hw1 as [->|(k' & Hk' & ->)]; cbn [w_stop] in Hst1; [lia|]. f_equal; lia. }
      assert (Hc2 := IH ltac:(lia) _ _ Hp1' Hc1). cbn [n_cost set_cost_prev]. unfold new_cost, step_cost.
      rewrite (Hp1 k p1 Hc1 ltac:(lia)), Hc2.
      assert (n_class p1 = n_class (core p1) /\ node_entry p1 = node_entry (core p1)) as [-> ->] by (split; reflexivity). rewrite Hc1.
      change (connection d _ _ _ _) with (-32768)%Z. change (n_weight _) with (-32768)%Z. unfold maximum_cost.
      rewrite wrap32_id by lia. lia. }
  (* the last word *)
  assert (Hlast : w = Word UNKNOWN 0 (n - 1) n).
  { destruct (Hex (Word UNKNOWN 0 (n - 1) n)) as (j1 & p1 & Hp1' & Hr1).
    { apply kawa_candidate. right. exists (n - 1). split; [lia|]. f_equal. lia. }
    cbn [w_stop] in Hp1'. pose proof (Hrel _ _ Hr1) as Hc1. rewrite core_node_of in Hc1.
    pose proof (Hbest _ _ Hp1') as Hle.
    apply chain_inv_snoc in C as C'. destruct C' as (_ & Hcw & Hst).
    apply kawa_candidate in Hcw. destruct Hcw as [->|(k & Hk & ->)]; cbn [w_stop] in Hst; [|f_equal; lia]. exfalso.
    assert (Hu : new_cost d ideo m p1 (eos_node inp) = (2147483647 - 65536 * (Z.of_nat n - 2) - 32768)%Z).
    { assert (Hx : S (n - 1) = n) by lia. rewrite <- Hx in Hc1 at 2. 
      assert (Hc2 : n_cost p1 = (2147483647 - 65536 * (Z.of_nat (n - 1) - 1))%Z) by (apply (Hrun (n - 1)) with (j0 := j1); [lia|lia|rewrite Hx; exact Hp1'|exact Hc1]).
      unfold new_cost, step_cost. rewrite (Hp1 (n - 1) p1 Hc1 ltac:(lia)), Hc2.
      assert (n_class p1 = n_class (core p1) /\ node_entry p1 = node_entry (core p1)) as [-> ->] by (split; reflexivity). rewrite Hc1.
      change (connection d _ _ _ _) with (-32768)%Z. change (n_weight _) with 0%Z. unfold maximum_cost.
      rewrite wrap32_id by lia. lia. }
    assert (Hk : (new_cost d ideo m q (eos_node inp) = 98301 + match m with LNormal => 0 | _ => 3000 * (Z.of_nat n - 2) end)%Z).
    { destruct (Hnode n j q ltac:(lia) Hq) as (w1 & Hw1 & Hst1 & Hr). pose proof (Hrel _ _ Hr) as Hc2. rewrite core_node_of in Hc2.
      assert (w1 = Word KNOWN 0 0 n) as ->.
      { apply kawa_candidate in Hw1. destruct Hw1 as [->|(k & Hk & ->)]; [reflexivity|]. rewrite Hcore in Hc2. apply (f_equal n_class) in Hc2. discriminate. }
      destruct Hr as [[He _]|(j2 & p2 & Hp2 & _ & Hq2)].
      { cbn [node_of n_start w_start] in He. rewrite (fw_0 Hf), (b_bos Hb) in He. discriminate. }
      cbn [node_of n_start w_start] in Hp2. rewrite (fw_0 Hf), (b_bos Hb) in Hp2. destruct j2 as [|j2]; [|destruct j2; discriminate]. injection Hp2 as <-.
      assert (Hcq : n_cost q = 65534%Z).
      { rewrite Hq2. cbn [n_cost set_cost_prev]. unfold new_cost, step_cost. unfold node_penalty, additional_cost. destruct m; reflexivity. }
      assert (Hpq : node_penalty m ideo q = match m with LNormal => 0%Z | _ => 3000 * (Z.of_nat n - 2) end%Z).
      { rewrite pen_core, Hcore. rewrite (node_penalty_word (u := None) Hf); [|apply kawa_candidate; auto].
        unfold penalty, length_penalty. cbn [w_start w_stop]. destruct m eqn:Em; [reflexivity| |];
        (assert (Hfa : forallb (fun g => ideo (fst g)) (firstn (n - 0) (skipn 0 (segs inp))) = true);
         [apply forallb_forall; intros x Hx; unfold inp in Hx; rewrite kawa_segs, skipn_repeat', firstn_repeat' in Hx; apply repeat_spec in Hx; subst x; exact Hideo|]);
        rewrite Hfa, andb_true_r; (destruct (Z.ltb_spec 2 (Z.of_nat (n - 0))); [lia|]);
        unfold lossless_limit in Hlong; destruct ((mode =? mode_search) || _)%Z; lia. }
      unfold new_cost, step_cost. rewrite Hcq, Hpq.
      assert (n_class q = n_class (core q) /\ node_entry q = node_entry (core q)) as [-> ->] by (split; reflexivity). rewrite Hcore.
      change (connection d _ _ _ _) with 32767%Z. change (n_weight _) with 0%Z. unfold maximum_cost.
      rewrite wrap32_id by (destruct m; lia). destruct m; lia. }
    rewrite Hu, Hk in Hle. clear -Hle Hlong. unfold m in *. destruct (limits mode) as (E1 & _). rewrite <- E1 in Hlong. unfold limit in Hlong.
    destruct (to_lmode mode); lia. }
  assert (Hi1 : i = 1).
  { destruct Hi as [->|[Hi Hgap]].
    - exfalso. destruct (chain_head C) as (w0 & Hc0 & Hs0); [destruct ws; discriminate|].
      inversion C as [|w1 ws1 j1 Hc1 Hch1 E1 E2 E3]; [destruct ws; discriminate|].
      apply kawa_candidate in Hc1. destruct Hc1 as [->|(k & Hk & ->)]; cbn [w_start] in *; [|lia].
      cbn [w_stop] in Hch1. destruct ws1 as [|w2 ws1].
      + destruct ws as [|w3 ws]; cbn [app] in E2; injection E2 as E2; [subst w; discriminate|destruct ws; discriminate].
      + destruct (chain_head Hch1) as (w3 & Hc3 & Hs3); [discriminate|]. pose proof (candidate_range Hc3). lia.
    - destruct (Nat.eq_dec i 1) as [|Hne]; [assumption|]. exfalso.
      pose proof (chain_le C) as Hle. destruct (chain_head C) as (w0 & Hc0 & Hs0); [destruct ws; discriminate|]. pose proof (candidate_range Hc0) as R.
      apply (Hgap (Word UNKNOWN 0 (i - 1) i)); [|reflexivity]. apply kawa_candidate. right. exists (i - 1). split; [lia|]. f_equal. lia. }
  subst i. eexists. split; [apply E|]. rewrite <- L in C.
  assert (Hff : fffd_ok d inp).
  { left. intros x Hx. unfold literal_fffd, inp in Hx. rewrite kawa_segs in Hx. apply nth_error_In, repeat_spec in Hx. discriminate. }
  unfold surfaces. rewrite (map_final wf_kawa (I : wf_udict None) omit m surface_free C).
  assert (Hs : concat (map t_surface (flat_map (word_tokens (Tokenizer d None omit) inp m) (ws ++ [w]))) = concat (map (word_text inp) (ws ++ [w]))).
  { destruct m eqn:Em; [eapply words_surfaces; [discriminate|eassumption..]|eapply words_surfaces; [discriminate|eassumption..]|].
    eapply words_surfaces_extended; [apply kawa_valid|eassumption]. }
  rewrite Hs, (words_text C) by lia.
  rewrite L. unfold inp. rewrite kawa_text by lia. reflexivity.
Qed.
End Kawa.

(** ** Costs below -2^31 wrap around *)
Definition under_dict : dict :=
  Dict [] [] 1 [-32768]%Z (fun _ => 0) [false] [false] [(0, 0)]%Z [(0, 1)]%Z [Morph 0 0 (-32768); Morph 0 0 0]%Z [] [] None [] [] [].

Lemma wf_under : wf_dict under_dict.
Proof.
  constructor.
  - intros key id [].
  - exists 1%Z. repeat split; cbn in *; try lia;
      repeat match goal with H : _ \/ _ |- _ => destruct H as [H|H] end; subst; try contradiction; cbn; unfold int16; lia.
  - cbn. intros c H. repeat destruct H as [<-|H]; try contradiction; unfold int16; lia.
  - intros r. cbn. lia.
  - intros r. cbn. lia.
Qed.

Section Under.
Variable n : nat.
Hypothesis Hn : Z.of_nat n = 32768%Z.
Variable ideo : ideographic.
Let inp := kawa_input n.
Let d := under_dict.

Lemma under_candidate w : candidate d None inp w <-> exists id k, k < n /\ (id = 0 \/ id = 1)%Z /\ w = Word UNKNOWN id k (S k).
Proof.
  split.
  - intros H. pose proof (candidate_range H) as R. unfold inp in R. rewrite kawa_rcount in R.
    destruct H as [ud id i j Eu Hk|id i j Hu Hk|id i j e Hu Hor He Hj Hid]; [discriminate| |]; cbn [w_start w_stop] in R.
    + destruct Hk as [_ []].
    + destruct He as [He1 He2]. change (groups d (cat d inp i)) with false in He2. cbv iota in He2.
      exists id, i. assert (j = S i) as -> by lia. cbn in Hid. split; [lia|]. split; [lia|reflexivity].
  - intros (id & k & Hk & Hid & ->).
    eapply cand_unknown with (e := S k); cbn [no_user_keyword]; trivial.
    + left. intros id' j [_ []].
    + split; [unfold inp; rewrite kawa_rcount; lia|]. change (groups d (cat d inp k)) with false. reflexivity.
    + left. reflexivity.
    + cbn. lia.
Qed.

Lemma under_entry id : (id = 0 \/ id = 1)%Z -> entry d UNKNOWN id = Morph 0 0 (32768 * (id - 1)).
Proof. intros [-> | ->]; reflexivity. Qed.

Lemma under_cost i ws : chain d None inp i ws n ->
  (-32768 - 65536 * (Z.of_nat n - Z.of_nat i) <= cost_from LNormal ideo d inp DUMMY zero_morph ws)%Z /\
  (forall ws' w, ws = ws' ++ [w] -> w_id w = 1%Z -> (- 65536 * (Z.of_nat n - Z.of_nat i) <= cost_from LNormal ideo d inp DUMMY zero_morph ws)%Z) /\
  ((forall w, In w ws -> w_id w = 0%Z) -> cost_from LNormal ideo d inp DUMMY zero_morph ws = (-32768 - 65536 * (Z.of_nat n - Z.of_nat i))%Z).
Proof.
  set (n0 := n) at 1. assert (E0 : n0 = n) by reflexivity. clearbody n0.
  intros H. induction H as [i|w ws j Hc Hch IH].
  - change (cost_from _ _ _ _ _ _ _) with (-32768)%Z. split; [lia|]. split; [|lia]. intros ws' w E _. destruct ws'; discriminate.
  - apply under_candidate in Hc. destruct Hc as (id & k & Hk & Hid & ->). cbn [w_start w_stop] in *. specialize (IH E0). destruct IH as (IH1 & IH2 & IH3).
    cbn [cost_from w_class w_id]. rewrite (under_entry Hid). cbn [penalty m_weight].
    assert (Hx : cost_from LNormal ideo d inp UNKNOWN (Morph 0 0 (32768 * (id - 1))) ws = cost_from LNormal ideo d inp DUMMY zero_morph ws) by (destruct ws; reflexivity).
    rewrite Hx. change (connection d DUMMY zero_morph UNKNOWN _) with (-32768)%Z. split; [lia|]. split.
    + intros ws' w E Hw. destruct ws' as [|w' ws']; cbn [app] in E; injection E as E1 E2; subst.
      * cbn [w_id] in Hw. cbn [cost_from]. change (connection _ _ _ _ _) with (-32768)%Z. inversion Hch; lia.
      * specialize (IH2 _ _ eq_refl Hw). lia.
    + intros Hw. rewrite IH3 by (intros w Hin; apply Hw; right; exact Hin). specialize (Hw _ (or_introl eq_refl)). cbn in Hw. lia.
Qed.

Lemma under_zeros i : i <= n -> exists ws, chain d None inp i ws n /\ forall w, In w ws -> w_id w = 0%Z.
Proof.
  intros H. remember (n - i) as k eqn:Ek. revert i H Ek. induction k as [|k IH]; intros i H Ek.
  - exists []. assert (i = n) as -> by lia. split; [constructor|intros w []].
  - destruct (IH (S i) ltac:(lia) ltac:(lia)) as (ws & C & Hw). exists (Word UNKNOWN 0 i (S i) :: ws). split.
    + apply (@chain_cons d None inp (Word UNKNOWN 0 i (S i))); [|exact C]. apply under_candidate. exists 0%Z, i. split; [lia|]. auto.
    + intros w [<-|Hin]; [reflexivity|auto].
Qed.

Theorem under_wraps omit : exists ts, analyze ideo (Tokenizer d None omit) inp mode_normal = Ok ts /\ surfaces ts = inp /\
  segmentation d None inp (words_of ts) /\
  exists ws', segmentation d None inp ws' /\ (seg_cost LNormal ideo d inp ws' < seg_cost LNormal ideo d inp (words_of ts))%Z.
Proof.
  assert (L : rcount inp = n) by apply kawa_rcount.
  destruct (@analyze_last d None inp ideo mode_normal wf_under I ltac:(lia)) as (la & la' & i & ws & w & j & q & Hb & Hf & E & C & Hi & Hq & Hcore & Hbest).
  change (to_lmode mode_normal) with LNormal in *. rewrite L in Hq, Hbest, C.
  assert (Hnode : forall s j p, 0 < s <= n -> nth_error (nth s la' []) j = Some p ->
     exists w, candidate d None inp w /\ w_stop w = s /\ relaxed d ideo LNormal la' (node_of d inp w) p).
  { intros s j0 p Hs Hp. destruct (@fw_node _ _ _ _ _ _ _ Hb Hf s j0 p ltac:(lia) Hp) as (t0 & Ht & _ & Hr).
    destruct (built_node Hb Ht) as [[? _]|[[? _]|(_ & w0 & Hc & Hst & ->)]]; [lia|lia|]. exists w0. auto. }
  assert (Hex : forall w0, candidate d None inp w0 -> exists j0 p, nth_error (nth (w_stop w0) la' []) j0 = Some p /\ relaxed d ideo LNormal la' (node_of d inp w0) p).
  { intros w0 Hc. pose proof (candidate_range Hc) as R.
    assert (Hin : In (node_of d inp w0) (nth (w_stop w0) la [])) by (apply (b_mid Hb); [lia|]; exists w0; auto).
    apply In_nth_error in Hin. destruct Hin as (j0 & Hj).
    assert (F := fw_step Hf (i := w_stop w0)). rewrite (b_len Hb) in F. specialize (F ltac:(lia)).
    destruct (Forall2_nth_l F Hj) as (p & Hp & Hr). eauto. }
  assert (Hrel : forall t t', relaxed d ideo LNormal la' t t' -> core t' = core t).
  { intros t t' [[_ ->]|(j0 & p & _ & _ & ->)]; reflexivity. }
  (* costs *)
  assert (Hstep : forall p t, (n_class p = UNKNOWN \/ n_class p = DUMMY) -> n_right p = 0%Z -> n_left t = 0%Z -> (n_class t = UNKNOWN \/ n_class t = DUMMY) ->
     new_cost d ideo LNormal p t = wrap32 (Z.min (n_cost p - 32768 + n_weight t) maximum_cost)).
  { intros p t Hp1 Hp2 Ht1 Ht2. unfold new_cost, step_cost, node_penalty.
    assert (Hcn : connection d (n_class p) (node_entry p) (n_class t) (node_entry t) = (-32768)%Z).
    { unfold connection. cbn [node_entry m_right m_left]. rewrite Hp2, Ht1. destruct Hp1 as [-> | ->], Ht2 as [-> | ->]; reflexivity. }
    rewrite Hcn. f_equal. lia. }
  assert (Hcost : forall s, s < n -> forall id j0 p, (id = 0 \/ id = 1)%Z -> nth_error (nth (S s) la' []) j0 = Some p -> core p = node_of d inp (Word UNKNOWN id s (S s)) ->
     n_cost p = (-65536 * Z.of_nat (S s) + 32768 * id)%Z).
  { induction s as [|s IH]; intros Hs id j0 p Hid Hp Hc.
    - destruct (Hnode 1 j0 p ltac:(lia) Hp) as (w0 & Hw & Hst & Hr). pose proof (Hrel _ _ Hr) as Hc0. rewrite core_node_of in Hc0.
      assert (w0 = Word UNKNOWN id 0 1) as ->.
      { rewrite Hc in Hc0. apply (f_equal n_id) in Hc0. apply under_candidate in Hw. destruct Hw as (id' & k' & Hk' & Hid' & ->). cbn in Hc0, Hst. f_equal; lia. }
      destruct Hr as [[He _]|(j1 & p1 & Hp1 & _ & ->)]; [cbn [node_of n_start w_start] in He; rewrite (fw_0 Hf), (b_bos Hb) in He; discriminate|].
      cbn [node_of n_start w_start] in Hp1. rewrite (fw_0 Hf), (b_bos Hb) in Hp1. destruct j1 as [|j1]; [|destruct j1; discriminate]. injection Hp1 as <-.
      destruct Hid as [-> | ->]; reflexivity.
    - destruct (Hnode (S (S s)) j0 p ltac:(lia) Hp) as (w0 & Hw & Hst & Hr). pose proof (Hrel _ _ Hr) as Hc0. rewrite core_node_of in Hc0.
      assert (w0 = Word UNKNOWN id (S s) (S (S s))) as ->.
      { rewrite Hc in Hc0. apply (f_equal n_id) in Hc0. apply under_candidate in Hw. destruct Hw as (id' & k' & Hk' & Hid' & ->). cbn in Hc0, Hst. f_equal; lia. }
      clear Hc0 Hst Hw.
      destruct (Hex (Word UNKNOWN 0 s (S s))) as (j2 & p2 & Hp2 & Hr2); [apply under_candidate; exists 0%Z, s; split; [lia|auto]|].
      cbn [w_stop] in Hp2. pose proof (Hrel _ _ Hr2) as Hc2. rewrite core_node_of in Hc2.
      pose proof (IH ltac:(lia) 0%Z j2 p2 (or_introl eq_refl) Hp2 Hc2) as Hcost2.
      destruct Hr as [[He _]|(j1 & p1 & Hp1 & Hbest1 & ->)].
      { cbn [node_of n_start w_start] in He. rewrite He in Hp2. destruct j2; discriminate. }
      cbn [node_of n_start w_start] in Hp1, Hbest1.
      destruct Hbest1 as (p1' & Hp1' & Hmin). assert (p1' = p1) as -> by congruence. destruct (Hmin _ _ Hp2) as [Hle _].
      destruct (Hnode (S s) j1 p1 ltac:(lia) Hp1) as (w1 & Hw1 & Hst1 & Hr1). pose proof (Hrel _ _ Hr1) as Hc1. rewrite core_node_of in Hc1.
      apply under_candidate in Hw1. destruct Hw1 as (id1 & k1 & Hk1 & Hid1 & ->). cbn [w_stop] in Hst1. assert (k1 = s) as -> by lia.
      pose proof (IH ltac:(lia) id1 j1 p1 Hid1 Hp1 Hc1) as Hcost1.
      assert (Hpq : forall p0 id0, (id0 = 0 \/ id0 = 1)%Z -> core p0 = node_of d inp (Word UNKNOWN id0 s (S s)) -> n_class p0 = UNKNOWN /\ n_right p0 = 0%Z).
      { intros p0 id0 Hid0 Hc3. split; [apply (f_equal n_class) in Hc3; exact Hc3|apply (f_equal n_right) in Hc3]. cbn [core n_right node_of w_class w_id] in Hc3. rewrite (under_entry Hid0) in Hc3. exact Hc3. }
      destruct (Hpq _ _ Hid1 Hc1) as [A1 A2]. destruct (Hpq _ _ (or_introl eq_refl) Hc2) as [B1 B2].
      assert (T1 : n_left (node_of d inp (Word UNKNOWN id (S s) (S (S s)))) = 0%Z) by (cbn [node_of n_left w_class w_id]; rewrite (under_entry Hid); reflexivity).
      assert (T2 : n_weight (node_of d inp (Word UNKNOWN id (S s) (S (S s)))) = (32768 * (id - 1))%Z) by (cbn [node_of n_weight w_class w_id]; rewrite (under_entry Hid); reflexivity).
      cbn [n_cost set_cost_prev]. rewrite !Hstep in Hle by (assumption || (left; reflexivity) || auto). rewrite Hstep by (assumption || (left; reflexivity) || auto).
      rewrite T2, Hcost1 in Hle |- *. rewrite Hcost2 in Hle. unfold maximum_cost in *. clear T1 T2 Hmin IH.
      destruct Hid1 as [-> | ->].
      + rewrite wrap32_id by lia. lia.
      + exfalso. rewrite !wrap32_id in Hle by lia. lia. }
  (* the last word has id 1 *)
  assert (Heos : forall id j0 p, (id = 0 \/ id = 1)%Z -> nth_error (nth n la' []) j0 = Some p -> core p = node_of d inp (Word UNKNOWN id (n - 1) n) ->
     new_cost d ideo LNormal p (eos_node inp) = wrap32 (-2147516416 + 32768 * id)).
  { intros id j0 p Hid Hp Hc. assert (Hx : S (n - 1) = n) by lia.
    assert (Hc' := Hcost (n - 1) ltac:(lia) id j0 p Hid). rewrite Hx in Hc'. specialize (Hc' Hp Hc).
    rewrite Hstep; [|left; apply (f_equal n_class) in Hc; exact Hc| |reflexivity|right; reflexivity].
    - rewrite Hc'. change (n_weight _) with 0%Z. f_equal. unfold maximum_cost. lia.
    - apply (f_equal n_right) in Hc. cbn [core n_right node_of w_class w_id] in Hc. rewrite (under_entry Hid) in Hc. exact Hc. }
  assert (Hlast : w_id w = 1%Z).
  { apply chain_inv_snoc in C as C'. destruct C' as (_ & Hcw & Hst).
    apply under_candidate in Hcw. destruct Hcw as (id & k & Hk & Hid & ->). cbn [w_stop w_id] in *. assert (k = n - 1) as -> by lia. replace (S (n - 1)) with n in * by lia.
    destruct (Hex (Word UNKNOWN 1 (n - 1) n)) as (j2 & p2 & Hp2 & Hr2).
    { apply under_candidate. exists 1%Z, (n - 1). split; [lia|]. split; [auto|]. f_equal. lia. }
    cbn [w_stop] in Hp2. pose proof (Hrel _ _ Hr2) as Hc2. rewrite core_node_of in Hc2.
    pose proof (Hbest _ _ Hp2) as Hle. rewrite (Heos id _ _ Hid Hq Hcore), (Heos 1%Z _ _ (or_intror eq_refl) Hp2 Hc2) in Hle.
    destruct Hid as [-> | ->]; [exfalso|reflexivity]. vm_compute in Hle. congruence. }
  assert (Hi0 : i = 0).
  { destruct Hi as [|[Hi Hgap]]; [assumption|]. exfalso.
    destruct (chain_head C) as (w0 & Hc0 & Hs0); [destruct ws; discriminate|]. pose proof (candidate_range Hc0) as R.
    apply (Hgap (Word UNKNOWN 0 (i - 1) i)); [|reflexivity]. apply under_candidate. exists 0%Z, (i - 1). split; [lia|]. split; [auto|]. f_equal. lia. }
  subst i. eexists. split; [apply E|].
  assert (Hff : fffd_ok d inp).
  { left. intros x Hx. unfold literal_fffd, inp in Hx. rewrite kawa_segs in Hx. apply nth_error_In, repeat_spec in Hx. discriminate. }
  assert (W : words_of (final_tokens (Tokenizer d None omit) inp LNormal 0 (ws ++ [w])) = ws ++ [w]).
  { rewrite <- L in C. unfold words_of. rewrite (map_final (wf_under : wf_dict d) (I : wf_udict None) omit LNormal word_of_free C).
    generalize (ws ++ [w]). clear. intros l. induction l as [|w l IH]; cbn [flat_map map]; [reflexivity|]. rewrite map_app, IH. destruct w; reflexivity. }
  rewrite W. split; [|split].
  - rewrite <- L in C. unfold surfaces. rewrite (map_final (wf_under : wf_dict d) (I : wf_udict None) omit LNormal surface_free C).
    rewrite (words_surfaces (m := LNormal) omit ltac:(discriminate) C Hff), (words_text C) by lia. apply text_all.
  - unfold segmentation. rewrite L. exact C.
  - destruct (under_zeros (Nat.le_0_l n)) as (ws0 & C0 & Hz). exists ws0. unfold segmentation, seg_cost. rewrite L. split; [exact C0|].
    destruct (under_cost C) as (_ & Hge & _). destruct (under_cost C0) as (_ & _ & Heq). specialize (Hge _ _ eq_refl Hlast). rewrite (Heq Hz). lia.
Qed.
End Under.

Theorem lossless_limit_exact : forall n ideo omit mode, ideo 24029%N = true -> (lossless_limit mode < Z.of_nat n <= 65000)%Z ->
  exists d inp, wf_dict d /\ rcount inp = n /\ valid_utf8 inp = true /\ (forall i, ~ literal_fffd inp i) /\
    exists ts, analyze ideo (Tokenizer d None omit) inp mode = Ok ts /\ surfaces ts <> inp.
Proof.
  intros n ideo omit mode Hi Hn.
  assert (H2 : 2 <= n) by (unfold lossless_limit in Hn; destruct (_ || _)%bool; lia).
  exists (kawa_dict n), (kawa_input n). split; [apply wf_kawa; assumption|]. split; [apply kawa_rcount|]. split; [apply kawa_valid|]. split.
  - intros i Hx. unfold literal_fffd in Hx. rewrite kawa_segs in Hx. apply nth_error_In, repeat_spec in Hx. discriminate.
  - destruct (@kawa_lost n H2 ideo mode Hi Hn omit) as (ts & E & S). exists ts. split; [exact E|]. rewrite S. intros C. apply kawa_inj in C. lia.
Qed.

Theorem optimal_limit_exact : exists d, wf_dict d /\ forall ideo omit, exists inp ts, Z.of_nat (rcount inp) = 32768%Z /\
  analyze ideo (Tokenizer d None omit) inp mode_normal = Ok ts /\ surfaces ts = inp /\ segmentation d None inp (words_of ts) /\
  exists ws', segmentation d None inp ws' /\ (seg_cost LNormal ideo d inp ws' < seg_cost LNormal ideo d inp (words_of ts))%Z.
Proof.
  exists under_dict. split; [apply wf_under|]. intros ideo omit. exists (kawa_input (Z.to_nat 32768)).
  assert (Hn : Z.of_nat (Z.to_nat 32768) = 32768%Z) by lia.
  destruct (@under_wraps _ Hn ideo omit) as (ts & H). exists ts. rewrite kawa_rcount. auto.
Qed.
