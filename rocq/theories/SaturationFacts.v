(** Long inputs: costs saturate at 2^31-1, and then a node no path reaches can win. *)
From Verif Require Export AnalyzeFacts.
From Coq Require Import ZifyBool ZifyNat ZifyN.
Set Implicit Arguments.
Unset Strict Implicit.
Open Scope nat_scope.

(** A dictionary with the keyword "bc", single-rune unknown words for every other rune, and
    the largest possible costs for runs of unknown words. *)
Definition sat_category (r : N) : nat := if (r =? 98)%N then 1 else if (r =? 99)%N then 2 else 0.
Definition sat_dict : dict :=
  Dict [(s2b "bc", 0%Z)] [Morph 1 1 0] 3 [0; 0; 32767; 0; 0; 0; -1; 0; 0]%Z
       sat_category [false; false; false] [false; false; false]
       [(0, 0); (1, 1); (2, 2)]%Z [] [Morph 2 0 32767; Morph 1 1 0; Morph 1 2 0]%Z
       [] [] None [] [] [].

Lemma sat_category_3 r : sat_category r < 3.
Proof. unfold sat_category. destruct (_ =? _)%N; [lia|]. destruct (_ =? _)%N; lia. Qed.

Lemma wf_sat : wf_dict sat_dict.
Proof.
  constructor.
  - intros key id [[= <- <-]|[]]. split; [discriminate|]. split; [reflexivity|cbn; lia].
  - exists 3%Z. repeat split; cbn in *; try lia;
      repeat match goal with H : _ \/ _ |- _ => destruct H as [H|H] end; subst; try contradiction; cbn; unfold int16; lia.
  - cbn. intros c H. repeat destruct H as [<-|H]; try contradiction; unfold int16; lia.
  - intros r. cbn. pose proof (sat_category_3 r). lia.
  - intros r. cbv zeta. cbn [d_category sat_dict]. unfold sat_category. destruct (_ =? _)%N; [cbn; lia|]. destruct (_ =? _)%N; cbn; lia.
Qed.

Definition sat_input (N : nat) : bytes := repeat x61 N ++ [x62; x63].

Section Sat.
Variable N : nat.
Let inp := sat_input N.

Lemma sat_segs : segs inp = repeat (97%N, [x61]) N ++ [(98%N, [x62]); (99%N, [x63])].
Proof.
  unfold inp, sat_input. induction N as [|k IH]; [reflexivity|].
  cbn [repeat app]. rewrite segs_unfold by discriminate. rewrite decode_ascii by (cbn; lia).
  cbn [fst snd firstn skipn]. rewrite IH. reflexivity.
Qed.

Lemma sat_rcount : rcount inp = N + 2.
Proof. unfold rcount. rewrite sat_segs, app_length, repeat_length. reflexivity. Qed.

Lemma nth_repeat_lt {A} (a b : A) k j : j < k -> nth j (repeat a k) b = a.
Proof. revert j; induction k as [|k IH]; intros [|j] H; cbn; try lia; [reflexivity|]. apply IH. lia. Qed.

Lemma sat_rune_a k : k < N -> rune_at inp k = 97%N.
Proof.
  intros H. unfold rune_at. rewrite sat_segs, app_nth1 by (rewrite repeat_length; lia).
  rewrite nth_repeat_lt by assumption. reflexivity.
Qed.
Lemma sat_rune_b : rune_at inp N = 98%N.
Proof. unfold rune_at. rewrite sat_segs, app_nth2 by (rewrite repeat_length; lia). rewrite repeat_length, Nat.sub_diag. reflexivity. Qed.
Lemma sat_rune_c : rune_at inp (S N) = 99%N.
Proof.
  unfold rune_at. rewrite sat_segs, app_nth2 by (rewrite repeat_length; lia). rewrite repeat_length.
  replace (S N - N) with 1 by lia. reflexivity.
Qed.

Lemma sat_keyword id i j : keyword_at (d_index sat_dict) inp id i j -> id = 0%Z /\ i = N /\ j = N + 2.
Proof.
  intros [Hr [E|[]]]. injection E as E <-. split; [reflexivity|].
  pose proof sat_rcount as L.
  assert (C : rune_count (text inp i j) = j - i) by (apply text_rcount; lia).
  assert (S1 : segs (text inp i j) = firstn (j - i) (skipn i (segs inp))) by (apply text_segs; lia).
  rewrite <- E in C, S1. change (rune_count (s2b "bc")) with 2 in C. rewrite <- C in S1.
  change (segs (s2b "bc")) with [(98%N, [x62]); (99%N, [x63])] in S1.
  assert (Hi : rune_at inp i = 98%N).
  { unfold rune_at. rewrite (@skipn_seg inp i) in S1 by lia. cbn [firstn] in S1. injection S1 as S1 _ _. symmetry. exact S1. }
  assert (i = N); [|lia].
  destruct (Nat.lt_trichotomy i N) as [H|[H|H]]; [|assumption|].
  - rewrite sat_rune_a in Hi by assumption. discriminate.
  - lia.
Qed.

Lemma sat_keyword_bc : keyword_at (d_index sat_dict) inp 0 N (N + 2).
Proof.
  split; [rewrite sat_rcount; lia|]. left. f_equal. unfold text. replace (N + 2 - N) with 2 by lia.
  rewrite sat_segs, skipn_app, skipn_all2 by (rewrite repeat_length; lia). rewrite repeat_length, Nat.sub_diag. reflexivity.
Qed.

Lemma sat_candidate w : candidate sat_dict None inp w ->
  (exists k, k < N /\ w = Word UNKNOWN 0 k (S k)) \/ w = Word KNOWN 0 N (N + 2) \/ w = Word UNKNOWN 2 (S N) (N + 2).
Proof.
  intros H. pose proof (candidate_range H) as R. rewrite sat_rcount in R.
  destruct H as [ud id i j Eu Hk|id i j Hn Hk|id i j e Hn Hor He Hj Hid]; [discriminate| |]; cbn [w_start w_stop] in R.
  - destruct (sat_keyword Hk) as (-> & -> & ->). auto.
  - destruct He as [He1 He2].
    assert (G : groups sat_dict (cat sat_dict inp i) = false).
    { unfold groups. cbn [d_group sat_dict]. generalize (cat sat_dict inp i). intros [|[|[|[|?]]]]; reflexivity. }
    rewrite G in He2. assert (j = S i) as -> by lia. clear Hj.
    destruct (Nat.lt_trichotomy i N) as [Hi|[->|Hi]].
    + left. exists i. split; [assumption|]. unfold cat in Hid. rewrite sat_rune_a in Hid by assumption. cbn in Hid. f_equal. lia.
    + exfalso. destruct Hor as [Hor|Hor]; [exact (Hor _ _ sat_keyword_bc)|].
      unfold invokes, cat in Hor. rewrite sat_rune_b in Hor. discriminate.
    + assert (i = S N) as -> by lia. right. right. unfold cat in Hid. rewrite sat_rune_c in Hid. cbn in Hid. f_equal; lia.
Qed.

Lemma sat_candidate_c : candidate sat_dict None inp (Word UNKNOWN 2 (S N) (N + 2)).
Proof.
  pose proof sat_rcount as L. eapply cand_unknown with (e := N + 2); cbn [no_user_keyword]; trivial.
  - left. intros id j H. apply sat_keyword in H. lia.
  - split; [lia|]. unfold groups, cat. rewrite sat_rune_c. cbn. lia.
  - left. reflexivity.
  - unfold cat. rewrite sat_rune_c. cbn. lia.
Qed.

Hypothesis HN : (33000 <= Z.of_nat N)%Z.
Variable ideo : ideographic.

Let word_a k := Word UNKNOWN 0 k (S k).
Let word_bc := Word KNOWN 0 N (N + 2).
Let word_c := Word UNKNOWN 2 (S N) (N + 2).

Theorem sat_tokens omit : analyze ideo (Tokenizer sat_dict None omit) inp mode_normal =
  Ok (final_tokens (Tokenizer sat_dict None omit) inp LNormal (S N) [word_c]).
Proof.
  destruct (@lattice_ok sat_dict None inp wf_sat I ideo LNormal) as (la & la' & E1 & Hb & E2 & Hf).
  pose proof sat_rcount as L.
  (* the nodes of la' *)
  assert (Hnode : forall s j p, 0 < s <= N + 2 -> nth_error (nth s la' []) j = Some p ->
     exists w, candidate sat_dict None inp w /\ w_stop w = s /\ relaxed sat_dict ideo LNormal la' (node_of sat_dict inp w) p).
  { intros s j p Hs Hp. destruct (@fw_node _ _ _ _ _ _ _ Hb Hf s j p ltac:(lia) Hp) as (t0 & Ht & _ & Hr).
    destruct (built_node Hb Ht) as [[? _]|[[? _]|(_ & w & Hc & Hst & ->)]]; [lia|lia|]. exists w. auto. }
  assert (Hrel : forall t t', relaxed sat_dict ideo LNormal la' t t' -> core t' = core t).
  { intros t t' [[_ ->]|(j & p & _ & _ & ->)]; reflexivity. }
  (* costs of the runs of a *)
  assert (Ha : forall k, k <= N -> (exists p, nth_error (nth k la' []) 0 = Some p) /\ forall j p, nth_error (nth k la' []) j = Some p ->
     n_cost p = Z.min maximum_cost (65534 * Z.of_nat k) /\ n_right p = 0%Z /\ n_class p <> USER).
  { induction k as [|k IH]; intros Hk.
    - rewrite (fw_0 Hf), (b_bos Hb). split; [eexists; reflexivity|]. intros [|j] p Hp; [|destruct j; discriminate]. injection Hp as <-.
      split; [reflexivity|]. split; [reflexivity|discriminate].
    - assert (Hcand : candidate sat_dict None inp (word_a k)).
      { eapply cand_unknown with (e := S k); cbn [no_user_keyword]; trivial.
        - left. intros id j H. apply sat_keyword in H. lia.
        - split; [lia|]. unfold groups, cat. rewrite sat_rune_a by lia. cbn. lia.
        - left. reflexivity.
        - unfold cat. rewrite sat_rune_a by lia. cbn. lia. }
      split.
      { assert (Hin : In (node_of sat_dict inp (word_a k)) (nth (S k) la [])).
        { apply (b_mid Hb); [lia|]. exists (word_a k). auto. }
        assert (F := fw_step Hf (i := S k)). rewrite (b_len Hb) in F. specialize (F ltac:(lia)).
        destruct F as [|x y l l' Hxy F]; [contradiction|]. eexists. reflexivity. }
      intros j p Hp. destruct (Hnode (S k) j p ltac:(lia) Hp) as (w & Hc & Hst & Hr).
      destruct (sat_candidate Hc) as [(k' & Hk' & ->)|[->| ->]]; cbn [w_stop] in Hst; [|lia|lia].
      assert (k' = k) as -> by lia. clear Hst.
      pose proof (Hrel _ _ Hr) as Hcore.
      assert (n_right p = n_right (core p) /\ n_class p = n_class (core p)) as [-> ->] by (split; reflexivity).
      rewrite Hcore. split; [|split; [reflexivity|discriminate]].
      destruct (IH ltac:(lia)) as [(p0 & Hp0) IH2].
      destruct Hr as [[Hem _]|(j0 & q & Hq & _ & ->)].
      { cbn [node_of n_start w_start] in Hem. rewrite Hem in Hp0. discriminate. }
      cbn [node_of n_start w_start] in Hq. destruct (IH2 _ _ Hq) as (Q1 & Q2 & Q3).
      cbn [n_cost set_cost_prev]. unfold new_cost, step_cost, maximum_cost.
      assert (Hcn : connection sat_dict (n_class q) (node_entry q) (n_class (node_of sat_dict inp (Word UNKNOWN 0 k (S k))))
                      (node_entry (node_of sat_dict inp (Word UNKNOWN 0 k (S k)))) = 32767%Z).
      { unfold connection. cbn [node_entry m_right node_of n_class w_class]. rewrite Q2. destruct (n_class q); try reflexivity. congruence. }
      rewrite Hcn. cbn [node_of n_weight w_class w_id entry d_unk_morphs sat_dict Z.to_nat nth m_weight node_penalty].
      rewrite Q1. unfold maximum_cost. change (n_weight _) with 32767%Z. clear. rewrite wrap32_id by lia; lia. }
  (* position N+1 is empty *)
  assert (Hempty : nth (S N) la' [] = []).
  { destruct (nth (S N) la' []) as [|p l] eqn:E; [reflexivity|]. exfalso.
    destruct (Hnode (S N) 0 p ltac:(lia)) as (w & Hc & Hst & _); [rewrite E; reflexivity|].
    destruct (sat_candidate Hc) as [(k & Hk & ->)|[->| ->]]; cbn [w_stop] in Hst; lia. }
  (* the end *)
  destruct (eos_at Hb Hf) as (eos & He & Hr). rewrite L in He.
  assert (Hc_in : exists j q, nth_error (nth (N + 2) la' []) j = Some q /\ relaxed sat_dict ideo LNormal la' (node_of sat_dict inp word_c) q).
  { assert (Hin : In (node_of sat_dict inp word_c) (nth (N + 2) la [])).
    { apply (b_mid Hb); [lia|]. exists word_c. split; [apply sat_candidate_c|auto]. }
    apply In_nth_error in Hin. destruct Hin as (j & Hj).
    assert (F := fw_step Hf (i := N + 2)). rewrite (b_len Hb) in F. specialize (F ltac:(lia)).
    destruct (Forall2_nth_l F Hj) as (q & Hq & Hrq). eauto. }
  assert (Hcost : forall j q, nth_error (nth (N + 2) la' []) j = Some q ->
     (core q = node_of sat_dict inp word_c /\ n_prev q = None /\ new_cost sat_dict ideo LNormal q (eos_node inp) = 2147483646%Z) \/
     (core q = node_of sat_dict inp word_bc /\ new_cost sat_dict ideo LNormal q (eos_node inp) = 2147483647%Z)).
  { intros j q Hq. destruct (Hnode (N + 2) j q ltac:(lia) Hq) as (w & Hc & Hst & Hrq). pose proof (Hrel _ _ Hrq) as Hcore.
    destruct (sat_candidate Hc) as [(k & Hk & ->)|[->| ->]]; cbn [w_stop] in Hst; [lia| |].
    - right. split; [exact Hcore|].
      assert (Q : n_cost q = 2147483647%Z).
      { destruct Hrq as [[_ ->]|(j0 & p & Hp & _ & ->)]; [reflexivity|].
        cbn [node_of n_start w_start] in Hp. destruct (Ha N ltac:(lia)) as [_ Ha']. destruct (Ha' _ _ Hp) as (P1 & P2 & P3).
        cbn [n_cost set_cost_prev]. unfold new_cost, step_cost, connection. cbn [node_of n_class w_class node_entry m_right m_left n_left n_weight entry d_morphs sat_dict w_id Z.to_nat nth m_weight node_penalty].
        rewrite P1, P2. unfold maximum_cost. destruct (n_class p); try congruence; change (nth (Z.to_nat _) _ _) with 0%Z; (rewrite wrap32_id by lia; lia). }
      unfold new_cost, step_cost.
      assert (n_class q = n_class (core q) /\ node_entry q = node_entry (core q)) as [-> ->] by (split; reflexivity).
      rewrite Hcore, Q. reflexivity.
    - left. split; [exact Hcore|].
      destruct Hrq as [[_ ->]|(j0 & p & Hp & _ & _)].
      + split; [reflexivity|]. reflexivity.
      + cbn [node_of n_start w_start] in Hp. rewrite Hempty in Hp. destruct j0; discriminate. }
  destruct Hr as [[Hem _]|(j & q & Hq & Hbest & Heos)].
  { cbn [eos_node n_start] in Hem. rewrite L in Hem. destruct Hc_in as (j & q & Hq & _). rewrite Hem in Hq. destruct j; discriminate. }
  cbn [eos_node n_start] in Hq, Hbest, Heos. rewrite L in Hq, Hbest, Heos.
  assert (Hq2 : core q = node_of sat_dict inp word_c /\ n_prev q = None).
  { destruct (Hcost _ _ Hq) as [(A & B & _)|(_ & A)]; [auto|]. exfalso.
    destruct Hc_in as (jc & qc & Hqc & Hrc). destruct (Hcost _ _ Hqc) as [(_ & _ & B)|(B & _)].
    - destruct Hbest as (q1 & Hq1 & Hb1). assert (q1 = q) as -> by congruence. destruct (Hb1 _ _ Hqc) as [Hle _]. lia.
    - pose proof (Hrel _ _ Hrc) as C. rewrite B in C. discriminate. }
  destruct Hq2 as [Hqc Hqp].
  assert (B : back la' eos [eos; q]).
  { eapply back_step; [rewrite Heos; reflexivity| |apply back_end; exact Hqp]. apply (get2_la' Hb Hf); [lia|exact Hq]. }
  unfold analyze, run_lattice. cbn [tk_dict tk_udict]. rewrite E1. cbn [rbind]. change (to_lmode mode_normal) with LNormal. rewrite E2. cbn [rbind].
  rewrite (@backward_ok _ _ _ _ _ LNormal _ _ _ _ Hb Hf ltac:(rewrite L; exact He) B). cbn [rbind snd].
  eapply (@tokens_of_walk sat_dict None inp wf_sat I omit LNormal [eos; q] (S N) [word_c] []).
  - change (S N) with (w_start word_c). constructor; [apply sat_candidate_c|]. rewrite L. constructor.
  - cbn [map rev app]. rewrite Hqc. rewrite Heos. reflexivity.
  - right. repeat split; [lia|discriminate].
Qed.

(** Nothing is left of the N letters before "bc", nor of "b", nor of BOS. *)
Theorem sat_lost omit : exists ts, analyze ideo (Tokenizer sat_dict None omit) inp mode_normal = Ok ts /\
  surfaces ts = s2b "c" /\ (forall tk, In tk ts -> t_surface tk <> s2b "BOS").
Proof.
  eexists. split; [apply sat_tokens|].
  assert (Hch : chain sat_dict None inp (S N) [word_c] (rcount inp)).
  { change (S N) with (w_start word_c). constructor; [apply sat_candidate_c|]. rewrite sat_rcount. constructor. }
  assert (Hsurf : word_surface (Tokenizer sat_dict None omit) inp word_c = s2b "c").
  { assert (T : text inp (S N) (N + 2) = s2b "c").
    { unfold text. replace (N + 2 - S N) with 1 by lia. rewrite sat_segs, skipn_app, skipn_all2 by (rewrite repeat_length; lia).
      rewrite repeat_length. replace (S N - N) with 1 by lia. reflexivity. }
    unfold word_surface, word_text. cbn [word_c w_class w_start w_stop]. replace (S (S N)) with (N + 2) by lia. rewrite T. reflexivity. }
  split.
  - unfold surfaces. rewrite (@map_final sat_dict None inp wf_sat I omit _ _ LNormal (S N) [word_c] surface_free Hch). cbn [flat_map map word_tokens app concat word_token t_surface].
    rewrite Hsurf. reflexivity.
  - intros tk Hin. destruct (in_final Hch Hin) as (k & [[_ C]|[->|(w & t0 & [<-|[]] & _ & [<-|[]] & ->)]]).
    + discriminate.
    + cbn. discriminate.
    + cbn [set_index t_surface word_token]. rewrite Hsurf. discriminate.
Qed.
End Sat.

(** An input of any length without gaps. *)
Theorem repeat_no_gaps N : no_gaps sat_dict None (repeat x61 N) /\ rcount (repeat x61 N) = N /\ fffd_ok sat_dict (repeat x61 N).
Proof.
  assert (S0 : segs (repeat x61 N) = repeat (97%N, [x61]) N).
  { induction N as [|k IH]; [reflexivity|]. cbn [repeat]. rewrite segs_unfold by discriminate. rewrite decode_ascii by (cbn; lia).
    cbn [fst snd firstn skipn]. rewrite IH. reflexivity. }
  assert (L : rcount (repeat x61 N) = N) by (unfold rcount; rewrite S0; apply repeat_length).
  assert (R : forall k, k < N -> rune_at (repeat x61 N) k = 97%N).
  { intros k Hk. unfold rune_at. rewrite S0, nth_repeat_lt by assumption. reflexivity. }
  split; [|split; [assumption|]].
  - intros k Hk. rewrite L in Hk. exists (Word UNKNOWN 0 (k - 1) k). split; [|reflexivity].
    eapply cand_unknown with (e := k); cbn [no_user_keyword]; trivial.
    + left. intros id j [Hr [E|[]]]. injection E as E _. rewrite L in Hr.
      assert (S1 : segs (text (repeat x61 N) (k - 1) j) = firstn (j - (k - 1)) (skipn (k - 1) (segs (repeat x61 N)))) by (apply text_segs; lia).
      rewrite <- E in S1. rewrite (@skipn_seg (repeat x61 N) (k - 1)) in S1 by lia. rewrite R in S1 by lia.
      destruct (j - (k - 1)) as [|x]; [discriminate|]. cbn [firstn] in S1. discriminate.
    + split; [lia|]. unfold groups, cat. rewrite R by lia. cbn. lia.
    + left. reflexivity.
    + unfold cat. rewrite R by lia. cbn. lia.
  - left. intros i Hi. unfold literal_fffd in Hi. rewrite S0 in Hi. apply nth_error_In, repeat_spec in Hi. discriminate.
Qed.
