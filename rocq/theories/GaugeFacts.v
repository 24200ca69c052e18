(** Proofs of C117. *)
From Verif Require Import AnalyzeFacts TieFacts LocalFacts ModeFacts PriceFacts.
From Verif Require Import SpecGauge.
From Coq Require Import Lia ZifyBool ZifyNat ZifyN.
Set Implicit Arguments.
Unset Strict Implicit.
Open Scope Z_scope.

Lemma text_inside s i j : (i <= j <= rcount s)%nat -> inside (text s i j) s.
Proof.
  intros H. exists (text s 0 i), (text s j (rcount s)). rewrite <- (@text_app s i j (rcount s)) by lia. rewrite <- (@text_app s 0 i (rcount s)) by lia. symmetry. apply text_all.
Qed.
Lemma no_user u s w d : no_user_word u s -> candidate d u s w -> w_class w <> USER.
Proof.
  intros N C. destruct C as [ud id i j E (R & K)|id i j ? ?|id i j e ? ? ? ? ?]; cbn; try discriminate. exfalso. subst u. apply (N _ _ K). apply text_inside; lia.
Qed.

Section Rescaled.
Variables (k : Z) (f g : Z -> Z) (d d' : dict) (u : option udict) (s : bytes) (m : lmode) (ideo : N -> bool).
Hypothesis R : rescaled k f g d d'.
Hypothesis Hd : wf_dict d.
Hypothesis Hu : wf_udict u.
Hypothesis K : k = 1 \/ m = LNormal.
Hypothesis FG : no_user_word u s \/ forall x, f x = 0 /\ g x = 0.

Lemma rs_connection c e e' c2 e2 e2' : m_right e' = m_right e -> m_left e2' = m_left e2 -> 0 <= m_left e2 < d_conn_col d -> 0 <= m_right e -> d_conn_col d * m_right e + m_left e2 < Z.of_nat (length (d_conn_vec d)) ->
  (c <> USER /\ c2 <> USER) \/ (forall x, f x = 0 /\ g x = 0) ->
  connection d' c e' c2 e2' = k * connection d c e c2 e2 + f (m_left e2) + g (m_right e).
Proof.
  intros E1 E2 A B L H. pose proof (rs_conn R _ _ B A L) as C. unfold connection. rewrite E1, E2, (sw_col (rs_words R)), C.
  destruct H as [(H1 & H2)|H]; [destruct c, c2; congruence|]. destruct (H (m_left e2)) as (-> & _), (H (m_right e)) as (_ & ->). destruct c, c2; lia.
Qed.
Lemma rs_weight w : candidate d u s w -> 
  m_weight (entry d' (w_class w) (w_id w)) = k * m_weight (entry d (w_class w) (w_id w)) - f (m_left (entry d (w_class w) (w_id w))) - g (m_right (entry d (w_class w) (w_id w))).
Proof.
  intros C. pose proof (candidate_id Hd C) as I. unfold id_ok in I. destruct (w_class w) eqn:E.
  - inversion C; subst w; discriminate E.
  - apply (rs_known R). tauto.
  - apply (rs_unknown R). tauto.
  - destruct FG as [N|Z]; [destruct (no_user N C E)|]. cbn. destruct (Z 0) as (-> & ->). lia.
Qed.
Lemma rows : exists rows, 0 < rows /\ Z.of_nat (length (d_conn_vec d)) = rows * d_conn_col d /\ 0 < d_conn_col d /\
  forall c id, 0 <= m_left (entry d c id) < d_conn_col d /\ 0 <= m_right (entry d c id) < rows.
Proof.
  destruct (wf_conn Hd) as (rows & R1 & R2 & R3 & A & B). exists rows. split; [exact R1|]. split; [exact R3|]. split; [exact R2|].
  assert (Z0 : 0 <= m_left zero_morph < d_conn_col d /\ 0 <= m_right zero_morph < rows) by (cbn; lia).
  assert (G : forall l i, (forall x, In x l -> wf_morph rows (d_conn_col d) x) -> 0 <= m_left (nth i l zero_morph) < d_conn_col d /\ 0 <= m_right (nth i l zero_morph) < rows).
  { intros l i H. destruct (nth_in_or_default i l zero_morph) as [I|I]; [|rewrite I; exact Z0]. destruct (H _ I) as (? & ? & _). lia. }
  intros c id. destruct c; cbn [entry]; auto.
Qed.
Lemma rs_cost rows0 : Z.of_nat (length (d_conn_vec d)) = rows0 * d_conn_col d -> 0 < d_conn_col d ->
  (forall c id, 0 <= m_left (entry d c id) < d_conn_col d /\ 0 <= m_right (entry d c id) < rows0) ->
  forall i ws n, chain d u s i ws n -> forall c e e', m_right e' = m_right e -> 0 <= m_right e < rows0 -> c <> USER \/ (forall x, f x = 0 /\ g x = 0) ->
  cost_from m ideo d' s c e' ws = k * cost_from m ideo d s c e ws + f 0 + g (m_right e).
Proof.
  intros L P I. induction 1 as [i|w ws j C Ch IH]; intros c e e' E B H; cbn [cost_from].
  - rewrite (@rs_connection c e e' DUMMY zero_morph zero_morph); [cbn; lia|exact E|reflexivity|cbn; lia|lia|cbn; nia|].
    destruct H as [H|H]; [left; split; [exact H|discriminate]|right; exact H].
  - destruct (I (w_class w) (w_id w)) as (I1 & I2). pose proof (candidate_id_pos Hd Hu C) as Q.
    rewrite (@rs_connection c e e' (w_class w) (entry d (w_class w) (w_id w)) (entry d' (w_class w) (w_id w))); [|exact E|apply (rs_left R); exact Q|exact I1|lia|nia|].
    + rewrite (IH (w_class w) (entry d (w_class w) (w_id w)) (entry d' (w_class w) (w_id w))); [|apply (rs_right R); exact Q|exact I2|].
      * rewrite (rs_weight C). assert (penalty m ideo s w = k * penalty m ideo s w) as X by (destruct K as [-> | ->]; [lia|cbn; lia]). rewrite X at 1. lia.
      * destruct FG as [N|Z]; [left; exact (no_user N C)|right; exact Z].
    + destruct FG as [N|Z]; [|right; exact Z]. destruct H as [H|H]; [left; split; [exact H|exact (no_user N C)]|right; exact H].
Qed.
Lemma rs_seg ws : segmentation d u s ws -> seg_cost m ideo d' s ws = k * seg_cost m ideo d s ws + f 0 + g 0.
Proof.
  intros S. destruct rows as (r & R1 & R2 & R3 & R4). unfold seg_cost. apply (@rs_cost r R2 R3 R4 _ _ _ S); [reflexivity|cbn; lia|left; discriminate].
Qed.
Lemma rs_preferred w w' : preferred d u s w w' -> preferred d' u s w w'.
Proof. unfold preferred. rewrite (sw_index (rs_words R)). auto. Qed.
Lemma rs_chosen ws : chosen m ideo d u s ws -> chosen m ideo d' u s ws.
Proof.
  intros (S & C). split; [exact (same_chain (rs_words R) S)|]. intros ws' S'. pose proof (same_chain (same_back (rs_words R)) S' : segmentation d u s ws') as S2.
  destruct (C ws' S2) as (C1 & C2). pose proof (rs_scale R). rewrite (rs_seg S), (rs_seg S2). split; [nia|].
  intros E. destruct C2 as [->|(a & a' & w & w' & b & -> & -> & Q)]; [nia|left; reflexivity|right]. exists a, a', w, w', b. split; [reflexivity|]. split; [reflexivity|]. apply rs_preferred. exact Q.
Qed.
End Rescaled.

Lemma visible_any d d' u u' inp omit m ws : same_words d d' -> map visible (final_tokens (Tokenizer d u omit) inp m 0 ws) = map visible (final_tokens (Tokenizer d' u' omit) inp m 0 ws).
Proof.
  intros SW. unfold final_tokens. cbn [tk_omit]. set (R := fun a b => visible a = visible b).
  assert (V : forall w, R (word_token (Tokenizer d u omit) inp w) (word_token (Tokenizer d' u' omit) inp w)).
  { intros w. unfold R, word_token, visible, word_surface, groups. cbn [tk_dict t_index t_id t_class t_position t_start t_end t_surface]. rewrite (sw_group SW), (same_cat _ _ SW). reflexivity. }
  assert (F : Forall2 R (raw_tokens (Tokenizer d u omit) inp m 0 ws) (raw_tokens (Tokenizer d' u' omit) inp m 0 ws)).
  { unfold raw_tokens. cbn [Nat.eqb app]. constructor; [reflexivity|]. apply Forall2_app; [|constructor; [reflexivity|constructor]].
    induction ws as [|w ws IH]; cbn [flat_map]; [constructor|]. apply Forall2_app; [|exact IH]. unfold word_tokens.
    destruct m; try (constructor; [apply V|constructor]). destruct (w_class w); try (constructor; [apply V|constructor]).
    induction (seq _ _); cbn [map]; constructor; [reflexivity|assumption]. }
  generalize 0%nat at 1 3. revert F. generalize (raw_tokens (Tokenizer d u omit) inp m 0 ws) (raw_tokens (Tokenizer d' u' omit) inp m 0 ws).
  induction 1 as [|a b l l' Hab F IH]; intros k; [reflexivity|]. cbn [filter]. injection Hab as E1 E2 E3 E4 E5 E6 E7.
  unfold is_marker. rewrite E2. destruct (negb (omit && (t_id b =? -1)%Z)); [|apply IH]. cbn [renumber map]. fold is_marker.
  f_equal; [|apply IH]. unfold visible, set_index. cbn. congruence.
Qed.

Theorem rescaled_same k f g ideo d d' u omit s mode : wf_dict d -> wf_dict d' -> wf_udict u -> rescaled k f g d d' ->
  k = 1 \/ (mode <> mode_search /\ mode <> mode_extended) -> no_user_word u s \/ (forall x, f x = 0 /\ g x = 0) -> Z.of_nat (rcount s) <= optimal_limit mode ->
  same_tokens (analyze ideo (Tokenizer d u omit) s mode) (analyze ideo (Tokenizer d' u omit) s mode).
Proof.
  intros Hd Hd' Hu R K FG L. destruct (run_final ideo omit Hd Hu L) as (ws & C & E). destruct (run_final ideo omit Hd' Hu L) as (ws' & C' & E').
  assert (K' : k = 1 \/ to_lmode mode = LNormal).
  { destruct K as [K|(K1 & K2)]; [left; exact K|right]. unfold to_lmode. destruct (Z.eqb_spec mode mode_normal); [reflexivity|]. destruct (Z.eqb_spec mode mode_search); [congruence|]. destruct (Z.eqb_spec mode mode_extended); [congruence|reflexivity]. }
  pose proof (rs_chosen R Hd Hu K' FG C) as C2. pose proof (chosen_unique C2 C') as ->. rewrite E, E'. cbn [same_tokens]. apply visible_any. exact (rs_words R).
Qed.

Lemma nth_rewrite k f g l i : m_left (nth i (map (rewrite_morph k f g) l) zero_morph) = m_left (nth i l zero_morph) /\ m_right (nth i (map (rewrite_morph k f g) l) zero_morph) = m_right (nth i l zero_morph) /\
  ((i < length l)%nat -> m_weight (nth i (map (rewrite_morph k f g) l) zero_morph) = k * m_weight (nth i l zero_morph) - f (m_left (nth i l zero_morph)) - g (m_right (nth i l zero_morph))).
Proof.
  revert i. induction l as [|e l IH]; intros i; [destruct i; cbn; repeat split; intros; lia|]. destruct i as [|i]; cbn [map nth length]; [cbn; auto|].
  destruct (IH i) as (A & B & C). split; [exact A|]. split; [exact B|]. intros H. apply C. lia.
Qed.
Theorem rewritten_rescaled k f g d : 0 < k -> rescaled k f g d (rewritten k f g d).
Proof.
  intros P. constructor.
  - constructor; reflexivity.
  - exact P.
  - intros c id _. destruct c; cbn [entry rewritten d_morphs d_unk_morphs]; try reflexivity; apply nth_rewrite.
  - intros c id _. destruct c; cbn [entry rewritten d_morphs d_unk_morphs]; try reflexivity; apply nth_rewrite.
  - intros id H. cbn [entry rewritten d_morphs]. apply nth_rewrite. lia.
  - intros id H. cbn [entry rewritten d_unk_morphs]. apply nth_rewrite. lia.
  - intros r l Hr Hl L. cbn [rewritten d_conn_vec]. set (h := fun i : nat => _).
    assert (B : (Z.to_nat (d_conn_col d * r + l) < length (d_conn_vec d))%nat) by nia.
    rewrite (nth_indep _ 0 (h 0%nat)) by (rewrite map_length, seq_length; exact B). rewrite (map_nth h), seq_nth by exact B. unfold h. rewrite Nat.add_0_l, Z2Nat.id by nia.
    rewrite (Z.mul_comm (d_conn_col d) r), (Z.add_comm (r * d_conn_col d) l), Z.div_add, Z.mod_add, Z.div_small, Z.mod_small by lia. reflexivity.
Qed.
