(** Proofs of C115. *)
From Verif Require Import AnalyzeFacts.
From Verif Require Import SpecPrice.
From Coq Require Import Lia ZifyBool ZifyNat ZifyN.
Set Implicit Arguments.
Unset Strict Implicit.
Open Scope Z_scope.

Lemma same_cat d d' s i : same_words d d' -> cat d' s i = cat d s i.
Proof. intros H. apply (sw_category H). Qed.
Lemma same_stop d d' s i e : same_words d d' -> unknown_stop d s i e -> unknown_stop d' s i e.
Proof.
  intros H (R & U). split; [exact R|]. unfold groups in *. rewrite (sw_group H), (same_cat _ _ H).
  destruct (nth (cat d s i) (d_group d) false); [|exact U]. destruct U as (A & l & B & C & D). split.
  - intros k Hk. rewrite (same_cat _ _ H). apply A; exact Hk.
  - exists l. split; [exact B|]. split; [exact C|]. rewrite (same_cat _ _ H). exact D.
Qed.
Lemma same_candidate d d' u s w : same_words d d' -> candidate d u s w -> candidate d' u s w.
Proof.
  intros H C. destruct C as [ud id i j Eu K|id i j N K|id i j e N A St J Id].
  - eapply cand_user; eassumption.
  - apply cand_known; [exact N|]. rewrite (sw_index H). exact K.
  - apply cand_unknown with (e := e); [exact N| |apply (same_stop H St)|exact J|].
    + unfold invokes. rewrite (sw_index H), (sw_invoke H), (same_cat _ _ H). exact A.
    + rewrite (sw_unk_index H), (sw_unk_dup H), (same_cat _ _ H). exact Id.
Qed.
Lemma same_back d d' : same_words d d' -> same_words d' d.
Proof. intros [A B C D E F G]. constructor; try (symmetry; assumption). intros c. symmetry. apply B. Qed.
Lemma same_chain d d' u s i ws n : same_words d d' -> chain d u s i ws n -> chain d' u s i ws n.
Proof. intros H. induction 1 as [|w ws j C Ch IH]; constructor; [eapply same_candidate; eassumption|exact IH]. Qed.

Lemma word_cost m ideo d d' u s cl id x : wf_dict d -> wf_udict u -> cheaper_word d d' cl id x -> forall i ws n, chain d u s i ws n -> forall c e e', m_right e = m_right e' ->
  cost_from m ideo d' s c e' ws = cost_from m ideo d s c e ws - x * Z.of_nat (times cl id ws).
Proof.
  intros Hd Hu (S & V & X & W). induction 1 as [i|w ws j C Ch IH]; intros c e e' E; cbn [cost_from].
  - unfold connection, times. cbn. rewrite V, (sw_col S), E. destruct c; lia.
  - pose proof (candidate_id_pos Hd Hu C) as P. destruct (W (w_class w) (w_id w) P) as (L & R & W1 & W2).
    assert (E1 : connection d' c e' (w_class w) (entry d' (w_class w) (w_id w)) = connection d c e (w_class w) (entry d (w_class w) (w_id w))).
    { unfold connection. rewrite V, (sw_col S), <- E, L. reflexivity. }
    rewrite E1, (IH _ (entry d (w_class w) (w_id w)) _ (eq_sym R)). unfold times. cbn [filter].
    destruct (class_eqb (w_class w) cl && (w_id w =? id)) eqn:B.
    + apply andb_prop in B. destruct B as (B1 & B2). rewrite W1; [cbn [length]; fold (times cl id ws); unfold penalty, length_penalty; lia|].
      split; [|lia]. revert B1. clear. destruct (w_class w), cl; cbn; congruence.
    + rewrite W2; [lia|]. intros (Q1 & Q2). rewrite Q1, Q2, Z.eqb_refl in B. destruct cl; discriminate B.
Qed.

Lemma entry_ids d u s w : wf_dict d -> wf_udict u -> candidate d u s w -> 0 <= m_right (entry d (w_class w) (w_id w)) /\ 0 <= m_left (entry d (w_class w) (w_id w)) < d_conn_col d.
Proof.
  intros Hd Hu C. destruct (wf_conn Hd) as (rows & R1 & R2 & _ & K & U).
  assert (Z0 : 0 <= m_right zero_morph /\ 0 <= m_left zero_morph < d_conn_col d) by (cbn; lia).
  assert (A : forall l i, (forall m, In m l -> wf_morph rows (d_conn_col d) m) -> 0 <= m_right (nth i l zero_morph) /\ 0 <= m_left (nth i l zero_morph) < d_conn_col d).
  { intros l i H. destruct (nth_in_or_default i l zero_morph) as [I|I]; [|rewrite I; exact Z0]. destruct (H _ I) as (? & ? & _). lia. }
  destruct (w_class w); cbn [entry]; auto.
Qed.
Lemma join_cost m ideo d d' u s r l x : wf_dict d -> wf_udict u -> cheaper_join d d' r l x -> forall i ws n, chain d u s i ws n -> forall c e, 0 <= m_right e ->
  cost_from m ideo d' s c e ws = cost_from m ideo d s c e ws - x * Z.of_nat (joints_from d r l c e ws).
Proof.
  intros Hd Hu (S & M & U & X & R0 & L0 & V).
  assert (EE : forall c i, entry d' c i = entry d c i) by (intros c i; unfold entry; rewrite M, U; reflexivity).
  assert (J : forall c e c' e', 0 <= m_right e -> 0 <= m_left e' < d_conn_col d -> connection d' c e c' e' = connection d c e c' e' -
    x * Z.of_nat (if negb (class_eqb c USER) && negb (class_eqb c' USER) && (m_right e =? r) && (m_left e' =? l) then 1 else 0)).
  { intros c e c' e' A B. destruct (V _ _ A B) as (V1 & V2). unfold connection. rewrite (sw_col S).
    destruct (m_right e =? r) eqn:B1; destruct (m_left e' =? l) eqn:B2; destruct c, c'; cbn [class_eqb negb andb]; try lia; first [rewrite V1 by lia; lia|rewrite V2 by lia; lia]. }
  assert (Z0 : 0 <= m_left zero_morph < d_conn_col d) by (cbn; lia).
  induction 1 as [i|w ws j C Ch IH]; intros c e E; cbn [cost_from joints_from].
  - rewrite J by assumption. lia.
  - destruct (entry_ids Hd Hu C) as (E1 & E2). rewrite EE, J by assumption. rewrite IH by assumption. lia.
Qed.

(** The paths of two dictionaries whose costs differ by a price times a number. *)
Lemma best_paths ideo d d' u s mode (n : list word -> nat) x : wf_dict d -> wf_dict d' -> wf_udict u -> same_words d d' -> 0 < x -> Z.of_nat (rcount s) <= optimal_limit mode ->
  (forall m ws, segmentation d u s ws -> seg_cost m ideo d' s ws = seg_cost m ideo d s ws - x * Z.of_nat (n ws)) ->
  exists ws ws', segmentation d u s ws /\ segmentation d u s ws' /\ (n ws <= n ws')%nat /\
    (forall omit, analyze ideo (Tokenizer d u omit) s mode = Ok (final_tokens (Tokenizer d u omit) s (to_lmode mode) 0 ws)) /\
    (forall omit, analyze ideo (Tokenizer d' u omit) s mode = Ok (final_tokens (Tokenizer d' u omit) s (to_lmode mode) 0 ws')).
Proof.
  intros Hd Hd' Hu S X Len D. destruct (analyze_final s ideo mode Hd Hu) as (i & ws & E & C & I & O & P). destruct (analyze_final s ideo mode Hd' Hu) as (i' & ws' & E' & C' & I' & O' & P').
  assert (Z.of_nat (rcount s) <= lossless_limit mode) as L by (unfold optimal_limit, lossless_limit in *; destruct ((mode =? mode_search) || (mode =? mode_extended)); lia).
  rewrite (O L) in *. rewrite (O' L) in *. pose proof (same_chain (same_back S) C') as C2. exists ws, ws'.
  split; [exact C|]. split; [exact C2|]. split; [|auto].
  specialize (P Len _ C2). specialize (P' Len _ (same_chain S C)). rewrite (D _ _ C), (D _ _ C2) in P'. nia.
Qed.

Lemma words_plain t s m ws : m <> LExtended -> map word_of (flat_map (word_tokens t s m) ws) = ws.
Proof.
  intros N. induction ws as [|w ws IH]; [reflexivity|]. cbn [flat_map]. rewrite map_app, IH. unfold word_tokens.
  destruct m; try (destruct w; reflexivity). destruct N; reflexivity.
Qed.
Lemma words_known t s m id ws : times KNOWN id (map word_of (flat_map (word_tokens t s m) ws)) = times KNOWN id ws.
Proof.
  unfold times. induction ws as [|w ws IH]; [reflexivity|]. cbn [flat_map]. rewrite map_app, filter_app, app_length, IH.
  replace (filter _ (w :: ws)) with (filter (fun w => class_eqb (w_class w) KNOWN && (w_id w =? id)) [w] ++ filter (fun w => class_eqb (w_class w) KNOWN && (w_id w =? id)) ws) by (cbn [filter]; destruct (class_eqb (w_class w) KNOWN && (w_id w =? id)); reflexivity).
  rewrite app_length. f_equal. unfold word_tokens. destruct w as [c i a b]. cbn [w_class]. destruct m, c; try reflexivity.
  cbn [filter w_class class_eqb andb length]. induction (seq _ _) as [|k l IHl]; [reflexivity|]. cbn [map filter]. exact IHl.
Qed.

Theorem cheaper_oftener ideo d d' u omit omit' s mode c id x : wf_dict d -> wf_dict d' -> wf_udict u -> cheaper_word d d' c id x -> Z.of_nat (rcount s) <= optimal_limit mode ->
  mode <> mode_extended \/ c = KNOWN ->
  exists ts ts', analyze ideo (Tokenizer d u omit) s mode = Ok ts /\ analyze ideo (Tokenizer d' u omit') s mode = Ok ts' /\ (times c id (words_of ts) <= times c id (words_of ts'))%nat.
Proof.
  intros Hd Hd' Hu W Len M. destruct (@best_paths ideo d d' u s mode (times c id) x Hd Hd' Hu (proj1 W) (proj1 (proj2 (proj2 W))) Len) as (ws & ws' & C & C' & N & E & E').
  { intros m ws C. unfold seg_cost. exact (word_cost m ideo Hd Hu W C DUMMY eq_refl). }
  do 2 eexists. split; [apply E|]. split; [apply E'|]. unfold words_of. rewrite (map_final Hd Hu omit (to_lmode mode) word_of_free C), (map_final Hd' Hu omit' (to_lmode mode) word_of_free (same_chain (proj1 W) C')).
  destruct M as [M| ->].
  - rewrite !words_plain by (apply lmode_not_extended; exact M). exact N.
  - rewrite !words_known. exact N.
Qed.
Theorem cheaper_join_oftener ideo d d' u omit omit' s mode r l x : wf_dict d -> wf_dict d' -> wf_udict u -> cheaper_join d d' r l x -> Z.of_nat (rcount s) <= optimal_limit mode ->
  mode <> mode_extended ->
  exists ts ts', analyze ideo (Tokenizer d u omit) s mode = Ok ts /\ analyze ideo (Tokenizer d' u omit') s mode = Ok ts' /\ (joints d r l (words_of ts) <= joints d r l (words_of ts'))%nat.
Proof.
  intros Hd Hd' Hu W Len M. pose proof W as (S & _ & _ & X & _). destruct (@best_paths ideo d d' u s mode (joints d r l) x Hd Hd' Hu S X Len) as (ws & ws' & C & C' & N & E & E').
  { intros m ws C. unfold seg_cost. apply (join_cost m ideo Hd Hu W C DUMMY). cbn. lia. }
  do 2 eexists. split; [apply E|]. split; [apply E'|]. unfold words_of. rewrite (map_final Hd Hu omit (to_lmode mode) word_of_free C), (map_final Hd' Hu omit' (to_lmode mode) word_of_free (same_chain S C')).
  rewrite !words_plain by (apply lmode_not_extended; exact M). exact N.
Qed.
