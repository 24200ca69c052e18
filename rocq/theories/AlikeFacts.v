(** Proofs of C119. *)
From Verif Require Import BuildFacts AnalyzeFacts TieFacts LocalFacts ModeFacts Utf8Facts.
From Verif Require Import SpecTie SpecAlike.
From Coq Require Import Lia ZifyBool ZifyNat ZifyN.
Set Implicit Arguments.
Unset Strict Implicit.
Open Scope nat_scope.

Lemma text_ext s s' i j : i <= j -> (forall k, i <= k < j -> text s' k (S k) = text s k (S k)) -> text s' i j = text s i j.
Proof.
  intros L. remember (j - i) as n eqn:E. revert j L E. induction n as [|n IH]; intros j L E H.
  - replace j with i by lia. rewrite !text_nil. reflexivity.
  - rewrite (@text_app s' i (j - 1) j), (@text_app s i (j - 1) j) by lia. rewrite (IH (j - 1)) by (try lia; intros; apply H; lia). f_equal.
    replace j with (S (j - 1)) at 2 4 by lia. apply H. lia.
Qed.
Lemma nth_text s i : i < rcount s -> exists g, nth_error (segs s) i = Some g /\ text s i (S i) = snd g /\ rune_at s i = fst g /\ decode_rune (snd g) = (fst g, length (snd g)).
Proof.
  intros L. destruct (nth_error (segs s) i) as [g|] eqn:E; [|apply nth_error_None in E; unfold rcount in L; lia]. exists g. split; [reflexivity|].
  assert (I : In g (segs s)) by (eapply nth_error_In; exact E). split.
  - unfold text. replace (S i - i) with 1 by lia. destruct (nth_error_split _ _ E) as (a & b & -> & <-). rewrite skipn_app, skipn_all, Nat.sub_diag. cbn. rewrite app_nil_r. reflexivity.
  - split; [unfold rune_at; rewrite (nth_error_nth _ _ _ E); reflexivity|exact (segs_decode I)].
Qed.
Lemma same_text_seg s s' i : i < rcount s -> i < rcount s' -> text s' i (S i) = text s i (S i) -> nth_error (segs s') i = nth_error (segs s) i /\ rune_at s' i = rune_at s i.
Proof.
  intros L L' T. destruct (nth_text L) as ([r b] & E1 & E2 & E3 & E4). destruct (nth_text L') as ([r' b'] & E1' & E2' & E3' & E4'). cbn [fst snd] in *. assert (b' = b) by congruence. subst b'.
  assert (r' = r) by congruence. subst r'. split; congruence.
Qed.
Lemma forallb_part {A} (f : A -> bool) dft n : forall l i, i + n <= length l -> forallb f (firstn n (skipn i l)) = forallb (fun k => f (nth k l dft)) (seq i n).
Proof.
  induction n as [|n IH]; intros l i L; [reflexivity|]. cbn [seq forallb]. rewrite <- (IH l (S i)) by lia.
  destruct (nth_error l i) as [x|] eqn:E; [|apply nth_error_None in E; lia]. rewrite (nth_error_nth _ _ dft E). destruct (nth_error_split _ _ E) as (a & b & -> & <-).
  assert (E1 : skipn (length a) (a ++ x :: b) = x :: b) by (rewrite skipn_app, skipn_all, Nat.sub_diag; reflexivity).
  assert (E2 : skipn (S (length a)) (a ++ x :: b) = b).
  { replace (a ++ x :: b) with ((a ++ [x]) ++ b) by (rewrite <- app_assoc; reflexivity). replace (S (length a)) with (length (a ++ [x])) by (rewrite app_length; cbn; lia). rewrite skipn_app, skipn_all, Nat.sub_diag. reflexivity. }
  rewrite E1, E2. reflexivity.
Qed.

Lemma alike_back d u ideo s s' : alike d u ideo s s' -> alike d u ideo s' s.
Proof.
  intros [C R]. constructor; [auto|]. intros i L. rewrite C in L. destruct (R i L) as [E|((K1 & K2 & K3 & K4 & K5) & U & U')]; [left; auto|right].
  split; [split; [auto|]; split; [auto|]; split; [tauto|]; split; assumption|split; assumption].
Qed.

Section Alike.
Variables (d : dict) (u : option udict) (ideo : ideographic) (s s' : bytes).
Hypothesis A : alike d u ideo s s'.
Lemma al_kind i : i < rcount s -> cat d s' i = cat d s i /\ ideo (rune_at s' i) = ideo (rune_at s i) /\ (rune_at s' i = rune_error <-> rune_at s i = rune_error) /\ (literal_fffd s' i <-> literal_fffd s i).
Proof.
  intros L. destruct (al_runes A i L) as [E|((K1 & K2 & K3 & K4 & K5) & _)].
  - destruct (same_text_seg L ltac:(rewrite (al_count A); exact L) E) as (E1 & E2). unfold cat, literal_fffd. rewrite E1, E2. tauto.
  - unfold cat. tauto.
Qed.
Lemma al_text idx id i j : idx = d_index d \/ idx = user_index u -> keyword_at idx s id i j -> text s' i j = text s i j.
Proof.
  intros I K. pose proof K as (L & _). apply text_ext; [lia|]. intros k Hk. destruct (al_runes A k ltac:(lia)) as [E|(_ & U & _)]; [exact E|]. destruct (U id i j Hk) as (U1 & U2). destruct I; subst; contradiction.
Qed.
Lemma al_keyword idx id i j : idx = d_index d \/ idx = user_index u -> keyword_at idx s id i j -> keyword_at idx s' id i j.
Proof. intros I K. pose proof (al_text I K) as T. destruct K as (L & K). split; [rewrite (al_count A); exact L|rewrite T; exact K]. Qed.
End Alike.

Section Both.
Variables (d : dict) (u : option udict) (ideo : ideographic) (s s' : bytes).
Hypothesis A : alike d u ideo s s'.
Lemma al_none idx i : idx = d_index d \/ idx = user_index u -> no_keyword idx s i -> no_keyword idx s' i.
Proof. intros I N id j K. exact (N _ _ (al_keyword (alike_back A) I K)). Qed.
Lemma al_no_user i : no_user_keyword u s i -> no_user_keyword u s' i.
Proof. unfold no_user_keyword. pose proof (@al_none (user_index u) i (or_intror eq_refl)) as H. destruct u; cbn [user_index] in H; auto. Qed.
Lemma al_limit i l : i < rcount s -> run_limit s i l -> run_limit s' i l.
Proof. intros L. unfold run_limit. destruct (al_kind A L) as (_ & _ & _ & H). tauto. Qed.
Lemma al_stop i e : unknown_stop d s i e -> unknown_stop d s' i e.
Proof.
  intros (L & H). split; [rewrite (al_count A); exact L|]. rewrite (proj1 (al_kind A (i := i) ltac:(lia))). destruct (groups d (cat d s i)); [|exact H].
  destruct H as (H1 & l & H2 & H3 & H4). split; [intros k Hk; rewrite (proj1 (al_kind A (i := k) ltac:(lia))); apply H1; exact Hk|]. exists l. split; [apply al_limit; [lia|exact H2]|]. split; [exact H3|].
  rewrite (al_count A). destruct H4 as [H4|[H4|H4]]; [left; exact H4|right; left; exact H4|]. destruct (Nat.eq_dec e (rcount s)) as [E|E]; [left; exact E|right; right].
  rewrite (proj1 (al_kind A (i := e) ltac:(lia))). exact H4.
Qed.
Lemma al_candidate w : candidate d u s w -> candidate d u s' w.
Proof.
  intros [ud id i j E K|id i j N K|id i j e N P U J I].
  - apply cand_user with ud; [exact E|]. apply (al_keyword A); [right; rewrite E; reflexivity|exact K].
  - apply cand_known; [apply al_no_user; exact N|]. apply (al_keyword A); [left; reflexivity|exact K].
  - pose proof U as (L & _). assert (Ck : cat d s' i = cat d s i) by (apply (al_kind A); lia). apply cand_unknown with e; [apply al_no_user; exact N| |apply al_stop; exact U| |rewrite Ck; exact I].
    + rewrite Ck. destruct P as [P|P]; [left; apply al_none; [left; reflexivity|exact P]|right; exact P].
    + destruct J as [J|(J1 & J2 & J3)]; [left; exact J|right; split; [exact J1|]; split; [exact J2|]]. destruct (al_kind A (i := j) ltac:(lia)) as (_ & _ & H & _). tauto.
Qed.
Lemma al_chain i ws n : chain d u s i ws n -> chain d u s' i ws n.
Proof. induction 1 as [|w ws j C Ch IH]; constructor; [apply al_candidate; exact C|exact IH]. Qed.
Lemma al_penalty m w : candidate d u s w -> penalty m ideo s' w = penalty m ideo s w.
Proof.
  intros C. assert (L : w_start w <= w_stop w <= rcount s).
  { destruct C as [ud id i j E (K & _)|id i j N (K & _)|id i j e N P U J I]; cbn [w_start w_stop]; [lia|lia|]. destruct U as (L & _). lia. }
  assert (B : w_start w + (w_stop w - w_start w) <= length (segs s)) by (unfold rcount in L; lia).
  assert (B' : w_start w + (w_stop w - w_start w) <= length (segs s')) by (pose proof (al_count A) as C'; unfold rcount in C'; rewrite C'; exact B).
  assert (Q : forallb (fun g => ideo (fst g)) (firstn (w_stop w - w_start w) (skipn (w_start w) (segs s'))) = forallb (fun g => ideo (fst g)) (firstn (w_stop w - w_start w) (skipn (w_start w) (segs s)))).
  { rewrite (forallb_part _ (0%N, []) B'), (forallb_part _ (0%N, []) B). clear - A L. assert (K : forall k, In k (seq (w_start w) (w_stop w - w_start w)) -> ideo (rune_at s' k) = ideo (rune_at s k)).
    { intros k Hk. apply in_seq in Hk. apply (al_kind A). lia. }
    revert K. generalize (seq (w_start w) (w_stop w - w_start w)). intros l K. induction l as [|k l IH]; [reflexivity|]. cbn [forallb]. rewrite IH by (intros; apply K; right; assumption). f_equal. apply K. left. reflexivity. }
  unfold penalty, length_penalty. rewrite Q. reflexivity.
Qed.
Lemma al_cost m ws : (forall w, In w ws -> candidate d u s w) -> forall c e, cost_from m ideo d s' c e ws = cost_from m ideo d s c e ws.
Proof.
  induction ws as [|w ws IH]; intros H c e; [reflexivity|]. cbn [cost_from]. rewrite IH by (intros; apply H; right; assumption). rewrite al_penalty by (apply H; left; reflexivity). reflexivity.
Qed.
Lemma al_seg m ws : segmentation d u s ws -> seg_cost m ideo d s' ws = seg_cost m ideo d s ws.
Proof. intros S. apply al_cost. intros w. apply (chain_all S). Qed.
Lemma al_preferred w w' : candidate d u s w -> preferred d u s w w' -> preferred d u s' w w'.
Proof.
  intros C [P|(P1 & P2)]; [left; exact P|right]. split; [exact P1|]. unfold word_text in *. destruct C as [ud id i j E K|id i j N K|id i j e N P U J I]; cbn [w_class w_start w_stop w_id] in *.
  - rewrite (al_text A (or_intror eq_refl) (id := id)); [exact P2|]. rewrite E. exact K.
  - rewrite (al_text A (or_introl eq_refl) K). exact P2.
  - exact P2.
Qed.
End Both.

Lemma al_chosen d u ideo s s' m ws : alike d u ideo s s' -> chosen m ideo d u s ws -> chosen m ideo d u s' ws.
Proof.
  intros A (S & C). split; [unfold segmentation; rewrite (al_count A); exact (al_chain A S)|]. intros ws' S'.
  assert (S2 : segmentation d u s ws') by (unfold segmentation; rewrite <- (al_count A); exact (al_chain (alike_back A) S')).
  destruct (C ws' S2) as (C1 & C2). rewrite (al_seg A m S), (al_seg A m S2). split; [exact C1|]. intros E. destruct (C2 E) as [->|(a & a' & w & w' & b & -> & -> & Q)]; [left; reflexivity|right].
  exists a, a', w, w', b. split; [reflexivity|]. split; [reflexivity|]. apply (al_preferred A); [|exact Q]. apply (chain_all S). apply in_or_app. right. left. reflexivity.
Qed.

Lemma shapes_final t s s' m ws : rcount s' = rcount s -> map shape (final_tokens t s' m 0 ws) = map shape (final_tokens t s m 0 ws).
Proof.
  intros C. unfold final_tokens. set (R := fun a b => shape a = shape b).
  assert (F : Forall2 R (raw_tokens t s' m 0 ws) (raw_tokens t s m 0 ws)).
  { unfold raw_tokens. cbn [Nat.eqb app]. constructor; [reflexivity|]. apply Forall2_app; [|constructor; [unfold R, shape, eos_token; cbn; rewrite C; reflexivity|constructor]].
    induction ws as [|w ws IH]; cbn [flat_map]; [constructor|]. apply Forall2_app; [|exact IH]. unfold word_tokens.
    destruct m; try (constructor; [reflexivity|constructor]). destruct (w_class w); try (constructor; [reflexivity|constructor]).
    induction (seq _ _); cbn [map]; constructor; [reflexivity|assumption]. }
  generalize 0 at 1 3. revert F. generalize (raw_tokens t s' m 0 ws) (raw_tokens t s m 0 ws).
  induction 1 as [|a b l l' Hab F IH]; intros k; [reflexivity|]. cbn [filter]. injection Hab as E1 E2 E3 E4 E5 E6 E7.
  unfold is_marker. rewrite E2. destruct (negb (tk_omit t && (t_id b =? -1)%Z)); [|apply IH]. cbn [renumber map]. fold is_marker.
  f_equal; [|apply IH]. unfold shape, set_index. cbn. congruence.
Qed.

Theorem alike_same ideo d u omit s s' mode : wf_dict d -> wf_udict u -> alike d u ideo s s' -> (Z.of_nat (rcount s) <= optimal_limit mode)%Z ->
  same_shapes (analyze ideo (Tokenizer d u omit) s mode) (analyze ideo (Tokenizer d u omit) s' mode).
Proof.
  intros Hd Hu A L. destruct (run_final ideo omit Hd Hu L) as (ws & C & E). rewrite <- (al_count A) in L. destruct (run_final ideo omit Hd Hu L) as (ws' & C' & E').
  rewrite <- (chosen_unique C' (al_chosen A C)) in E'. rewrite E, E'. cbn [same_shapes]. apply shapes_final. exact (al_count A).
Qed.

Lemma nth_first {A} n : forall (l : list A) k, k < n -> nth_error (firstn n l) k = nth_error l k.
Proof. induction n as [|n IH]; intros l k H; [lia|]. destruct l as [|x l]; [destruct k; reflexivity|]. destruct k as [|k]; [reflexivity|]. cbn. apply IH. lia. Qed.
Lemma nth_part {A} a : forall (l : list A) k n, k < n -> nth_error (firstn n (skipn a l)) k = nth_error l (a + k).
Proof. induction a as [|a IH]; intros l k n H; [apply nth_first; exact H|]. destruct l as [|x l]; [cbn; rewrite firstn_nil; destruct k; reflexivity|]. cbn [skipn Nat.add nth_error]. apply IH. exact H. Qed.
(** Bytes that are not UTF-8. *)
Lemma malformed_alike d u ideo s s' : wf_dict d -> wf_udict u -> same_utf8 s s' -> alike d u ideo s s'.
Proof.
  intros Hd Hu F. assert (C : rcount s' = rcount s) by (clear - F; unfold same_utf8, rcount in *; induction F; cbn; congruence). constructor; [exact C|]. intros i L.
  destruct (nth_text L) as (g & E1 & E2 & E3 & _). rewrite <- C in L. destruct (nth_text L) as (g' & E1' & E2' & E3' & _).
  assert (R : g' = g \/ malformed g /\ malformed g').
  { clear - F E1 E1'. unfold same_utf8 in F. revert i E1 E1'. induction F as [|x y l l' H F IH]; intros [|i] E1 E1'; try discriminate; [cbn in *; congruence|]. exact (IH _ E1 E1'). }
  destruct R as [->|((M1 & M2) & (M1' & M2'))]; [left; congruence|right].
  assert (Lit : forall x h, nth_error (segs x) i = Some h -> length (snd h) = 1 -> ~ literal_fffd x i) by (intros x h Ex Hx Q; unfold literal_fffd in Q; rewrite Q in Ex; injection Ex as <-; discriminate).
  assert (Unc : forall x h, nth_error (segs x) i = Some h -> malformed h -> uncovered d u x i).
  { intros x h Ex (Hx1 & Hx2) id a b Hab. assert (G : forall idx n, wf_index idx n -> ~ keyword_at idx x id a b).
    { intros idx n W (K1 & K2). destruct (W _ _ K2) as (_ & V & _). unfold valid_utf8 in V. rewrite text_segs in V by (unfold rcount in *; lia). rewrite forallb_forall in V.
      assert (I : In h (firstn (b - a) (skipn a (segs x)))).
      { apply nth_error_In with (i - a). rewrite nth_part by lia. replace (a + (i - a)) with i by lia. exact Ex. }
      apply V in I. unfold seg_ok in I. destruct h as [r bs]. cbn [fst snd] in *. subst r. rewrite Hx2 in I. discriminate. }
    split; [exact (G _ _ (wf_idx Hd))|]. destruct u as [ud|]; [exact (G _ _ Hu)|intros (_ & [])]. }
  split; [|split; [exact (Unc _ _ E1 (conj M1 M2))|exact (Unc _ _ E1' (conj M1' M2'))]].
  unfold same_kind. rewrite E3, E3', M1, M1'. split; [reflexivity|]. split; [reflexivity|]. split; [tauto|]. split; [exact (Lit _ _ E1 M2)|exact (Lit _ _ E1' M2')].
Qed.
