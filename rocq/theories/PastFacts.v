(** Proofs of C116. *)
From Verif Require Import AnalyzeFacts TieFacts Utf8Facts.
From Verif Require Import SpecTie SpecPast.
From Coq Require Import Lia ZifyBool ZifyNat ZifyN.
Set Implicit Arguments.
Unset Strict Implicit.
Open Scope nat_scope.

Section Shift.
Variables (d : dict) (u : option udict) (a s : bytes).
Hypothesis Ha : valid_utf8 a = true.
Let A := a ++ s.
Let k := rcount a.

Lemma sh_segs : segs A = segs a ++ segs s.
Proof. apply segs_valid_app. exact Ha. Qed.
Lemma sh_count : rcount A = k + rcount s.
Proof. unfold rcount, k. rewrite sh_segs, app_length. reflexivity. Qed.
Lemma sh_skip i : skipn (k + i) (segs A) = skipn i (segs s).
Proof. rewrite sh_segs, skipn_app, skipn_all2 by (unfold k, rcount; lia). unfold k, rcount. replace (length (segs a) + i - length (segs a)) with i by lia. reflexivity. Qed.
Lemma sh_nth {B} (f : N * bytes -> B) i dft : f (nth (k + i) (segs A) dft) = f (nth i (segs s) dft).
Proof. rewrite sh_segs, app_nth2 by (unfold k, rcount; lia). unfold k, rcount. replace (length (segs a) + i - length (segs a)) with i by lia. reflexivity. Qed.
Lemma sh_text i j : text A (k + i) (k + j) = text s i j.
Proof. unfold text. rewrite sh_skip. replace (k + j - (k + i)) with (j - i) by lia. reflexivity. Qed.
Lemma sh_rune i : rune_at A (k + i) = rune_at s i.
Proof. apply (sh_nth fst). Qed.
Lemma sh_cat i : cat d A (k + i) = cat d s i.
Proof. unfold cat. rewrite sh_rune. reflexivity. Qed.
Lemma sh_fffd i : literal_fffd A (k + i) <-> literal_fffd s i.
Proof. unfold literal_fffd. rewrite sh_segs, nth_error_app2 by (unfold k, rcount; lia). unfold k, rcount. replace (length (segs a) + i - length (segs a)) with i by lia. reflexivity. Qed.
Lemma sh_key idx id i j : keyword_at idx A id (k + i) (k + j) <-> keyword_at idx s id i j.
Proof. unfold keyword_at. rewrite sh_text, sh_count. split; intros (R & H); (split; [lia|exact H]). Qed.
Lemma sh_nokey idx i : no_keyword idx A (k + i) <-> no_keyword idx s i.
Proof.
  split; intros H id j K.
  - apply (H id (k + j)). apply sh_key. exact K.
  - assert (j = k + (j - k)) as E by (destruct K as (R & _); lia). rewrite E in K. apply sh_key in K. exact (H _ _ K).
Qed.
Lemma sh_nouser i : no_user_keyword u A (k + i) <-> no_user_keyword u s i.
Proof. unfold no_user_keyword. destruct u; [apply sh_nokey|reflexivity]. Qed.
Lemma sh_limit i l : run_limit A (k + i) l <-> run_limit s i l.
Proof. unfold run_limit. rewrite sh_fffd. reflexivity. Qed.
Lemma sh_stop i e : unknown_stop d A (k + i) (k + e) <-> unknown_stop d s i e.
Proof.
  unfold unknown_stop. rewrite sh_count, sh_cat. destruct (groups d (cat d s i)).
  - split; intros (R & H & l & L & M & T); (split; [lia|]); split.
    + intros q Hq. rewrite <- sh_cat. apply H. lia.
    + exists l. rewrite sh_limit in L. rewrite sh_cat in T. replace (k + e - (k + i)) with (e - i) in * by lia. repeat split; auto. destruct T as [T|T]; [left; lia|right; exact T].
    + intros q Hq. replace q with (k + (q - k)) by lia. rewrite sh_cat. apply H. lia.
    + exists l. rewrite sh_limit, sh_cat. replace (k + e - (k + i)) with (e - i) in * by lia. repeat split; auto. destruct T as [T|T]; [left; lia|right; exact T].
  - split; intros (R & H); (split; [lia|]); lia.
Qed.
Lemma sh_candidate w : candidate d u A (moved k w) <-> candidate d u s w.
Proof.
  destruct w as [c id i j]. unfold moved. cbn [w_class w_id w_start w_stop]. split; intros H.
  - inversion H as [ud id' i' j' Eu K E|id' i' j' N K E|id' i' j' e N O St J I E]; subst.
    + eapply cand_user; [first [eassumption|reflexivity]|]. apply sh_key. exact K.
    + apply cand_known; [apply sh_nouser; exact N|apply sh_key; exact K].
    + assert (e = k + (e - k)) as Ee by (destruct St as (R & _); lia). rewrite Ee in St, J. rewrite sh_cat in O, I.
      apply cand_unknown with (e := e - k); [apply sh_nouser; exact N| |apply sh_stop; exact St| |exact I].
      * destruct O as [O|O]; [left; apply sh_nokey; exact O|right; exact O].
      * destruct J as [J|(J1 & J2 & J3)]; [left; lia|right]. rewrite sh_rune in J3. split; [lia|]. split; [lia|exact J3].
  - inversion H as [ud id' i' j' Eu K E|id' i' j' N K E|id' i' j' e N O St J I E]; subst.
    + eapply cand_user; [first [eassumption|reflexivity]|]. apply sh_key. exact K.
    + apply cand_known; [apply sh_nouser; exact N|apply sh_key; exact K].
    + apply cand_unknown with (e := k + e); [apply sh_nouser; exact N| |apply sh_stop; exact St| |rewrite sh_cat; exact I].
      * rewrite sh_cat. destruct O as [O|O]; [left; apply sh_nokey; exact O|right; exact O].
      * destruct J as [J|(J1 & J2 & J3)]; [left; lia|right]. rewrite sh_rune. split; [lia|]. split; [lia|exact J3].
Qed.
Lemma sh_chain q : forall i n, chain d u s i q n -> chain d u A (k + i) (map (moved k) q) (k + n).
Proof.
  induction q as [|w q IH]; intros i n H; inversion H; subst; [constructor|].
  change (k + w_start w) with (w_start (moved k w)). cbn [map]. constructor; [apply sh_candidate; assumption|]. apply IH. assumption.
Qed.
Lemma sh_unchain q : forall i n, chain d u A i q n -> k <= i -> exists q0, q = map (moved k) q0 /\ chain d u s (i - k) q0 (n - k).
Proof.
  induction q as [|w q IH]; intros i n H L; inversion H as [|w' q' j C Ch]; subst; [exists []; split; [reflexivity|constructor]|].
  pose proof (candidate_range C) as R. destruct (IH _ _ Ch) as (q0 & -> & C0); [lia|].
  set (w0 := Word (w_class w) (w_id w) (w_start w - k) (w_stop w - k)).
  assert (w = moved k w0) as E. { destruct w as [c id i0 j0]. unfold moved, w0. cbn in *. f_equal; lia. }
  exists (w0 :: q0). split; [cbn [map]; rewrite <- E; reflexivity|].
  change (w_start w - k) with (w_start w0). constructor; [apply sh_candidate; rewrite <- E; exact C|exact C0].
Qed.
Lemma sh_penalty m ideo w : penalty m ideo A (moved k w) = penalty m ideo s w.
Proof.
  unfold penalty, length_penalty, moved. cbn [w_start w_stop]. rewrite sh_skip. replace (k + w_stop w - (k + w_start w)) with (w_stop w - w_start w) by lia. reflexivity.
Qed.
Lemma sh_cost m ideo q : forall c e, cost_from m ideo d A c e (map (moved k) q) = cost_from m ideo d s c e q.
Proof.
  induction q as [|w q IH]; intros c e; [reflexivity|]. cbn [map cost_from]. rewrite IH, sh_penalty. reflexivity.
Qed.
Lemma sh_preferred w w' : preferred d u A (moved k w) (moved k w') -> preferred d u s w w'.
Proof.
  unfold preferred, word_text, moved. cbn [w_class w_id w_start w_stop]. rewrite sh_text. intros [H|(H & P)]; [left; lia|right; split; [lia|exact P]].
Qed.
End Shift.

(** The state in which a beginning leaves the search. *)
Fixpoint state_after (d : dict) (c : node_class) (e : morph) (p : list word) : node_class * morph :=
  match p with [] => (c, e) | w :: p' => state_after d (w_class w) (entry d (w_class w) (w_id w)) p' end.
Lemma cost_split m ideo d s p : forall c e, exists K, forall q, (cost_from m ideo d s c e (p ++ q) = K + cost_from m ideo d s (fst (state_after d c e p)) (snd (state_after d c e p)) q)%Z.
Proof.
  induction p as [|w p IH]; intros c e; [exists 0%Z; reflexivity|].
  destruct (IH (w_class w) (entry d (w_class w) (w_id w))) as (K & H). eexists. intros q. cbn [app cost_from state_after]. rewrite H, Z.add_assoc. reflexivity.
Qed.
Definition right_of (st : node_class * morph) : option Z := match fst st with USER => None | _ => Some (m_right (snd st)) end.
Lemma cost_state m ideo d s q c e c' e' : right_of (c, e) = right_of (c', e') -> cost_from m ideo d s c e q = cost_from m ideo d s c' e' q.
Proof.
  intros R. assert (E : forall x y, connection d c e x y = connection d c' e' x y).
  { intros x y. unfold right_of in R. cbn [fst snd] in R. unfold connection. destruct c, c'; try discriminate R; try (injection R as R; rewrite R); reflexivity. }
  destruct q; cbn [cost_from]; rewrite E; reflexivity.
Qed.
Lemma state_leaving d p : right_of (state_after d DUMMY zero_morph p) = leaving d p.
Proof.
  destruct p as [|w p] using rev_ind; [reflexivity|]. clear IHp. unfold leaving. rewrite rev_app_distr. cbn [rev app].
  assert (E : forall c e, state_after d c e (p ++ [w]) = (w_class w, entry d (w_class w) (w_id w))).
  { induction p as [|x p IH]; intros c e; [reflexivity|]. cbn [app state_after]. apply IH. }
  rewrite E. unfold right_of. cbn [fst snd]. destruct (w_class w); reflexivity.
Qed.

Lemma chain_app_inv d u s p : forall i q n, chain d u s i (p ++ q) n -> exists j, chain d u s i p j /\ chain d u s j q n.
Proof.
  induction p as [|w p IH]; intros i q n H; cbn [app] in H; [exists i; split; [constructor|exact H]|].
  inversion H as [|w0 ws0 n0 C0 C9]; subst. destruct (IH _ _ _ C9) as (j & C1 & C2). exists j. split; [constructor; assumption|exact C2].
Qed.
Lemma chain_join d u s p : forall i q j n, chain d u s i p j -> chain d u s j q n -> chain d u s i (p ++ q) n.
Proof. induction p as [|w p IH]; intros i q j n H H'; inversion H; subst; [exact H'|]. cbn [app]. constructor; [assumption|]. eapply IH; eassumption. Qed.
Lemma chain_ends d u s p i j : chain d u s i p j -> match rev p with [] => j = i | w :: _ => w_stop w = j end.
Proof.
  intros H. destruct p as [|w p] using rev_ind; [inversion H; reflexivity|]. clear IHp. rewrite rev_app_distr. cbn [rev app].
  apply chain_app_inv in H. destruct H as (k & _ & H). inversion H as [|w0 ws0 n0 C0 C9]; subst. inversion C9; subst. reflexivity.
Qed.
Lemma chain_le d u s p i j : chain d u s i p j -> i <= j /\ (i = j -> p = []).
Proof.
  induction 1 as [|w ws j C Ch IH]; [split; [lia|auto]|]. pose proof (candidate_range C). split; [lia|]. intros; lia.
Qed.
Lemma app_cases {X} (x1 x2 y1 y2 : list X) : x1 ++ x2 = y1 ++ y2 -> exists l, (x1 = y1 ++ l /\ y2 = l ++ x2) \/ (y1 = x1 ++ l /\ x2 = l ++ y2).
Proof.
  revert y1. induction x1 as [|x x1 IH]; intros [|y y1] E; cbn [app] in *.
  - exists []. left. auto.
  - exists (y :: y1). right. auto.
  - exists (x :: x1). left. auto.
  - injection E as -> E. destruct (IH _ E) as (l & [(-> & ->)|(-> & ->)]); exists l; auto.
Qed.

(** A difference after the same beginning lies in the rest. *)
Lemma tail_side d u s p q q2 x x' w w' y j n : chain d u s 0 p j -> chain d u s j q n -> chain d u s j q2 n -> w <> w' ->
  p ++ q = x ++ w :: y -> p ++ q2 = x' ++ w' :: y -> exists l, x = p ++ l /\ q = l ++ w :: y.
Proof.
  intros P Q Q2 Nw E E2. destruct (app_cases E) as (l & [(Ep & Ey)|(Ex & Eq)]); [|exists l; auto].
  destruct l as [|w0 l]; [exists []; rewrite app_nil_r in *; cbn in Ey; auto|]. exfalso. cbn [app] in Ey. injection Ey as <- ->.
  pose proof (chain_join P Q2) as W. rewrite E2 in W.
  replace (x' ++ w' :: l ++ q) with ((x' ++ w' :: l) ++ q) in * by (rewrite <- app_assoc; reflexivity).
  apply chain_app_inv in W. destruct W as (k & W1 & W2). pose proof (chain_from W2 Q) as ->.
  destruct (app_cases E2) as (l2 & [(E3 & _)|(E3 & _)]).
  - rewrite E3 in P. apply chain_app_inv in P. destruct P as (k & P1 & P2).
    assert (k = j) as -> by (pose proof (chain_ends P1); pose proof (chain_ends W1); destruct (rev (x' ++ w' :: l)); congruence).
    pose proof (proj2 (chain_le P2) eq_refl) as ->. rewrite app_nil_r in E3. rewrite Ep in E3.
    apply (f_equal (@rev word)) in E3. rewrite !rev_app_distr in E3. cbn [rev] in E3. rewrite <- !app_assoc in E3. apply app_inv_head in E3. cbn [app] in E3. congruence.
  - rewrite E3 in W1. apply chain_app_inv in W1. destruct W1 as (k & P1 & P2).
    assert (k = j) as -> by (pose proof (chain_ends P1); pose proof (chain_ends P); destruct (rev p); congruence).
    pose proof (proj2 (chain_le P2) eq_refl) as ->. rewrite app_nil_r in E3. rewrite Ep in E3.
    apply (f_equal (@rev word)) in E3. rewrite !rev_app_distr in E3. cbn [rev] in E3. rewrite <- !app_assoc in E3. apply app_inv_head in E3. cbn [app] in E3. congruence.
Qed.
Lemma moved_inj k w w' : moved k w = moved k w' -> w = w'.
Proof. destruct w, w'. unfold moved. cbn. intros E. injection E as -> -> E1 E2. f_equal; lia. Qed.
Lemma map_moved_inj k q : forall q', map (moved k) q = map (moved k) q' -> q = q'.
Proof. induction q as [|w q IH]; intros [|w' q'] E; try discriminate E; [reflexivity|]. cbn [map] in E. injection E as E1 E2 E3 E4 E. f_equal; [apply (@moved_inj k); unfold moved; congruence|apply IH; exact E]. Qed.
Lemma map_split {X Y} (f : X -> Y) q : forall l w y, map f q = l ++ w :: y -> exists l0 w0 y0, q = l0 ++ w0 :: y0 /\ map f l0 = l /\ f w0 = w /\ map f y0 = y.
Proof.
  induction q as [|x q IH]; intros [|z l] w y E; cbn [map app] in E; try discriminate E; injection E as E1 E.
  - exists [], x, q. auto.
  - destruct (IH _ _ _ E) as (l0 & w0 & y0 & -> & <- & <- & <-). subst z. exists (x :: l0), w0, y0. auto.
Qed.

(** What follows is chosen for itself. *)
Lemma chosen_rest m ideo d u a s p q : valid_utf8 a = true -> chosen m ideo d u (a ++ s) (p ++ map (moved (rcount a)) q) -> ends_at p (rcount a) ->
  segmentation d u s q /\ forall c e q2, right_of (c, e) = leaving d p -> segmentation d u s q2 ->
    (cost_from m ideo d s c e q <= cost_from m ideo d s c e q2)%Z /\
    (cost_from m ideo d s c e q2 = cost_from m ideo d s c e q -> q2 = q \/ right_before d u s q q2).
Proof.
  intros Ha (S & H) En. unfold segmentation in S. apply chain_app_inv in S. destruct S as (j & P & Q).
  assert (j = rcount a) as -> by (pose proof (chain_ends P) as F; unfold ends_at in En; destruct (rev p); congruence).
  assert (Qs : segmentation d u s q).
  { destruct (sh_unchain Ha Q (le_n _)) as (q0 & E & C). apply map_moved_inj in E. subst q0. rewrite (sh_count s Ha) in C.
    unfold segmentation. replace (rcount a - rcount a) with 0 in C by lia. replace (rcount a + rcount s - rcount a) with (rcount s) in C by lia. exact C. }
  split; [exact Qs|]. intros c e q2 R Q2. pose proof (sh_chain Ha Q2) as Q2'. rewrite Nat.add_0_r, <- (sh_count s Ha) in Q2'.
  destruct (H _ (chain_join P Q2')) as (L & T). unfold seg_cost in L, T. destruct (@cost_split m ideo d (a ++ s) p DUMMY zero_morph) as (K & HK).
  rewrite !HK, !(sh_cost d s Ha) in L, T. destruct (state_after d DUMMY zero_morph p) as (c0, e0) eqn:Es. cbn [fst snd] in L, T.
  rewrite <- (state_leaving d p), Es in R. rewrite !(@cost_state m ideo d s _ c e c0 e0 R). split; [lia|]. intros Eq.
  destruct (T ltac:(lia)) as [E|(x & x' & w & w' & y & E1 & E2 & Pf)]; [left; apply app_inv_head in E; apply map_moved_inj in E; exact E|right].
  assert (Nw : w <> w') by (intros ->; exact (preferred_irrefl Pf)).
  destruct (tail_side P Q Q2' Nw E1 E2) as (l & _ & F1). destruct (tail_side P Q2' Q (not_eq_sym Nw) E2 E1) as (l' & _ & F2).
  destruct (map_split F1) as (l0 & w0 & y0 & G1 & _ & <- & <-). destruct (map_split F2) as (l1 & w1 & y1 & G2 & _ & <- & G3). apply map_moved_inj in G3. subst y1.
  exists l0, l1, w0, w1, y0. split; [exact G1|]. split; [exact G2|]. eapply sh_preferred; eassumption.
Qed.

Theorem past d u ideo omit omit' a b s mode ta tb pa qa pb qb : wf_dict d -> wf_udict u -> mode <> mode_extended -> valid_utf8 a = true -> valid_utf8 b = true ->
  (Z.of_nat (rcount (a ++ s)) <= optimal_limit mode)%Z -> (Z.of_nat (rcount (b ++ s)) <= optimal_limit mode)%Z ->
  analyze ideo (Tokenizer d u omit) (a ++ s) mode = Ok ta -> analyze ideo (Tokenizer d u omit') (b ++ s) mode = Ok tb ->
  words_of ta = pa ++ qa -> words_of tb = pb ++ qb -> ends_at pa (rcount a) -> ends_at pb (rcount b) -> leaving d pa = leaving d pb ->
  exists q, qa = map (moved (rcount a)) q /\ qb = map (moved (rcount b)) q.
Proof.
  intros Hd Hu Hm Va Vb La Lb Ea Eb Wa Wb Na Nb Le.
  destruct (analyze_chosen ideo omit Hd Hu Hm La) as (ta' & E & Ca). rewrite Ea in E. injection E as <-.
  destruct (analyze_chosen ideo omit' Hd Hu Hm Lb) as (tb' & E & Cb). rewrite Eb in E. injection E as <-.
  rewrite Wa in Ca. rewrite Wb in Cb.
  assert (U : forall x p r, valid_utf8 x = true -> chosen (to_lmode mode) ideo d u (x ++ s) (p ++ r) -> ends_at p (rcount x) -> exists q, r = map (moved (rcount x)) q).
  { intros x p r Vx (S & _) Ex. unfold segmentation in S. apply chain_app_inv in S. destruct S as (j & P & Q).
    assert (j = rcount x) as -> by (pose proof (chain_ends P) as F; unfold ends_at in Ex; destruct (rev p); congruence).
    destruct (sh_unchain Vx Q (le_n _)) as (q & -> & _). eauto. }
  destruct (U _ _ _ Va Ca Na) as (q & ->). destruct (U _ _ _ Vb Cb Nb) as (q' & ->). exists q. split; [reflexivity|]. f_equal.
  destruct (chosen_rest Va Ca Na) as (S & H). destruct (chosen_rest Vb Cb Nb) as (S' & H').
  destruct (state_after d DUMMY zero_morph pa) as (c, e) eqn:Es. pose proof (state_leaving d pa) as R. rewrite Es in R.
  destruct (H c e q' R S') as (L & T). rewrite Le in R. destruct (H' c e q R S) as (L' & T').
  destruct (T ltac:(lia)) as [->|B]; [reflexivity|]. destruct (T' ltac:(lia)) as [->|B']; [reflexivity|].
  destruct (right_before_asym S S' B B').
Qed.

(** ** The other direction *)
Section Front.
Variables (d : dict) (u : option udict) (a s : bytes).
Hypothesis Ha : valid_utf8 a = true.
Let A := a ++ s.
Let k := rcount a.
Hypothesis Hc : clear_cut d u A k.

Lemma fr_text i j : j <= k -> text A i j = text a i j.
Proof.
  intros L. unfold text, A. rewrite segs_valid_app by exact Ha. f_equal. f_equal. unfold k, rcount in L. rewrite skipn_app.
  rewrite firstn_app, skipn_length. replace (j - i - (length (segs a) - i)) with 0 by lia. rewrite firstn_O, app_nil_r. reflexivity.
Qed.
Lemma fr_rune i : i < k -> rune_at A i = rune_at a i.
Proof. intros L. unfold rune_at, A. rewrite segs_valid_app by exact Ha. rewrite app_nth1 by exact L. reflexivity. Qed.
Lemma fr_cat i : i < k -> cat d A i = cat d a i.
Proof. intros L. unfold cat. rewrite fr_rune by exact L. reflexivity. Qed.
Lemma fr_fffd i : i < k -> literal_fffd A i <-> literal_fffd a i.
Proof. intros L. unfold literal_fffd, A. rewrite segs_valid_app by exact Ha. rewrite nth_error_app1 by exact L. reflexivity. Qed.
Lemma fr_count : rcount A = k + rcount s.
Proof. apply sh_count. exact Ha. Qed.
Lemma fr_key idx id i j : j <= k -> keyword_at idx A id i j <-> keyword_at idx a id i j.
Proof. intros L. unfold keyword_at. rewrite fr_text by exact L. rewrite fr_count. fold k. split; intros (R & H); (split; [lia|exact H]). Qed.
Lemma fr_nokey idx i : (forall id j, i < k < j -> ~ keyword_at idx A id i j) -> i < k -> no_keyword idx A i <-> no_keyword idx a i.
Proof.
  intros X L. split; intros H id j K.
  - assert (j <= k) by (destruct K as (R & _); fold k in R; lia). apply (H id j). apply fr_key; assumption.
  - destruct (Nat.le_gt_cases j k) as [Lj|Lj]; [|exact (X id j (conj L Lj) K)]. apply fr_key in K; [|exact Lj]. exact (H _ _ K).
Qed.
Lemma fr_nouser i : i < k -> no_user_keyword u A i <-> no_user_keyword u a i.
Proof.
  intros L. pose proof (cc_user Hc) as X. unfold no_user_keyword. destruct u as [ud|]; [|reflexivity]. apply fr_nokey; [|exact L]. intros id j. apply (X ud). reflexivity.
Qed.
Lemma fr_limit i l : i < k -> run_limit A i l <-> run_limit a i l.
Proof. intros L. unfold run_limit. rewrite fr_fffd by exact L. reflexivity. Qed.
Lemma fr_within i e : i < k -> unknown_stop d A i e -> e <= k.
Proof.
  intros L (R & H). destruct (Nat.le_gt_cases e k) as [?|G]; [assumption|exfalso]. rewrite fr_count in R.
  destruct (groups d (cat d A i)) eqn:Eg; [|lia]. destruct H as (H & _).
  destruct (cc_group Hc) as [X|X]; [rewrite fr_count; lia| |].
  - rewrite (H (k - 1)) in X by lia. congruence.
  - apply X. rewrite (H (k - 1)), (H k) by lia. reflexivity.
Qed.
Lemma fr_stop i e : i < k -> unknown_stop d A i e <-> unknown_stop d a i e.
Proof.
  intros L. split; intros H.
  - pose proof (fr_within L H) as W. destruct H as (R & H). rewrite fr_cat in H by exact L. split; [fold k; lia|].
    destruct (groups d (cat d a i)); [|exact H]. destruct H as (H & l & B & C & D). split.
    + intros q Hq. rewrite <- fr_cat by lia. apply H. exact Hq.
    + exists l. rewrite fr_limit in B by exact L. split; [exact B|]. split; [exact C|]. fold k. destruct (Nat.eq_dec e k) as [->|N]; [left; reflexivity|].
      destruct D as [D|[D|D]]; [rewrite fr_count in D; lia|right; left; exact D|right; right]. rewrite fr_cat in D by lia. exact D.
  - destruct H as (R & H). fold k in R. split; [rewrite fr_count; lia|]. rewrite fr_cat by exact L.
    destruct (groups d (cat d a i)) eqn:Eg; [|exact H]. destruct H as (H & l & B & C & D). fold k in D. split.
    + intros q Hq. rewrite fr_cat by lia. apply H. exact Hq.
    + exists l. rewrite fr_limit by exact L. split; [exact B|]. split; [exact C|]. destruct D as [->|[D|D]]; [|right; left; exact D|].
      * destruct (Nat.eq_dec (rcount s) 0) as [Z|Z]; [left; rewrite fr_count; lia|]. right. right.
        destruct (cc_group Hc) as [X|X]; [rewrite fr_count; lia| |].
        -- rewrite (fr_cat (i := k - 1)), (H (k - 1)) in X by lia. congruence.
        -- rewrite (fr_cat (i := k - 1)), (H (k - 1)) in X by lia. intros Q. apply X. symmetry. exact Q.
      * destruct (Nat.eq_dec e k) as [->|N]; [|right; right; rewrite fr_cat by lia; exact D].
        destruct (Nat.eq_dec (rcount s) 0) as [Z|Z]; [left; rewrite fr_count; lia|]. right. right.
        destruct (cc_group Hc) as [X|X]; [rewrite fr_count; lia| |].
        -- rewrite (fr_cat (i := k - 1)), (H (k - 1)) in X by lia. congruence.
        -- rewrite (fr_cat (i := k - 1)), (H (k - 1)) in X by lia. intros Q. apply X. symmetry. exact Q.
Qed.
Lemma fr_candidate w : w_start w < k -> candidate d u A w <-> candidate d u a w.
Proof.
  destruct w as [c id i j]. cbn [w_start]. intros L. split; intros H.
  - inversion H as [ud id' i' j' Eu K E|id' i' j' N K E|id' i' j' e N O St J I E]; subst id' i' j' c.
    + destruct (Nat.le_gt_cases j k) as [Lj|Lj]; [|destruct (cc_user Hc _ _ _ _ Eu (conj L Lj) K)]. eapply cand_user; [eassumption|]. apply fr_key; assumption.
    + destruct (Nat.le_gt_cases j k) as [Lj|Lj]; [|destruct (cc_known Hc _ _ _ (conj L Lj) K)]. apply cand_known; [apply fr_nouser; assumption|apply fr_key; assumption].
    + pose proof (fr_within L St) as W. rewrite fr_cat in O, I by exact L. apply cand_unknown with (e := e); [apply fr_nouser; assumption| |apply fr_stop; assumption| |exact I].
      * destruct O as [O|O]; [left|right; exact O]. apply fr_nokey; [|exact L|exact O]. intros; apply (cc_known Hc); assumption.
      * destruct J as [J|(J1 & J2 & J3)]; [left; exact J|right]. rewrite fr_rune in J3 by lia. auto.
  - inversion H as [ud id' i' j' Eu K E|id' i' j' N K E|id' i' j' e N O St J I E]; subst id' i' j' c.
    + eapply cand_user; [eassumption|]. apply fr_key; [destruct K as (R & _); fold k in R; lia|exact K].
    + apply cand_known; [apply fr_nouser; assumption|]. apply fr_key; [destruct K as (R & _); fold k in R; lia|exact K].
    + assert (e <= k) as W by (destruct St as (R & _); fold k in R; lia). rewrite <- fr_cat in O, I by exact L.
      apply cand_unknown with (e := e); [apply fr_nouser; assumption| |apply fr_stop; assumption| |exact I].
      * destruct O as [O|O]; [left|right; exact O]. apply fr_nokey; [|exact L|exact O]. intros; apply (cc_known Hc); assumption.
      * destruct J as [J|(J1 & J2 & J3)]; [left; exact J|right]. rewrite fr_rune by lia. auto.
Qed.
Lemma fr_chain p : forall i, chain d u A i p k -> chain d u a i p k.
Proof.
  induction p as [|w p IH]; intros i H; inversion H as [|w0 p0 j0 C Ch]; subst; [constructor|]. constructor; [|apply IH; assumption].
  apply fr_candidate; [|assumption]. pose proof (candidate_range C). pose proof (proj1 (chain_le Ch)). lia.
Qed.
Lemma fr_back p : forall i, chain d u a i p k -> chain d u A i p k.
Proof.
  induction p as [|w p IH]; intros i H; inversion H as [|w0 p0 j0 C Ch]; subst; [constructor|]. constructor; [|apply IH; assumption].
  apply fr_candidate; [|assumption]. pose proof (candidate_range C). pose proof (proj1 (chain_le Ch)). lia.
Qed.
(** Every segmentation has a boundary there. *)
Lemma fr_boundary ws : forall i n, chain d u A i ws n -> i <= k <= n -> exists p q, ws = p ++ q /\ chain d u A i p k /\ chain d u A k q n.
Proof.
  induction ws as [|w ws IH]; intros i n H L; inversion H as [|w' ws' j C Ch]; subst.
  - assert (n = k) as -> by lia. exists [], []. split; [reflexivity|]. split; constructor.
  - destruct (Nat.eq_dec (w_start w) k) as [E|E].
    + exists [], (w :: ws). split; [reflexivity|]. rewrite E in *. split; [constructor|exact H].
    + assert (w_stop w <= k). { assert (w_start w < k) as X by lia. apply (fr_candidate X) in C. pose proof (candidate_range C) as R. change (rcount a) with k in R. lia. }
      destruct (IH _ _ Ch) as (p & q & -> & P & Q); [lia|]. exists (w :: p), q. split; [reflexivity|]. split; [constructor; assumption|exact Q].
Qed.
Lemma fr_penalty m ideo w : w_stop w <= k -> penalty m ideo A w = penalty m ideo a w.
Proof.
  intros L. unfold penalty, length_penalty. assert (firstn (w_stop w - w_start w) (skipn (w_start w) (segs A)) = firstn (w_stop w - w_start w) (skipn (w_start w) (segs a))) as ->; [|reflexivity].
  unfold A. rewrite segs_valid_app by exact Ha. unfold k, rcount in L. rewrite skipn_app, firstn_app, skipn_length.
  replace (w_stop w - w_start w - (length (segs a) - w_start w)) with 0 by lia. rewrite firstn_O, app_nil_r. reflexivity.
Qed.
Lemma fr_preferred w w' : w_stop w <= k -> preferred d u A w w' -> preferred d u a w w'.
Proof. intros L. unfold preferred, word_text. rewrite fr_text by exact L. exact (fun H => H). Qed.
End Front.

(** Cost of the words of a beginning, up to a word (or marker) with this left id. *)
Definition closing (x : option Z) : node_class * morph := match x with None => (USER, zero_morph) | Some l => (DUMMY, Morph l 0 0) end.
Fixpoint front_cost (m : lmode) (ideo : N -> bool) (d : dict) (s : bytes) (x : option Z) (c : node_class) (e : morph) (p : list word) : Z :=
  match p with
  | [] => connection d c e (fst (closing x)) (snd (closing x))
  | w :: p' => (connection d c e (w_class w) (entry d (w_class w) (w_id w)) + m_weight (entry d (w_class w) (w_id w)) + penalty m ideo s w + front_cost m ideo d s x (w_class w) (entry d (w_class w) (w_id w)) p')%Z
  end.
Lemma closing_join d q c e : connection d c e (fst (closing (entering d q))) (snd (closing (entering d q))) =
  match q with [] => connection d c e DUMMY zero_morph | w :: _ => connection d c e (w_class w) (entry d (w_class w) (w_id w)) end.
Proof. destruct q as [|w q]; [reflexivity|]. unfold entering, closing. destruct (w_class w); destruct c; reflexivity. Qed.
Lemma front_split m ideo d s q : exists K, forall p c e, (cost_from m ideo d s c e (p ++ q) = front_cost m ideo d s (entering d q) c e p + K)%Z.
Proof.
  exists (match q with [] => 0 | w :: q' => m_weight (entry d (w_class w) (w_id w)) + penalty m ideo s w + cost_from m ideo d s (w_class w) (entry d (w_class w) (w_id w)) q' end)%Z.
  induction p as [|w p IH]; intros c e; cbn [app front_cost].
  - rewrite closing_join. destruct q; cbn [cost_from]; lia.
  - cbn [cost_from]. rewrite IH. lia.
Qed.
Lemma fr_cost m ideo d u a s x p : valid_utf8 a = true -> forall i, chain d u a i p (rcount a) -> forall c e, front_cost m ideo d (a ++ s) x c e p = front_cost m ideo d a x c e p.
Proof.
  intros Ha. induction p as [|w p IH]; intros i H c e; inversion H as [|w' p' j C Ch]; subst; [reflexivity|]. cbn [front_cost].
  rewrite (fr_penalty _ Ha) by (pose proof (candidate_range C); lia). rewrite (IH _ Ch). reflexivity.
Qed.
(** A difference before the same rest lies in the beginning. *)
Lemma head_side (p p2 q x x' y : list word) w w' : w <> w' -> p ++ q = x ++ w :: y -> p2 ++ q = x' ++ w' :: y -> exists l, p = x ++ w :: l /\ p2 = x' ++ w' :: l.
Proof.
  intros N E E2. destruct (app_cases E) as (l & [(Ep & Ey)|(Ex & Eq)]).
  - destruct l as [|w0 l]; cbn [app] in Ey.
    + subst q. rewrite app_nil_r in Ep. subst x. exfalso. apply (f_equal (@rev word)) in E2. rewrite !rev_app_distr in E2. cbn [rev] in E2. rewrite <- !app_assoc in E2. apply app_inv_head in E2. cbn [app] in E2. congruence.
    + injection Ey as <- ->. exists l. split; [exact Ep|]. change (w' :: l ++ q) with ((w' :: l) ++ q) in E2. rewrite app_assoc in E2. apply app_inv_tail in E2. exact E2.
  - exfalso. subst q. rewrite app_assoc in E2. apply (f_equal (@rev word)) in E2. rewrite !rev_app_distr in E2. cbn [rev] in E2. rewrite <- !app_assoc in E2. apply app_inv_head in E2. cbn [app] in E2. congruence.
Qed.
Lemma chosen_front m ideo d u a s p q : valid_utf8 a = true -> clear_cut d u (a ++ s) (rcount a) -> chosen m ideo d u (a ++ s) (p ++ q) -> ends_at p (rcount a) ->
  segmentation d u a p /\ forall p2, segmentation d u a p2 ->
    (front_cost m ideo d a (entering d q) DUMMY zero_morph p <= front_cost m ideo d a (entering d q) DUMMY zero_morph p2)%Z /\
    (front_cost m ideo d a (entering d q) DUMMY zero_morph p2 = front_cost m ideo d a (entering d q) DUMMY zero_morph p -> p2 = p \/ right_before d u a p p2).
Proof.
  intros Ha Hc (S & H) En. unfold segmentation in S. apply chain_app_inv in S. destruct S as (j & P & Q).
  assert (j = rcount a) as -> by (pose proof (chain_ends P) as F; unfold ends_at in En; destruct (rev p); congruence).
  pose proof (fr_chain Ha Hc P) as P1. split; [exact P1|]. intros p2 P2. pose proof (fr_back Ha Hc P2) as P2'.
  destruct (H _ (chain_join P2' Q)) as (L & T). unfold seg_cost in L, T. destruct (@front_split m ideo d (a ++ s) q) as (K & HK).
  rewrite !HK, (fr_cost m ideo s (entering d q) Ha P1), (fr_cost m ideo s (entering d q) Ha P2) in L, T. split; [lia|]. intros Eq.
  destruct (T ltac:(lia)) as [E|(x & x' & w & w' & y & E1 & E2 & Pf)]; [left; apply app_inv_tail in E; exact E|right].
  assert (Nw : w <> w') by (intros ->; exact (preferred_irrefl Pf)). destruct (head_side Nw E1 E2) as (l & -> & ->).
  exists x, x', w, w', l. split; [reflexivity|]. split; [reflexivity|]. eapply fr_preferred; [exact Ha| |exact Pf].
  apply chain_app_inv in P1. destruct P1 as (k & _ & P1). inversion P1 as [|w0 l0 j C Ch]; subst. apply (proj1 (chain_le Ch)).
Qed.
Theorem future d u ideo omit omit' a s t mode ta tb : wf_dict d -> wf_udict u -> mode <> mode_extended -> valid_utf8 a = true ->
  (Z.of_nat (rcount (a ++ s)) <= optimal_limit mode)%Z -> (Z.of_nat (rcount (a ++ t)) <= optimal_limit mode)%Z ->
  clear_cut d u (a ++ s) (rcount a) -> clear_cut d u (a ++ t) (rcount a) ->
  analyze ideo (Tokenizer d u omit) (a ++ s) mode = Ok ta -> analyze ideo (Tokenizer d u omit') (a ++ t) mode = Ok tb ->
  exists pa qa pb qb, words_of ta = pa ++ qa /\ words_of tb = pb ++ qb /\ ends_at pa (rcount a) /\ ends_at pb (rcount a) /\ (entering d qa = entering d qb -> pa = pb).
Proof.
  intros Hd Hu Hm Va La Lb Ka Kb Ea Eb.
  destruct (analyze_chosen ideo omit Hd Hu Hm La) as (ta' & E & Ca). rewrite Ea in E. injection E as <-.
  destruct (analyze_chosen ideo omit' Hd Hu Hm Lb) as (tb' & E & Cb). rewrite Eb in E. injection E as <-.
  destruct (fr_boundary Va Ka (proj1 Ca)) as (pa & qa & Wa & Pa & Qa); [rewrite (sh_count s Va); lia|].
  destruct (fr_boundary Va Kb (proj1 Cb)) as (pb & qb & Wb & Pb & Qb); [rewrite (sh_count t Va); lia|].
  exists pa, qa, pb, qb. split; [exact Wa|]. split; [exact Wb|].
  assert (Na : ends_at pa (rcount a)) by exact (chain_ends Pa). assert (Nb : ends_at pb (rcount a)) by exact (chain_ends Pb).
  split; [exact Na|]. split; [exact Nb|]. intros En. rewrite Wa in Ca. rewrite Wb in Cb.
  destruct (chosen_front Va Ka Ca Na) as (S & H). destruct (chosen_front Va Kb Cb Nb) as (S' & H'). rewrite <- En in H'.
  destruct (H pb S') as (L & T). destruct (H' pa S) as (L' & T').
  destruct (T ltac:(lia)) as [->|B]; [reflexivity|]. destruct (T' ltac:(lia)) as [->|B']; [reflexivity|].
  destruct (right_before_asym S S' B B').
Qed.
