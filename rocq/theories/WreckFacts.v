(** Programs that panic: the lattice can be freed wherever the analysis stops. *)
From Verif Require Export Recover HeapDot.
From Coq Require Import ZifyBool ZifyNat.
Set Implicit Arguments.
Unset Strict Implicit.
Open Scope nat_scope.

(** Every run of p from s panics, in a state where E holds. *)
Fixpoint fails {A} (p : prog A) (E : lheap -> Prop) (s : lheap) : Prop :=
  match p with
  | Ret _ => False
  | Stop => E s
  | Choose k => forall n, fails (k n) E s
  | NodeGet k => forall a h, ln s a = None -> fails (k a) E (lput_n s a true h)
  | NodePut a k => (exists h, ln s a = Some (true, h)) /\ fails k E (ldel_n s a)
  | NodeNew n k => forall a, ln s a = None -> fails (k a) E (lput_n s a false n)
  | NodeRead a k => exists b h, ln s a = Some (b, h) /\ fails (k h) E s
  | NodeSet a f k => exists b h, ln s a = Some (b, h) /\ fails k E (lput_n s a b (f h))
  | LatGet k => forall a l, ll s a = None -> clean l -> fails (k a) E (lput_l s a l)
  | LatPut a k => (exists l, ll s a = Some l /\ clean l) /\ fails k E (ldel_l s a)
  | LatRead a k => exists l, ll s a = Some l /\ fails (k l) E s
  | LatSet a f k => exists l, ll s a = Some l /\ fails k E (lput_l s a (f l))
  end.

Lemma fails_left A B (p : prog A) (f : A -> prog B) E s : fails p E s -> fails (pbind p f) E s.
Proof. revert s. induction p; cbn; intros s H0; try contradiction; try firstorder. Qed.
Lemma fails_mono A (p : prog A) (E E' : lheap -> Prop) s : fails p E s -> (forall s', E s' -> E' s') -> fails p E' s.
Proof. intros H HE. revert s H. induction p; cbn; intros s H0; try firstorder. Qed.
Lemma fails_seq A B (p : prog A) (f : A -> prog B) E Q s : wp p Q s -> (forall a s', Q a s' -> fails (f a) E s') -> fails (pbind p f) E s.
Proof. intros H HQ. revert s H. induction p; cbn; intros s H0; try contradiction; try firstorder. Qed.
Lemma catch_ok A (p : prog A) Q s : wp p Q s -> wp (catch p) (fun o s' => exists a, o = Some a /\ Q a s') s.
Proof. revert s. induction p; cbn; intros s H0; try contradiction; try firstorder. Qed.
Lemma catch_fails A (p : prog A) E s : fails p E s -> wp (catch p) (fun o s' => o = None /\ E s') s.
Proof. revert s. induction p; cbn; intros s H0; try contradiction; try firstorder. Qed.
(** wp_bind backwards. *)
Lemma wp_unbind A B (p : prog A) (f : A -> prog B) Q s : wp (pbind p f) Q s -> wp p (fun a s' => wp (f a) Q s') s.
Proof. revert s. induction p; cbn; intros s H0; try contradiction; try firstorder. Qed.

(** ** Single operations *)
Section Ops.
Variables (A : Type) (E : lheap -> Prop) (s : lheap).
Lemma fails_lat_read la (f : hlat -> prog A) hl : ll s la = Some hl -> fails (f hl) E s -> fails (pbind (lat_read la) f) E s.
Proof. cbn. eauto. Qed.
Lemma fails_lat_set la g (f : unit -> prog A) hl : ll s la = Some hl -> fails (f tt) E (lput_l s la (g hl)) -> fails (pbind (lat_set la g) f) E s.
Proof. cbn. eauto. Qed.
Lemma fails_node_read a (f : hnode -> prog A) b h : ln s a = Some (b, h) -> fails (f h) E s -> fails (pbind (node_read a) f) E s.
Proof. cbn. eauto. Qed.
Lemma fails_node_set a g (f : unit -> prog A) b h : ln s a = Some (b, h) -> fails (f tt) E (lput_n s a b (g h)) -> fails (pbind (node_set a g) f) E s.
Proof. cbn. eauto. Qed.
Lemma fails_lift X (r : res X) x (f : X -> prog A) : r = Ok x -> fails (f x) E s -> fails (pbind (lift r) f) E s.
Proof. intros ->. cbn. auto. Qed.
Lemma fails_deref X (r : option X) x (f : X -> prog A) : r = Some x -> fails (f x) E s -> fails (pbind (deref r) f) E s.
Proof. intros ->. cbn. auto. Qed.
End Ops.

(** ** Results that are not values *)
Definition bad {A} (r : res A) : Prop := forall a, r <> Ok a.
Lemma bad_ok A (a : A) : ~ bad (Ok a).
Proof. intros H. exact (H a eq_refl). Qed.
Lemma bad_bind A B (r : res A) (f : A -> res B) : bad (rbind r f) -> bad r \/ exists a, r = Ok a /\ bad (f a).
Proof. destruct r as [a| |]; cbn; intros H; [right; eauto|left; intros x; discriminate|left; intros x; discriminate]. Qed.
Lemma bad_or A (r : res A) : bad r \/ exists a, r = Ok a.
Proof. destruct r as [a| |]; [right; eauto|left; intros x; discriminate|left; intros x; discriminate]. Qed.
Lemma bad_index A (l : list A) i : bad (index l i) <-> nth_error l i = None.
Proof. unfold index. destruct (nth_error l i) as [x|]; split; intros H; [destruct (bad_ok H)|discriminate|reflexivity|intros x; discriminate]. Qed.
Lemma fails_bad A X (r : res X) (f : X -> prog A) (E : lheap -> Prop) s : bad r -> E s -> fails (pbind (lift r) f) E s.
Proof. intros H HE. destruct r as [x| |]; [destruct (bad_ok H)|exact HE|exact HE]. Qed.

Lemma fails_fold A B C V (f : A -> B -> prog A) (g : V -> C -> res V) (P : A -> V -> lheap -> Prop) (rel : B -> C -> Prop) E l l' :
  Forall2 rel l l' ->
  (forall a x y v v' s, rel x y -> g v y = Ok v' -> P a v s -> wp (f a x) (fun a' s' => P a' v' s') s) ->
  (forall a x y v s, rel x y -> bad (g v y) -> P a v s -> fails (f a x) E s) ->
  forall a v s, bad (foldM g l' v) -> P a v s -> fails (pfold f l a) E s.
Proof.
  intros F Hf Hb. induction F as [|x y l l' Hr F IH]; intros a v s Hbad HP; cbn [foldM pfold] in *.
  - destruct (bad_ok Hbad).
  - apply bad_bind in Hbad. destruct Hbad as [H|(v1 & E1 & H)].
    + apply fails_left. exact (Hb _ _ _ _ _ Hr H HP).
    + eapply fails_seq; [exact (Hf _ _ _ _ _ _ Hr E1 HP)|]. intros a' s' HP'. exact (IH a' v1 s' H HP').
Qed.

(** ** Heaps with more in them *)
Record covers (s0 s : lheap) : Prop := { cv_n : forall a x, ln s0 a = Some x -> ln s a = Some x; cv_l : forall a, ll s a = ll s0 a }.
Lemma covers_refl s : covers s s.
Proof. split; auto. Qed.
Lemma covers_none s0 s a : covers s0 s -> ln s a = None -> ln s0 a = None.
Proof. intros [H _] E. destruct (ln s0 a) as [x|] eqn:F; [rewrite (H _ _ F) in E; discriminate|reflexivity]. Qed.
Lemma wp_frame A (p : prog A) Q : forall s0 s, wp p Q s0 -> covers s0 s -> wp p (fun r s' => exists s0', covers s0' s' /\ Q r s0') s.
Proof.
  assert (N : forall s0 s x v, covers s0 s -> covers (LHeap (set_at (ln s0) x v) (ll s0)) (LHeap (set_at (ln s) x v) (ll s))).
  { intros s0 s x v [H1 H2]. split; cbn; [|exact H2]. intros y w. unfold set_at. destruct (y =? x); [auto|apply H1]. }
  assert (L : forall s0 s x v, covers s0 s -> covers (LHeap (ln s0) (set_at (ll s0) x v)) (LHeap (ln s) (set_at (ll s) x v))).
  { intros s0 s x v [H1 H2]. split; cbn; [exact H1|]. intros y. unfold set_at. destruct (y =? x); [reflexivity|apply H2]. }
  induction p; cbn [wp]; intros s0 s W C.
  - exists s0. auto.
  - contradiction.
  - intros n. exact (H n _ _ (W n) C).
  - intros a h Ha. apply (H a _ _ (W a h (covers_none C Ha))). apply N. exact C.
  - destruct W as ((h & Eh) & W). split; [exists h; apply (cv_n C); exact Eh|]. apply (IHp _ _ W). apply N. exact C.
  - intros a Ha. apply (H a _ _ (W a (covers_none C Ha))). apply N. exact C.
  - destruct W as (b & h & Eh & W). exists b, h. split; [apply (cv_n C); exact Eh|]. exact (H h _ _ W C).
  - destruct W as (b & h & Eh & W). exists b, h. split; [apply (cv_n C); exact Eh|]. apply (IHp _ _ W). apply N. exact C.
  - intros a l Ha Hl. rewrite (cv_l C) in Ha. apply (H a _ _ (W a l Ha Hl)). apply L. exact C.
  - destruct W as ((l & El & Hl) & W). split; [exists l; rewrite (cv_l C); auto|]. apply (IHp _ _ W). apply L. exact C.
  - destruct W as (l & El & W). exists l. split; [rewrite (cv_l C); exact El|]. exact (H l _ _ W C).
  - destruct W as (l & El & W). exists l. split; [rewrite (cv_l C); exact El|]. apply (IHp _ _ W). apply L. exact C.
Qed.

Section Wreck.
Variables (la : addr) (d : dict) (u : option udict).

(** A lattice in some state of the analysis, and perhaps nodes that are in no lattice. *)
Definition wreck (s : lheap) : Prop := exists s0 cells outs v, rep s0 la d u cells outs v /\ covers s0 s.
Lemma rep_wreck s cells outs v : rep s la d u cells outs v -> wreck s.
Proof. intros R. exists s, cells, outs, v. split; [exact R|apply covers_refl]. Qed.
Lemma built_wreck s outs v : built_as la d u outs v s -> wreck s.
Proof. intros (cells & R). exact (rep_wreck R). Qed.
Lemma wreck_free s : wreck s -> wp (h_free la) (fun _ _ => True) s.
Proof. intros (s0 & cells & outs & v & R & C). eapply wp_mono; [exact (wp_frame (sim_free R) C)|]. auto. Qed.

Lemma gs_index_beyond (hl : hlat) s cells outs v i : rep s la d u cells outs v -> ll s la = Some hl -> length v <= i -> bad (gs_index (l_list hl) i).
Proof.
  intros R El H. unfold gs_index. rewrite (rep_len R El). destruct (Nat.ltb_spec i (length v)); [lia|]. intros x. discriminate.
Qed.
Lemma rep_rows_len s cells outs v : rep s la d u cells outs v -> length cells = length v.
Proof. intros R. pose proof (f_equal (@length _) (r_shape R)) as H. rewrite !map_length in H. exact H. Qed.
Lemma row_index_bad r l j : row_ok r l -> nth_error l j = None -> bad (gs_index r j).
Proof.
  intros Hr H. apply nth_error_None in H. unfold gs_index. rewrite (row_len Hr). destruct (Nat.ltb_spec j (length l)); [lia|]. intros x. discriminate.
Qed.

(** ** Build *)
Lemma fail_add s outs v pos id position start class surface : bad (add_node d v pos id position start class surface) -> built_as la d u outs v s ->
  fails (h_add_node la pos id position start class surface) wreck s.
Proof.
  intros Hb (cells & R). unfold add_node in Hb. destruct (r_lat R) as (hl & El & L). unfold h_add_node. apply (fails_lat_read El).
  apply (fails_deref (lo_dic L)). apply bad_bind in Hb. destruct Hb as [Hb|(m & Em & Hb)]; [apply fails_bad; [exact Hb|exact (rep_wreck R)]|].
  apply (fails_lift Em). set (p := pos + rune_count surface) in *. unfold update in Hb. destruct (Nat.ltb_spec p (length v)) as [|Hp]; [destruct (bad_ok Hb)|].
  cbn [pbind node_get fails]. intros a h0 Ha. do 10 (eapply fails_node_set; [unfold lput_n; cbn [ln]; apply set_at_same|]).
  set (sn := lput_n _ _ _ _).
  assert (Hsn : covers s sn).
  { split; [|intros x; reflexivity]. intros x y E. unfold sn, lput_n. cbn [ln]. rewrite !set_at_other; [exact E|..]; intros ->; congruence. }
  clearbody sn. cbn zeta. eapply fails_lat_read; [rewrite (cv_l Hsn); exact El|]. apply fails_bad; [exact (gs_index_beyond R El Hp)|].
  exists s, cells, outs, v. auto.
Qed.

Lemma fail_matches s outs inp runePos pos class ms v : bad (add_matches d inp runePos pos class ms v) -> built_as la d u outs v s ->
  fails (h_add_matches la inp runePos pos class ms) wreck s.
Proof.
  intros Hb B. unfold h_add_matches, peach.
  refine (fails_fold (P := fun _ v s => built_as la d u outs v s) (Forall2_same ms) _ _ Hb B).
  - intros _ [id l] y w w' s0 <- Ey B0. cbn beta in Ey. apply ok_bind in Ey. destruct Ey as (sf & Es & Ey).
    apply (wp_lift Es). exact (sim_add Ey B0).
  - intros _ [id l] y w s0 <- Hy B0. cbn beta in Hy. apply bad_bind in Hy. destruct Hy as [Hy|(sf & Es & Hy)]; [exact (fails_bad _ Hy (built_wreck B0))|].
    apply (fails_lift Es). exact (fail_add Hy B0).
Qed.

Lemma fail_unknowns s outs inp runePos pos prev end_pos id dup v : bad (add_unknowns d inp runePos pos prev end_pos id dup v) -> built_as la d u outs v s ->
  fails (h_add_unknowns la inp runePos pos prev end_pos id dup) wreck s.
Proof.
  intros Hb B. unfold h_add_unknowns, peach.
  assert (First : forall x w w1 s0, (if pos <? prev then let* sg := slice inp pos prev in add_node d w runePos (id + Z.of_nat x)%Z pos runePos UNKNOWN sg else Ok w) = Ok w1 ->
    built_as la d u outs w s0 -> wp (if pos <? prev then do s <- lift (slice inp pos prev); h_add_node la runePos (id + Z.of_nat x)%Z pos runePos UNKNOWN s else Ret tt) (fun _ s' => built_as la d u outs w1 s') s0).
  { intros x w w1 s0 E1 B0. destruct (pos <? prev).
    - apply ok_bind in E1. destruct E1 as (sg & Eg & E1). apply (wp_lift Eg). exact (sim_add E1 B0).
    - injection E1 as <-. exact B0. }
  refine (fails_fold (P := fun _ v s => built_as la d u outs v s) (Forall2_same _) _ _ Hb B).
  - intros _ x y w w' s0 <- Ey B0. cbn beta in Ey. apply ok_bind in Ey. destruct Ey as (w1 & E1 & Ey). apply ok_bind in Ey. destruct Ey as (sf & Es & Ey).
    eapply wp_seq; [exact (First _ _ _ _ E1 B0)|]. intros [] s1 B1. apply (wp_lift Es). exact (sim_add Ey B1).
  - intros _ x y w s0 <- Hy B0. cbn beta in Hy. apply bad_bind in Hy. destruct Hy as [Hy|(w1 & E1 & Hy)].
    + apply fails_left. destruct (pos <? prev); [|destruct (bad_ok Hy)].
      apply bad_bind in Hy. destruct Hy as [Hy|(sg & Eg & Hy)]; [exact (fails_bad _ Hy (built_wreck B0))|].
      apply (fails_lift Eg). exact (fail_add Hy B0).
    + eapply fails_seq; [exact (First _ _ _ _ E1 B0)|]. intros [] s1 B1. cbn beta in B1.
      apply bad_bind in Hy. destruct Hy as [Hy|(sf & Es & Hy)]; [exact (fails_bad _ Hy (built_wreck B1))|].
      apply (fails_lift Es). exact (fail_add Hy B1).
Qed.

Lemma built_fails A (f : hlat -> prog A) s outs v : built_as la d u outs v s ->
  (forall hl, ll s la = Some hl -> l_dic hl = Some d -> l_udic hl = u -> fails (f hl) wreck s) -> fails (pbind (lat_read la) f) wreck s.
Proof. intros (cells & R) H. destruct (r_lat R) as (hl & El & L). apply (fails_lat_read El). apply H; [exact El|apply L|apply L]. Qed.

Lemma fail_build_unknown s outs inp runePos pos ch any v : bad (build_unknown d inp runePos pos ch any v) -> built_as la d u outs v s ->
  fails (h_build_unknown la inp runePos pos ch any) wreck s.
Proof.
  intros Hb B. unfold h_build_unknown. apply (built_fails B). intros hl _ Ed _. apply (fails_deref Ed). unfold build_unknown in Hb. cbn zeta in *.
  apply bad_bind in Hb. destruct Hb as [Hb|(go & Eg & Hb)]; [exact (fails_bad _ Hb (built_wreck B))|]. apply (fails_lift Eg). destruct go; [|destruct (bad_ok Hb)].
  apply bad_bind in Hb. destruct Hb as [Hb|(e & Ee & Hb)]; [exact (fails_bad _ Hb (built_wreck B))|]. apply (fails_lift Ee).
  apply bad_bind in Hb. destruct Hb as [Hb|(pv & Ep & Hb)]; [exact (fails_bad _ Hb (built_wreck B))|]. apply (fails_lift Ep).
  exact (fail_unknowns Hb B).
Qed.

Lemma fail_build_step s outs inp runePos pos ch v : bad (build_step d u inp v runePos pos ch) -> built_as la d u outs v s ->
  fails (h_build_step la inp runePos pos ch) wreck s.
Proof.
  intros Hb B. unfold build_step in Hb. unfold h_build_step.
  apply bad_bind in Hb. destruct Hb as [Hb|(rest & Er & Hb)]; [exact (fails_bad _ Hb (built_wreck B))|]. apply (fails_lift Er).
  apply (built_fails B). intros hl _ _ Eu. cbn zeta in *. rewrite Eu.
  apply bad_bind in Hb. destruct Hb as [Hb|(v1 & E1 & Hb)]; [apply fails_left; exact (fail_matches Hb B)|].
  eapply fails_seq; [exact (sim_matches E1 B)|]. intros [] s1 B1. cbn beta in B1. destruct (negb _); [destruct (bad_ok Hb)|].
  apply (built_fails B1). intros hl1 _ Ed _. apply (fails_deref Ed).
  apply bad_bind in Hb. destruct Hb as [Hb|(v2 & E2 & Hb)]; [apply fails_left; exact (fail_matches Hb B1)|].
  eapply fails_seq; [exact (sim_matches E2 B1)|]. intros [] s2 B2. exact (fail_build_unknown Hb B2).
Qed.

Lemma fail_build_loop outs inp l : forall s runePos v, bad (build_loop d u inp runePos l v) -> built_as la d u outs v s ->
  fails (h_build_loop la inp runePos l) wreck s.
Proof.
  induction l as [|[pos ch] l IH]; intros s runePos v Hb B; cbn [build_loop h_build_loop] in *; [destruct (bad_ok Hb)|].
  apply bad_bind in Hb. destruct Hb as [Hb|(v1 & E1 & Hb)]; [apply fails_left; exact (fail_build_step Hb B)|].
  eapply fails_seq; [exact (sim_build_step E1 B)|]. intros [] s1 B1. exact (IH _ _ _ Hb B1).
Qed.

Lemma fail_build s inp : bad (build d u inp) -> fresh la d u s -> fails (h_build la inp) wreck s.
Proof.
  intros E F. unfold build in E. unfold h_build. cbn zeta in *. set (rc := rune_count inp) in *.
  destruct (f_lat F) as (hl & El & Ed & Eu & Co & Cl & Cr).
  apply (fails_lat_set El). eapply fails_lat_read; [cbn [ll lput_l]; apply set_at_same|].
  apply fails_seq with (Q := fun _ s' => (exists hl', ll s' la = Some hl' /\ l_dic hl' = Some d /\ l_udic hl' = u /\ clean_row (l_output hl') /\
     rc + 2 <= length (gs_arr (l_list hl')) /\ (forall r, In r (gs_arr (l_list hl')) -> clean_row r)) /\
     (forall a h, ln s' a <> Some (true, h)) /\ (forall b, b <> la -> ll s' b = None)).
  - cbn [l_list set_l_input]. destruct (Nat.ltb_spec (length (gs_arr (l_list hl))) (rc + 2)).
    + eapply wp_lat_set0; [cbn [ll lput_l]; apply set_at_same|]. cbn [ll lput_l ln]. split; [|split].
      * eexists. split; [apply set_at_same|]. cbn. rewrite repeat_length. repeat (split; [assumption || lia|]).
        intros r Hr. apply clean_row_ok. apply (row_nil_repeat Hr).
      * apply (f_none F).
      * intros b Hb. rewrite !set_at_other by exact Hb. apply (f_only F). exact Hb.
    + cbn. split; [|split].
      * eexists. split; [apply set_at_same|]. cbn. repeat (split; [assumption || lia|]). exact Cr.
      * apply (f_none F).
      * intros b Hb. rewrite !set_at_other by exact Hb. apply (f_only F). exact Hb.
  - clear s F El hl Ed Eu Co Cl Cr. intros [] s ((hl & El & Ed & Eu & Co & Cl & Cr) & Fn & Fo). apply (fails_lat_read El).
    eapply fails_lift; [unfold gs_reslice; destruct (Nat.leb_spec (rc + 2) (length (gs_arr (l_list hl)))); [reflexivity|lia]|].
    apply (fails_lat_set El).
    assert (B : built_as la d u [] (repeat [] (rc + 2)) (lput_l s la (set_l_list (GSlice (gs_arr (l_list hl)) (rc + 2)) hl))).
    { exists (repeat [] (rc + 2)). split; cbn [ll ln lput_l].
      - eexists. split; [apply set_at_same|]. split; cbn; [assumption..| |apply clean_row_ok; assumption].
        exists (firstn (rc + 2) (gs_arr (l_list hl))), (skipn (rc + 2) (gs_arr (l_list hl))). rewrite firstn_skipn, firstn_length.
        split; [f_equal; lia|].
        assert (Fa : Forall (fun r => row_ok r []) (gs_arr (l_list hl))) by (apply Forall_forall; intros r Hr; apply clean_row_ok; auto).
        rewrite <- (firstn_skipn (rc + 2) (gs_arr (l_list hl))) in Fa. apply Forall_app in Fa. destruct Fa as [Fa1 Fa2]. split; [|exact Fa2].
        apply Forall_Forall2_nil in Fa1. rewrite firstn_length in Fa1. replace (Nat.min _ _) with (rc + 2) in Fa1 by lia. exact Fa1.
      - rewrite !map_repeat || (clear; induction (rc + 2); cbn; f_equal; assumption).
      - intros i j a0. rewrite nth2_repeat. discriminate.
      - intros i j i' j' a0. rewrite nth2_repeat. discriminate.
      - intros a0 h Ha. exfalso. exact (Fn _ _ Ha).
      - intros b Hb. rewrite set_at_other by exact Hb. auto. }
    apply bad_bind in E. destruct E as [E|(s0 & Es0 & E)]; [exact (fails_bad _ E (built_wreck B))|]. apply (fails_lift Es0).
    apply bad_bind in E. destruct E as [E|(v1 & E1 & E)]; [apply fails_left; exact (fail_add E B)|].
    eapply fails_seq; [exact (sim_add E1 B)|]. intros [] t1 B1. cbn beta in B1.
    apply bad_bind in E. destruct E as [E|(s1 & Es1 & E)]; [exact (fails_bad _ E (built_wreck B1))|]. apply (fails_lift Es1).
    apply bad_bind in E. destruct E as [E|(v2 & E2 & E)]; [apply fails_left; exact (fail_add E B1)|].
    eapply fails_seq; [exact (sim_add E2 B1)|]. intros [] t2 B2. exact (fail_build_loop E B2).
Qed.

(** ** Forward *)
Variable cells : list (list addr).
Variables (ideo : ideographic) (m : lmode).

Lemma fail_cell A (f : addr -> prog A) s outs v i j : rep s la d u cells outs v -> nth2 cells i j = None -> fails (pbind (h_cell la i j) f) wreck s.
Proof.
  intros R H. destruct (r_lat R) as (hl & El & L). apply fails_left. unfold h_cell. apply (fails_lat_read El). unfold nth2 in H.
  destruct (nth_error cells i) as [r|] eqn:Er.
  - destruct (rep_rows R Er El) as (x & Ex & Hx). apply (fails_lift Ex). apply fails_bad; [exact (row_index_bad Hx H)|exact (rep_wreck R)].
  - apply nth_error_None in Er. rewrite (rep_rows_len R) in Er. apply fails_bad; [exact (gs_index_beyond R El Er)|exact (rep_wreck R)].
Qed.

Lemma cells_get2 s outs v i j a : rep s la d u cells outs v -> nth2 cells i j = Some a -> exists n, get2 v i j = Ok n.
Proof. intros R H. destruct (rep_get R H) as (h & n & _ & E & _). exists n. apply get2_nth2. exact E. Qed.

Lemma upd2_total s outs v i j a f : rep s la d u cells outs v -> nth2 cells i j = Some a -> exists v', upd2 v i j f = Ok v'.
Proof.
  intros R H. unfold upd2, update. unfold nth2 in H. destruct (nth_error cells i) as [r|] eqn:Er; [|discriminate].
  assert (Hi : i < length cells) by (apply nth_error_Some; congruence). rewrite (rep_rows_len R) in Hi.
  destruct (Nat.ltb_spec i (length v)); [eauto|lia].
Qed.

Lemma fail_relax s outs v i idx ta start j a h n target :
  rep s la d u cells outs v -> nth2 cells i idx = Some ta -> ln s ta = Some (true, h) -> start = h_start h ->
  nth2 cells start j = Some a ->
  get2 v start j = Ok n -> get2 v i idx = Ok target -> bad (total_cost d ideo m n target) ->
  fails (h_relax ideo m la i idx ta (j, Some a)) wreck s.
Proof.
  intros R Ht Eh -> Ha En Et Ec. unfold h_relax. cbn [deref pbind].
  destruct (rep_get R Ha) as (hn & n' & E1 & E2 & E3 & E4). apply get2_nth2 in En. rewrite En in E2. injection E2 as <-.
  destruct (rep_get R Ht) as (ht & t' & T1 & T2 & T3 & T4). apply get2_nth2 in Et. rewrite Et in T2. injection T2 as <-.
  rewrite Eh in T1. injection T1 as <-.
  apply (fails_node_read E1). apply (fails_node_read Eh). destruct (r_lat R) as (hl & El & L). apply (fails_lat_read El). apply (fails_deref (lo_dic L)).
  rewrite <- (total_cost_val d ideo m E3 T3) in Ec. exact (fails_bad _ Ec (rep_wreck R)).
Qed.

Lemma fail_relax_loop outs i idx ta start : nth2 cells i idx = Some ta -> forall l s j v,
  (forall k, k < length l -> nth2 cells start (j + k) = nth_error l k) ->
  bad (relax_loop d ideo m i idx start j (length l) v) ->
  rep s la d u cells outs v /\ (exists h, ln s ta = Some (true, h) /\ h_start h = start) ->
  fails (peach (h_relax ideo m la i idx ta) (combine (seq j (length l)) (map Some l))) wreck s.
Proof.
  intros Ht l. induction l as [|a l IH]; intros s j v Hl E (R & h & Eh & Es); cbn [relax_loop length] in *; [destruct (bad_ok E)|].
  assert (Ha : nth2 cells start j = Some a) by (specialize (Hl 0 ltac:(lia)); rewrite Nat.add_0_r in Hl; exact Hl).
  cbn [seq map combine]. unfold peach. cbn [pfold].
  destruct (cells_get2 R Ha) as (n & En). rewrite En in E. cbn [rbind] in E. destruct (cells_get2 R Ht) as (t & Et). rewrite Et in E. cbn [rbind] in E.
  apply bad_bind in E. destruct E as [E|(total & Ec & E)].
  - apply fails_left. exact (fail_relax R Ht Eh (eq_sym Es) Ha En Et E).
  - apply bad_bind in E. destruct E as [E|(v1 & E1 & E)].
    + exfalso. destruct ((j =? 0) || _); [|exact (bad_ok E)]. destruct (upd2_total (set_cost_prev (wrap32 total) (Some (start, j))) R Ht) as (v' & Ev). exact (E _ Ev).
    + eapply fails_seq; [exact (sim_relax R Ht Eh (eq_sym Es) Ha En Et Ec E1)|]. intros [] s1 R1. cbn beta in R1.
      apply IH with (v := v1); [|exact E|exact R1]. intros k Hk. specialize (Hl (S k) ltac:(lia)). rewrite Nat.add_succ_r in Hl. exact Hl.
Qed.

Lemma fail_forward_target s outs v i idx ta : rep s la d u cells outs v -> nth2 cells i idx = Some ta ->
  bad (forward_target d ideo m i v idx) -> fails (h_forward_target ideo m la i (idx, Some ta)) wreck s.
Proof.
  intros R Ht E. unfold forward_target in E. unfold h_forward_target. cbn [deref pbind].
  destruct (rep_get R Ht) as (h & t & Eh & T2 & T3 & T4). rewrite (proj2 (get2_nth2 _ _ _ _) T2) in E. cbn [rbind] in E.
  apply (fails_node_read Eh). destruct (r_lat R) as (hl & El & L). apply (fails_lat_read El).
  assert (Hst : n_start t = h_start h) by (rewrite T3; reflexivity). rewrite Hst in *.
  apply bad_bind in E. destruct E as [E|(pl & Ep & E)].
  - apply bad_index in E. apply nth_error_None in E. exact (fails_bad _ (gs_index_beyond R El E) (rep_wreck R)).
  - unfold index in Ep. destruct (nth_error v (h_start h)) as [rv|] eqn:Ev; [|discriminate]. injection Ep as <-.
    destruct (nth_error cells (h_start h)) as [r|] eqn:Er.
    2:{ pose proof (f_equal (fun l => nth_error l (h_start h)) (r_shape R)) as Hs. cbn beta in Hs. rewrite !nth_map_length, Er, Ev in Hs. discriminate. }
    assert (Hlen : length r = length rv).
    { pose proof (f_equal (fun l => nth_error l (h_start h)) (r_shape R)) as Hs. cbn beta in Hs. rewrite !nth_map_length, Er, Ev in Hs. cbn in Hs. congruence. }
    destruct (rep_rows R Er El) as (x & Ex & Hx). apply (fails_lift Ex). rewrite (row_len Hx), Hlen. destruct (length rv =? 0).
    + exfalso. destruct (upd2_total (set_cost maximum_cost) R Ht) as (v' & Ev'). exact (E _ Ev').
    + unfold with_index. rewrite (row_list Hx), map_length.
      eapply fail_relax_loop with (v := v) (start := h_start h); [exact Ht| |rewrite Hlen; exact E|split; [exact R|eauto]].
      intros k Hk. cbn [Nat.add]. unfold nth2. rewrite Er. reflexivity.
Qed.

Lemma fail_forward_pos s outs v i : rep s la d u cells outs v -> bad (forward_pos d ideo m v i) -> fails (h_forward_pos ideo m la i) wreck s.
Proof.
  intros R E. unfold forward_pos in E. unfold h_forward_pos. destruct (r_lat R) as (hl & El & L). apply (fails_lat_read El).
  apply bad_bind in E. destruct E as [E|(cur & Ec & E)].
  - apply bad_index in E. apply nth_error_None in E. exact (fails_bad _ (gs_index_beyond R El E) (rep_wreck R)).
  - unfold index in Ec. destruct (nth_error v i) as [rv|] eqn:Ev; [|discriminate]. injection Ec as <-.
    destruct (nth_error cells i) as [r|] eqn:Er.
    2:{ pose proof (f_equal (fun l => nth_error l i) (r_shape R)) as Hs. cbn beta in Hs. rewrite !nth_map_length, Er, Ev in Hs. discriminate. }
    assert (Hlen : length r = length rv).
    { pose proof (f_equal (fun l => nth_error l i) (r_shape R)) as Hs. cbn beta in Hs. rewrite !nth_map_length, Er, Ev in Hs. cbn in Hs. congruence. }
    destruct (rep_rows R Er El) as (x & Ex & Hx). apply (fails_lift Ex).
    unfold with_index, peach. rewrite (row_list Hx), map_length. rewrite <- Hlen in E.
    refine (fails_fold (P := fun _ v s => rep s la d u cells outs v) (Forall2_combine r 0) _ _ E R).
    + intros _ [k o] k' w w' s0 (Hk & a & Ho & Ha & _) Ek R0. cbn in Hk, Ho. subst. rewrite Nat.sub_0_r in Ha.
      refine (sim_forward_target R0 _ Ek). unfold nth2. rewrite Er. exact Ha.
    + intros _ [k o] k' w s0 (Hk & a & Ho & Ha & _) Ek R0. cbn in Hk, Ho. subst. rewrite Nat.sub_0_r in Ha.
      refine (fail_forward_target R0 _ Ek). unfold nth2. rewrite Er. exact Ha.
Qed.

Lemma fail_forward s outs v : rep s la d u cells outs v -> bad (forward d ideo m v) -> fails (h_forward ideo m la) wreck s.
Proof.
  intros R E. unfold h_forward. destruct (r_lat R) as (hl & El & L). apply (fails_lat_read El). rewrite (rep_len R El). unfold peach.
  refine (fails_fold (P := fun _ v s => rep s la d u cells outs v) (Forall2_same _) _ _ E R).
  - intros _ k k' w w' s0 <- Ek R0. exact (sim_forward_pos R0 Ek).
  - intros _ k k' w s0 <- Ek R0. exact (fail_forward_pos R0 Ek).
Qed.

(** ** Backward *)
Lemma fail_visit s outs v i j a n : rep s la d u cells outs v -> nth2 cells i j = Some a -> nth2 v i j = Some n -> bad (output_of m n) ->
  fails (h_visit m la a) wreck s.
Proof.
  intros R Hc Hn E. destruct (rep_get R Hc) as (h & n' & E1 & E2 & E3 & E4). rewrite Hn in E2. injection E2 as <-.
  unfold h_visit. apply (fails_node_read E1). unfold output_of in E.
  assert (Ec : n_class n = h_class h) by (rewrite E3; reflexivity). rewrite Ec in E.
  destruct m, (h_class h); try (exfalso; exact (bad_ok E)).
  assert (Es : n_surface n = h_surface h) by (rewrite E3; reflexivity). rewrite Es in E. cbn zeta in *.
  eapply fails_seq; [exact (sim_stack (range_string (h_surface h)) E3 0 R)|]. intros st s1 (K1 & R1 & F1 & _). cbn beta.
  rewrite (Forall2_length F1). clear R. set (sv := split_from n 0 (range_string (h_surface h))) in *. clearbody sv. set (r := rune_count (h_surface h)) in *.
  revert E. generalize (seq 0 (length sv)). intros js E. revert outs s1 K1 R1 F1. induction js as [|k js IH]; intros outs s1 K1 R1 F1; cbn [mapM] in E; [destruct (bad_ok E)|].
  unfold peach. cbn [pfold]. apply bad_bind in E. destruct E as [E|(x & Ex & E)].
  - apply fails_left. apply fails_bad; [|exact (rep_wreck R1)]. apply bad_index in E. apply bad_index. apply nth_error_None in E. apply nth_error_None.
    rewrite (Forall2_length F1). exact E.
  - apply bad_bind in E. destruct E as [E|(o & Eo & E)]; [|destruct (bad_ok E)].
    unfold index in Ex. destruct (nth_error sv (r - 1 - k)) as [nv|] eqn:En; [|discriminate].
    destruct (nth_error st (r - 1 - k)) as [b|] eqn:Eb.
    2:{ apply nth_error_None in Eb. rewrite (Forall2_length F1) in Eb. apply nth_error_None in Eb. congruence. }
    apply fails_seq with (Q := fun _ s' => keeps s1 s' /\ rep s' la d u cells (outs ++ [b]) v).
    + eapply wp_lift; [unfold index; rewrite Eb; reflexivity|]. eapply sim_output; [exact R1|]. intros s' K R'. auto.
    + intros [] s2 (K2 & R2). apply (IH E (outs ++ [b]) s2); [eapply keeps_trans; eassumption|exact R2|exact (out_keeps K2 F1)].
Qed.

Lemma visit_ok s outs v i j a n o : rep s la d u cells outs v -> nth2 cells i j = Some a -> nth2 v i j = Some n -> output_of m n = Ok o ->
  wp (h_visit m la a) (fun _ s' => exists outs', rep s' la d u cells outs' v) s.
Proof.
  intros R Hc Hn E. destruct (rep_get R Hc) as (h & n' & E1 & E2 & E3 & E4). rewrite Hn in E2. injection E2 as <-.
  unfold h_visit. apply (wp_node_read E1). unfold output_of in E.
  assert (Ec : n_class n = h_class h) by (rewrite E3; reflexivity). rewrite Ec in E.
  assert (P : wp (h_output la a) (fun _ s' => exists outs', rep s' la d u cells outs' v) s).
  { eapply sim_output; [exact R|]. intros s' K R'. eauto. }
  destruct m, (h_class h); try exact P.
  assert (Es : n_surface n = h_surface h) by (rewrite E3; reflexivity). rewrite Es in E. cbn zeta in *.
  eapply wp_seq; [exact (sim_stack (range_string (h_surface h)) E3 0 R)|]. intros st s1 (K1 & R1 & F1 & _). cbn beta.
  rewrite (Forall2_length F1). clear R P. set (sv := split_from n 0 (range_string (h_surface h))) in *. clearbody sv. set (r := rune_count (h_surface h)) in *.
  revert o E. generalize (seq 0 (length sv)). intros js. revert outs s1 K1 R1 F1. induction js as [|k js IH]; intros outs s1 K1 R1 F1 o E; cbn [mapM] in E; [cbn; eauto|].
  unfold peach. cbn [pfold]. apply ok_bind in E. destruct E as (x & Ex & E). apply ok_bind in E. destruct E as (o' & Eo & E).
  unfold index in Ex. destruct (nth_error sv (r - 1 - k)) as [nv|] eqn:En; [|discriminate].
  destruct (nth_error st (r - 1 - k)) as [b|] eqn:Eb.
  2:{ apply nth_error_None in Eb. rewrite (Forall2_length F1) in Eb. apply nth_error_None in Eb. congruence. }
  apply wp_seq with (Q' := fun _ s' => keeps s1 s' /\ rep s' la d u cells (outs ++ [b]) v).
  + eapply wp_lift; [unfold index; rewrite Eb; reflexivity|]. eapply sim_output; [exact R1|]. intros s' K R'. auto.
  + intros [] s2 (K2 & R2). apply (IH (outs ++ [b]) s2) with (o := o'); [eapply keeps_trans; eassumption|exact R2|exact (out_keeps K2 F1)|exact Eo].
Qed.

Lemma fail_walk v : forall fuel s outs out i j a n, bad (walk fuel m v n out) ->
  rep s la d u cells outs v -> nth2 cells i j = Some a -> nth2 v i j = Some n -> fails (h_walk fuel m la (Some a)) wreck s.
Proof.
  induction fuel as [|fuel IH]; intros s outs out i j a n E R Hc Hn; cbn [walk h_walk] in *; [exact (rep_wreck R)|].
  apply bad_bind in E. destruct E as [E|(o & Eo & E)]; [apply fails_left; exact (fail_visit R Hc Hn E)|].
  eapply fails_seq; [exact (visit_ok R Hc Hn Eo)|]. intros [] s1 (outs1 & R1).
  destruct (rep_get R1 Hc) as (h & n' & E1 & E2 & E3 & E4). rewrite Hn in E2. injection E2 as <-. apply (fails_node_read E1).
  destruct (n_prev n) as [[i' j']|] eqn:Ep, (h_prev h) as [a'|]; cbn in E4; try contradiction; [|destruct (bad_ok E)].
  destruct (cells_get2 R1 E4) as (q & Eq). rewrite Eq in E. cbn [rbind] in E. apply get2_nth2 in Eq. exact (IH _ _ _ _ _ _ _ E R1 E4 Eq).
Qed.

Lemma fail_backward s outs v : rep s la d u cells outs v -> bad (backward m v) -> fails (h_backward m la) wreck s.
Proof.
  intros R E. unfold h_backward. unfold backward in E. destruct (r_lat R) as (hl & El & L). apply (fails_lat_read El).
  rewrite (rep_len R El). destruct (length v) as [|k]; [destruct (bad_ok E)|]. apply bad_bind in E. destruct E as [E|(p & Ep & E)].
  - apply (fail_cell (j := 0) (i := k) _ R). destruct (nth2 cells k 0) as [a|] eqn:Ea; [|reflexivity]. destruct (cells_get2 R Ea) as (n & En). destruct (E _ En).
  - apply get2_nth2 in Ep. destruct (rep_addr R Ep) as (a & Ha).
    eapply fails_seq with (Q := fun x s' => x = a /\ s' = s); [|intros x s' [-> ->]; exact (fail_walk E R Ha Ep)].
    refine (wp_unbind (f := @Ret addr) _). apply (rep_cell R Ha). cbn. auto.
Qed.
End Wreck.
