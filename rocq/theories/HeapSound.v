(** Reasoning about one goroutine at a time: if every goroutine only touches objects it holds,
    then every interleaving behaves, for each goroutine, like a run of its own. *)
From Verif Require Export Heap.
From Coq Require Import Permutation ZifyBool ZifyNat.
Set Implicit Arguments.
Unset Strict Implicit.
Open Scope nat_scope.

(** ** The objects of one goroutine *)
(** Nodes with the mark whether they come from the pool, and lattices. *)
Record lheap := LHeap { ln : addr -> option (bool * hnode); ll : addr -> option hlat }.
Definition lput_n (s : lheap) (a : addr) (b : bool) (h : hnode) : lheap := LHeap (set_at (ln s) a (Some (b, h))) (ll s).
Definition ldel_n (s : lheap) (a : addr) : lheap := LHeap (set_at (ln s) a None) (ll s).
Definition lput_l (s : lheap) (a : addr) (l : hlat) : lheap := LHeap (ln s) (set_at (ll s) a (Some l)).
Definition ldel_l (s : lheap) (a : addr) : lheap := LHeap (ln s) (set_at (ll s) a None).

(** What holds of every lattice in the pool. *)
Record clean_row (s : row) : Prop := { cr_len : gs_len s = 0; cr_nil : forall x, In x (gs_arr s) -> x = None }.
Record clean (l : hlat) : Prop := {
  cl_input : l_input l = [];
  cl_output : clean_row (l_output l);
  cl_len : gs_len (l_list l) = 0;
  cl_rows : forall s, In s (gs_arr (l_list l)) -> clean_row s;
  cl_udic : l_udic l = None
}.

(** Every run of p from s, whatever the pools hand out, only touches objects of s or obtained on
    the way, puts only clean lattices into the pool, and ends as Q says. *)
Fixpoint wp {A} (p : prog A) (Q : A -> lheap -> Prop) (s : lheap) : Prop :=
  match p with
  | Ret a => Q a s
  | Stop => False
  | Choose k => forall n, wp (k n) Q s
  | NodeGet k => forall a h, ln s a = None -> wp (k a) Q (lput_n s a true h)
  | NodePut a k => (exists h, ln s a = Some (true, h)) /\ wp k Q (ldel_n s a)
  | NodeNew n k => forall a, ln s a = None -> wp (k a) Q (lput_n s a false n)
  | NodeRead a k => exists b h, ln s a = Some (b, h) /\ wp (k h) Q s
  | NodeSet a f k => exists b h, ln s a = Some (b, h) /\ wp k Q (lput_n s a b (f h))
  | LatGet k => forall a l, ll s a = None -> clean l -> wp (k a) Q (lput_l s a l)
  | LatPut a k => (exists l, ll s a = Some l /\ clean l) /\ wp k Q (ldel_l s a)
  | LatRead a k => exists l, ll s a = Some l /\ wp (k l) Q s
  | LatSet a f k => exists l, ll s a = Some l /\ wp k Q (lput_l s a (f l))
  end.

Lemma wp_mono A (p : prog A) (Q Q' : A -> lheap -> Prop) s : wp p Q s -> (forall a s', Q a s' -> Q' a s') -> wp p Q' s.
Proof.
  intros H HQ. revert s H. induction p; cbn; intros s H0; try firstorder.
Qed.

Lemma wp_bind A B (p : prog A) (f : A -> prog B) Q s : wp p (fun a s' => wp (f a) Q s') s -> wp (pbind p f) Q s.
Proof.
  revert s. induction p; cbn; intros s H0; try firstorder.
Qed.

Lemma wp_seq A B (p : prog A) (f : A -> prog B) Q Q' s : wp p Q' s -> (forall a s', Q' a s' -> wp (f a) Q s') -> wp (pbind p f) Q s.
Proof. intros H1 H2. apply wp_bind. eapply wp_mono; [exact H1|exact H2]. Qed.

(** ** Interleavings *)
Definition cnt (l : list addr) (a : addr) : nat := count_occ Nat.eq_dec l a.
#[global] Arguments cnt : simpl never.
Lemma cnt_nil a : cnt [] a = 0.
Proof. reflexivity. Qed.
Lemma cnt_app l m a : cnt (l ++ m) a = cnt l a + cnt m a.
Proof. apply count_occ_app. Qed.
Lemma cnt_cons x l a : cnt (x :: l) a = (if x =? a then 1 else 0) + cnt l a.
Proof. unfold cnt. cbn. destruct (Nat.eq_dec x a); destruct (Nat.eqb_spec x a); lia. Qed.
Lemma cnt_In l a : In a l <-> 0 < cnt l a.
Proof. apply count_occ_In. Qed.
Lemma cnt_remove x l a : In x l -> cnt (remove_one x l) a = cnt l a - (if x =? a then 1 else 0).
Proof.
  induction l as [|y l IH]; cbn [remove_one]; intros H; [destruct H|]. destruct (Nat.eqb_spec y x) as [->|N].
  - rewrite cnt_cons. destruct (x =? a); lia.
  - destruct H as [H|H]; [congruence|]. rewrite !cnt_cons, (IH H). apply cnt_In in H.
    destruct (Nat.eqb_spec x a) as [->|]; destruct (Nat.eqb_spec y a); lia.
Qed.
Lemma cnt_flat A (f : A -> list addr) l1 x l2 a : cnt (flat_map f (l1 ++ x :: l2)) a = cnt (f x) a + cnt (flat_map f l1 ++ flat_map f l2) a.
Proof. rewrite flat_map_app. cbn [flat_map]. rewrite !cnt_app. lia. Qed.

Lemma set_at_same V (f : addr -> V) a v : set_at f a v a = v.
Proof. unfold set_at. rewrite Nat.eqb_refl. reflexivity. Qed.
Lemma set_at_other V (f : addr -> V) a v x : x <> a -> set_at f a v x = f x.
Proof. unfold set_at. intros H. destruct (Nat.eqb_spec x a); [contradiction|reflexivity]. Qed.

Definition held {A} (th : thread A) : list addr := th_nodes th ++ th_new th.

(** The pool, the objects of one goroutine and those of the others do not overlap, and have been
    allocated. *)
Definition apart (next : addr) (pool mine rest : list addr) : Prop :=
  forall a, cnt pool a + cnt mine a + cnt rest a <= (if a <? next then 1 else 0).

(** The private view of a goroutine agrees with the memory. *)
Record agrees {A} (g : memory) (th : thread A) (s : lheap) : Prop := {
  ag_node : forall a b h, ln s a = Some (b, h) -> g_nodes g a = h;
  ag_nodes : forall a, 0 < cnt (th_nodes th) a <-> exists h, ln s a = Some (true, h);
  ag_new : forall a, 0 < cnt (th_new th) a <-> exists h, ln s a = Some (false, h);
  ag_lat : forall a l, ll s a = Some l -> g_lats g a = l;
  ag_lats : forall a, 0 < cnt (th_lats th) a <-> exists l, ll s a = Some l
}.

(** Nothing obtained from a pool is left. *)
Record empty (s : lheap) : Prop := { em_nodes : forall a h, ln s a <> Some (true, h); em_lats : forall a, ll s a = None }.

Definition tinv {A} (g : memory) (R : A -> lheap -> Prop) (th : thread A) : Prop :=
  exists s, wp (th_prog th) R s /\ agrees g th s.

Lemma agrees_frame A g g' (th : thread A) s : agrees g th s -> (forall a, 0 < cnt (held th) a -> g_nodes g' a = g_nodes g a) ->
  (forall a, 0 < cnt (th_lats th) a -> g_lats g' a = g_lats g a) -> agrees g' th s.
Proof.
  intros [H1 H2 H3 H4 H5] Hn Hl. split; try assumption.
  - intros a b h E. rewrite Hn; [eapply H1; eassumption|]. unfold held. rewrite cnt_app. destruct b.
    + assert (0 < cnt (th_nodes th) a) by (apply H2; eauto). lia.
    + assert (0 < cnt (th_new th) a) by (apply H3; eauto). lia.
  - intros a l E. rewrite Hl; [auto|]. apply H5. eauto.
Qed.

Lemma ag_none A g (th : thread A) s a : agrees g th s -> cnt (held th) a = 0 -> ln s a = None.
Proof.
  intros [H1 H2 H3 H4 H5] E. unfold held in E. rewrite cnt_app in E. destruct (ln s a) as [[[] h]|] eqn:El; [| |reflexivity].
  - assert (0 < cnt (th_nodes th) a) by (apply H2; eauto). lia.
  - assert (0 < cnt (th_new th) a) by (apply H3; eauto). lia.
Qed.
Lemma ag_none_l A g (th : thread A) s a : agrees g th s -> cnt (th_lats th) a = 0 -> ll s a = None.
Proof.
  intros [H1 H2 H3 H4 H5] E. destruct (ll s a) as [l|] eqn:El; [|reflexivity].
  assert (0 < cnt (th_lats th) a) by (apply H5; eauto). lia.
Qed.

(** Simplification of the statements about private views after an operation. *)
Ltac at_cases := unfold lput_n, ldel_n, lput_l, ldel_l, set_at in *; cbn [ln ll g_nodes g_lats th_nodes th_new th_lats th_prog] in *.
Ltac eq_dec x y := destruct (Nat.eqb_spec x y) as [->|]; cbn [Nat.add] in *.

Ltac fields := unfold held in *; cbn [th_nodes th_new th_lats th_prog g_nodes g_node_next g_node_pool g_lats g_lat_next g_lat_pool] in *.

Record shape {A} (g : memory) (th : thread A) (rn rl : list addr) : Prop := {
  sh_nodes : apart (g_node_next g) (g_node_pool g) (held th) rn;
  sh_lats : apart (g_lat_next g) (g_lat_pool g) (th_lats th) rl;
  sh_clean : forall a, 0 < cnt (g_lat_pool g) a -> clean (g_lats g a)
}.

Lemma zero_clean : clean zero_hlat.
Proof. split; cbn; try reflexivity; try contradiction. split; cbn; [reflexivity|contradiction]. Qed.

Lemma fresh_zero next pool mine rest : apart next pool mine rest -> cnt pool next = 0 /\ cnt mine next = 0 /\ cnt rest next = 0.
Proof. intros H. specialize (H next). destruct (Nat.ltb_spec next next); lia. Qed.

Lemma some_iff {A} (b : bool) (h : A) (o : option (bool * A)) (c : bool) : o = Some (b, h) -> ((exists h', o = Some (c, h')) <-> b = c).
Proof. intros ->. split; [intros (h' & [= -> _]); reflexivity|intros ->; eauto]. Qed.

Theorem tstep_ok A g (th : thread A) g' th' : tstep g th g' th' -> forall R rn rl, tinv g R th -> shape g th rn rl ->
  tinv g' R th' /\ shape g' th' rn rl /\
  (forall a, 0 < cnt rn a -> g_nodes g' a = g_nodes g a) /\ (forall a, 0 < cnt rl a -> g_lats g' a = g_lats g a).
Proof.
  intros St R rn rl (s & W & AG) [SN SL SC]. destruct St; cbn [g_nodes g_node_next g_node_pool g_lats g_lat_next g_lat_pool th_prog] in *; cbn [wp] in W.
  - (* choose *)
    split; [exists s; split; [apply W|]|split; [|split; auto]].
    + destruct AG; split; assumption.
    + split; assumption.
  - (* get from the pool *)
    assert (Ha : ln s a = None).
    { apply (ag_none AG). specialize (SN a). rewrite cnt_app, cnt_cons, Nat.eqb_refl in SN. destruct (a <? next); lia. }
    split; [|split; [|split; auto]].
    + exists (lput_n s a true (nodes a)). split; [apply W; exact Ha|].
      destruct AG as [H1 H2 H3 H4 H5]. cbn in H1, H2, H3, H4, H5. split; fields; cbn [ln ll lput_n ldel_n lput_l ldel_l]; try assumption.
      * intros x b h. unfold set_at. eq_dec x a; [intros [= <- <-]; reflexivity|apply H1].
      * intros x. rewrite cnt_cons. unfold set_at. rewrite (Nat.eqb_sym a x). eq_dec x a; [split; [eauto|lia]|apply H2].
      * intros x. rewrite H3. unfold set_at. eq_dec x a; [|reflexivity]. rewrite Ha. split; intros (h & E); discriminate.
    + split; fields; cbn [ln ll lput_n ldel_n lput_l ldel_l]; try assumption. intros x. specialize (SN x). fields. rewrite !cnt_app, !cnt_cons in *. rewrite ?cnt_app in *. lia.
  - (* new from the pool *)
    destruct (fresh_zero SN) as (F1 & F2 & F3). assert (Ha : ln s next = None) by (apply (ag_none AG F2)).
    split; [|split; [|split]].
    + exists (lput_n s next true zero_hnode). split; [apply W; exact Ha|].
      destruct AG as [H1 H2 H3 H4 H5]. cbn in H1, H2, H3, H4, H5. split; fields; cbn [ln ll lput_n ldel_n lput_l ldel_l]; try assumption.
      * intros x b h. unfold set_at. eq_dec x next; [intros [= <- <-]; reflexivity|apply H1].
      * intros x. rewrite cnt_cons. unfold set_at. rewrite (Nat.eqb_sym next x). eq_dec x next; [split; [eauto|lia]|apply H2].
      * intros x. rewrite H3. unfold set_at. eq_dec x next; [|reflexivity]. rewrite Ha. split; intros (h & E); discriminate.
    + split; fields; cbn [ln ll lput_n ldel_n lput_l ldel_l]; try assumption. intros x. specialize (SN x). fields. rewrite !cnt_app, ?cnt_cons in *. rewrite ?cnt_app in *.
      destruct (Nat.eqb_spec next x) as [<-|D]; [destruct (Nat.ltb_spec next (S next)), (Nat.ltb_spec next next)|destruct (Nat.ltb_spec x (S next)), (Nat.ltb_spec x next)]; lia.
    + intros x Hx. cbn. apply set_at_other. intros ->. lia.
    + auto.
  - (* put *)
    destruct W as ((h & Eh) & W).
    assert (Hin : In a hn) by (apply cnt_In; apply (ag_nodes AG); eauto).
    assert (H1c : cnt hn a <= 1) by (specialize (SN a); fields; rewrite cnt_app in SN; destruct (a <? next); lia).
    split; [|split; [|split; auto]].
    + exists (ldel_n s a). split; [exact W|].
      destruct AG as [H1 H2 H3 H4 H5]. cbn in H1, H2, H3, H4, H5. split; fields; cbn [ln ll lput_n ldel_n lput_l ldel_l]; try assumption.
      * intros x b h'. unfold set_at. eq_dec x a; [discriminate|apply H1].
      * intros x. rewrite (cnt_remove _ Hin). unfold set_at. rewrite (Nat.eqb_sym a x). eq_dec x a.
        -- split; [lia|intros (? & ?); discriminate].
        -- rewrite Nat.sub_0_r. apply H2.
      * intros x. rewrite H3. unfold set_at. eq_dec x a; [|reflexivity]. rewrite Eh. split; intros (h' & E); discriminate.
    + split; fields; cbn [ln ll lput_n ldel_n lput_l ldel_l]; try assumption. intros x. specialize (SN x). fields. rewrite !cnt_app, ?cnt_cons in *. rewrite (cnt_remove _ Hin).
      apply cnt_In in Hin. eq_dec a x; lia.
  - (* allocate *)
    destruct (fresh_zero SN) as (F1 & F2 & F3). assert (Ha : ln s next = None) by (apply (ag_none AG F2)).
    split; [|split; [|split]].
    + exists (lput_n s next false n). split; [apply W; exact Ha|].
      destruct AG as [H1 H2 H3 H4 H5]. cbn in H1, H2, H3, H4, H5. split; fields; cbn [ln ll lput_n ldel_n lput_l ldel_l]; try assumption.
      * intros x b h. unfold set_at. eq_dec x next; [intros [= <- <-]; reflexivity|apply H1].
      * intros x. rewrite H2. unfold set_at. eq_dec x next; [|reflexivity]. rewrite Ha. split; intros (h & E); discriminate.
      * intros x. rewrite cnt_cons. unfold set_at. rewrite (Nat.eqb_sym next x). eq_dec x next; [split; [eauto|lia]|apply H3].
    + split; fields; cbn [ln ll lput_n ldel_n lput_l ldel_l]; try assumption. intros x. specialize (SN x). fields. rewrite !cnt_app, ?cnt_cons in *. rewrite ?cnt_app in *.
      destruct (Nat.eqb_spec next x) as [<-|D]; [destruct (Nat.ltb_spec next (S next)), (Nat.ltb_spec next next)|destruct (Nat.ltb_spec x (S next)), (Nat.ltb_spec x next)]; lia.
    + intros x Hx. cbn. apply set_at_other. intros ->. lia.
    + auto.
  - (* read *)
    destruct W as (b & h & Eh & W). split; [|split; [split; assumption|split; auto]].
    exists s. rewrite (ag_node AG Eh). split; [exact W|]. destruct AG; split; assumption.
  - (* write *)
    destruct W as (b & h & Eh & W). pose proof (ag_node AG Eh) as En. cbn in En.
    assert (Hc : 0 < cnt (held (Thread (NodeSet a f k) hn hw hl)) a).
    { unfold held. rewrite cnt_app. destruct b; [apply Nat.lt_lt_add_r, (ag_nodes AG)|apply Nat.lt_lt_add_l, (ag_new AG)]; eauto. }
    split; [|split; [split; assumption|split]].
    + exists (lput_n s a b (f h)). split; [exact W|].
      destruct AG as [H1 H2 H3 H4 H5]. cbn in H1, H2, H3, H4, H5. split; fields; cbn [ln ll lput_n ldel_n lput_l ldel_l]; try assumption.
      * intros x b' h'. unfold set_at. eq_dec x a; [intros [= <- <-]; rewrite En; reflexivity|apply H1].
      * intros x. rewrite H2. unfold set_at. eq_dec x a; [|reflexivity]. rewrite (some_iff _ Eh), (some_iff _ eq_refl). reflexivity.
      * intros x. rewrite H3. unfold set_at. eq_dec x a; [|reflexivity]. rewrite (some_iff _ Eh), (some_iff _ eq_refl). reflexivity.
    + intros x Hx. cbn. apply set_at_other. intros ->. specialize (SN a). destruct (a <? next); lia.
    + auto.
  - (* lattice from the pool *)
    assert (Hp : 0 < cnt (p1 ++ a :: p2) a) by (rewrite cnt_app, cnt_cons, Nat.eqb_refl; lia).
    assert (Ha : ll s a = None).
    { apply (ag_none_l AG). specialize (SL a). rewrite cnt_app, cnt_cons, Nat.eqb_refl in SL. destruct (a <? lnext); lia. }
    split; [|split; [|split; auto]].
    + exists (lput_l s a (lats a)). split; [apply W; [exact Ha|apply SC; exact Hp]|].
      destruct AG as [H1 H2 H3 H4 H5]. cbn in H1, H2, H3, H4, H5. split; fields; cbn [ln ll lput_n ldel_n lput_l ldel_l]; try assumption.
      * intros x l. unfold set_at. eq_dec x a; [intros [= <-]; reflexivity|apply H4].
      * intros x. rewrite cnt_cons. unfold set_at. rewrite (Nat.eqb_sym a x). eq_dec x a; [split; [eauto|lia]|apply H5].
    + split; fields; cbn [ln ll lput_n ldel_n lput_l ldel_l]; try assumption.
      * intros x. specialize (SL x). fields. rewrite !cnt_app, !cnt_cons in *. lia.
      * intros x Hx. apply SC. rewrite cnt_app, cnt_cons in *. lia.
  - (* new lattice *)
    destruct (fresh_zero SL) as (F1 & F2 & F3). assert (Ha : ll s lnext = None) by (apply (ag_none_l AG F2)).
    split; [|split; [|split]].
    + exists (lput_l s lnext zero_hlat). split; [apply W; [exact Ha|exact zero_clean]|].
      destruct AG as [H1 H2 H3 H4 H5]. cbn in H1, H2, H3, H4, H5. split; fields; cbn [ln ll lput_n ldel_n lput_l ldel_l]; try assumption.
      * intros x l. unfold set_at. eq_dec x lnext; [intros [= <-]; reflexivity|apply H4].
      * intros x. rewrite cnt_cons. unfold set_at. rewrite (Nat.eqb_sym lnext x). eq_dec x lnext; [split; [eauto|lia]|apply H5].
    + split; fields; cbn [ln ll lput_n ldel_n lput_l ldel_l]; try assumption.
      * intros x. specialize (SL x). fields. rewrite ?cnt_app, ?cnt_cons in *.
        destruct (Nat.eqb_spec lnext x) as [<-|D]; [destruct (Nat.ltb_spec lnext (S lnext)), (Nat.ltb_spec lnext lnext)|destruct (Nat.ltb_spec x (S lnext)), (Nat.ltb_spec x lnext)]; lia.
      * intros x Hx. unfold set_at. eq_dec x lnext; [apply zero_clean|apply SC; exact Hx].
    + auto.
    + intros x Hx. cbn. apply set_at_other. intros ->. lia.
  - (* put lattice *)
    destruct W as ((l & El & Hl) & W).
    assert (Hin : In a hl) by (apply cnt_In; apply (ag_lats AG); eauto).
    assert (H1c : cnt hl a <= 1) by (specialize (SL a); fields; destruct (a <? lnext); lia).
    pose proof (ag_lat AG El) as Eg. cbn in Eg.
    split; [|split; [|split; auto]].
    + exists (ldel_l s a). split; [exact W|].
      destruct AG as [H1 H2 H3 H4 H5]. cbn in H1, H2, H3, H4, H5. split; fields; cbn [ln ll lput_n ldel_n lput_l ldel_l]; try assumption.
      * intros x l'. unfold set_at. eq_dec x a; [discriminate|apply H4].
      * intros x. rewrite (cnt_remove _ Hin). unfold set_at. rewrite (Nat.eqb_sym a x). eq_dec x a.
        -- split; [lia|intros (? & ?); discriminate].
        -- rewrite Nat.sub_0_r. apply H5.
    + split; fields; cbn [ln ll lput_n ldel_n lput_l ldel_l]; try assumption.
      * intros x. specialize (SL x). fields. rewrite ?cnt_cons in *. rewrite (cnt_remove _ Hin).
        apply cnt_In in Hin. eq_dec a x; lia.
      * intros x Hx. rewrite cnt_cons in Hx. eq_dec a x; [rewrite Eg; exact Hl|apply SC; exact Hx].
  - (* read lattice *)
    destruct W as (l & El & W). split; [|split; [split; assumption|split; auto]].
    exists s. rewrite (ag_lat AG El). split; [exact W|]. destruct AG; split; assumption.
  - (* write lattice *)
    destruct W as (l & El & W). pose proof (ag_lat AG El) as En. cbn in En.
    assert (Hc : 0 < cnt hl a) by (apply (ag_lats AG); eauto).
    assert (Hz : cnt lpool a = 0 /\ cnt rl a = 0) by (specialize (SL a); fields; destruct (a <? lnext); lia).
    split; [|split; [|split]].
    + exists (lput_l s a (f l)). split; [exact W|].
      destruct AG as [H1 H2 H3 H4 H5]. cbn in H1, H2, H3, H4, H5. split; fields; cbn [ln ll lput_n ldel_n lput_l ldel_l]; try assumption.
      * intros x l'. unfold set_at. eq_dec x a; [intros [= <-]; rewrite En; reflexivity|apply H4].
      * intros x. rewrite H5. unfold set_at. eq_dec x a; [|reflexivity]. rewrite El. split; intros _; eauto.
    + split; fields; cbn [ln ll lput_n ldel_n lput_l ldel_l]; try assumption. intros x Hx. rewrite set_at_other; [apply SC; exact Hx|]. intros ->. lia.
    + auto.
    + intros x Hx. cbn. apply set_at_other. intros ->. lia.
Qed.

(** The invariant of the whole system. *)
Definition ginv {A} (Rs : list (A -> lheap -> Prop)) (x : memory * list (thread A)) : Prop :=
  let '(g, ths) := x in
  Forall2 (tinv g) Rs ths /\
  apart (g_node_next g) (g_node_pool g) [] (flat_map held ths) /\
  apart (g_lat_next g) (g_lat_pool g) [] (flat_map th_lats ths) /\
  (forall a, 0 < cnt (g_lat_pool g) a -> clean (g_lats g a)).

Lemma Forall2_split A B (P : A -> B -> Prop) l r1 y r2 : Forall2 P l (r1 ++ y :: r2) ->
  exists l1 x l2, l = l1 ++ x :: l2 /\ Forall2 P l1 r1 /\ P x y /\ Forall2 P l2 r2.
Proof.
  intros H. apply Forall2_app_inv_r in H. destruct H as (l1 & l2 & H1 & H2 & ->). inversion H2; subst. do 3 eexists. eauto.
Qed.

Lemma Forall2_impl_in A B (P Q : A -> B -> Prop) l r : Forall2 P l r -> (forall x y, In y r -> P x y -> Q x y) -> Forall2 Q l r.
Proof. intros H. induction H; intros HI; constructor; [apply HI; [left; reflexivity|assumption]|apply IHForall2; intros; apply HI; [right|]; assumption]. Qed.

Lemma cnt_flat_in A (f : A -> list addr) l x a : In x l -> cnt (f x) a <= cnt (flat_map f l) a.
Proof. induction l as [|y l IH]; intros H; [destruct H|]. cbn. rewrite cnt_app. destruct H as [->|H]; [lia|]. specialize (IH H). lia. Qed.

Theorem step_ginv A Rs (x y : memory * list (thread A)) : step x y -> ginv Rs x -> ginv Rs y.
Proof.
  intros St. destruct St as [g t1 th t2 g' th' T]. intros (F & SN & SL & SC).
  apply Forall2_split in F. destruct F as (R1 & R & R2 & -> & F1 & HT & F2).
  assert (SH : shape g th (flat_map held t1 ++ flat_map held t2) (flat_map th_lats t1 ++ flat_map th_lats t2)).
  { split; [intros a; specialize (SN a)|intros a; specialize (SL a)|assumption]; rewrite cnt_flat in *; rewrite cnt_nil in *; lia. }
  destruct (tstep_ok T HT SH) as (HT' & [SN' SL' SC'] & Kn & Kl).
  assert (K : forall ths Rs, (forall t, In t ths -> In t (t1 ++ t2)) -> Forall2 (tinv g) Rs ths -> Forall2 (tinv g') Rs ths).
  { intros ths Rs Hi H. eapply Forall2_impl_in; [exact H|]. intros P t Ht (s & W & AG). exists s. split; [exact W|].
    apply (agrees_frame AG).
    - intros a Ha. apply Kn. rewrite <- flat_map_app. pose proof (cnt_flat_in held a (Hi t Ht)). lia.
    - intros a Ha. apply Kl. rewrite <- flat_map_app. pose proof (cnt_flat_in th_lats a (Hi t Ht)). lia. }
  split; [|split; [|split]].
  - apply Forall2_app; [|constructor; [exact HT'|]]; (eapply K; [|eassumption]); intros t Ht; apply in_or_app; auto.
  - intros a. specialize (SN' a). rewrite cnt_flat, cnt_nil. lia.
  - intros a. specialize (SL' a). rewrite cnt_flat, cnt_nil. lia.
  - exact SC'.
Qed.

Theorem steps_ginv A Rs (x y : memory * list (thread A)) : steps x y -> ginv Rs x -> ginv Rs y.
Proof. intros H. induction H; intros G; [assumption|]. eapply step_ginv; [eassumption|auto]. Qed.

(** A goroutine satisfying the invariant is finished or can go on. *)
Definition lheap0 : lheap := LHeap (fun _ => None) (fun _ => None).

Theorem start_ginv A g (ps : list (prog A)) Rs : Forall2 (fun (R : A -> lheap -> Prop) p => wp p R lheap0) Rs ps ->
  apart (g_node_next g) (g_node_pool g) [] [] -> apart (g_lat_next g) (g_lat_pool g) [] [] ->
  (forall a, 0 < cnt (g_lat_pool g) a -> clean (g_lats g a)) ->
  ginv Rs (g, map start_thread ps).
Proof.
  intros H An Al Ac. assert (Z : forall (f : thread A -> list addr), (forall p, f (start_thread p) = []) -> flat_map f (map start_thread ps) = []).
  { clear H. intros f Hf. induction ps as [|p l IH]; cbn; [reflexivity|]. rewrite Hf, IH. reflexivity. }
  split; [|split; [|split]].
  - induction H as [|R p Rs' ps' W H IH]; cbn [map]; constructor.
    + exists lheap0. split; [exact W|]. split; cbn; try discriminate; intros a; (split; [rewrite cnt_nil; lia|intros (x & E); discriminate]).
    + apply IH. intros f Hf. specialize (Z f Hf). cbn in Z. rewrite Hf in Z. exact Z.
  - rewrite Z by reflexivity. exact An.
  - rewrite Z by reflexivity. exact Al.
  - exact Ac.
Qed.

Lemma empty_none A g (th : thread A) s : agrees g th s -> empty s -> th_nodes th = [] /\ th_lats th = [].
Proof.
  intros AG [E1 E2]. destruct th as [p hn hw hl]. cbn. split.
  - destruct hn as [|x l]; [reflexivity|]. destruct (proj1 (ag_nodes AG x)) as (h & Eh); [cbn; rewrite cnt_cons, Nat.eqb_refl; lia|].
    exfalso. exact (E1 _ _ Eh).
  - destruct hl as [|x l]; [reflexivity|]. destruct (proj1 (ag_lats AG x)) as (h & Eh); [cbn; rewrite cnt_cons, Nat.eqb_refl; lia|].
    rewrite E2 in Eh. discriminate.
Qed.

Theorem tinv_progress A g R (th : thread A) : tinv g R th -> (exists a s, th_prog th = Ret a /\ R a s /\ agrees g th s) \/ exists g' th', tstep g th g' th'.
Proof.
  intros (s & W & AG). destruct th as [p hn hw hl]. cbn in W. destruct g as [nodes next pool lats lnext lpool].
  destruct p; cbn in W; try (lazymatch goal with |- context [Choose _] => fail | _ => right; do 2 eexists; econstructor; fail end).
  - left. exists a, s. auto.
  - destruct W.
  - right. exists (Memory nodes next pool lats lnext lpool), (Thread (k 0) hn hw hl). constructor.
Qed.

(** ** Termination: no infinite interleaving *)
Section Termination.
Variable A : Type.

Inductive sub : prog A -> prog A -> Prop :=
| sub_choose k n : sub (k n) (Choose k)
| sub_get k a : sub (k a) (NodeGet k)
| sub_put a k : sub k (NodePut a k)
| sub_new n k a : sub (k a) (NodeNew n k)
| sub_read a k h : sub (k h) (NodeRead a k)
| sub_set a f k : sub k (NodeSet a f k)
| sub_lget k a : sub (k a) (LatGet k)
| sub_lput a k : sub k (LatPut a k)
| sub_lread a k h : sub (k h) (LatRead a k)
| sub_lset a f k : sub k (LatSet a f k).

Lemma sub_wf : well_founded sub.
Proof. intros p. induction p; constructor; intros q Hq; inversion Hq; subst; auto. Qed.

Lemma tstep_sub g th g' th' : tstep g th g' th' -> sub (th_prog th') (th_prog th).
Proof. intros T. destruct T; constructor. Qed.

(** One element of the list gets smaller. *)
Inductive lsub : list (prog A) -> list (prog A) -> Prop :=
| lsub_intro l1 p p' l2 : sub p' p -> lsub (l1 ++ p' :: l2) (l1 ++ p :: l2).

Lemma lsub_wf : well_founded lsub.
Proof.
  intros l. induction l as [|p l IH].
  - constructor. intros y Hy. inversion Hy as [l1 p p' l2 Hs E1 E2]. destruct l1; discriminate.
  - revert l IH. induction (sub_wf p) as [p _ IHp]. intros l Hl. induction Hl as [l Hl IHl].
    constructor. intros y Hy. inversion Hy as [l1 q q' l2 Hs E1 E2]. destruct l1 as [|x l1]; cbn in *.
    + injection E2 as -> ->. apply IHp; [assumption|]. constructor. assumption.
    + injection E2 as -> E2. apply IHl. rewrite <- E2. constructor. assumption.
Qed.

Theorem step_wf : well_founded (fun y x : memory * list (thread A) => step x y).
Proof.
  intros x. remember (map th_prog (snd x)) as l eqn:E. revert x E. induction (lsub_wf l) as [l _ IH]. intros x ->.
  constructor. intros y Hy. eapply IH; [|reflexivity]. destruct Hy as [g t1 th t2 g' th' T]. cbn. rewrite !map_app. cbn [map].
  constructor. eapply tstep_sub. eassumption.
Qed.
End Termination.
