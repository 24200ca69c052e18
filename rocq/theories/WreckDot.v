(** Panics of Lattice.Dot, and of whole calls, on the goroutine's own objects. *)
From Verif Require Export WreckFacts.
From Coq Require Import ZifyBool ZifyNat.
Set Implicit Arguments.
Unset Strict Implicit.
Open Scope nat_scope.

Lemma reads_fails A B s (p : prog A) (f : A -> prog B) r E : reads s p r -> fails (f r) E s -> fails (pbind p f) E s.
Proof. intros H1 H2. eapply fails_seq; [exact H1|]. intros x s' [-> ->]. exact H2. Qed.

Lemma fails_each X B C Y s (f : X -> B -> prog X) (h : C -> B) (g : C -> res Y) (E : lheap -> Prop) l :
  (forall acc x y, In x l -> g x = Ok y -> exists acc', reads s (f acc (h x)) acc') ->
  (forall acc x, In x l -> bad (g x) -> fails (f acc (h x)) E s) ->
  bad (mapM g l) -> forall acc, fails (pfold f (map h l) acc) E s.
Proof.
  induction l as [|x l IH]; intros Hok Hbad Hb acc; cbn [mapM map pfold] in *; [destruct (bad_ok Hb)|].
  apply bad_bind in Hb. destruct Hb as [Hb|(y & Ey & Hb)].
  - apply fails_left. apply Hbad; [left; reflexivity|exact Hb].
  - apply bad_bind in Hb. destruct Hb as [Hb|(ys & _ & Hb)]; [|destruct (bad_ok Hb)].
    destruct (Hok acc x y (or_introl eq_refl) Ey) as (acc' & Ha). apply (reads_fails Ha).
    apply IH; [intros a z w Hz; apply Hok; right; exact Hz|intros a z Hz; apply Hbad; right; exact Hz|exact Hb].
Qed.
Lemma reads_each X B C s (f : X -> B -> prog X) (h : C -> B) l :
  (forall acc x, In x l -> exists acc', reads s (f acc (h x)) acc') -> forall acc, exists acc', reads s (pfold f (map h l) acc) acc'.
Proof.
  induction l as [|x l IH]; intros Hok acc; cbn [map pfold]; [exists acc; apply reads_ret|].
  destruct (Hok acc x (or_introl eq_refl)) as (a1 & H1). destruct (IH (fun a z Hz => Hok a z (or_intror Hz)) a1) as (a2 & H2).
  exists a2. exact (reads_bind H1 H2).
Qed.

Lemma mapM_app_ok A B (f : A -> res B) l l' r r' : mapM f l = Ok r -> mapM f l' = Ok r' -> mapM f (l ++ l') = Ok (r ++ r').
Proof.
  revert r. induction l as [|x l IH]; intros r E E'; cbn [mapM app] in *; [injection E as <-; exact E'|].
  apply ok_bind in E. destruct E as (y & Ey & E). apply ok_bind in E. destruct E as (q & Eq & E). injection E as <-.
  rewrite Ey. cbn [rbind]. rewrite (IH q Eq E'). reflexivity.
Qed.
Lemma bad_flat A B C (g : B -> res C) (k : A -> list B) l : bad (mapM g (flat_map k l)) -> bad (mapM (fun i => mapM g (k i)) l).
Proof.
  intros H r E. assert (K : exists q, mapM g (flat_map k l) = Ok q); [|destruct K as (q & Eq); exact (H q Eq)]. clear H.
  revert r E. induction l as [|x l IH]; intros r E; cbn [mapM flat_map] in *; [eauto|].
  apply ok_bind in E. destruct E as (y & Ey & E). apply ok_bind in E. destruct E as (q & Eq & E). destruct (IH q Eq) as (q' & Eq').
  eexists. exact (mapM_app_ok Ey Eq').
Qed.

Section Drawing.
Variables (la : addr) (d : dict) (u : option udict) (cells : list (list addr)) (outs : list addr) (v : table) (s : lheap) (ptrs : list (option coord)).
Hypothesis R : rep s la d u cells outs v.
Hypothesis P : Forall2 (ptr_ok cells s) outs ptrs.
Let bests := best_set ptrs.
Let hb : list (option addr) := map Some outs.
Notation name := (name cells).
Notation ren := (ren cells).
Notation fails_here p := (fails p (wreck la d u) s).

Lemma fail_edges_to acc cn : at_ v cn -> bad (edges_to bests v cn) -> fails_here (h_edges_to la hb acc (Some (name (fst cn)))).
Proof.
  destruct cn as [c n]. intros H E. unfold h_edges_to. apply (fails_deref eq_refl). cbn [fst]. apply (reads_fails (skip_ok R P H)).
  unfold edges_to in E. fold bests. destruct (skipped bests (c, n)); [destruct (bad_ok E)|].
  apply bad_bind in E. destruct E as [E|(prevs & Ep & E)]; [|destruct (bad_ok E)]. cbn [snd] in *.
  destruct (at_cell R H) as (Hc & h & Eh & En). destruct (r_lat R) as (hl & El & L). apply (fails_node_read Eh). apply (fails_lat_read El).
  assert (Hs : n_start n = h_start h) by (rewrite En; reflexivity). rewrite Hs in *.
  apply bad_index in E. apply nth_error_None in E. exact (fails_bad _ (gs_index_beyond R El E) (rep_wreck R)).
Qed.

Lemma fail_edges : bad (edge_list bests v) -> fails_here (h_edges la hb).
Proof.
  intros E. unfold edge_list in E. apply bad_bind in E. destruct E as [E|(l & El & E)]; [|destruct (bad_ok E)]. unfold h_edges.
  rewrite cells_from_1 in E. apply bad_flat in E. destruct (r_lat R) as (hl & Elat & L). apply (fails_lat_read Elat). rewrite (rep_len R Elat).
  rewrite <- (map_id (seq 1 (length v - 1))).
  assert (Hrow : forall i, In i (seq 1 (length v - 1)) -> nth_error v i = Some (nth i v [])) by (intros i Hi; apply in_seq in Hi; apply nth_error_nth'; lia).
  refine (fails_each (g := fun i => mapM (edges_to bests v) (cells_of i (nth i v []))) _ _ E _).
  - intros acc i y Hi Ey. destruct (row_read R Elat (Hrow i Hi)) as (x & Ex & Hx).
    destruct (@reads_each _ _ _ s (h_edges_to la hb) (fun cn : coord * node => Some (name (fst cn))) (cells_of i (nth i v []))) with (acc := acc) as (acc' & Ha).
    + intros a cn Hin. destruct (mapM_all Ey Hin) as (z & Ez & _). eexists. exact (edges_to_sim R P a (cells_of_at (Hrow i Hi) Hin) Ez).
    + exists acc'. apply (wp_lat_read Elat). apply (wp_lift Ex). rewrite Hx. exact Ha.
  - intros acc i Hi Hb. destruct (row_read R Elat (Hrow i Hi)) as (x & Ex & Hx). apply (fails_lat_read Elat). apply (fails_lift Ex). rewrite Hx.
    refine (fails_each _ _ Hb _).
    + intros a cn y Hin Ey. eexists. exact (edges_to_sim R P a (cells_of_at (Hrow i Hi) Hin) Ey).
    + intros a cn Hin Hy. exact (fail_edges_to a (cells_of_at (Hrow i Hi) Hin) Hy).
Qed.

Lemma fail_node out cn : at_ v cn -> bad (node_stmt d u bests cn) -> fails_here (h_node_stmt la hb (fst (fst cn)) out (Some (name (fst cn)))).
Proof.
  destruct cn as [c n]. intros H E. unfold h_node_stmt. apply (fails_deref eq_refl). cbn [fst]. apply (reads_fails (skip_ok R P H)).
  unfold node_stmt in E. fold bests. destruct (skipped bests (c, n)); [destruct (bad_ok E)|].
  apply bad_bind in E. destruct E as [E|(pos & Ep & E)].
  - destruct (at_cell R H) as (Hc & h & Eh & En). destruct (r_lat R) as (hl & El & L).
    apply (fails_node_read Eh). cbn zeta. apply (fails_lat_read El). apply (fails_deref (lo_dic L)). rewrite (lo_udic L).
    assert (E' : bad (pos_feature d u (h_val h None))) by (rewrite En in E; exact E). exact (fails_bad _ E' (rep_wreck R)).
  - exfalso. destruct (is_best bests c); [exact (bad_ok E)|]. destruct (negb (class_eqb (n_class n) UNKNOWN)); exact (bad_ok E).
Qed.

Lemma fail_edge out e : at_ v (fst e) -> at_ v (snd e) -> bad (edge_stmt d bests e) -> fails_here (h_edge_stmt la hb out (ren e)).
Proof.
  destruct e as [[cf f] [ct t]]. cbn [fst snd]. intros Hf Ht E. unfold HeapDot.ren, h_edge_stmt. cbn [fst snd].
  destruct (at_cell R Hf) as (_ & hf & Ef & Enf), (at_cell R Ht) as (_ & ht & Et & Ent). apply (fails_node_read Ef). apply (fails_node_read Et).
  unfold edge_stmt in E. apply bad_bind in E. destruct E as [E|(c & Ec & E)]; [|destruct (bad_ok E)].
  apply fails_left. rewrite Enf, Ent in E. cbn [n_class n_right n_left h_val] in E.
  destruct (negb (class_eqb (h_class hf) USER) && negb (class_eqb (h_class ht) USER)); [|destruct (bad_ok E)].
  destruct (r_lat R) as (hl & El & L). apply (fails_lat_read El). apply (fails_deref (lo_dic L)).
  destruct (conn_at d (h_right hf) (h_left ht)); [destruct (bad_ok E)|exact (rep_wreck R)|exact (rep_wreck R)].
Qed.

Lemma rows_indexed hl : ll s la = Some hl ->
  with_index (gs_list (l_list hl)) = map (fun i => (i, match gs_index (l_list hl) i with Ok x => x | _ => gs_nil end)) (seq 0 (length v)).
Proof.
  intros El. destruct (r_lat R) as (hl' & El' & L). assert (hl' = hl) by congruence. subst hl'.
  rewrite <- (rep_len R El). destruct (lo_list L) as (rows & tail & Er & _). rewrite Er. unfold with_index, gs_list, gs_index. cbn [gs_len gs_arr].
  rewrite firstn_app, firstn_all, Nat.sub_diag, firstn_O, app_nil_r. clear.
  assert (I : forall pre, combine (seq (length pre) (length rows)) rows = map (fun i => (i, match (if i <? length (pre ++ rows) then index ((pre ++ rows) ++ tail) i else Panic) with Ok x => x | _ => gs_nil end)) (seq (length pre) (length rows))).
  { induction rows as [|r rows IH]; intros pre; cbn [length seq combine map]; [reflexivity|]. f_equal.
    - f_equal. destruct (Nat.ltb_spec (length pre) (length (pre ++ r :: rows))) as [_|B]; [|rewrite app_length in B; cbn in B; lia].
      unfold index. rewrite <- app_assoc, nth_error_app2, Nat.sub_diag by lia. reflexivity.
    - specialize (IH (pre ++ [r])). rewrite app_length in IH. cbn [length] in IH. rewrite Nat.add_1_r in IH. rewrite IH. rewrite <- !app_assoc. reflexivity. }
  exact (I []).
Qed.

Theorem fail_dot : bad (dot_stmts d u v ptrs) -> fails_here (h_dot la).
Proof.
  intros E. unfold dot_stmts in E. fold bests in E. unfold h_dot. destruct (r_lat R) as (hl & El & L). apply (fails_lat_read El). cbn zeta.
  rewrite (row_list (lo_out L)). fold hb.
  apply bad_bind in E. destruct E as [E|(es & Ees & E)]; [apply fails_left; exact (fail_edges E)|].
  apply (reads_fails (edges_sim R P Ees)). apply (fails_lat_read El). rewrite (rows_indexed El).
  assert (Hrow : forall i, In i (seq 0 (length v)) -> nth_error v i = Some (nth i v [])) by (intros i Hi; apply in_seq in Hi; apply nth_error_nth'; lia).
  assert (Fst : forall i cn, In cn (cells_of i (nth i v [])) -> fst (fst cn) = i) by (intros i [c n] Hin; apply DotFacts.cells_of_in in Hin; apply Hin).
  assert (One : forall i acc cn y, In i (seq 0 (length v)) -> In cn (cells_of i (nth i v [])) -> node_stmt d u bests cn = Ok y ->
    exists acc', reads s (h_node_stmt la hb i acc (Some (name (fst cn)))) acc').
  { intros i acc cn y Hi Hin Ey. eexists. rewrite <- (Fst i cn Hin) at 1. exact (node_sim R P acc (cells_of_at (Hrow i Hi) Hin) Ey). }
  apply bad_bind in E. destruct E as [E|(ns & Ens & E)].
  - apply fails_left. rewrite cells_seq in E. apply bad_flat in E. refine (fails_each _ _ E _).
    + intros acc i y Hi Ey. cbn beta. destruct (row_read R El (Hrow i Hi)) as (x & Ex & Hx). rewrite Ex, Hx.
      apply reads_each. intros a cn Hin. destruct (mapM_all Ey Hin) as (z & Ez & _). exact (One i a cn z Hi Hin Ez).
    + intros acc i Hi Hb. cbn beta. destruct (row_read R El (Hrow i Hi)) as (x & Ex & Hx). rewrite Ex, Hx.
      refine (fails_each _ _ Hb _).
      * intros a cn y Hin Ey. exact (One i a cn y Hi Hin Ey).
      * intros a cn Hin Hy. rewrite <- (Fst i cn Hin) at 1. exact (fail_node a (cells_of_at (Hrow i Hi) Hin) Hy).
  - apply bad_bind in E. destruct E as [E|(xs & Exs & E)]; [|destruct (bad_ok E)].
    destruct (@reads_each _ _ _ s (fun out (il : nat * row) => let '(i, list) := il in pfold (h_node_stmt la hb i) (gs_list list) out)
      (fun i => (i, match gs_index (l_list hl) i with Ok x => x | _ => gs_nil end)) (seq 0 (length v))) with (acc := @nil (gstmt addr)) as (acc' & Ha).
    + intros acc i Hi. cbn beta. destruct (row_read R El (Hrow i Hi)) as (x & Ex & Hx). rewrite Ex, Hx.
      apply reads_each. intros a cn Hin.
      assert (Hall : In cn (Dot.cells v)). { rewrite cells_seq. apply in_flat_map. exists i. split; assumption. }
      destruct (mapM_all Ens Hall) as (y & Ey & _). exact (One i a cn y Hi Hin Ey).
    + apply (reads_fails Ha). refine (fails_each _ _ E _).
      * intros acc e y He Ey. destruct (edges_at Ees He). eexists. apply (edge_sim R P); eassumption.
      * intros acc e He Hy. destruct (edges_at Ees He). apply fail_edge; assumption.
Qed.
End Drawing.

(** ** Tokens are always made *)
Lemma out_tokens_ok B (f : list B -> node -> list B) (out : list node) :
  exists ts, foldM (fun tokens i => let* n := index out (length out - 1 - i) in Ok (f tokens n)) (seq 0 (length out)) [] = Ok ts.
Proof.
  assert (K : forall l acc, (forall i, In i l -> i < length out) -> exists ts, foldM (fun tokens i => let* n := index out (length out - 1 - i) in Ok (f tokens n)) l acc = Ok ts).
  { induction l as [|i l IH]; intros acc H; cbn [foldM]; [eauto|].
    assert (Hi : i < length out) by (apply H; left; reflexivity).
    unfold index. destruct (nth_error out (length out - 1 - i)) as [n|] eqn:E; [|apply nth_error_None in E; lia].
    cbn [rbind]. apply IH. intros j Hj. apply H. right. exact Hj. }
  apply K. intros i Hi. apply in_seq in Hi. lia.
Qed.
