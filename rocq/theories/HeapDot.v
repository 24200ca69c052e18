(** A goroutine's call of AnalyzeGraph on its own objects draws the graph of the value-level model. *)
From Verif Require Export SpecHeap HeapFacts.
From Verif Require AnalyzeFacts DotFacts.
From Coq Require Import ZifyBool ZifyNat.
Set Implicit Arguments.
Unset Strict Implicit.
Open Scope nat_scope.

(** Code that changes nothing and returns r. *)
Definition reads {A} (s : lheap) (p : prog A) (r : A) : Prop := wp p (fun r' s' => r' = r /\ s' = s) s.
Lemma reads_ret A s (a : A) : reads s (Ret a) a.
Proof. cbn. auto. Qed.
Lemma reads_bind A B s (p : prog A) (f : A -> prog B) r r' : reads s p r -> reads s (f r) r' -> reads s (pbind p f) r'.
Proof. intros H1 H2. unfold reads. eapply wp_seq; [exact H1|]. intros x s' [-> ->]. exact H2. Qed.

Lemma fold_app X B C s (f : list X -> B -> prog (list X)) (h : C -> B) (g : C -> list X) l :
  (forall acc x, In x l -> reads s (f acc (h x)) (acc ++ g x)) ->
  forall acc, reads s (pfold f (map h l) acc) (acc ++ flat_map g l).
Proof.
  induction l as [|x l IH]; intros H acc; cbn [map pfold flat_map].
  - rewrite app_nil_r. apply reads_ret.
  - eapply reads_bind; [apply H; left; reflexivity|]. rewrite app_assoc. apply IH. intros a y Hy. apply H. right. exact Hy.
Qed.

Lemma mapM_all A B (f : A -> res B) l r : mapM f l = Ok r -> forall x, In x l -> exists y, f x = Ok y /\ In y r.
Proof.
  revert r. induction l as [|a l IH]; intros r E x Hx; [contradiction|]. cbn [mapM] in E.
  apply ok_bind in E. destruct E as (y & Ey & E). apply ok_bind in E. destruct E as (r' & Er & E). injection E as <-.
  destruct Hx as [<-|Hx]; [exists y; split; [exact Ey|left; reflexivity]|]. destruct (IH r' Er x Hx) as (z & H1 & H2). exists z. split; [exact H1|right; exact H2].
Qed.
(** The values of a mapM that succeeds. *)
Lemma mapM_concat A B C (f : A -> res (list B)) (k : B -> C) l r : mapM f l = Ok r ->
  map k (concat r) = flat_map (fun x => match f x with Ok y => map k y | _ => [] end) l.
Proof.
  revert r. induction l as [|a l IH]; intros r E; cbn [mapM flat_map] in *; [injection E as <-; reflexivity|].
  apply ok_bind in E. destruct E as (y & Ey & E). apply ok_bind in E. destruct E as (r' & Er & E). injection E as <-.
  rewrite Ey. cbn [concat]. rewrite map_app. f_equal. exact (IH r' Er).
Qed.
Lemma mapM_flat A B C (f : A -> res B) (k : B -> C) l r : mapM f l = Ok r ->
  map k r = flat_map (fun x => match f x with Ok y => [k y] | _ => [] end) l.
Proof.
  revert r. induction l as [|a l IH]; intros r E; cbn [mapM flat_map] in *; [injection E as <-; reflexivity|].
  apply ok_bind in E. destruct E as (y & Ey & E). apply ok_bind in E. destruct E as (r' & Er & E). injection E as <-.
  rewrite Ey. cbn [map app]. f_equal. exact (IH r' Er).
Qed.
Lemma mapM_back A B (f : A -> res B) l r : mapM f l = Ok r -> forall y, In y r -> exists x, In x l /\ f x = Ok y.
Proof.
  revert r. induction l as [|a l IH]; intros r E y Hy; cbn [mapM] in E; [injection E as <-; contradiction|].
  apply ok_bind in E. destruct E as (z & Ez & E). apply ok_bind in E. destruct E as (r' & Er & E). injection E as <-.
  destruct Hy as [<-|Hy]; [exists a; split; [left; reflexivity|exact Ez]|]. destruct (IH r' Er y Hy) as (x & H1 & H2). exists x. split; [right; exact H1|exact H2].
Qed.

Lemma enum_seq (v : table) : forall k, flat_map (fun il => cells_of (fst il) (snd il)) (enum k v) = flat_map (fun i => cells_of i (nth (i - k) v [])) (seq k (length v)).
Proof.
  induction v as [|r v IH]; intros k; cbn [enum flat_map length seq]; [reflexivity|]. cbn [fst snd]. rewrite Nat.sub_diag. cbn [nth]. f_equal.
  rewrite (IH (S k)), !flat_map_concat_map. f_equal. apply map_ext_in. intros i Hi. apply in_seq in Hi.
  replace (i - k) with (S (i - S k)) by lia. reflexivity.
Qed.
Lemma cells_seq (v : table) : Dot.cells v = flat_map (fun i => cells_of i (nth i v [])) (seq 0 (length v)).
Proof.
  unfold Dot.cells. rewrite enum_seq. rewrite !flat_map_concat_map. f_equal. apply map_ext. intros i. rewrite Nat.sub_0_r. reflexivity.
Qed.
Lemma filter_cells (v : table) l : (forall i, In i l -> 1 <= i) ->
  filter (fun cn : coord * node => 1 <=? fst (fst cn)) (flat_map (fun i => cells_of i (nth i v [])) l) = flat_map (fun i => cells_of i (nth i v [])) l.
Proof.
  intros H. induction l as [|i l IH]; cbn [flat_map]; [reflexivity|]. rewrite filter_app, IH by (intros; apply H; right; assumption). f_equal.
  assert (Hi : 1 <= i) by (apply H; left; reflexivity). unfold cells_of. generalize (enum 0 (nth i v [])). intros e.
  induction e as [|x e IHe]; cbn [map filter]; [reflexivity|]. cbn [fst]. destruct (Nat.leb_spec 1 i); [|lia]. f_equal. exact IHe.
Qed.
Lemma cells_from_1 (v : table) : filter (fun cn : coord * node => 1 <=? fst (fst cn)) (Dot.cells v) = flat_map (fun i => cells_of i (nth i v [])) (seq 1 (length v - 1)).
Proof.
  rewrite cells_seq. destruct v as [|r v]; [reflexivity|]. cbn [length seq flat_map]. change (nth 0 (r :: v) []) with r. rewrite filter_app. cbn [Nat.sub]. rewrite Nat.sub_0_r.
  rewrite filter_cells by (intros i Hi; apply in_seq in Hi; lia).
  assert (E : filter (fun cn : coord * node => 1 <=? fst (fst cn)) (cells_of 0 r) = []).
  { unfold cells_of. generalize (enum 0 r). intros e. induction e as [|x e IHe]; cbn; [reflexivity|exact IHe]. }
  rewrite E. reflexivity.
Qed.

Section Drawing.
Variables (la : addr) (d : dict) (u : option udict) (cells : list (list addr)) (outs : list addr) (v : table) (s : lheap) (ptrs : list (option coord)).
Hypothesis R : rep s la d u cells outs v.
Hypothesis P : Forall2 (ptr_ok cells s) outs ptrs.
Let bests := best_set ptrs.
Let hb : list (option addr) := map Some outs.
Definition name (c : coord) : addr := match nth2 cells (fst c) (snd c) with Some a => a | None => 0 end.
Definition at_ (cn : coord * node) : Prop := nth2 v (fst (fst cn)) (snd (fst cn)) = Some (snd cn).

Lemma at_cell c n : at_ (c, n) -> nth2 cells (fst c) (snd c) = Some (name c) /\
  exists h, ln s (name c) = Some (true, h) /\ n = h_val h (n_prev n).
Proof.
  intros H. destruct (rep_addr R H) as (a & Ha). cbn [fst] in Ha. unfold name. rewrite Ha. split; [reflexivity|].
  destruct (rep_get R Ha) as (h & n' & E1 & E2 & E3 & _). unfold at_ in H. cbn [fst snd] in H. rewrite H in E2. injection E2 as <-. eauto.
Qed.
Lemma name_inj cn cn' : at_ cn -> at_ cn' -> name (fst cn) = name (fst cn') -> fst cn = fst cn'.
Proof.
  destruct cn as [[i j] n], cn' as [[i' j'] n']. intros H H' E. destruct (at_cell H) as (H1 & _), (at_cell H') as (H2 & _). cbn [fst snd] in *.
  rewrite <- E in H2. destruct (r_inj R H1 H2). congruence.
Qed.

Lemma best_eq c n : at_ (c, n) -> h_best hb (name c) = is_best bests c.
Proof.
  intros H. destruct (at_cell H) as (Hc & h & Eh & _). apply eq_true_iff_eq. rewrite DotFacts.is_best_in. unfold h_best, hb. rewrite existsb_exists. split.
  - intros (p & Hp & E). apply in_map_iff in Hp. destruct Hp as (b & <- & Hb). apply Nat.eqb_eq in E. subst b.
    unfold bests, best_set. apply in_flat_map. pose proof (r_inj R) as Inj. clear - Inj P Hb Hc Eh. revert Hb. induction P as [|a o l l' Ho F IH]; intros Hb; [contradiction|].
    destruct Hb as [->|Hb].
    + exists o. split; [left; reflexivity|]. destruct o as [c'|]; cbn in Ho.
      * left. destruct c, c'. destruct (Inj _ _ _ _ _ Hc Ho). cbn in *. congruence.
      * destruct Ho as (h' & Ho). congruence.
    + destruct (IH F Hb) as (x & Hx & Hxc). exists x. split; [right; exact Hx|exact Hxc].
  - intros Hin. exists (Some (name c)). split; [|apply Nat.eqb_refl]. apply in_map. unfold bests, best_set in Hin. apply in_flat_map in Hin.
    destruct Hin as (o & Ho & Hoc). destruct o as [c'|]; [|contradiction]. destruct Hoc as [->|[]].
    clear - P Ho Hc. revert Ho. induction P as [|a o l l' Hao F IH]; intros Ho; [contradiction|]. destruct Ho as [->|Ho]; [left|right; exact (IH F Ho)].
    cbn in Hao. congruence.
Qed.

Lemma skip_ok c n : at_ (c, n) -> reads s (h_skipped hb (name c)) (skipped bests (c, n)).
Proof.
  intros H. destruct (at_cell H) as (Hc & h & Eh & En). unfold h_skipped. apply (wp_node_read Eh). cbn [wp]. split; [|reflexivity].
  unfold skipped. cbn [fst snd]. rewrite <- (best_eq H). rewrite En. reflexivity.
Qed.

Lemma cells_of_at i row : nth_error v i = Some row -> forall cn, In cn (cells_of i row) -> at_ cn.
Proof.
  intros Hi [c n] Hin. apply DotFacts.cells_of_in in Hin. destruct Hin as [E Hn]. unfold at_, nth2. cbn [fst snd]. rewrite E, Hi. exact Hn.
Qed.
Lemma cells_at : forall cn, In cn (Dot.cells v) -> at_ cn.
Proof.
  intros cn. rewrite cells_seq. rewrite in_flat_map. intros (i & Hi & Hin). apply in_seq in Hi. eapply cells_of_at; [|exact Hin].
  apply nth_error_nth'. lia.
Qed.

(** A list of pointers is that of the nodes of its row. *)
Lemma row_names i row : nth_error v i = Some row -> exists r, nth_error cells i = Some r /\ map Some r = map (fun cn => Some (name (fst cn))) (cells_of i row).
Proof.
  intros Hi. pose proof (f_equal (fun l => nth_error l i) (r_shape R)) as Hs. cbn beta in Hs. rewrite !nth_map_length, Hi in Hs. cbn in Hs.
  destruct (nth_error cells i) as [r|] eqn:Er; [|discriminate]. injection Hs as Hs. exists r. split; [reflexivity|].
  assert (K : forall k r' row', (forall j, nth_error r' j = nth_error r (k + j)) -> length r' = length row' ->
    map Some r' = map (fun cn => Some (name (fst cn))) (map (fun jn : nat * node => ((i, fst jn), snd jn)) (enum k row'))).
  { clear Hi Hs row. intros k r' row'. revert k r'. induction row' as [|n row' IH]; intros k [|a r'] H L; cbn in L; try discriminate; cbn [map enum]; [reflexivity|].
    cbn [fst]. f_equal.
    - f_equal. unfold name, nth2. cbn [fst snd]. rewrite Er. specialize (H 0). cbn in H. rewrite Nat.add_0_r in H. rewrite <- H. reflexivity.
    - apply IH; [|lia]. intros j. specialize (H (S j)). cbn in H. rewrite H. f_equal. lia. }
  exact (K 0 r row (fun j => eq_refl) Hs).
Qed.
Lemma row_read hl i row : ll s la = Some hl -> nth_error v i = Some row ->
  exists x, gs_index (l_list hl) i = Ok x /\ gs_list x = map (fun cn => Some (name (fst cn))) (cells_of i row).
Proof.
  intros El Hi. destruct (row_names Hi) as (r & Er & E). destruct (rep_rows R Er El) as (x & Ex & Hx). exists x. split; [exact Ex|].
  rewrite (row_list Hx). exact E.
Qed.

Definition ren (e : (coord * node) * (coord * node)) : addr * addr := (name (fst (fst e)), name (fst (snd e))).

Lemma edges_to_sim acc cn es : at_ cn -> edges_to bests v cn = Ok es -> reads s (h_edges_to la hb acc (Some (name (fst cn)))) (acc ++ map ren es).
Proof.
  destruct cn as [c n]. intros H E. unfold h_edges_to. apply (wp_deref eq_refl). cbn [fst]. eapply reads_bind; [exact (skip_ok H)|].
  unfold edges_to in E. destruct (skipped bests (c, n)).
  - injection E as <-. cbn [map]. rewrite app_nil_r. apply reads_ret.
  - apply ok_bind in E. destruct E as (prevs & Ep & E). cbn [snd] in *. injection E as <-.
    destruct (at_cell H) as (Hc & h & Eh & En). destruct (r_lat R) as (hl & El & L). apply (wp_node_read Eh). apply (wp_lat_read El).
    assert (Hs : n_start n = h_start h) by (rewrite En; reflexivity). rewrite Hs in *.
    assert (Hp : nth_error v (h_start h) = Some prevs) by (unfold index in Ep; destruct (nth_error v (h_start h)); congruence).
    destruct (row_read El Hp) as (x & Ex & Hx). apply (wp_lift Ex). rewrite Hx.
    replace (map ren _) with (flat_map (fun cn : coord * node => if skipped bests cn then [] else [(name (fst cn), name c)]) (cells_of (h_start h) prevs)).
    2:{ generalize (cells_of (h_start h) prevs). intros l. induction l as [|y l IH]; cbn [flat_map filter]; [reflexivity|]. rewrite IH.
        destruct (skipped bests y); reflexivity. }
    apply fold_app. intros acc' [c' n'] Hin. apply (wp_deref eq_refl). cbn [fst]. eapply reads_bind; [apply (skip_ok (cells_of_at Hp Hin))|].
    destruct (skipped bests (c', n')); [rewrite app_nil_r|]; apply reads_ret.
Qed.

Lemma edges_sim es : edge_list bests v = Ok es -> reads s (h_edges la hb) (map ren es).
Proof.
  intros E. unfold edge_list in E. apply ok_bind in E. destruct E as (l & El & E). injection E as <-. unfold h_edges.
  rewrite (mapM_concat ren El). rewrite cells_from_1. destruct (r_lat R) as (hl & Elat & L). apply (wp_lat_read Elat). rewrite (rep_len R Elat).
  set (G := fun x => match edges_to bests v x with Ok y => map ren y | _ => [] end). rewrite <- (map_id (seq 1 (length v - 1))) at 1.
  replace (flat_map G (flat_map (fun i => cells_of i (nth i v [])) (seq 1 (length v - 1)))) with (flat_map (fun i => flat_map G (cells_of i (nth i v []))) (seq 1 (length v - 1))).
  2:{ generalize (seq 1 (length v - 1)). intros q. induction q as [|i q IH]; cbn [flat_map]; [reflexivity|]. rewrite flat_map_app, IH. reflexivity. }
  refine (@fold_app _ _ _ s _ (fun i => i) (fun i => flat_map G (cells_of i (nth i v []))) _ _ []).
  intros acc i Hi. assert (Hi' := Hi). apply in_seq in Hi. assert (Hrow : nth_error v i = Some (nth i v [])) by (apply nth_error_nth'; lia).
  apply (wp_lat_read Elat). destruct (row_read Elat Hrow) as (x & Ex & Hx). apply (wp_lift Ex). rewrite Hx.
  apply fold_app. intros acc' cn Hin. pose proof (cells_of_at Hrow Hin) as Hat.
  assert (Hall : In cn (filter (fun cn : coord * node => 1 <=? fst (fst cn)) (Dot.cells v))).
  { rewrite cells_from_1. apply in_flat_map. exists i. split; assumption. }
  destruct (mapM_all El Hall) as (y & Ey & _). unfold G. rewrite Ey. exact (edges_to_sim acc' Hat Ey).
Qed.

Lemma pos_feature_prev n p : pos_feature d u (Node (n_id n) (n_position n) (n_start n) (n_class n) (n_cost n) (n_left n) (n_right n) (n_weight n) (n_surface n) p) = pos_feature d u n.
Proof. reflexivity. Qed.

Lemma node_sim out cn l : at_ cn -> node_stmt d u bests cn = Ok l ->
  reads s (h_node_stmt la hb (fst (fst cn)) out (Some (name (fst cn)))) (out ++ map (renamed name) l).
Proof.
  destruct cn as [c n]. intros H E. unfold h_node_stmt. apply (wp_deref eq_refl). cbn [fst]. eapply reads_bind; [exact (skip_ok H)|].
  unfold node_stmt in E. destruct (skipped bests (c, n)).
  - injection E as <-. cbn [map]. rewrite app_nil_r. apply reads_ret.
  - apply ok_bind in E. destruct E as (pos & Ep & E). destruct (at_cell H) as (Hc & h & Eh & En). destruct (r_lat R) as (hl & El & L).
    apply (wp_node_read Eh). cbn zeta. apply (wp_lat_read El). apply (wp_deref (lo_dic L)). rewrite (lo_udic L).
    assert (Ep' : pos_feature d u (h_val h None) = Ok pos) by (rewrite <- Ep, En; reflexivity). apply (wp_lift Ep'). apply (wp_node_read Eh).
    rewrite (best_eq H). rewrite En in E. cbn [n_id n_surface n_weight n_class h_val] in E.
    destruct (is_best bests c); [injection E as <-; apply reads_ret|].
    destruct (negb (class_eqb (h_class h) UNKNOWN)); injection E as <-; [apply reads_ret|]. cbn [map]. rewrite app_nil_r. apply reads_ret.
Qed.

Lemma edge_sim out e x : at_ (fst e) -> at_ (snd e) -> edge_stmt d bests e = Ok x ->
  reads s (h_edge_stmt la hb out (ren e)) (out ++ [renamed name x]).
Proof.
  destruct e as [[cf f] [ct t]]. cbn [fst snd]. intros Hf Ht E. unfold ren, h_edge_stmt. cbn [fst snd].
  destruct (at_cell Hf) as (_ & hf & Ef & Enf), (at_cell Ht) as (_ & ht & Et & Ent). apply (wp_node_read Ef). apply (wp_node_read Et).
  unfold edge_stmt in E. apply ok_bind in E. destruct E as (c & Ec & E). injection E as <-. rewrite (best_eq Hf), (best_eq Ht).
  apply reads_bind with (r := c); [|apply reads_ret]. rewrite Enf, Ent in Ec. cbn [n_class n_right n_left h_val] in Ec.
  destruct (negb (class_eqb (h_class hf) USER) && negb (class_eqb (h_class ht) USER)).
  - destruct (r_lat R) as (hl & El & L). apply (wp_lat_read El). apply (wp_deref (lo_dic L)). unfold reads. rewrite Ec. cbn. auto.
  - injection Ec as <-. apply reads_ret.
Qed.

Lemma edges_at es : edge_list bests v = Ok es -> forall e, In e es -> at_ (fst e) /\ at_ (snd e).
Proof.
  intros E e He. unfold edge_list in E. apply ok_bind in E. destruct E as (l & El & E). injection E as <-.
  apply in_concat in He. destruct He as (y & Hy & He). destruct (mapM_back El Hy) as (cn & Hin & Ey). apply filter_In in Hin. destruct Hin as [Hin _].
  apply cells_at in Hin. unfold edges_to in Ey. destruct (skipped bests cn); [injection Ey as <-; contradiction|].
  apply ok_bind in Ey. destruct Ey as (prevs & Ep & Ey). injection Ey as <-. apply in_map_iff in He. destruct He as (from & <- & Hfrom).
  apply filter_In in Hfrom. destruct Hfrom as [Hfrom _]. cbn [fst snd]. split; [|exact Hin]. eapply cells_of_at; [|exact Hfrom].
  unfold index in Ep. destruct (nth_error v (n_start (snd cn))); congruence.
Qed.

Theorem dot_sim ss : dot_stmts d u v ptrs = Ok ss -> reads s (h_dot la) (map (renamed name) ss).
Proof.
  intros E. unfold dot_stmts in E. fold bests in E. apply ok_bind in E. destruct E as (es & Ees & E). apply ok_bind in E. destruct E as (ns & Ens & E).
  apply ok_bind in E. destruct E as (xs & Exs & E). injection E as <-. unfold h_dot. destruct (r_lat R) as (hl & El & L). apply (wp_lat_read El). cbn zeta.
  rewrite (row_list (lo_out L)). fold hb. eapply reads_bind; [exact (edges_sim Ees)|]. apply (wp_lat_read El).
  rewrite map_app, (mapM_concat (renamed name) Ens), (mapM_flat (renamed name) Exs), cells_seq.
  set (G := fun x => match node_stmt d u bests x with Ok y => map (renamed name) y | _ => [] end). set (K := fun x => match edge_stmt d bests x with Ok y => [renamed name y] | _ => [] end).
  assert (Q : with_index (gs_list (l_list hl)) = map (fun i => (i, match gs_index (l_list hl) i with Ok x => x | _ => gs_nil end)) (seq 0 (length v))).
  { rewrite <- (rep_len R El). destruct (lo_list L) as (rows & tail & Er & _). rewrite Er. unfold with_index, gs_list, gs_index. cbn [gs_len gs_arr].
    rewrite firstn_app, firstn_all, Nat.sub_diag, firstn_O, app_nil_r. clear.
    assert (I : forall pre, combine (seq (length pre) (length rows)) rows = map (fun i => (i, match (if i <? length (pre ++ rows) then index ((pre ++ rows) ++ tail) i else Panic) with Ok x => x | _ => gs_nil end)) (seq (length pre) (length rows))).
    { induction rows as [|r rows IH]; intros pre; cbn [length seq combine map]; [reflexivity|]. f_equal.
      - f_equal. destruct (Nat.ltb_spec (length pre) (length (pre ++ r :: rows))) as [_|B]; [|rewrite app_length in B; cbn in B; lia].
        unfold index. rewrite <- app_assoc, nth_error_app2, Nat.sub_diag by lia. reflexivity.
      - specialize (IH (pre ++ [r])). rewrite app_length in IH. cbn [length] in IH. rewrite Nat.add_1_r in IH. rewrite IH. rewrite <- !app_assoc. reflexivity. }
    exact (I []). }
  rewrite Q. apply reads_bind with (r := flat_map G (flat_map (fun i => cells_of i (nth i v [])) (seq 0 (length v)))).
  - replace (flat_map G (flat_map (fun i => cells_of i (nth i v [])) (seq 0 (length v)))) with (flat_map (fun i => flat_map G (cells_of i (nth i v []))) (seq 0 (length v))).
    2:{ generalize (seq 0 (length v)). intros q. induction q as [|i q IH]; cbn [flat_map]; [reflexivity|]. rewrite flat_map_app, IH. reflexivity. }
    refine (@fold_app _ _ _ s _ _ (fun i => flat_map G (cells_of i (nth i v []))) _ _ []). intros acc i Hi. apply in_seq in Hi.
    assert (Hrow : nth_error v i = Some (nth i v [])) by (apply nth_error_nth'; lia). destruct (row_read El Hrow) as (x & Ex & Hx). rewrite Ex, Hx.
    apply fold_app. intros acc' cn Hin. pose proof (cells_of_at Hrow Hin) as Hat.
    assert (Hall : In cn (Dot.cells v)). { rewrite cells_seq. apply in_flat_map. exists i. split; [apply in_seq; lia|assumption]. }
    destruct (mapM_all Ens Hall) as (y & Ey & _). unfold G. rewrite Ey.
    assert (Efst : i = fst (fst cn)) by (destruct cn as [c n]; apply DotFacts.cells_of_in in Hin; cbn; symmetry; apply Hin). rewrite Efst.
    exact (node_sim acc' Hat Ey).
  - apply fold_app. intros acc e He. destruct (mapM_all Exs He) as (y & Ey & _). unfold K. rewrite Ey.
    destruct (edges_at Ees He). apply edge_sim; assumption.
Qed.

Theorem dot_names ss : dot_stmts d u v ptrs = Ok ss ->
  forall c c', (exists x, In x ss /\ speaks_of x c) -> (exists x, In x ss /\ speaks_of x c') -> name c = name c' -> c = c'.
Proof.
  intros E. assert (K : forall c, (exists x, In x ss /\ speaks_of x c) -> exists n, at_ (c, n)).
  { unfold dot_stmts in E. fold bests in E. apply ok_bind in E. destruct E as (es & Ees & E). apply ok_bind in E. destruct E as (ns & Ens & E).
    apply ok_bind in E. destruct E as (xs & Exs & E). injection E as <-. intros c (x & Hx & Hc). apply in_app_or in Hx. destruct Hx as [Hx|Hx].
    - apply in_concat in Hx. destruct Hx as (y & Hy & Hx). destruct (mapM_back Ens Hy) as ([c0 n] & Hin & Ey). apply cells_at in Hin.
      exists n. unfold node_stmt in Ey. destruct (skipped bests (c0, n)); [injection Ey as <-; contradiction|].
      apply ok_bind in Ey. destruct Ey as (pos & _ & Ey).
      destruct (is_best bests c0); [|destruct (negb (class_eqb (n_class n) UNKNOWN))]; injection Ey as <-; try contradiction;
        destruct Hx as [<-|[]]; cbn in Hc; subst c; exact Hin.
    - destruct (mapM_back Exs Hx) as ([[cf f] [ct t]] & Hin & Ey). destruct (edges_at Ees Hin) as [H1 H2]. cbn [fst snd] in *.
      unfold edge_stmt in Ey. apply ok_bind in Ey. destruct Ey as (k & _ & Ey). injection Ey as <-. cbn in Hc. destruct Hc; subst; eauto. }
  intros c c' Hc Hc' En. destruct (K c Hc) as (n & Hn), (K c' Hc') as (n' & Hn'). exact (name_inj Hn Hn' En).
Qed.
End Drawing.

Theorem sim_graph ideo t inp mode ts ss s : analyze_graph ideo t inp mode = Ok ts -> graph_stmts ideo t inp mode = Ok ss -> empty s ->
  wp (h_graph ideo t inp mode) (fun r s' => right_answer ideo (JGraph t inp mode) (AGraph (fst r) (snd r)) /\ empty s') s.
Proof.
  intros Ea Eg Hs. assert (Ea' := Ea). assert (Eg' := Eg). unfold analyze_graph, run_lattice in Ea. apply ok_bind in Ea. destruct Ea as (lo & E & Et).
  cbn zeta in E. apply ok_bind in E. destruct E as (v1 & Eb & E). apply ok_bind in E. destruct E as (v2 & Ef & E).
  apply ok_bind in E. destruct E as (out & Eo & E). injection E as <-. cbn [snd] in Et. unfold graph_stmts in Eg. cbn zeta in Eg.
  rewrite Eb in Eg. cbn [rbind] in Eg. rewrite Ef in Eg. cbn [rbind] in Eg. apply ok_bind in Eg. destruct Eg as (cs & Ec & Eg).
  refine (sim_run Eb Ef Eo Ec Hs _). intros la cells outs s4 R4 F4 P4.
  eapply wp_seq; [exact (sim_graph_tokens R4 F4 Et)|]. intros r s5 [-> ->].
  eapply wp_seq; [exact (dot_sim R4 P4 Eg)|]. intros r' s6 [-> ->].
  eapply wp_seq; [exact (sim_free R4)|]. intros [] s7 H7. cbn. split; [|exact H7].
  apply ra_graph; [exact Ea'|exact Eg'|exact (dot_names R4 Eg)].
Qed.

(** ** Calls *)
Theorem sim_job ideo j s : job_ok j -> empty s -> wp (h_job ideo j) (fun r s' => right_answer ideo j r /\ empty s') s.
Proof.
  intros H Hs. destruct j as [[d u o] inp mode|[d u o] inp|[d u o] inp mode]; cbn [h_job job_ok tk_dict tk_udict] in *.
  - destruct H as [Hd Hu]. destruct (@AnalyzeFacts.analyze_total d u Hd Hu ideo o inp mode) as (ts & E).
    eapply wp_seq; [exact (sim_analyze E Hs)|]. intros r s1 [-> H1]. cbn. split; [constructor; exact E|exact H1].
  - destruct H as [Hd Hu]. destruct (@AnalyzeFacts.analyze_total d u Hd Hu ideo o inp mode_normal) as (ts & E).
    assert (Ew : wakati ideo (Tokenizer d u o) inp = Ok (map t_surface (filter (fun v => negb (class_eqb (t_class v) DUMMY) && negb (length (t_surface v) =? 0)) ts)))
      by (unfold wakati; rewrite E; reflexivity).
    eapply wp_seq; [exact (sim_wakati Ew Hs)|]. intros r s1 [-> H1]. cbn. split; [constructor; exact Ew|exact H1].
  - destruct H as (Hd & Hu & Hw). destruct (DotFacts.graph_ok o ideo inp mode Hd Hu Hw) as (la & la' & l & _ & _ & _ & E1 & E2).
    eapply wp_seq; [exact (sim_graph E2 E1 Hs)|]. intros r s1 [Hr H1]. cbn. auto.
Qed.

Theorem sim_jobs ideo js : (forall j, In j js -> job_ok j) -> forall s, empty s ->
  wp (h_jobs ideo js) (fun rs s' => Forall2 (right_answer ideo) js rs /\ empty s') s.
Proof.
  induction js as [|j js IH]; intros H s Hs; cbn [h_jobs].
  - cbn. auto.
  - eapply wp_seq; [exact (sim_job ideo (H j (or_introl eq_refl)) Hs)|]. intros r s1 [Hr H1].
    eapply wp_seq; [apply (IH (fun x Hx => H x (or_intror Hx)) s1 H1)|]. intros rs s2 [Hrs H2]. cbn. auto.
Qed.
