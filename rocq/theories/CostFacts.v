(** Facts about the costs of nodes. *)
From Verif Require Import TieFacts TokFacts PathFacts SpecCost.
From Coq Require Import Lia ZifyBool ZifyNat ZifyN.
Set Implicit Arguments.
Unset Strict Implicit.
Open Scope nat_scope.

Lemma way_sum m ideo d inp ws w : forall c e, way_from m ideo d inp c e ws w =
  (sum_from m ideo d inp c e ws +
   connection d (fst (last_from d c e ws)) (snd (last_from d c e ws)) (w_class w) (entry d (w_class w) (w_id w)) + m_weight (entry d (w_class w) (w_id w)))%Z.
Proof.
  induction ws as [|x ws IH]; intros c e; cbn [way_from sum_from last_from fst snd]; [lia|]. cbv zeta. rewrite IH. unfold word_cost. lia.
Qed.

Section Costs.
Variables (d : dict) (u : option udict) (inp : bytes) (ideo : ideographic) (m : lmode).
Hypothesis Hd : wf_dict d.
Hypothesis Hu : wf_udict u.
Let n := rcount inp.
Variables la la' : table.
Hypothesis Hb : built d u inp la.
Hypothesis Hf : forwarded d ideo m la la'.
Hypothesis Hlen : (Z.of_nat n <= limit m)%Z.
Hypothesis Hreach : (Z.of_nat (nreach la n) <= 32767)%Z.

Lemma way_target ws w : (sumc d inp ideo m ws + lastc d ws (n_class (node_of d inp w)) (node_entry (node_of d inp w)) + n_weight (node_of d inp w))%Z =
  way_cost m ideo d inp ws w.
Proof.
  unfold way_cost. rewrite way_sum. unfold sumc, sum, lastc, last_ce. unfold node_entry. cbn. destruct (entry d (w_class w) (w_id w)); reflexivity.
Qed.

Lemma path_costs ws : forall s j p l, s <= n -> nth_error (nth s la' []) j = Some p -> back la' p l -> chain d u inp 0 ws s ->
  map core l = rev (map (node_of d inp) ws) ++ [bos_node] ->
  exists l0 bos, l = rev l0 ++ [bos] /\ core bos = bos_node /\ n_cost bos = 0%Z /\
    Forall2 (fun w x => core x = node_of d inp w /\ cheapest_way m ideo d u inp w (n_cost x)) ws l0.
Proof.
  induction ws as [|w ws IH] using rev_ind; intros s j p l Hs Hp B C E.
  - assert (s = 0) by (inversion C; reflexivity). subst s. rewrite (fw_0 Hf), (b_bos Hb) in Hp.
    destruct j as [|j]; [|destruct j; discriminate]. injection Hp as <-. inversion B; subst; [|discriminate].
    exists [], bos_node. repeat split. constructor.
  - apply chain_inv_snoc in C. destruct C as (C & Hc & Hst). pose proof (candidate_range Hc) as R. fold n in R.
    rewrite map_app, rev_app_distr in E. cbn [map rev app] in E.
    destruct l as [|p0 l]; [discriminate|]. cbn [map] in E.
    assert (E1 : core p0 = node_of d inp w) by exact (f_equal (hd bos_node) E).
    assert (E2 : map core l = rev (map (node_of d inp) ws) ++ [bos_node]) by exact (f_equal (@tl node) E). clear E.
    assert (p0 = p) by (inversion B; reflexivity). subst p0.
    destruct (@fw_node d u inp ideo m la la' Hb Hf s j p) as (t & Ht & Hpn & Hr); [fold n; lia|exact Hp|].
    assert (Ect : core t = t).
    { destruct (built_node Hb Ht) as [[? _]|[[? _]|(_ & w0 & _ & _ & ->)]]; [lia|fold n in H; lia|apply core_node_of]. }
    assert (Et : t = node_of d inp w).
    { rewrite <- E1, <- Ect. destruct Hr as [[_ ->]|(j0 & q & _ & _ & ->)]; reflexivity. }
    subst t. destruct (@positions_good d u inp ideo m Hd la la' Hb Hf Hlen Hreach (w_start w)) as [G M]; [fold n; lia|].
    destruct (@target_cost d u inp ideo m Hd la la' Hb Hf Hlen Hreach (w_start w) (node_of d inp w) p) as (_ & RU & Min);
      [reflexivity|fold n; lia|apply (entry16 inp Hd); exact (candidate_id Hd Hc)|reflexivity|exact Hr|exact G|exact M|].
    assert (W : cheapest_way m ideo d u inp w (n_cost p)).
    { split; [|intros ws' Hw; rewrite <- way_target; apply Min; exact Hw].
      destruct RU as [(ws' & _ & Hw & Hcost & _)|[U _]]; [|destruct U; exists ws; exact C]. exists ws'. split; [exact Hw|]. rewrite <- way_target. exact Hcost. }
    assert (Hnil : l <> []) by (intros ->; destruct (rev _); discriminate).
    inversion B as [t0 Hn0 Eq1 Eq2|t0 i0 j0 q l1 Hpr Hg Hbk Eq1 Eq2]; subst; [congruence|].
    assert (Hq : nth_error (nth (w_start w) la' []) j0 = Some q /\ i0 = w_start w).
    { destruct Hr as [[_ ->]|(j1 & p1 & Hp1 & _ & ->)]; [discriminate|]. cbn in Hpr. injection Hpr as <- <-. split; [|reflexivity].
      rewrite (@get2_la' d u inp ideo m la la' Hb Hf (w_start w) j1 p1) in Hg; [|fold n; lia|exact Hp1]. injection Hg as <-. exact Hp1. }
    destruct Hq as [Hq ->].
    destruct (IH (w_start w) j0 q l ltac:(lia) Hq Hbk C E2) as (l0 & bos & -> & Hb1 & Hb2 & F).
    exists (l0 ++ [p]), bos. rewrite rev_app_distr. split; [reflexivity|]. split; [exact Hb1|]. split; [exact Hb2|].
    apply Forall2_app; [exact F|]. constructor; [|constructor]. split; [exact E1|exact W].
Qed.
End Costs.

Lemma split_free p l : forall i x, In x (split_from p i l) -> free_node x.
Proof. induction l as [|[k r] l IH]; intros i x H; [destruct H|]. destruct H as [<-|H]; [repeat split|exact (IH _ _ H)]. Qed.

Theorem node_costs ideo d u inp f b : wf_dict d -> wf_udict u -> (Z.of_nat (rcount inp) <= cost_limit f)%Z ->
  exists out, best_nodes ideo d u inp (Some f, b) = Ok out /\ priced ideo d u inp f b out.
Proof.
  intros Hd Hu Hlim. set (n := rcount inp) in *.
  destruct (lattice_ok inp Hd Hu ideo f) as (la & la' & E1 & Hb & E2 & Hf).
  assert (NR : nreach la n <= n) by (eapply nreach_bound; eassumption).
  assert (Hlen : (Z.of_nat n <= limit f)%Z) by (unfold limit, cost_limit in *; destruct f; lia).
  assert (Hr : (Z.of_nat (nreach la n) <= 32767)%Z) by (unfold cost_limit in *; destruct f; lia).
  destruct (eos_at Hb Hf) as (eos & He & Hre). fold n in He.
  destruct (@positions_good d u inp ideo f Hd la la' Hb Hf Hlen Hr n) as [G M]; [apply Nat.le_refl|].
  destruct (@target_cost d u inp ideo f Hd la la' Hb Hf Hlen Hr n (eos_node inp) eos) as (_ & RU & Min);
    [reflexivity|unfold n; lia|unfold int16; cbn; lia|reflexivity|exact Hre|exact G|exact M|].
  assert (Hsc : forall ws, (sumc d inp ideo f ws + lastc d ws (n_class (eos_node inp)) (node_entry (eos_node inp)) + n_weight (eos_node inp))%Z = seg_cost f ideo d inp ws).
  { intros ws. unfold seg_cost. rewrite cost_from_sum. unfold sumc, sum, lastc, last_ce. cbn. change (node_entry (eos_node inp)) with zero_morph. lia. }
  destruct RU as [(ws & l & Hch & Hcost & Hbk & Hl)|[U _]].
  2:{ destruct U. destruct (@segmentation_from d u inp Hd Hu la Hb n 0 eq_refl) as (ws0 & Hws0). exists ws0. exact Hws0. }
  exists (flat_map (output_fun b) (eos :: l)). split.
  { unfold best_nodes. rewrite E1. cbn [rbind fst snd]. rewrite E2. cbn [rbind]. eapply backward_ok; eassumption. }
  assert (Hp : exists j p, nth_error (nth n la' []) j = Some p /\ back la' p l).
  { assert (Hnil : l <> []) by (intros ->; destruct (rev _); discriminate).
    inversion Hbk as [t0 Hn0 Eq1 Eq2|t0 i0 j0 q l1 Hpr Hg Hbk' Eq1 Eq2]; subst; [congruence|]. exists j0, q. split; [|exact Hbk'].
    destruct Hre as [[_ ->]|(j1 & p1 & Hp1 & _ & ->)]; [discriminate|]. cbn in Hpr. injection Hpr as <- <-. cbn [n_start eos_node] in Hp1. fold n in Hp1, Hg.
    rewrite (@get2_la' d u inp ideo f la la' Hb Hf n j1 p1) in Hg; [|unfold n; lia|exact Hp1]. injection Hg as <-. exact Hp1. }
  destruct Hp as (j & p & Hp & Hbp).
  destruct (@path_costs d u inp ideo f Hd la la' Hb Hf Hlen Hr ws n j p l (Nat.le_refl _) Hp Hbp Hch Hl) as (l0 & bos & -> & B1 & B2 & F).
  assert (Ec : n_class eos = DUMMY) by (destruct Hre as [[_ ->]|(j1 & p1 & _ & _ & ->)]; reflexivity).
  assert (Eb : n_class bos = DUMMY) by (change (n_class bos) with (n_class (core bos)); rewrite B1; reflexivity).
  exists eos, (map (output_fun b) l0), bos, ws. split.
  { cbn [flat_map]. rewrite flat_map_app, flat_map_concat_map, map_rev. cbn [flat_map]. rewrite app_nil_r.
    unfold output_fun at 1 3. rewrite Ec, Eb. destruct b; reflexivity. }
  split; [exact Ec|]. split.
  { repeat split; [exact Eb|exact B2| | |]; change (n_left bos) with (n_left (core bos)) || change (n_right bos) with (n_right (core bos)) || change (n_weight bos) with (n_weight (core bos)); rewrite B1; reflexivity. }
  split; [exact Hch|]. rewrite <- Hsc. split; [exact Hcost|]. split; [intros ws' Hw; rewrite <- Hsc; apply Min; exact Hw|].
  clear -F. induction F as [|w x ws l0 [Hx Hw] F IH]; cbn [map]; constructor; [|exact IH].
  assert (Hst : stands_for d x w).
  { unfold stands_for. change (n_class x) with (n_class (core x)). change (n_id x) with (n_id (core x)). change (n_start x) with (n_start (core x)).
    change (n_left x) with (n_left (core x)). change (n_right x) with (n_right (core x)). change (n_weight x) with (n_weight (core x)). rewrite Hx. cbn.
    destruct (entry d (w_class w) (w_id w)); repeat split. }
  pose proof (proj1 Hst) as Hcl. unfold output_fun. rewrite Hcl.
  destruct b; try (right; split; [intros [? ?]; discriminate|exists x; auto]).
  destruct (w_class w) eqn:Ew; try (right; split; [intros [? ?]; discriminate|exists x; auto]).
  left. split; [reflexivity|]. split; [reflexivity|]. intros y Hy. apply in_rev in Hy. exact (split_free Hy).
Qed.
