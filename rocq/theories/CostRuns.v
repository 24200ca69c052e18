(** The costs of nodes in programs that use lattices, with memory and other goroutines. *)
From Verif Require Import HeapAny UseFacts CostFacts SpecCost.
From Coq Require Import Lia ZifyBool ZifyNat ZifyN.
Set Implicit Arguments.
Unset Strict Implicit.
Open Scope nat_scope.

(** Without the pointer, which is not exported. *)
Definition unlink (n : node) : node :=
  Node (n_id n) (n_position n) (n_start n) (n_class n) (n_cost n) (n_left n) (n_right n) (n_weight n) (n_surface n) None.
Definition plain (inp : bytes) (f b : lmode) : list lop := [LBuild inp; LForward f; LBackward b].

Lemma plain_once inp f b : built_once (plain inp f b).
Proof. apply once_check. reflexivity. Qed.

Lemma read_exact s la d u cells outs v ns : rep s la d u cells outs v -> Forall2 (out_ok s) outs ns ->
  wp (h_outputs la) (fun out s' => s' = s /\ map unlink out = map unlink ns) s.
Proof.
  intros R F. unfold h_outputs. destruct (r_lat R) as (hl & El & L). apply (wp_lat_read El). rewrite (row_list (lo_out L)).
  assert (K : forall acc, wp (pfold (fun out p => do a <- deref p; do n <- node_read a; Ret (out ++ [h_val n None])) (map Some outs) acc)
    (fun out s' => s' = s /\ map unlink out = map unlink acc ++ map unlink ns) s).
  { clear R L. induction F as [|a n outs ns (b & h & p & E & G) F IH]; intros acc; cbn [map pfold].
    - cbn [wp]. split; [reflexivity|]. rewrite app_nil_r. reflexivity.
    - unfold node_read. cbn [deref pbind wp]. exists b, h. split; [exact E|]. eapply wp_mono; [exact (IH (acc ++ [h_val h None]))|]. cbn beta. intros out s'' [-> H]. split; [reflexivity|].
      rewrite H, map_app, <- app_assoc. cbn [map app]. f_equal. f_equal. subst n. reflexivity. }
  exact (K []).
Qed.

Theorem sim_plain ideo d u inp f b s : wf_dict d -> wf_udict u -> empty s ->
  wp (h_use ideo d u (plain inp f b)) (fun out s' => (exists o, best_nodes ideo d u inp (Some f, b) = Ok o /\ map unlink out = map unlink o) /\ empty s') s.
Proof.
  intros Hd Hu [Z1 Z2]. unfold h_use. apply wp_bind. unfold h_new. cbn [pbind lat_get wp]. intros la l Hla Hcl.
  eapply wp_lat_set; [cbn [ll lput_l]; apply set_at_same|]. eapply wp_lat_set; [cbn [ll lput_l]; apply set_at_same|]. apply wp_ret.
  set (s1 := lput_l _ _ _). assert (F : fresh la d u s1).
  { split.
    - eexists. split; [cbn [ll lput_l s1]; apply set_at_same|]. cbn. split; [reflexivity|]. split; [reflexivity|]. split; [apply Hcl|]. split; [apply Hcl|apply Hcl].
    - exact Z1.
    - intros b0 Hb. cbn. rewrite !set_at_other by exact Hb. apply Z2. }
  clearbody s1. destruct (@build_spec d u inp Hd Hu) as (v0 & Eb & Hb).
  assert (A0 : after ideo d v0 None v0) by reflexivity.
  destruct (@forward_after ideo d u Hd inp v0 Hb None v0 f A0) as (v & Ef & A).
  destruct (@backward_after ideo d u Hd Hu inp v0 Hb Eb (Some f) v b A) as (o & Ebk).
  apply wp_bind with (p := peach (h_op ideo la) (plain inp f b)).
  apply (wp_mono (Q := fun _ s' => exists cells outs, rep s' la d u cells outs v /\ Forall2 (out_ok s') outs o)).
  - unfold peach, plain. cbn [pfold h_op]. eapply wp_seq; [exact (sim_build Eb F)|]. intros [] s2 (cells & R).
    eapply wp_seq; [exact (sim_forward R Ef)|]. intros [] s3 R3. eapply wp_seq with (Q' := fun _ s' => exists cells outs, rep s' la d u cells outs v /\ Forall2 (out_ok s') outs o); [|intros [] s4 H; exact H].
    assert (E := Ebk). unfold backward in E. unfold h_backward. destruct (r_lat R3) as (hl & El & L). apply (wp_lat_read El). rewrite (rep_len R3 El).
    destruct (length v) as [|k] eqn:Elen.
    + injection E as <-. cbn [wp]. exists cells, []. split; [exact R3|constructor].
    + apply ok_bind in E. destruct E as (p & Ep & E). destruct (walk_ptrs_total (c := (k, 0)) [] Ep E) as (cs' & Ec).
      apply get2_nth2 in Ep. destruct (rep_addr R3 Ep) as (a & Ha). apply (rep_cell R3 Ha).
      eapply wp_mono; [exact (sim_walk E Ec R3 Ha Ep (Forall2_nil _) (Forall2_nil _))|]. intros [] s' (outs' & R' & G1 & G2).
      exists cells, outs'. split; [exact R'|exact G1].
  - intros [] s2 (cells & outs & R & H). eapply wp_seq; [exact (read_exact R H)|]. intros out s3 [-> E].
    eapply wp_seq; [exact (sim_free R)|]. intros [] s4 H4. cbn. split; [|exact H4]. exists o. split; [|exact E].
    exact (@after_best ideo d u inp v0 Eb (Some f) b v o A Ebk).
Qed.

Lemma unlink_shown n : shown (unlink n) = shown n.
Proof. reflexivity. Qed.
Lemma free_unlink n n' : unlink n = unlink n' -> free_node n -> free_node n'.
Proof. destruct n, n'. unfold unlink, free_node. cbn. intros [= -> -> -> -> -> -> -> -> ->]. auto. Qed.
Lemma stands_unlink d n n' w : unlink n = unlink n' -> stands_for d n w -> stands_for d n' w.
Proof. destruct n, n'. unfold unlink, stands_for. cbn. intros [= -> -> -> -> -> -> -> -> ->]. auto. Qed.
Lemma cost_unlink n n' : unlink n = unlink n' -> n_cost n' = n_cost n /\ n_class n' = n_class n.
Proof. destruct n, n'. unfold unlink. cbn. intros [= -> -> -> -> -> -> -> -> ->]. auto. Qed.
Lemma map_app_inv' {A B} (f : A -> B) l x y : map f l = x ++ y -> exists a b, l = a ++ b /\ map f a = x /\ map f b = y.
Proof.
  revert l. induction x as [|c x IH]; intros l E; [exists [], l; auto|]. destruct l as [|a l]; [discriminate|]. cbn in E. injection E as E1 E2.
  destruct (IH l E2) as (p & q & -> & <- & <-). exists (a :: p), q. cbn. rewrite E1. auto.
Qed.
Lemma map_concat_inv {A B} (f : A -> B) ps : forall l, map f l = concat ps -> exists qs, l = concat qs /\ map (map f) qs = ps.
Proof.
  induction ps as [|p ps IH]; intros l E; cbn in E; [destruct l; [exists []; auto|discriminate]|].
  apply map_app_inv' in E. destruct E as (a & b & -> & E1 & E2). destruct (IH b E2) as (qs & -> & <-). exists (a :: qs). cbn. rewrite E1. auto.
Qed.

Lemma priced_unlink ideo d u inp f b o out : map unlink out = map unlink o -> priced ideo d u inp f b o -> priced ideo d u inp f b out.
Proof.
  intros E (eos & pieces & bos & ws & -> & P1 & P2 & P3 & P4 & P5 & P6).
  destruct out as [|eos' out]; [discriminate|]. cbn [map] in E. injection E as E0 E1 E2 E3 E4 E5 E6 E7 E8 E.
  assert (Eeos : n_cost eos' = n_cost eos /\ n_class eos' = n_class eos) by auto. clear E0 E1 E2 E3 E4 E5 E6 E7 E8.
  rewrite map_app, concat_map in E. apply map_app_inv' in E. destruct E as (x & y & -> & Ex & Ey).
  apply map_concat_inv in Ex. destruct Ex as (qs & -> & Eq).
  destruct y as [|bos' [|]]; try discriminate. cbn [map] in Ey. assert (Ebos : unlink bos' = unlink bos) by exact (f_equal (hd bos_node) Ey).
  exists eos', (rev qs), bos', ws. rewrite rev_involutive. split; [reflexivity|]. destruct Eeos as [-> ->]. split; [exact P1|].
  split; [exact (free_unlink (eq_sym Ebos) P2)|]. split; [exact P3|]. split; [exact P4|]. split; [exact P5|].
  assert (Eq' : map (map unlink) (rev qs) = map (map unlink) pieces) by (rewrite map_rev, Eq, map_rev, rev_involutive; reflexivity).
  clear - P6 Eq'. revert Eq'. generalize (rev qs). clear qs. induction P6 as [|w p ws ps H P6 IH]; intros qs E; destruct qs as [|q qs]; try discriminate; constructor.
  - cbn [map] in E. assert (E1 : map unlink q = map unlink p) by exact (f_equal (hd []) E). clear - H E1. destruct H as [(H1 & H2 & H3)|(H1 & n & -> & H2 & H3)].
    + left. split; [exact H1|]. split; [exact H2|]. intros n Hn. apply (in_map unlink) in Hn. rewrite E1 in Hn. apply in_map_iff in Hn. destruct Hn as (n0 & E & Hn).
      exact (free_unlink E (H3 n0 Hn)).
    + right. split; [exact H1|]. destruct q as [|n' [|]]; try discriminate. cbn [map] in E1. assert (E : unlink n' = unlink n) by exact (f_equal (hd bos_node) E1).
      exists n'. split; [reflexivity|]. split; [exact (stands_unlink (eq_sym E) H2)|]. rewrite (proj1 (cost_unlink (eq_sym E))). exact H3.
  - apply IH. exact (f_equal (@tl _) E).
Qed.

Definition priced_outcome (ideo : ideographic) (w : work) (o : outcome) : Prop :=
  forall d u inp f b, w = Use d u (plain inp f b) -> (Z.of_nat (rcount inp) <= cost_limit f)%Z -> exists out, o = Used out /\ priced ideo d u inp f b out.

Lemma plain_dec (ops : list lop) : (exists inp f b, ops = plain inp f b) \/ forall inp f b, ops <> plain inp f b.
Proof.
  destruct ops as [|[i|?|?] [|[?|f|?] [|[?|?|b] [|]]]]; try (right; intros; discriminate). left. exists i, f, b. reflexivity.
Qed.

Theorem sim_costs ideo ws : (forall w, In w ws -> work_ok w) -> forall s, empty s ->
  wp (h_works ideo ws) (fun os s' => Forall2 (priced_outcome ideo) ws os /\ empty s') s.
Proof.
  induction ws as [|w ws IH]; intros H s Hs; cbn [h_works].
  - cbn. auto.
  - assert (W : wp (h_work ideo w) (fun o s' => priced_outcome ideo w o /\ empty s') s).
    { specialize (H w (or_introl eq_refl)). destruct w as [j|d u ops]; cbn [h_work work_ok] in *.
      - eapply wp_seq; [exact (sim_job ideo H Hs)|]. intros a s1 [Ha H1]. cbn. split; [intros ? ? ? ? ?; discriminate|exact H1].
      - destruct H as (Hd & Hu & Ho). destruct (plain_dec ops) as [(inp & f & b & ->)|N].
        + eapply wp_seq; [exact (sim_plain ideo inp f b Hd Hu Hs)|]. intros out s1 [(o & E & Eo) H1]. cbn. split; [|exact H1].
          intros d' u' inp' f' b' Ew Hl. injection Ew as <- <- <- <- <-. exists out. split; [reflexivity|].
          destruct (@node_costs ideo d u inp f b Hd Hu Hl) as (o' & E' & P). rewrite E in E'. injection E' as <-. exact (priced_unlink Eo P).
        + eapply wp_seq; [exact (sim_use ideo Hd Hu Ho Hs)|]. intros out s1 [Ha H1]. cbn. split; [|exact H1].
          intros d' u' inp' f' b' Ew. injection Ew as _ _ Ew. destruct (N _ _ _ Ew). }
    eapply wp_seq; [exact W|]. intros o s1 [Hr H1]. eapply wp_seq; [apply (IH (fun x Hx => H x (or_intror Hx)) s1 H1)|]. intros os s2 [Hrs H2]. cbn. auto.
Qed.

Theorem clients_costs g0 ideo clients g ths : left_over g0 -> (forall ws, In ws clients -> forall w, In w ws -> work_ok w) ->
  steps (h_clients g0 ideo clients) (g, ths) ->
  forall k ws th os i d u inp f b, nth_error clients k = Some ws -> nth_error ths k = Some th -> th_prog th = Ret os ->
  nth_error ws i = Some (Use d u [LBuild inp; LForward f; LBackward b]) -> (Z.of_nat (rcount inp) <= cost_limit f)%Z ->
  exists out, nth_error os i = Some (Used out) /\ priced ideo d u inp f b out.
Proof.
  intros Hg Hw Hs. assert (Hs' : steps (g0, map start_thread (map (h_works ideo) clients)) (g, ths)) by (rewrite map_map; exact Hs).
  assert (St : Forall2 (fun (R : list outcome -> Prop) p => wp p (fun a _ => R a) lheap0)
    (map (fun ws os => Forall2 (priced_outcome ideo) ws os) clients) (map (h_works ideo) clients)).
  { clear - Hw. induction clients as [|ws clients IH]; cbn [map]; constructor.
    - eapply wp_mono; [apply sim_costs; [apply Hw; left; reflexivity|split; cbn; [discriminate|reflexivity]]|]. intros a s [K _]. exact K.
    - apply IH. intros ws' Hw'. apply Hw. right. exact Hw'. }
  destruct (any_results Hg St Hs') as (L & K). intros k ws th os i d u inp f b H1 H2 H3 H4 H5.
  destruct (K k (fun os => Forall2 (priced_outcome ideo) ws os) th) as [R _]; [rewrite nth_error_map, H1; reflexivity|exact H2|].
  specialize (R os H3). clear - R H4 H5. revert i H4. induction R as [|w o ws os P R IH]; intros [|i] H4; try discriminate.
  - injection H4 as ->. destruct (P d u inp f b eq_refl H5) as (out & -> & Q). exists out. split; [reflexivity|exact Q].
  - exact (IH i H4).
Qed.
