(** Proofs about programs that use lattices themselves. *)
From Verif Require Export SpecUse HeapAny ForwardAgain.
From Verif Require Import TokFacts.
From Coq Require Import ZifyBool ZifyNat.
Set Implicit Arguments.
Unset Strict Implicit.
Open Scope nat_scope.

(** ** What Forward leaves alone in a node *)
Definition gist (h : hnode) : node := shown (h_val h None).

Fixpoint gentle {A} (p : prog A) : Prop :=
  match p with
  | Ret _ | Stop => True
  | Choose k => forall n, gentle (k n)
  | NodeRead _ k => forall h, gentle (k h)
  | NodeSet _ f k => (forall h, gist (f h) = gist h) /\ gentle k
  | LatRead _ k => forall l, gentle (k l)
  | _ => False
  end.

Lemma gentle_bind A B (p : prog A) (f : A -> prog B) : gentle p -> (forall a, gentle (f a)) -> gentle (pbind p f).
Proof. intros H Hf. revert H. induction p; cbn; intros H0; try contradiction; try firstorder. Qed.
Lemma gentle_lift A (r : res A) : gentle (lift r).
Proof. destruct r; cbn; exact I. Qed.
Lemma gentle_deref A (r : option A) : gentle (deref r).
Proof. destruct r; cbn; exact I. Qed.
Lemma gentle_read a : gentle (node_read a).
Proof. cbn. auto. Qed.
Lemma gentle_lread a : gentle (lat_read a).
Proof. cbn. auto. Qed.
Lemma gentle_each B (f : B -> prog unit) l : (forall x, gentle (f x)) -> gentle (peach f l).
Proof. intros H. unfold peach. generalize tt. induction l as [|x l IH]; intros a; cbn [pfold]; [exact I|]. apply gentle_bind; [apply H|intros; apply IH]. Qed.
Ltac gentle_step := lazymatch goal with
  | |- gentle (lift _) => apply gentle_lift
  | |- gentle (deref _) => apply gentle_deref
  | |- gentle (node_read _) => apply gentle_read
  | |- gentle (lat_read _) => apply gentle_lread
  | |- gentle (peach _ _) => apply gentle_each; intros
  | |- gentle (pbind _ _) => apply gentle_bind; [|intros]
  end.

Lemma gentle_cell la i j : gentle (h_cell la i j).
Proof. unfold h_cell. repeat gentle_step. Qed.
Lemma gentle_forward ideo m la : gentle (h_forward ideo m la).
Proof.
  unfold h_forward. repeat gentle_step. unfold h_forward_pos. repeat gentle_step. unfold h_forward_target.
  match goal with |- gentle (let '(_, _) := ?x in _) => destruct x as [idx target] end. repeat gentle_step.
  destruct (gs_len _ =? 0).
  - apply gentle_bind; [apply gentle_cell|]. intros c. cbn. split; [reflexivity|exact I].
  - apply gentle_each. intros [j n]. unfold h_relax. repeat gentle_step; [apply gentle_cell|]. destruct (_ || _); [|exact I].
    repeat gentle_step; [cbn; split; [reflexivity|exact I]|apply gentle_cell|cbn; split; [reflexivity|exact I]].
Qed.

Definition same_gist (s s' : lheap) : Prop := forall a b h, ln s a = Some (b, h) -> exists h', ln s' a = Some (b, h') /\ gist h' = gist h.
Lemma same_refl s : same_gist s s.
Proof. intros a b h E. eauto. Qed.
Lemma same_trans s s' s'' : same_gist s s' -> same_gist s' s'' -> same_gist s s''.
Proof. intros H1 H2 a b h E. destruct (H1 _ _ _ E) as (h' & E' & G). destruct (H2 _ _ _ E') as (h'' & E'' & G'). exists h''. split; [exact E''|congruence]. Qed.
Lemma keeps_same s s' : keeps s s' -> same_gist s s'.
Proof. intros K a b h E. exists h. split; [apply K; exact E|reflexivity]. Qed.

Lemma wp_gentle A (p : prog A) : gentle p -> forall Q s s0, same_gist s0 s -> wp p Q s -> wp p (fun a s' => Q a s' /\ same_gist s0 s') s.
Proof.
  induction p; cbn [gentle]; intros G Q s s0 S W; try contradiction; cbn [wp] in *.
  - split; [exact W|exact S].
  - intros x. apply H; auto.
  - destruct W as (b & h & E & W). exists b, h. split; [exact E|]. apply H; auto.
  - destruct G as [G1 G2]. destruct W as (b & h & E & W). exists b, h. split; [exact E|]. apply IHp; [exact G2| |exact W].
    intros x b' h' E'. destruct (S _ _ _ E') as (h1 & E1 & Eg). cbn [ln lput_n]. unfold set_at. destruct (Nat.eqb_spec x a) as [->|]; [|eauto].
    rewrite E in E1. injection E1 as <- <-. eexists. split; [reflexivity|]. rewrite G1. exact Eg.
  - destruct W as (l & E & W). exists l. split; [exact E|]. apply H; auto.
Qed.

(** ** One lattice *)
Section Use.
Variables (ideo : ideographic) (la : addr) (d : dict) (u : option udict).
Hypothesis Hd : wf_dict d.
Hypothesis Hu : wf_udict u.

Lemma fresh_op o s : (forall inp, o <> LBuild inp) -> fresh la d u s -> wp (h_op ideo la o) (fun _ s' => s' = s) s.
Proof.
  intros N F. destruct (f_lat F) as (hl & El & _ & _ & _ & Hl & _). destruct o as [inp|m|m]; cbn [h_op]; [destruct (N inp eq_refl)| |].
  - unfold h_forward. apply (wp_lat_read El). rewrite Hl. cbn. reflexivity.
  - unfold h_backward. apply (wp_lat_read El). rewrite Hl. cbn. reflexivity.
Qed.

Lemma fresh_ops ops s : no_build ops -> fresh la d u s -> wp (peach (h_op ideo la) ops) (fun _ s' => s' = s) s.
Proof.
  intros N F. unfold peach. generalize tt. induction ops as [|o ops IH]; intros x; cbn [pfold]; [reflexivity|].
  eapply wp_seq; [apply fresh_op; [|exact F]|].
  - intros inp ->. apply (N inp). left. reflexivity.
  - intros [] s' ->. apply IH. intros inp H. apply (N inp). right. exact H.
Qed.

Lemma fresh_rep s : fresh la d u s -> rep s la d u [] [] [].
Proof.
  intros F. destruct (f_lat F) as (hl & El & H1 & H2 & H3 & H4 & H5). split.
  - exists hl. split; [exact El|]. split; [exact H1|exact H2| |apply clean_row_ok; exact H3].
    exists [], (gs_arr (l_list hl)). split; [destruct (l_list hl); cbn in *; subst; reflexivity|]. split; [constructor|].
    apply Forall_forall. intros r Hr. apply clean_row_ok. apply H5. exact Hr.
  - reflexivity.
  - intros [|i] j a E; discriminate.
  - intros [|i] j i' j' a E; discriminate.
  - intros a h E. destruct (f_none F E).
  - exact (f_only F).
Qed.

Section Built.
Variables (inp : bytes) (v0 : table).
Hypothesis Hb : built d u inp v0.
Hypothesis Eb : build d u inp = Ok v0.

(** The table after the last Forward. *)
Definition after (f : option lmode) (v : table) : Prop :=
  match f with None => v = v0 | Some m => forward d ideo m v0 = Ok v end.

Lemma forward_after f v m : after f v -> exists v', forward d ideo m v = Ok v' /\ after (Some m) v'.
Proof.
  intros A. destruct (built_conn Hd Hb) as (rows & Hrc & Hcn).
  assert (Hst : forall i t, 0 < i < length v0 -> In t (nth i v0 []) -> n_start t < i) by (intros i t Hi; apply (built_start Hb (proj1 Hi))).
  destruct (forward_ok ideo m Hrc Hcn Hst) as (v' & E & _). exists v'. split; [|exact E].
  destruct f as [f|]; cbn in A; [|subst v; exact E]. rewrite (forward_again m Hrc Hcn Hst A). exact E.
Qed.

Lemma walk_more m v : forall fuel p out o, walk fuel m v p [] = Ok o -> walk fuel m v p out = Ok (out ++ o).
Proof.
  assert (K : forall fuel p out a, walk fuel m v p (a ++ out) = let* o := walk fuel m v p out in Ok (a ++ o)).
  { induction fuel as [|fuel IH]; intros p out a; cbn [walk]; [reflexivity|]. destruct (output_of m p) as [o| |]; cbn [rbind]; try reflexivity.
    destruct (n_prev p) as [[i j]|]; [|cbn [rbind]; rewrite app_assoc; reflexivity].
    destruct (get2 v i j) as [q| |]; cbn [rbind]; try reflexivity. rewrite <- app_assoc. apply IH. }
  intros fuel p out o E. specialize (K fuel p [] out). rewrite app_nil_r, E in K. exact K.
Qed.

Lemma backward_after f v m : after f v -> exists o, backward m v = Ok o.
Proof.
  intros A. destruct f as [f|]; cbn in A.
  - destruct (run_path inp ideo f Hd Hu) as (la1 & la2 & l & i & ws & E1 & E2 & E3 & _). rewrite Eb in E1. injection E1 as <-. rewrite A in E2. injection E2 as <-.
    eexists. apply E3.
  - subst v. unfold backward. rewrite (b_len Hb). replace (rcount inp + 2) with (S (S (rcount inp))) by lia.
    pose proof (b_eos Hb) as E. assert (L : S (rcount inp) < length v0) by (rewrite (b_len Hb); lia).
    assert (G : get2 v0 (S (rcount inp)) 0 = Ok (eos_node inp)).
    { unfold get2, index. rewrite (nth_error_nth' v0 [] L), E. reflexivity. }
    rewrite G. cbn [rbind walk]. unfold output_of. destruct m; cbn; eauto.
Qed.

(** The nodes Output points to, as far as Forward does not change them. *)
Definition holds (s : lheap) (a : addr) (n : node) : Prop := exists b h, ln s a = Some (b, h) /\ gist h = n.
Lemma holds_same s s' outs ns : same_gist s s' -> Forall2 (holds s) outs ns -> Forall2 (holds s') outs ns.
Proof.
  intros S F. induction F as [|a n outs ns (b & h & E & G) F IH]; constructor; [|exact IH].
  destruct (S _ _ _ E) as (h' & E' & G'). exists b, h'. split; [exact E'|congruence].
Qed.

Definition in_use (f : option lmode) (ns : list node) (s : lheap) : Prop :=
  exists cells outs v, rep s la d u cells outs v /\ after f v /\ Forall2 (holds s) outs ns.

Lemma use_forward f ns s m : in_use f ns s -> wp (h_forward ideo m la) (fun _ s' => in_use (Some m) ns s') s.
Proof.
  intros (cells & outs & v & R & A & F). destruct (forward_after m A) as (v' & E & A').
  eapply wp_mono; [exact (wp_gentle (gentle_forward ideo m la) (@same_refl s) (sim_forward R E))|].
  intros [] s' [R' S]. exists cells, outs, v'. split; [exact R'|]. split; [exact A'|]. exact (holds_same S F).
Qed.

Lemma outs_ok s cells outs v ns : rep s la d u cells outs v -> Forall2 (holds s) outs ns ->
  exists out cs, Forall2 (out_ok s) outs out /\ Forall2 (ptr_ok cells s) outs cs /\ map shown out = ns.
Proof.
  intros R F. assert (K : forall outs, Forall2 (holds s) outs ns -> exists out cs, Forall2 (out_ok s) outs out /\ Forall2 (ptr_ok cells s) outs cs /\ map shown out = ns).
  { clear F. intros outs' F. induction F as [|a n outs' ns' (b & h & E & G) F (out & cs & F1 & F2 & F3)].
    - exists [], []. repeat constructor.
    - assert (P : exists c, ptr_ok cells s a c).
      { destruct b; [destruct (r_own R E) as (i & j & Hc); exists (Some (i, j)); exact Hc|exists None; exists h; exact E]. }
      destruct P as (c & P). exists (h_val h None :: out), (c :: cs). split; [constructor; [exists b, h, None; auto|exact F1]|].
      split; [constructor; assumption|]. cbn [map]. rewrite F3. f_equal. exact G. }
  exact (K outs F).
Qed.

Lemma use_backward f ns s m : in_use f ns s -> wp (h_backward m la) (fun _ s' => exists v o, after f v /\ backward m v = Ok o /\ in_use f (ns ++ map shown o) s') s.
Proof.
  intros (cells & outs & v & R & A & F). destruct (backward_after m A) as (o & E). destruct (outs_ok R F) as (out & cs & F1 & F2 & F3).
  assert (E' := E). unfold backward in E. unfold h_backward. destruct (r_lat R) as (hl & El & L). apply (wp_lat_read El). rewrite (rep_len R El).
  destruct (length v) as [|k] eqn:Elen.
  - injection E as <-. cbn [wp]. exists v, []. split; [exact A|]. split; [exact E'|]. cbn [map]. rewrite app_nil_r. exists cells, outs, v. auto.
  - apply ok_bind in E. destruct E as (p & Ep & E). destruct (walk_ptrs_total (c := (k, 0)) cs Ep E) as (cs' & Ec).
    assert (Ep' := Ep). apply get2_nth2 in Ep. destruct (rep_addr R Ep) as (a & Ha). apply (rep_cell R Ha).
    eapply wp_mono; [exact (sim_walk (walk_more out E) Ec R Ha Ep F1 F2)|]. intros [] s' (outs' & R' & G1 & G2).
    exists v, o. split; [exact A|]. split; [exact E'|]. exists cells, outs', v. split; [exact R'|]. split; [exact A|].
    rewrite <- F3, <- map_app. clear - G1. induction G1 as [|x n xs out2 (b & h & p & E1 & E2) G IH]; cbn [map]; constructor; [|exact IH].
    exists b, h. split; [exact E1|]. subst n. reflexivity.
Qed.

Lemma after_best f m v o : after f v -> backward m v = Ok o -> best_nodes ideo d u inp (f, m) = Ok o.
Proof.
  intros A E. unfold best_nodes. rewrite Eb. cbn [rbind fst snd]. destruct f as [f|]; cbn in A; [rewrite A|subst v]; cbn [rbind]; exact E.
Qed.

Lemma use_ops ops : no_build ops -> forall f ns s, in_use f ns s ->
  wp (peach (h_op ideo la) ops) (fun _ s' => exists f' os, Forall2 (fun w o => best_nodes ideo d u inp w = Ok o) (walks f ops) os /\
    in_use f' (ns ++ map shown (concat os)) s') s.
Proof.
  unfold peach. generalize tt. induction ops as [|o ops IH]; intros x N f ns s U; cbn [pfold walks].
  - cbn [wp]. exists f, []. split; [constructor|]. cbn [concat map]. rewrite app_nil_r. exact U.
  - assert (N' : no_build ops) by (intros i H; apply (N i); right; exact H). destruct o as [i|m|m]; cbn [h_op].
    + destruct (N i). left. reflexivity.
    + eapply wp_seq; [exact (use_forward m U)|]. intros [] s' U'. exact (IH tt N' (Some m) ns s' U').
    + eapply wp_seq; [exact (use_backward m U)|]. intros [] s' (v & o & A & E & U').
      eapply wp_mono; [exact (IH tt N' f _ s' U')|]. intros [] s'' (f' & os & F & U''). exists f', (o :: os). split; [constructor; [exact (after_best A E)|exact F]|].
      cbn [concat]. rewrite map_app, app_assoc. exact U''.
Qed.
End Built.

Lemma use_read s cells outs v ns : rep s la d u cells outs v -> Forall2 (holds s) outs ns ->
  wp (h_outputs la) (fun out s' => s' = s /\ map shown out = ns) s.
Proof.
  intros R F. unfold h_outputs. destruct (r_lat R) as (hl & El & L). apply (wp_lat_read El). rewrite (row_list (lo_out L)).
  assert (K : forall acc, wp (pfold (fun out p => do a <- deref p; do n <- node_read a; Ret (out ++ [h_val n None])) (map Some outs) acc)
    (fun out s' => s' = s /\ map shown out = map shown acc ++ ns) s).
  { clear R L. induction F as [|a n outs ns (b & h & E & G) F IH]; intros acc; cbn [map pfold].
    - cbn [wp]. split; [reflexivity|]. rewrite app_nil_r. reflexivity.
    - unfold node_read. cbn [deref pbind wp]. exists b, h. split; [exact E|]. eapply wp_mono; [exact (IH (acc ++ [h_val h None]))|]. cbn beta. intros out s'' [-> H]. split; [reflexivity|].
      rewrite H, map_app, <- app_assoc. cbn [map app]. f_equal. f_equal. exact G. }
  exact (K []).
Qed.
End Use.

Lemma split_ops ops : built_once ops -> no_build ops \/ exists pre inp post, ops = pre ++ LBuild inp :: post /\ no_build pre /\ no_build post.
Proof.
  induction ops as [|o ops IH]; intros H; [left; intros inp []|].
  assert (H' : built_once ops).
  { intros pre inp post E. intros i Hi. apply (H (o :: pre) inp post (f_equal (cons o) E) i). right. exact Hi. }
  destruct o as [inp|m|m].
  - right. exists [], inp, ops. split; [reflexivity|]. split; [intros i []|]. intros i Hi. apply in_split in Hi. destruct Hi as (p & q & E).
    apply (H (LBuild inp :: p) i q (f_equal (cons (LBuild inp)) E) inp). left. reflexivity.
  - destruct (IH H') as [N|(pre & inp & post & -> & N1 & N2)]; [left|right; exists (LForward m :: pre), inp, post].
    + intros i [E|E]; [discriminate|exact (N i E)].
    + split; [reflexivity|]. split; [|exact N2]. intros i [E|E]; [discriminate|exact (N1 i E)].
  - destruct (IH H') as [N|(pre & inp & post & -> & N1 & N2)]; [left|right; exists (LBackward m :: pre), inp, post].
    + intros i [E|E]; [discriminate|exact (N i E)].
    + split; [reflexivity|]. split; [|exact N2]. intros i [E|E]; [discriminate|exact (N1 i E)].
Qed.

Lemma peach_app B (f : B -> prog unit) l1 l2 (Q Q' : unit -> lheap -> Prop) s :
  wp (peach f l1) Q' s -> (forall s', Q' tt s' -> wp (peach f l2) Q s') -> wp (peach f (l1 ++ l2)) Q s.
Proof.
  unfold peach. generalize tt at 1 4. revert s. induction l1 as [|x l1 IH]; intros s a H1 H2; cbn [pfold app] in *.
  - destruct a. apply H2. exact H1.
  - apply wp_bind. 
    assert (W : forall X Y (p : prog X) (g : X -> prog Y) R s0, wp (pbind p g) R s0 -> wp p (fun y s1 => wp (g y) R s1) s0).
    { clear. induction p; cbn; intros g R s0 H0; try firstorder. }
    eapply wp_mono; [exact (W _ _ _ _ _ _ H1)|]. cbn beta. intros [] s1 H. exact (IH s1 tt H H2).
Qed.

Theorem sim_use ideo d u ops s : wf_dict d -> wf_udict u -> built_once ops -> empty s ->
  wp (h_use ideo d u ops) (fun out s' => use_result ideo d u ops out /\ empty s') s.
Proof.
  intros Hd Hu Ho [Z1 Z2]. unfold h_use. apply wp_bind. unfold h_new. cbn [pbind lat_get wp]. intros la l Hla Hcl.
  eapply wp_lat_set; [cbn [ll lput_l]; apply set_at_same|]. eapply wp_lat_set; [cbn [ll lput_l]; apply set_at_same|]. apply wp_ret.
  set (s1 := lput_l _ _ _). assert (F : fresh la d u s1).
  { split.
    - eexists. split; [cbn [ll lput_l s1]; apply set_at_same|]. cbn. split; [reflexivity|]. split; [reflexivity|]. split; [apply Hcl|]. split; [apply Hcl|apply Hcl].
    - exact Z1.
    - intros b Hb. cbn. rewrite !set_at_other by exact Hb. apply Z2. }
  clearbody s1. assert (Fin : forall cells outs v ns s2, rep s2 la d u cells outs v -> Forall2 (holds s2) outs ns ->
    (forall out, map shown out = ns -> use_result ideo d u ops out) ->
    wp (do out <- h_outputs la; h_free la;; Ret out) (fun out s' => use_result ideo d u ops out /\ empty s') s2).
  { intros cells outs v ns s2 R H Hr. eapply wp_seq; [exact (use_read R H)|]. intros out s3 [-> E].
    eapply wp_seq; [exact (sim_free R)|]. intros [] s4 H4. cbn. split; [exact (Hr out E)|exact H4]. }
  destruct (split_ops Ho) as [N|(pre & inp & post & -> & N1 & N2)].
  - eapply wp_seq; [exact (fresh_ops ideo N F)|]. intros [] s2 ->. apply (Fin [] [] [] [] s1 (fresh_rep Hu F) (Forall2_nil _)).
    intros [|] E; [|discriminate]. constructor. exact N.
  - destruct (@build_spec d u inp Hd Hu) as (v0 & Eb & Hb). eapply wp_seq.
    + eapply peach_app; [exact (fresh_ops ideo N1 F)|]. intros s2 ->. unfold peach. cbn [pfold h_op]. eapply wp_seq; [exact (sim_build Eb F)|].
      intros [] s3 (cells & R). refine (@use_ops ideo la d u Hd Hu inp v0 Hb Eb post N2 None [] s3 _). exists cells, [], v0. split; [exact R|]. split; [reflexivity|constructor].
    + intros [] s2 (f & os & Fo & cells & outs & v & R & _ & H). apply (Fin cells outs v _ s2 R H). intros out E. econstructor; eassumption.
Qed.

Theorem sim_works ideo ws : (forall w, In w ws -> work_ok w) -> forall s, empty s ->
  wp (h_works ideo ws) (fun os s' => Forall2 (right_outcome ideo) ws os /\ empty s') s.
Proof.
  induction ws as [|w ws IH]; intros H s Hs; cbn [h_works].
  - cbn. auto.
  - assert (W : wp (h_work ideo w) (fun o s' => right_outcome ideo w o /\ empty s') s).
    { specialize (H w (or_introl eq_refl)). destruct w as [j|d u ops]; cbn [h_work work_ok] in *.
      - eapply wp_seq; [exact (sim_job ideo H Hs)|]. intros a s1 [Ha H1]. cbn. split; [constructor; exact Ha|exact H1].
      - destruct H as (Hd & Hu & Ho). eapply wp_seq; [exact (sim_use ideo Hd Hu Ho Hs)|]. intros out s1 [Ha H1]. cbn. split; [constructor; exact Ha|exact H1]. }
    eapply wp_seq; [exact W|]. intros o s1 [Hr H1]. eapply wp_seq; [apply (IH (fun x Hx => H x (or_intror Hx)) s1 H1)|]. intros os s2 [Hrs H2]. cbn. auto.
Qed.

Lemma clients_start ideo clients : (forall ws, In ws clients -> forall w, In w ws -> work_ok w) ->
  Forall2 (fun (R : list outcome -> Prop) p => wp p (fun a _ => R a) lheap0)
  (map (fun ws os => Forall2 (right_outcome ideo) ws os) clients) (map (h_works ideo) clients).
Proof.
  induction clients as [|ws clients IH]; intros H; cbn [map]; constructor.
  - eapply wp_mono; [apply sim_works; [apply H; left; reflexivity|split; cbn; [discriminate|reflexivity]]|]. intros a s [K _]. exact K.
  - apply IH. intros ws' Hw. apply H. right. exact Hw.
Qed.

Theorem clients_results g0 ideo clients g ths : left_over g0 -> (forall ws, In ws clients -> forall w, In w ws -> work_ok w) ->
  steps (h_clients g0 ideo clients) (g, ths) -> length ths = length clients /\
  forall k ws th, nth_error clients k = Some ws -> nth_error ths k = Some th ->
    (forall os, th_prog th = Ret os -> Forall2 (right_outcome ideo) ws os) /\ (finished th \/ exists g' th', tstep g th g' th').
Proof.
  intros Hg Hw Hs. assert (Hs' : steps (g0, map start_thread (map (h_works ideo) clients)) (g, ths)) by (rewrite map_map; exact Hs).
  destruct (any_results Hg (clients_start ideo Hw) Hs') as (L & K). rewrite map_length in L. split; [exact L|].
  intros k ws th H1 H2. apply (K k _ th); [|exact H2]. rewrite nth_error_map, H1. reflexivity.
Qed.

Theorem clients_completes g0 ideo clients g ths : left_over g0 -> (forall ws, In ws clients -> forall w, In w ws -> work_ok w) ->
  steps (h_clients g0 ideo clients) (g, ths) ->
  exists g' ths', steps (g, ths) (g', ths') /\ (forall th, In th ths' -> finished th) /\ left_over g'.
Proof.
  intros Hg Hw Hs. assert (Hs' : steps (g0, map start_thread (map (h_works ideo) clients)) (g, ths)) by (rewrite map_map; exact Hs).
  exact (any_completes Hg (clients_start ideo Hw) Hs').
Qed.

(** Deciding built_once. *)
Definition count_builds (ops : list lop) : nat := length (filter (fun o => match o with LBuild _ => true | _ => false end) ops).
Lemma once_check ops : (count_builds ops <=? 1) = true -> built_once ops.
Proof.
  unfold count_builds. intros H pre inp post -> q Hq. apply in_split in Hq. destruct Hq as (l1 & l2 & ->).
  rewrite <- app_assoc, filter_app, app_length in H. cbn [app filter length] in H. rewrite filter_app, app_length in H. cbn [filter length] in H. lia.
Qed.
