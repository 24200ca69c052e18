(** What the largest call needs is there when all calls have returned: the bound of QuotaFacts.v is
    reached. *)
From Verif Require Export QuotaText.
From Coq Require Import ZifyBool ZifyNat.
Set Implicit Arguments.
Unset Strict Implicit.
Open Scope nat_scope.

(** The same program, but it records how many nodes it holds and the most it ever held. *)
Fixpoint peaks {A} (p : prog A) (h m : nat) : prog (A * nat * nat) :=
  match p with
  | Ret a => Ret (a, h, m)
  | Stop => Stop
  | Choose k => Choose (fun n => peaks (k n) h m)
  | NodeGet k => NodeGet (fun a => peaks (k a) (S h) (Nat.max m (S h)))
  | NodePut a k => NodePut a (peaks k (pred h) m)
  | NodeNew n k => NodeNew n (fun a => peaks (k a) h m)
  | NodeRead a k => NodeRead a (fun x => peaks (k x) h m)
  | NodeSet a f k => NodeSet a f (peaks k h m)
  | LatGet k => LatGet (fun a => peaks (k a) h m)
  | LatPut a k => LatPut a (peaks k h m)
  | LatRead a k => LatRead a (fun x => peaks (k x) h m)
  | LatSet a f k => LatSet a f (peaks k h m)
  end.

Lemma peaks_bind A B (p : prog A) (f : A -> prog B) Q : forall s h m,
  wp (peaks p h m) (fun x s' => wp (peaks (f (fst (fst x))) (snd (fst x)) (snd x)) Q s') s -> wp (peaks (pbind p f) h m) Q s.
Proof.
  induction p as [a| |k IH|k IH|a p IH|n k IH|a k IH|a g p IH|k IH|a p IH|a k IH|a g p IH]; intros s h m; cbn; auto.
  - intros [H1 H2]. auto.
  - intros (b & x & E & W). eauto 6.
  - intros (b & x & E & W). eauto 6.
  - intros [H1 H2]. auto.
  - intros (l & E & W). eauto.
  - intros (l & E & W). eauto.
Qed.

Lemma peaks_wp A (p : prog A) Q : forall s n l m, wp p Q s -> account s n l ->
  wp (peaks p n m) (fun x s' => Q (fst (fst x)) s' /\ (exists l', account s' (snd (fst x)) l') /\ m <= snd x /\ (n <= m -> snd (fst x) <= snd x)) s.
Proof.
  induction p as [a| |k IH|k IH|a p IH|x k IH|a k IH|a g p IH|k IH|a p IH|a k IH|a g p IH]; intros s n l m; cbn [peaks wp fst snd].
  - intros H K. split; [exact H|]. split; [eauto|]. split; [lia|auto].
  - auto.
  - intros H K i. exact (IH i s n l m (H i) K).
  - intros H K a h Ha. eapply wp_mono; [exact (IH a _ _ _ (Nat.max m (S n)) (H a h Ha) (account_get h K Ha))|].
    intros y s' (H1 & H2 & H3 & H4). split; [exact H1|]. split; [exact H2|]. split; [lia|]. intros _. apply H4. lia.
  - intros [(h & Eh) H] K. split; [eauto|]. destruct (account_put K Eh) as [K' P].
    eapply wp_mono; [exact (IH _ _ _ m H K')|]. intros y s' (H1 & H2 & H3 & H4). split; [exact H1|]. split; [exact H2|]. split; [lia|]. intros L. apply H4. lia.
  - intros H K a Ha. exact (IH a _ _ _ m (H a Ha) (account_new x K Ha)).
  - intros (b & h & E & H) K. exists b, h. split; [exact E|]. exact (IH h s n l m H K).
  - intros (b & h & E & H) K. exists b, h. split; [exact E|]. exact (IH _ n l m H (account_set (g h) K E)).
  - intros H K a y Ha Hl. exact (IH a _ _ _ m (H a y Ha Hl) (account_lget y K Ha)).
  - intros [(y & El & Hl) H] K. split; [eauto|]. destruct (account_lput K El) as [K' P]. exact (IH _ _ _ m H K').
  - intros (y & E & H) K. exists y. split; [exact E|]. exact (IH y s n l m H K).
  - intros (y & E & H) K. exists y. split; [exact E|]. exact (IH _ n l m H (account_lset (g y) K E)).
Qed.

(** Every run of p reaches a moment at which at least K nodes are held. *)
Definition reaches {A} (K : nat) (p : prog A) (Q : A -> lheap -> Prop) (s : lheap) : Prop :=
  forall n l m, account s n l -> n <= m ->
    wp (peaks p n m) (fun x s' => Q (fst (fst x)) s' /\ (exists l', account s' (snd (fst x)) l') /\ m <= snd x /\ snd (fst x) <= snd x /\ K <= snd x) s.

Lemma reaches_end A K (p : prog A) Q s : wp p Q s -> (forall a s' n l, Q a s' -> account s' n l -> K <= n) -> reaches K p Q s.
Proof.
  intros W HK n l m C L. eapply wp_mono; [exact (peaks_wp m W C)|]. intros [[a h'] m'] s' (H1 & (l' & H2) & H3 & H4). cbn [fst snd] in *.
  specialize (H4 L). pose proof (HK _ _ _ _ H1 H2). split; [exact H1|]. split; [eauto|]. lia.
Qed.
Lemma reaches_0 A (p : prog A) Q s : wp p Q s -> reaches 0 p Q s.
Proof. intros W. apply (reaches_end W). intros; lia. Qed.
Lemma reaches_bind A B K K' K'' (p : prog A) (f : A -> prog B) Q s : reaches K p (fun a s' => reaches K' (f a) Q s') s -> K'' <= Nat.max K K' -> reaches K'' (pbind p f) Q s.
Proof.
  intros H HK n l m C L. apply peaks_bind. eapply wp_mono; [exact (H n l m C L)|]. intros [[a h'] m'] s' (W & (l' & C') & H3 & H4 & H5). cbn [fst snd] in *.
  eapply wp_mono; [exact (W h' l' m' C' H4)|]. intros [[b h''] m''] s'' (G1 & G2 & G3 & G4 & G5). cbn [fst snd] in *. split; [exact G1|]. split; [exact G2|]. lia.
Qed.
Lemma reaches_mono A K (p : prog A) (Q Q' : A -> lheap -> Prop) s : reaches K p Q s -> (forall a s', Q a s' -> Q' a s') -> reaches K p Q' s.
Proof. intros H HQ n l m C L. eapply wp_mono; [exact (H n l m C L)|]. intros x s' (H1 & H2). split; [apply HQ; exact H1|exact H2]. Qed.

Lemma reaches_run A d u inp v1 (f : addr -> prog A) Q s : build d u inp = Ok v1 -> empty s ->
  wp (do la <- h_new d u; h_build la inp;; f la) Q s -> reaches (length (concat v1)) (do la <- h_new d u; h_build la inp;; f la) Q s.
Proof.
  intros Eb [Z1 Z2] W. apply wp_unbind in W.
  assert (F : wp (h_new d u) (fun la s1 => fresh la d u s1) s).
  { unfold h_new. cbn [pbind lat_get wp]. intros la l Hla Hcl.
    eapply wp_lat_set; [cbn [ll lput_l]; apply set_at_same|]. eapply wp_lat_set; [cbn [ll lput_l]; apply set_at_same|]. apply wp_ret. split.
    - eexists. split; [cbn [ll lput_l]; apply set_at_same|]. cbn. split; [reflexivity|]. split; [reflexivity|]. split; [apply Hcl|]. split; [apply Hcl|apply Hcl].
    - exact Z1.
    - intros b Hb. cbn. rewrite !set_at_other by exact Hb. apply Z2. }
  pose proof (wp_and W F) as WF. clear W F.
  eapply reaches_bind; [eapply reaches_mono; [exact (reaches_0 WF)|]|apply Nat.le_max_r]. intros la s1 [W F]. cbn beta in *. apply wp_unbind in W.
  pose proof (wp_and W (sim_build Eb F)) as WB. eapply (reaches_bind (K' := 0)); [|apply Nat.le_max_l].
  eapply reaches_mono; [refine (reaches_end WB _)|].
  - intros [] s2 n l [_ (cells & R)] C. rewrite (rep_account R C). apply le_n.
  - intros [] s2 [W2 _]. cbn beta in *. apply reaches_0. exact W2.
Qed.

Lemma reaches_job ideo j s : job_ok j -> empty s -> reaches (job_nodes j) (h_job ideo j) (fun r s' => right_answer ideo j r /\ empty s') s.
Proof.
  intros H Hs. pose proof (sim_job ideo H Hs) as W.
  assert (B : forall A t inp mode (f : addr -> prog A), run_lattice ideo t inp mode <> Panic -> run_lattice ideo t inp mode <> Diverge ->
    forall (Q : A -> lheap -> Prop), wp (do la <- h_new (tk_dict t) (tk_udict t); h_build la inp;; f la) Q s ->
    reaches (match build (tk_dict t) (tk_udict t) inp with Ok v => length (concat v) | _ => 0 end) (do la <- h_new (tk_dict t) (tk_udict t); h_build la inp;; f la) Q s).
  { intros A t inp mode f N1 N2 Q W0. unfold run_lattice in N1, N2. cbn zeta in N1, N2. destruct (build (tk_dict t) (tk_udict t) inp) as [v| |] eqn:Eb; try (exfalso; cbn in *; congruence).
    exact (reaches_run Eb Hs W0). }
  destruct j as [[d u o] inp mode|[d u o] inp|[d u o] inp mode]; cbn [h_job job_ok job_nodes tk_dict tk_udict] in *.
  - destruct H as [Hd Hu]. destruct (@AnalyzeFacts.analyze_total d u Hd Hu ideo o inp mode) as (ts & E). apply wp_unbind in W. eapply (reaches_bind (K' := 0)); [|apply Nat.le_max_l].
    eapply reaches_mono; [apply (B _ (Tokenizer d u o) inp mode (fun la => h_forward ideo (to_lmode mode) la;; h_backward (to_lmode mode) la;; do tokens <- h_tokens (Tokenizer d u o) la; h_free la;; Ret tokens))|].
    + intros R. unfold analyze in E. rewrite R in E. discriminate.
    + intros R. unfold analyze in E. rewrite R in E. discriminate.
    + exact W.
    + intros ts' s' W'. apply reaches_0. exact W'.
  - destruct H as [Hd Hu]. destruct (@AnalyzeFacts.analyze_total d u Hd Hu ideo o inp mode_normal) as (ts & E). apply wp_unbind in W. apply wp_unbind in W.
    eapply (reaches_bind (K' := 0)); [|apply Nat.le_max_l]. eapply (reaches_bind (K' := 0)); [|apply Nat.le_max_l].
    eapply reaches_mono; [apply (B _ (Tokenizer d u o) inp mode_normal (fun la => h_forward ideo (to_lmode mode_normal) la;; h_backward (to_lmode mode_normal) la;; do tokens <- h_tokens (Tokenizer d u o) la; h_free la;; Ret tokens))|].
    + intros R. unfold analyze in E. rewrite R in E. discriminate.
    + intros R. unfold analyze in E. rewrite R in E. discriminate.
    + exact W.
    + intros ts' s' W'. apply reaches_0. cbn [wp] in *. apply reaches_0. exact W'.
  - destruct H as (Hd & Hu & Hw). destruct (DotFacts.graph_ok o ideo inp mode Hd Hu Hw) as (la & la' & l & _ & _ & _ & E1 & E2). apply wp_unbind in W. eapply (reaches_bind (K' := 0)); [|apply Nat.le_max_l].
    eapply reaches_mono; [apply (B _ (Tokenizer d u o) inp mode (fun la => h_forward ideo (to_lmode mode) la;; h_backward (to_lmode mode) la;;
      do tokens <- h_graph_tokens (Tokenizer d u o) la; do drawn <- h_dot la; h_free la;; Ret (tokens, drawn)))|].
    + intros R. unfold analyze_graph in E2. rewrite R in E2. discriminate.
    + intros R. unfold analyze_graph in E2. rewrite R in E2. discriminate.
    + exact W.
    + intros r s' W'. apply reaches_0. exact W'.
Qed.

Lemma reaches_jobs ideo js : (forall j, In j js -> job_ok j) -> forall s, empty s ->
  reaches (largest_call js) (h_jobs ideo js) (fun rs s' => Forall2 (right_answer ideo) js rs /\ empty s') s.
Proof.
  induction js as [|j js IH]; intros H s Hs; cbn [h_jobs].
  - apply reaches_0. cbn. auto.
  - eapply (reaches_bind (K' := largest_call js)); [|unfold largest_call; cbn [map list_max fold_right]; reflexivity].
    eapply reaches_mono; [exact (reaches_job ideo (H j (or_introl eq_refl)) Hs)|]. intros r s1 [Hr H1].
    eapply (reaches_bind (K' := 0)); [|apply Nat.le_max_l]. eapply reaches_mono; [apply (IH (fun x Hx => H x (or_intror Hx)) s1 H1)|]. intros rs s2 [Hrs H2].
    apply reaches_0. cbn. auto.
Qed.

(** ** The system *)
Definition peak_of {A} (m : nat) (th : thread A) : thread (A * nat * nat) :=
  Thread (peaks (th_prog th) (length (th_nodes th)) m) (th_nodes th) (th_new th) (th_lats th).

Lemma peak_step A m g (th : thread A) g' th' R : tstep g th g' th' -> tinv g R (peak_of m th) ->
  exists m', tstep g (peak_of m th) g' (peak_of m' th') /\ m' <= Nat.max m (length (th_nodes th')).
Proof.
  intros St (s & W & AG). unfold peak_of in *.
  destruct St; cbn [th_prog th_nodes th_new th_lats peaks length] in *.
  - exists m. split; [|lia]. exact (@t_choose _ g (fun n => peaks (k n) _ _) n hn hw hl).
  - exists (Nat.max m (S (length hn))). split; [|lia]. exact (@t_node_get _ nodes next p1 a p2 lats lnext lpool (fun a => peaks (k a) _ _) hn hw hl).
  - exists (Nat.max m (S (length hn))). split; [|lia]. exact (@t_node_make _ nodes next pool lats lnext lpool (fun a => peaks (k a) _ _) hn hw hl).
  - cbn [wp] in W. destruct W as ((h & Eh) & W). assert (I : In a hn) by (apply cnt_In; apply (ag_nodes AG); eauto).
    pose proof (remove_one_length I) as L. exists m. split; [|lia]. replace (length (remove_one a hn)) with (pred (length hn)) by lia. constructor.
  - exists m. split; [|lia]. exact (@t_node_new _ nodes next pool lats lnext lpool n (fun a => peaks (k a) _ _) hn hw hl).
  - exists m. split; [|lia]. exact (@t_node_read _ g a (fun a => peaks (k a) _ _) hn hw hl).
  - exists m. split; [|lia]. constructor.
  - exists m. split; [|lia]. exact (@t_lat_get _ nodes next pool lats lnext p1 a p2 (fun a => peaks (k a) _ _) hn hw hl).
  - exists m. split; [|lia]. exact (@t_lat_make _ nodes next pool lats lnext lpool (fun a => peaks (k a) _ _) hn hw hl).
  - exists m. split; [|lia]. constructor.
  - exists m. split; [|lia]. exact (@t_lat_read _ g a (fun a => peaks (k a) _ _) hn hw hl).
  - exists m. split; [|lia]. constructor.
Qed.

(** No step loses an object of the pool. *)
Lemma pool_kept A (g : memory) (th : thread A) g' th' : tstep g th g' th' -> (forall a k, th_prog th = NodePut a k -> In a (th_nodes th)) ->
  length (g_node_pool g) + length (th_nodes th) <= length (g_node_pool g') + length (th_nodes th').
Proof.
  intros T P1. destruct T; cbn [g_node_pool th_prog th_nodes length] in *; try lia.
  - rewrite !app_length. cbn [length]. lia.
  - pose proof (remove_one_length (P1 _ _ eq_refl)). lia.
Qed.

Section System.
Variables (g0 : memory) (ideo : ideographic) (jobs : list (list job)).
Hypothesis Hg : left_over g0.
Hypothesis Hj : forall js, In js jobs -> forall j, In j js -> job_ok j.

Definition pideal (js : list job) (x : list answer * nat * nat) (s : lheap) : Prop := largest_call js <= snd x.
Definition peakss (mts : list (nat * thread (list answer))) := map (fun mt => peak_of (fst mt) (snd mt)) mts.

Lemma peaks_start : ginv (map pideal jobs) (g0, peakss (map (fun js => (0, start_thread (h_jobs ideo js))) jobs)).
Proof.
  destruct Hg as [Ln Ll Lf]. unfold peakss. rewrite map_map. cbn [fst snd].
  replace (map (fun js => peak_of 0 (start_thread (h_jobs ideo js))) jobs)
    with (map (@start_thread _) (map (fun js => peaks (h_jobs ideo js) 0 0) jobs)) by (rewrite map_map; reflexivity).
  apply start_ginv.
  - clear Ln Ll Lf. induction jobs as [|js l IH]; cbn [map]; constructor.
    + eapply wp_mono; [refine (reaches_jobs ideo _ _ account_start (le_n 0))|].
      * apply Hj. left. reflexivity.
      * split; cbn; [discriminate|reflexivity].
      * intros x s' (_ & _ & _ & _ & H). exact H.
    + apply IH. intros js' I. apply Hj. right. exact I.
  - apply apart_NoDup. rewrite app_nil_r. exact Ln.
  - apply apart_NoDup. rewrite app_nil_r. exact Ll.
  - intros a Ha. apply freed_clean, Lf, cnt_In, Ha.
Qed.

Lemma pooled_mid A g t1 (th : thread A) t2 : pooled_nodes (g, t1 ++ th :: t2) = length (g_node_pool g) + length (th_nodes th) + length (flat_map th_nodes (t1 ++ t2)).
Proof. unfold pooled_nodes. cbn [fst snd]. rewrite !flat_map_app. cbn [flat_map]. rewrite !app_length. lia. Qed.

Lemma peaks_reach g ths : steps (start g0 ideo jobs) (g, ths) -> length (g_node_pool g0) <= pooled_nodes (g, ths) /\
  exists mts, ths = map snd mts /\ Forall (fun mt => fst mt <= pooled_nodes (g, ths)) mts /\ ginv (map pideal jobs) (g, peakss mts).
Proof.
  intros S. remember (start g0 ideo jobs) as x eqn:Ex. remember (g, ths) as y eqn:Ey. revert g ths Ey. induction S as [x|x y z S IH T]; intros g ths Ey.
  - rewrite Ex in Ey. unfold start in Ey. injection Ey as <- <-. split; [rewrite Ex; unfold pooled_nodes, start; cbn [fst]; lia|].
    exists (map (fun js => (0, start_thread (h_jobs ideo js))) jobs).
    rewrite !map_map. split; [reflexivity|]. split; [|exact peaks_start]. rewrite Forall_map. apply Forall_forall. intros js _. cbn. lia.
  - subst z x. specialize (IH eq_refl). inversion T as [g1 t1 th t2 g' th' T1 E1 E2]; subst. destruct (IH _ _ eq_refl) as (P & mts & E & F & G).
    destruct (one_owner Hg Hj S) as (_ & _ & O & _). destruct (O th) as (_ & P1 & _); [apply in_or_app; right; left; reflexivity|].
    pose proof (pool_kept T1 P1) as PK. rewrite pooled_mid in *. split; [lia|].
    symmetry in E. apply map_eq_app in E. destruct E as (k1 & kr & -> & <- & E). destruct kr as [|[m th0] k2]; [discriminate|]. cbn in E. injection E as -> <-.
    unfold peakss in G. rewrite map_app in G. cbn [map fst snd] in G.
    assert (TI : exists R, tinv g1 R (peak_of m th)).
    { destruct G as (FG & _). apply Forall2_split in FG. destruct FG as (l1 & R & l2 & _ & _ & H & _). eauto. }
    destruct TI as (R & TI). destruct (peak_step T1 TI) as (m' & T2 & L).
    apply Forall_app in F. destruct F as [Fa Fb]. inversion Fb as [|? ? Fc Fd]; subst. cbn [fst snd] in Fc.
    exists (k1 ++ (m', th') :: k2). split; [rewrite map_app; reflexivity|].
    split.
    + apply Forall_app. split; [eapply Forall_impl; [|exact Fa]; cbn; intros; lia|]. constructor; [cbn [fst]; lia|eapply Forall_impl; [|exact Fd]; cbn; intros; lia].
    + unfold peakss. rewrite map_app. cbn [map fst snd]. refine (step_ginv _ G). constructor. exact T2.
Qed.

Lemma finished_pool g ths : steps (start g0 ideo jobs) (g, ths) -> (forall th, In th ths -> finished th) ->
  length (g_node_pool g0) <= length (g_node_pool g) /\ forall js, In js jobs -> largest_call js <= length (g_node_pool g).
Proof.
  intros S Hf. destruct (peaks_reach S) as (P & mts & E & F & G). destruct (one_owner Hg Hj S) as (_ & _ & O & _).
  assert (Z : flat_map th_nodes ths = []).
  { clear - O Hf. induction ths as [|th l IH]; cbn [flat_map]; [reflexivity|]. destruct (O th) as (_ & _ & _ & Q); [left; reflexivity|].
    rewrite (proj1 (Q (Hf th (or_introl eq_refl)))). apply IH; intros; [apply Hf|apply O]; right; assumption. }
  unfold pooled_nodes in *. cbn [fst snd] in *. rewrite Z in *. cbn [length] in *. rewrite Nat.add_0_r in *. split; [exact P|].
  intros js Ijs. apply In_nth_error in Ijs. destruct Ijs as (k & Ek). destruct G as (FG & _). pose proof (Forall2_length FG) as Len. rewrite map_length in Len.
  unfold peakss in *. rewrite map_length in Len. destruct (nth_error mts k) as [[m th]|] eqn:Em.
  2:{ apply nth_error_None in Em. assert (k < length jobs) by (apply nth_error_Some; congruence). lia. }
  assert (T : tinv g (pideal js) (peak_of m th)).
  { apply (Forall2_nth (k := k) FG); rewrite nth_error_map; [rewrite Ek|rewrite Em]; reflexivity. }
  assert (Hth : finished th) by (apply Hf; rewrite E; apply in_map_iff; exists (m, th); split; [reflexivity|exact (nth_error_In _ _ Em)]).
  destruct Hth as (r & Er). destruct T as (s & W & _). unfold peak_of in W. cbn [th_prog] in W. rewrite Er in W. cbn in W. unfold pideal in W. cbn in W.
  rewrite Forall_forall in F. pose proof (F _ (nth_error_In _ _ Em)) as L. cbn in L. lia.
Qed.
End System.

(** One goroutine: exactly what its largest call needs, or what was there. *)
Lemma one_exact g0 ideo js g th : left_over g0 -> (forall j, In j js -> job_ok j) -> frugal_steps (start g0 ideo [js]) (g, [th]) -> finished th ->
  length (g_node_pool g) = Nat.max (length (g_node_pool g0)) (largest_call js) /\ length (g_lat_pool g) <= Nat.max (length (g_lat_pool g0)) 1.
Proof.
  intros Hg Hj S Hf. assert (Hj' : forall l, In l [js] -> forall j, In j l -> job_ok j) by (intros l [<-|[]]; exact Hj).
  destruct (pool_bound Hg Hj' S) as [B1 B2]. pose proof (frugal_steps_steps S) as St.
  destruct (finished_pool Hg Hj' St) as [C1 C2]; [intros t [<-|[]]; exact Hf|]. specialize (C2 js (or_introl eq_refl)).
  unfold pooled_nodes, pooled_lats in *. cbn [fst snd flat_map map list_sum fold_right length] in *. rewrite !app_length in *. unfold list_sum in B1. cbn in B1. cbn [length] in *. lia.
Qed.

(** With enough in the pool nothing is made, however many calls there are. *)
Lemma nothing_new g0 ideo jobs x : left_over g0 -> (forall js, In js jobs -> forall j, In j js -> job_ok j) ->
  list_sum (map largest_call jobs) <= length (g_node_pool g0) -> frugal_steps (start g0 ideo jobs) x -> pooled_nodes x = length (g_node_pool g0).
Proof.
  intros Hg Hj L S. destruct (pool_bound Hg Hj S) as [B _]. destruct x as [g ths]. destruct (peaks_reach Hg Hj (frugal_steps_steps S)) as [P _]. lia.
Qed.
