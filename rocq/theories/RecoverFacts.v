(** Calls that may panic, next to others. *)
From Verif Require Export SpecRecover WreckDot EndsFacts HeapAny.
From Verif Require Import TokFacts.
From Coq Require Import ZifyBool ZifyNat.
Set Implicit Arguments.
Unset Strict Implicit.
Open Scope nat_scope.

Lemma fails_frame A (p : prog A) E : forall s0 s, fails p E s0 -> covers s0 s -> fails p (fun s' => exists s0', covers s0' s' /\ E s0') s.
Proof.
  assert (N : forall s0 s x v, covers s0 s -> covers (LHeap (set_at (ln s0) x v) (ll s0)) (LHeap (set_at (ln s) x v) (ll s))).
  { intros s0 s x v [H1 H2]. split; cbn; [|exact H2]. intros y w. unfold set_at. destruct (y =? x); [auto|apply H1]. }
  assert (L : forall s0 s x v, covers s0 s -> covers (LHeap (ln s0) (set_at (ll s0) x v)) (LHeap (ln s) (set_at (ll s) x v))).
  { intros s0 s x v [H1 H2]. split; cbn; [exact H1|]. intros y. unfold set_at. destruct (y =? x); [reflexivity|apply H2]. }
  induction p; cbn [fails]; intros s0 s W C.
  - contradiction.
  - exists s0. auto.
  - intros n. exact (H n _ _ (W n) C).
  - intros a h Ha. apply (H a _ _ (W a h (covers_none C Ha))). apply N. exact C.
  - destruct W as ((h & Eh) & W). split; [exists h; apply (cv_n C); exact Eh|]. apply (IHp _ _ W). apply N. exact C.
  - intros a Ha. apply (H a _ _ (W a (covers_none C Ha))). apply N. exact C.
  - destruct W as (b & h & Eh & W). exists b, h. split; [apply (cv_n C); exact Eh|]. exact (H h _ _ W C).
  - destruct W as (b & h & Eh & W). exists b, h. split; [apply (cv_n C); exact Eh|]. apply (IHp _ _ W). apply N. exact C.
  - intros a l Ha Hl. rewrite (cv_l C) in Ha. apply (H a _ _ (W a l Ha Hl)). apply L. exact C.
  - destruct W as ((l & El & Hl) & W). split; [exists l; rewrite (cv_l C); auto|]. apply (IHp _ _ W). apply L. exact C.
  - destruct W as (l & El & W). exists l. split; [rewrite (cv_l C); exact El|]. exact (H l _ _ W C).
  - destruct W as (l & El & W). exists l. split; [rewrite (cv_l C); exact El|]. apply (IHp _ _ W). apply L. exact C.
Qed.
Lemma covers_trans s1 s2 s3 : covers s1 s2 -> covers s2 s3 -> covers s1 s3.
Proof. intros [A1 A2] [B1 B2]. split; [intros a x H; auto|]. intros a. rewrite B2. apply A2. Qed.

(** A goroutine between calls: it holds no lattice, and perhaps nodes that a panic left over. *)
Definition spent (s : lheap) : Prop := exists s0, empty s0 /\ covers s0 s.
Lemma spent_empty s : empty s -> spent s.
Proof. intros H. exists s. split; [exact H|apply covers_refl]. Qed.

(** Enough to look at goroutines with nothing left over. *)
Lemma spent_ok A (p : prog A) (Q : A -> Prop) : (forall s, empty s -> wp p (fun a s' => Q a /\ spent s') s) -> forall s, spent s -> wp p (fun a s' => Q a /\ spent s') s.
Proof.
  intros H s (s0 & Z & C). eapply wp_mono; [exact (wp_frame (H s0 Z) C)|]. intros a s' (s1 & C1 & HQ & s2 & Z2 & C2). split; [exact HQ|].
  exists s2. split; [exact Z2|]. exact (covers_trans C2 C1).
Qed.
Lemma spent_fails A (p : prog A) : (forall s, empty s -> fails p spent s) -> forall s, spent s -> fails p spent s.
Proof.
  intros H s (s0 & Z & C). eapply fails_mono; [exact (fails_frame (H s0 Z) C)|]. intros s' (s1 & C1 & s2 & Z2 & C2).
  exists s2. split; [exact Z2|]. exact (covers_trans C2 C1).
Qed.

Section Deferred.
Variables (la : addr) (d : dict) (u : option udict).
Lemma free_spent s : wreck la d u s -> wp (h_free la) (fun _ s' => spent s') s.
Proof.
  intros (s0 & cells & outs & v & R & C). eapply wp_mono; [exact (wp_frame (sim_free R) C)|]. intros _ s' (s1 & C1 & Z). exists s1. auto.
Qed.
Lemma deferring_ok A (p : prog A) (Q : A -> Prop) s : wp p (fun a s' => Q a /\ wreck la d u s') s ->
  wp (deferring p (h_free la)) (fun a s' => Q a /\ spent s') s.
Proof.
  intros W. unfold deferring. eapply wp_seq; [exact (catch_ok W)|]. intros o s1 (a & -> & HQ & H1). eapply wp_seq; [exact (free_spent H1)|].
  intros [] s2 H2. cbn. auto.
Qed.
Lemma deferring_fails A (p : prog A) s : fails p (wreck la d u) s -> fails (deferring p (h_free la)) spent s.
Proof.
  intros W. unfold deferring. eapply fails_seq; [exact (catch_fails W)|]. intros o s1 (-> & H1). eapply fails_seq; [exact (free_spent H1)|].
  intros [] s2 H2. exact H2.
Qed.
End Deferred.

Section Calls.
Variables (ideo : ideographic) (t : tokenizer) (inp : bytes) (mode : Z).
Notation d := (tk_dict t).
Notation u := (tk_udict t).
Notation m := (to_lmode mode).

Lemma new_ok A (f : addr -> prog A) (Q : A -> lheap -> Prop) s : empty s -> (forall la s', fresh la d u s' -> wp (f la) Q s') -> wp (do la <- h_new d u; f la) Q s.
Proof.
  intros [Z1 Z2] Hf. apply wp_bind. unfold h_new. cbn [pbind lat_get wp]. intros la l Hla Hcl.
  eapply wp_lat_set; [cbn [ll lput_l]; apply set_at_same|]. eapply wp_lat_set; [cbn [ll lput_l]; apply set_at_same|]. apply wp_ret. apply Hf. split.
  - eexists. split; [cbn [ll lput_l]; apply set_at_same|]. cbn. split; [reflexivity|]. split; [reflexivity|]. split; [apply Hcl|]. split; [apply Hcl|apply Hcl].
  - exact Z1.
  - intros b Hb. cbn. rewrite !set_at_other by exact Hb. apply Z2.
Qed.
Lemma new_fails A (f : addr -> prog A) E s : empty s -> (forall la s', fresh la d u s' -> fails (f la) E s') -> fails (do la <- h_new d u; f la) E s.
Proof.
  intros Z Hf. eapply fails_seq with (Q := fun la s' => fresh la d u s'); [|exact Hf]. refine (wp_unbind (f := @Ret addr) _).
  apply (new_ok Z). intros la s' F. exact F.
Qed.

Section Body.
Variables (A : Type) (la : addr) (f : prog A) (s : lheap).
Hypothesis F : fresh la d u s.
Notation body := (h_build la inp;; h_forward ideo m la;; h_backward m la;; f).

Lemma body_bad : bad (run_lattice ideo t inp mode) -> fails body (wreck la d u) s.
Proof.
  unfold run_lattice. cbn zeta. intros E. apply bad_bind in E. destruct E as [E|(v1 & E1 & E)]; [apply fails_left; exact (fail_build E F)|].
  eapply fails_seq; [exact (sim_build E1 F)|]. intros [] s1 (cells & R1). cbn beta.
  apply bad_bind in E. destruct E as [E|(v2 & E2 & E)]; [apply fails_left; exact (fail_forward R1 E)|].
  eapply fails_seq; [exact (sim_forward R1 E2)|]. intros [] s2 R2. cbn beta in R2.
  apply bad_bind in E. destruct E as [E|(out & E3 & E)]; [|destruct (bad_ok E)]. apply fails_left. exact (fail_backward R2 E).
Qed.
(** The lattice when Backward has returned. *)
Definition analysed (v : table) (out : list node) (s' : lheap) : Prop :=
  exists cells outs cs, rep s' la d u cells outs v /\ Forall2 (out_ok s') outs out /\ Forall2 (ptr_ok cells s') outs cs /\ backward_ptrs m v = Ok cs.
Lemma body_ok v out (Q : A -> lheap -> Prop) : run_lattice ideo t inp mode = Ok (v, out) -> (forall s', analysed v out s' -> wp f Q s') -> wp body Q s.
Proof.
  unfold run_lattice. cbn zeta. intros E Hf. apply ok_bind in E. destruct E as (v1 & E1 & E). apply ok_bind in E. destruct E as (v2 & E2 & E).
  apply ok_bind in E. destruct E as (out' & E3 & E). injection E as -> ->. destruct (backward_ptrs_total E3) as (cs & Ec).
  eapply wp_seq; [exact (sim_build E1 F)|]. intros [] s1 (cells & R1). cbn beta.
  eapply wp_seq; [exact (sim_forward R1 E2)|]. intros [] s2 R2. cbn beta in R2.
  eapply wp_seq; [exact (sim_backward R2 E3 Ec)|]. intros [] s3 (outs & R3 & F3 & P3). apply Hf. exists cells, outs, cs. auto.
Qed.
Lemma body_later v out E : run_lattice ideo t inp mode = Ok (v, out) -> (forall s', analysed v out s' -> fails f E s') -> fails body E s.
Proof.
  intros Er Hf. unfold run_lattice in Er. cbn zeta in Er. apply ok_bind in Er. destruct Er as (v1 & E1 & Er). apply ok_bind in Er. destruct Er as (v2 & E2 & Er).
  apply ok_bind in Er. destruct Er as (out' & E3 & Er). injection Er as -> ->. destruct (backward_ptrs_total E3) as (cs & Ec).
  eapply fails_seq; [exact (sim_build E1 F)|]. intros [] s1 (cells & R1). cbn beta.
  eapply fails_seq; [exact (sim_forward R1 E2)|]. intros [] s2 R2. cbn beta in R2.
  eapply fails_seq; [exact (sim_backward R2 E3 Ec)|]. intros [] s3 (outs & R3 & F3 & P3). apply Hf. exists cells, outs, cs. auto.
Qed.
End Body.

Lemma analyze_ok ts s : analyze ideo t inp mode = Ok ts -> spent s -> wp (d_analyze ideo t inp mode) (fun r s' => r = ts /\ spent s') s.
Proof.
  intros E. apply (spent_ok (Q := fun r => r = ts)). intros s0 Z. unfold d_analyze. apply (new_ok Z). intros la s1 Fr. cbn zeta. apply deferring_ok with (d := d) (u := u).
  unfold analyze in E. apply ok_bind in E. destruct E as ([v out] & Er & Et). cbn [snd] in Et. apply (body_ok Fr Er).
  intros s2 (cells & outs & cs & R & Fo & _). eapply wp_mono; [exact (sim_tokens R Fo Et)|]. intros r s' [-> ->]. split; [reflexivity|exact (rep_wreck R)].
Qed.
Lemma analyze_bad s : bad (analyze ideo t inp mode) -> spent s -> fails (d_analyze ideo t inp mode) spent s.
Proof.
  intros E. apply spent_fails. intros s0 Z. unfold d_analyze. apply (new_fails Z). intros la s1 Fr. cbn zeta. apply deferring_fails with (d := d) (u := u).
  unfold analyze in E. apply bad_bind in E. destruct E as [E|([v out] & Er & Et)]; [exact (body_bad _ Fr E)|].
  rewrite analyze_tokens_ok in Et. destruct (bad_ok Et).
Qed.

(** What AnalyzeGraph returns and draws. *)
Definition drawn (r : list token * list (gstmt addr)) : Prop := right_answer ideo (JGraph t inp mode) (AGraph (fst r) (snd r)).
Lemma graph_ok ts ss s : analyze_graph ideo t inp mode = Ok ts -> graph_stmts ideo t inp mode = Ok ss -> spent s ->
  wp (d_graph ideo t inp mode) (fun r s' => drawn r /\ spent s') s.
Proof.
  intros E Eg. apply spent_ok. intros s0 Z. unfold d_graph. apply (new_ok Z). intros la s1 Fr. cbn zeta. apply deferring_ok with (d := d) (u := u).
  assert (E0 := E). assert (Eg0 := Eg). unfold analyze_graph in E. apply ok_bind in E. destruct E as ([v out] & Er & Et). cbn [snd] in Et. apply (body_ok Fr Er).
  intros s2 (cells & outs & cs & R & Fo & Pt & Ec). eapply wp_seq; [exact (sim_graph_tokens R Fo Et)|]. intros r s' [-> ->].
  assert (Ed : dot_stmts d u v cs = Ok ss).
  { unfold graph_stmts in Eg. unfold run_lattice in Er. cbn zeta in Eg, Er. apply ok_bind in Er. destruct Er as (v1 & E1 & Er). rewrite E1 in Eg. cbn [rbind] in Eg.
    apply ok_bind in Er. destruct Er as (v2 & E2 & Er). rewrite E2 in Eg. cbn [rbind] in Eg. apply ok_bind in Er. destruct Er as (o & _ & Er). injection Er as -> _.
    rewrite Ec in Eg. exact Eg. }
  eapply wp_seq; [exact (dot_sim R Pt Ed)|]. intros r' s' [-> ->]. cbn. split; [|exact (rep_wreck R)].
  apply ra_graph; [exact E0|exact Eg0|exact (dot_names R Ed)].
Qed.
Lemma graph_bad s : bad (analyze_graph ideo t inp mode) \/ bad (graph_stmts ideo t inp mode) -> spent s -> fails (d_graph ideo t inp mode) spent s.
Proof.
  intros E. apply spent_fails. intros s0 Z. unfold d_graph. apply (new_fails Z). intros la s1 Fr. cbn zeta. apply deferring_fails with (d := d) (u := u).
  destruct (bad_or (run_lattice ideo t inp mode)) as [Er|([v out] & Er)]; [exact (body_bad _ Fr Er)|].
  assert (Et : exists ts, analyze_graph ideo t inp mode = Ok ts) by (unfold analyze_graph; rewrite Er; cbn [rbind snd]; rewrite graph_tokens_ok; eauto).
  destruct Et as (ts & Et). destruct E as [E|E]; [destruct (E _ Et)|].
  apply (body_later Fr Er). intros s2 (cells & outs & cs & R & Fo & Pt & Ec). unfold analyze_graph in Et. rewrite Er in Et. cbn [rbind snd] in Et.
  eapply fails_seq; [exact (sim_graph_tokens R Fo Et)|]. intros r s' [-> ->]. apply fails_left. apply (fail_dot R Pt).
  unfold graph_stmts in E. unfold run_lattice in Er. cbn zeta in E, Er. apply ok_bind in Er. destruct Er as (v1 & E1 & Er). rewrite E1 in E. cbn [rbind] in E.
  apply ok_bind in Er. destruct Er as (v2 & E2 & Er). rewrite E2 in E. cbn [rbind] in E. apply ok_bind in Er. destruct Er as (o & _ & Er). injection Er as -> _.
  rewrite Ec in E. exact E.
Qed.
End Calls.

(** ** Workers *)
Lemma bad_panic A (r : res A) : ends r -> (forall a, r <> Ok a) -> r = Panic.
Proof. destruct r; intros H1 H2; [destruct (H2 a eq_refl)|reflexivity|destruct (H1 eq_refl)]. Qed.
Lemma caught A (p : prog A) (Q : option A -> Prop) s : (wp p (fun a s' => Q (Some a) /\ spent s') s \/ fails p spent s /\ Q None) ->
  wp (catch p) (fun o s' => Q o /\ spent s') s.
Proof.
  intros [W|[W HQ]].
  - eapply wp_mono; [exact (catch_ok W)|]. intros o s' (a & -> & H). exact H.
  - eapply wp_mono; [exact (catch_fails W)|]. intros o s' (-> & H). auto.
Qed.

Lemma job_caught ideo j s : spent s -> wp (catch (d_job ideo j)) (fun o s' => attempt ideo j o /\ spent s') s.
Proof.
  intros Hs. apply caught. destruct j as [t inp mode|t inp|t inp mode]; cbn [d_job].
  - destruct (bad_or (analyze ideo t inp mode)) as [B|(ts & E)].
    + right. split; [apply fails_left; exact (analyze_bad B Hs)|]. constructor. exact (bad_panic (@ends_analyze ideo t inp mode) B).
    + left. eapply wp_seq; [exact (analyze_ok E Hs)|]. intros r s1 [-> H1]. cbn. split; [repeat constructor; exact E|exact H1].
  - destruct (bad_or (analyze ideo t inp mode_normal)) as [B|(ts & E)].
    + right. split; [apply fails_left, fails_left; exact (analyze_bad B Hs)|]. constructor. unfold wakati. rewrite (bad_panic (@ends_analyze ideo t inp mode_normal) B). reflexivity.
    + left. assert (W : wp (d_wakati ideo t inp) (fun ws s' => wakati ideo t inp = Ok ws /\ spent s') s).
      { unfold d_wakati. eapply wp_seq; [exact (analyze_ok E Hs)|]. intros r s1 [-> H1]. cbn. split; [|exact H1]. unfold wakati. rewrite E. reflexivity. }
      eapply wp_seq; [exact W|]. intros r s1 [Er H1]. cbn. split; [|exact H1]. constructor. constructor. exact Er.
  - destruct (bad_or (analyze_graph ideo t inp mode)) as [B|(ts & E)].
    + right. split; [apply fails_left; exact (graph_bad (or_introl B) Hs)|]. constructor. left. exact (bad_panic (@ends_graph ideo t inp mode) B).
    + destruct (bad_or (graph_stmts ideo t inp mode)) as [B|(ss & Eg)].
      * right. split; [apply fails_left; exact (graph_bad (or_intror B) Hs)|]. constructor. right. exact (bad_panic (@ends_graph_stmts ideo t inp mode) B).
      * left. eapply wp_seq; [exact (graph_ok E Eg Hs)|]. intros r s1 [Hr H1]. cbn. split; [constructor; exact Hr|exact H1].
Qed.
Lemma worker_ok ideo js : forall s, spent s -> wp (d_worker ideo js) (fun rs s' => Forall2 (attempt ideo) js rs /\ spent s') s.
Proof.
  induction js as [|j js IH]; intros s Hs; cbn [d_worker]; [cbn; auto|].
  eapply wp_seq; [exact (job_caught ideo j Hs)|]. intros r s1 [Hr H1]. eapply wp_seq; [exact (IH s1 H1)|]. intros rs s2 [Hrs H2]. cbn. auto.
Qed.

(** ** Connections *)
Section Serving.
Variables (decode : bytes -> request + bytes) (newer : bool) (dot : bytes -> bytes) (ptr : addr -> bytes).
Variables (ideo : ideographic) (t : tokenizer).

Lemma call_caught c s : spent s -> wp (catch (d_call decode newer dot ptr ideo t c))
  (fun o s' => (match o with Some r => alone decode newer dot ptr ideo t c r | None => breaks decode newer dot ideo t c end) /\ spent s') s.
Proof.
  intros Hs. apply (caught (Q := fun o => match o with Some r => alone decode newer dot ptr ideo t c r | None => breaks decode newer dot ideo t c end)).
  destruct c as [body|sen mode]; cbn [d_call breaks].
  - destruct (bad_or (serve_tokenize decode newer ideo t body)) as [B|(r & E)].
    + right. split; [|exact (bad_panic (@ends_tokenize decode newer ideo t body) B)].
      unfold serve_tokenize in B. unfold d_tokenize. destruct (decode body) as [req|e]; [|destruct (bad_ok B)]. destruct (bytes_eqb (rq_input req) []); [destruct (bad_ok B)|].
      apply bad_bind in B. destruct B as [B|(ts & Et & B)]; [apply fails_left; exact (analyze_bad B Hs)|].
      eapply fails_seq; [exact (analyze_ok Et Hs)|]. intros x s1 [-> H1]. apply bad_bind in B. destruct B as [B|(data & Ed & B)]; [|destruct (bad_ok B)].
      exact (fails_bad _ B H1).
    + left. assert (E' := E). unfold serve_tokenize in E. unfold d_tokenize. destruct (decode body) as [req|e].
      2:{ injection E as <-. cbn. split; [constructor; exact E'|exact Hs]. }
      destruct (bytes_eqb (rq_input req) []). { injection E as <-. cbn. split; [constructor; exact E'|exact Hs]. }
      apply ok_bind in E. destruct E as (ts & Et & E). apply ok_bind in E. destruct E as (data & Ed & E). injection E as <-.
      eapply wp_seq; [exact (analyze_ok Et Hs)|]. intros x s1 [-> H1]. apply (wp_lift Ed). cbn. split; [constructor; exact E'|exact H1].
  - set (dm := demo_mode mode).
    assert (K : forall name, serve_demo dot name ideo t sen mode = (let* ss := graph_stmts ideo t sen dm in let* ts := analyze_graph ideo t sen dm in let* rs := to_records ts in Ok (rs, svg_part (dot (dot_text name ss))))).
    { intros name. unfold serve_demo, demo_graph, graph_text. fold dm. destruct (graph_stmts ideo t sen dm); reflexivity. }
    unfold d_draw. fold dm. destruct (bad_or (graph_stmts ideo t sen dm)) as [B|(ss & Eg)].
    { right. split; [apply fails_left; exact (graph_bad (or_intror B) Hs)|]. intros name. rewrite K. rewrite (bad_panic (@ends_graph_stmts ideo t sen dm) B). reflexivity. }
    destruct (bad_or (analyze_graph ideo t sen dm)) as [B|(ts & Et)].
    { right. split; [apply fails_left; exact (graph_bad (or_introl B) Hs)|]. intros name. rewrite K, Eg. cbn [rbind]. rewrite (bad_panic (@ends_graph ideo t sen dm) B). reflexivity. }
    destruct (bad_or (to_records ts)) as [B|(rows & Er)].
    + right. split.
      * eapply fails_seq; [exact (graph_ok Et Eg Hs)|]. intros r s1 [Hr H1]. inversion Hr as [| |t' i' m' ts' ss' nm F1 F2 F3 G1 G2]; subst. rewrite Et in F1. injection F1 as F1.
        apply fails_bad; [rewrite <- F1; exact B|exact H1].
      * intros name. rewrite K, Eg. cbn [rbind]. rewrite Et. cbn [rbind]. rewrite (bad_panic (@ends_records ts) B). reflexivity.
    + left. eapply wp_seq; [exact (graph_ok Et Eg Hs)|]. intros r s1 [Hr H1]. inversion Hr as [| |t' i' m' ts' ss' nm F1 F2 F3 G1 G2]; subst. rewrite Et in F1. injection F1 as F1.
      rewrite Eg in F2. injection F2 as F2. rewrite <- F1. apply (wp_lift Er). cbn [wp]. split; [|exact H1].
      replace (dot_text ptr (map (renamed nm) ss')) with (dot_text (fun c => ptr (nm c)) ss).
      * apply al_draw with (name := nm); [|rewrite K, Eg; cbn [rbind]; rewrite Et; cbn [rbind]; rewrite Er; reflexivity].
        intros ss0 c c' E0. fold dm in E0. rewrite Eg in E0. injection E0 as <-. rewrite F2. apply F3.
      * rewrite F2. unfold dot_text. f_equal. f_equal. f_equal. rewrite map_map. apply map_ext. intros []; reflexivity.
Qed.

Lemma connection_ok cs : forall s, spent s -> wp (d_connection decode newer dot ptr ideo t cs) (fun rs s' => handled decode newer dot ptr ideo t cs rs /\ spent s') s.
Proof.
  induction cs as [|c cs IH]; intros s Hs; cbn [d_connection]; [cbn; split; [constructor|exact Hs]|].
  eapply wp_seq; [exact (call_caught c Hs)|]. intros [r|] s1 [Hr H1].
  - eapply wp_seq; [exact (IH s1 H1)|]. intros rs s2 [Hrs H2]. cbn. split; [constructor; assumption|exact H2].
  - cbn. split; [constructor; exact Hr|exact H1].
Qed.
End Serving.

(** ** Interleavings *)
Lemma spent0 : spent lheap0.
Proof. apply spent_empty. split; cbn; [discriminate|reflexivity]. Qed.
Lemma spent_lats s a : spent s -> ll s a = None.
Proof. intros (s0 & Z & C). rewrite (cv_l C). apply (em_lats Z). Qed.

Section Kept.
Variables (A : Type) (g0 : memory) (ps : list (prog A)) (Rs : list (A -> Prop)).
Hypothesis Hg : left_over g0.
Hypothesis Hp : Forall2 (fun (R : A -> Prop) p => wp p (fun a s => R a /\ spent s) lheap0) Rs ps.
Variables (g : memory) (ths : list (thread A)).
Hypothesis Hs : steps (g0, map start_thread ps) (g, ths).

Lemma kept_loose : Forall2 (fun (R : A -> Prop) p => wp p (fun a _ => R a) lheap0) Rs ps.
Proof. eapply Forall2_impl_in; [exact Hp|]. intros R p _ W. eapply wp_mono; [exact W|]. intros a s [H _]. exact H. Qed.

Theorem kept_results : length ths = length ps /\
  forall k R th, nth_error Rs k = Some R -> nth_error ths k = Some th ->
    (forall r, th_prog th = Ret r -> R r /\ th_lats th = []) /\ (finished th \/ exists g' th', tstep g th g' th').
Proof.
  split; [exact (proj1 (any_results Hg kept_loose Hs))|]. intros k R th H1 H2.
  destruct (proj2 (any_results Hg kept_loose Hs) k R th H1 H2) as [K1 K2]. split; [|exact K2]. intros r E. split; [exact (K1 r E)|].
  assert (G0 : ginv (map (fun (R : A -> Prop) a s => R a /\ spent s) Rs) (g0, map start_thread ps)).
  { destruct Hg as [Ln Ll Lf]. apply start_ginv; [apply Forall2_map_l; exact Hp| | |].
    - apply apart_NoDup. rewrite app_nil_r. exact Ln.
    - apply apart_NoDup. rewrite app_nil_r. exact Ll.
    - intros a Ha. apply freed_clean, Lf, cnt_In, Ha. }
  destruct (steps_ginv Hs G0) as (F & _). pose proof (HeapProps.Forall2_nth F (map_nth_error (fun (R : A -> Prop) a s => R a /\ spent s) _ _ H1) H2) as (s & W & AG).
  rewrite E in W. destruct W as [_ W]. destruct (th_lats th) as [|x l] eqn:El; [reflexivity|].
  destruct (proj1 (ag_lats AG x)) as (h & Eh); [rewrite El, cnt_cons, Nat.eqb_refl; lia|]. rewrite (spent_lats x W) in Eh. discriminate.
Qed.
Theorem kept_completes : exists g' ths', steps (g, ths) (g', ths') /\ (forall th, In th ths' -> finished th) /\ left_over g'.
Proof. exact (any_completes Hg kept_loose Hs). Qed.
End Kept.

Section Workers.
Variables (g0 : memory) (ideo : ideographic) (work : list (list job)) (g : memory) (ths : list (thread (list (option answer)))).
Hypothesis Hg : left_over g0.
Hypothesis Hs : steps (d_workers ideo g0 work) (g, ths).
Lemma workers_start : Forall2 (fun (R : list (option answer) -> Prop) p => wp p (fun a s => R a /\ spent s) lheap0)
  (map (fun js rs => Forall2 (attempt ideo) js rs) work) (map (d_worker ideo) work).
Proof. clear. induction work as [|js w IH]; cbn [map]; constructor; [|exact IH]. apply worker_ok. exact spent0. Qed.
Lemma workers_steps : steps (g0, map start_thread (map (d_worker ideo) work)) (g, ths).
Proof. rewrite map_map. exact Hs. Qed.
Theorem workers_results : length ths = length work /\
  forall k js th, nth_error work k = Some js -> nth_error ths k = Some th ->
    (forall rs, th_prog th = Ret rs -> Forall2 (attempt ideo) js rs /\ th_lats th = []) /\
    (finished th \/ exists g' th', tstep g th g' th').
Proof.
  destruct (kept_results Hg workers_start workers_steps) as (L & K). rewrite map_length in L. split; [exact L|].
  intros k js th H1 H2. apply (K k _ th); [|exact H2]. rewrite nth_error_map, H1. reflexivity.
Qed.
Theorem workers_complete : exists g' ths', steps (g, ths) (g', ths') /\ (forall th, In th ths' -> finished th) /\ left_over g'.
Proof. exact (kept_completes Hg workers_start workers_steps). Qed.
End Workers.

Section Connections.
Variables (decode : bytes -> request + bytes) (newer : bool) (dot : bytes -> bytes) (ptr : addr -> bytes) (ideo : ideographic).
Variables (g0 : memory) (conns : list (tokenizer * list call)) (g : memory) (ths : list (thread (list (option reply)))).
Hypothesis Hg : left_over g0.
Hypothesis Hs : steps (d_server decode newer dot ptr ideo g0 conns) (g, ths).
Lemma conns_start : Forall2 (fun (R : list (option reply) -> Prop) p => wp p (fun a s => R a /\ spent s) lheap0)
  (map (fun c rs => handled decode newer dot ptr ideo (fst c) (snd c) rs) conns) (map (fun c => d_connection decode newer dot ptr ideo (fst c) (snd c)) conns).
Proof. clear. induction conns as [|c w IH]; cbn [map]; constructor; [|exact IH]. apply connection_ok. exact spent0. Qed.
Lemma conns_steps : steps (g0, map start_thread (map (fun c => d_connection decode newer dot ptr ideo (fst c) (snd c)) conns)) (g, ths).
Proof. rewrite map_map. exact Hs. Qed.
Theorem conns_results : length ths = length conns /\
  forall k t cs th, nth_error conns k = Some (t, cs) -> nth_error ths k = Some th ->
    (forall rs, th_prog th = Ret rs -> handled decode newer dot ptr ideo t cs rs /\ th_lats th = []) /\
    (finished th \/ exists g' th', tstep g th g' th').
Proof.
  destruct (kept_results Hg conns_start conns_steps) as (L & K). rewrite map_length in L. split; [exact L|].
  intros k t cs th H1 H2. apply (K k _ th); [|exact H2]. rewrite nth_error_map, H1. reflexivity.
Qed.
Theorem conns_complete : exists g' ths', steps (g, ths) (g', ths') /\ (forall th, In th ths' -> finished th) /\ left_over g'.
Proof. exact (kept_completes Hg conns_start conns_steps). Qed.
End Connections.
