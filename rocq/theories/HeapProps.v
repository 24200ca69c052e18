(** The properties of pooled memory and concurrent calls, from HeapSound.v and HeapFacts.v. *)
From Verif Require Export SpecHeap HeapFacts HeapDot.
From Coq Require Import ZifyBool ZifyNat.
Set Implicit Arguments.
Unset Strict Implicit.
Open Scope nat_scope.

Lemma freed_clean l : freed l <-> clean l.
Proof.
  split.
  - intros [H1 H2 [H3 H3'] H4 H5]. split; try assumption; [split; assumption|].
    intros r Hr. destruct (H5 r Hr). split; assumption.
  - intros [H1 [H2 H2'] H3 H4 H5]. split; try assumption; [split; assumption|].
    intros r Hr. destruct (H4 r Hr). split; assumption.
Qed.

Lemma cnt_NoDup l : NoDup l <-> forall a, cnt l a <= 1.
Proof. unfold cnt. apply NoDup_count_occ. Qed.

Lemma NoDup_app_l (l m : list addr) : NoDup (l ++ m) -> NoDup l.
Proof. rewrite !cnt_NoDup. intros H a. specialize (H a). rewrite cnt_app in H. lia. Qed.
Lemma apart_NoDup next pool rest : apart next pool [] rest <-> NoDup (pool ++ rest) /\ forall a, In a (pool ++ rest) -> a < next.
Proof.
  split.
  - intros H. split.
    + apply cnt_NoDup. intros a. specialize (H a). rewrite cnt_nil in H. rewrite cnt_app. destruct (a <? next); lia.
    + intros a Ha. apply cnt_In in Ha. specialize (H a). rewrite cnt_nil in H. rewrite cnt_app in Ha. destruct (Nat.ltb_spec a next); lia.
  - intros [N L] a. rewrite cnt_NoDup in N. specialize (N a). rewrite cnt_nil. rewrite cnt_app in N. destruct (Nat.ltb_spec a next); [lia|].
    destruct (Nat.eq_dec (cnt (pool ++ rest) a) 0) as [Z|Z]; [rewrite cnt_app in Z; lia|].
    assert (a < next) by (apply L, cnt_In; lia). lia.
Qed.

Definition ideal (ideo : ideographic) (js : list job) (rs : list answer) (s : lheap) : Prop := Forall2 (right_answer ideo) js rs /\ empty s.

Lemma start_inv g ideo jobs : left_over g -> (forall js, In js jobs -> forall j, In j js -> job_ok j) ->
  ginv (map (ideal ideo) jobs) (start g ideo jobs).
Proof.
  intros [Ln Ll Lf] H. unfold start. rewrite <- (map_map (h_jobs ideo) (@start_thread _)). apply start_ginv.
  - clear Ln Ll Lf. induction jobs as [|js jobs IH]; cbn [map]; constructor.
    + apply sim_jobs; [apply H; left; reflexivity|]. split; cbn; [discriminate|reflexivity].
    + apply IH. intros js' Hjs. apply H. right. exact Hjs.
  - apply apart_NoDup. rewrite app_nil_r. exact Ln.
  - apply apart_NoDup. rewrite app_nil_r. exact Ll.
  - intros a Ha. apply freed_clean, Lf, cnt_In, Ha.
Qed.

Lemma steps_trans A (x y z : memory * list (thread A)) : steps x y -> steps y z -> steps x z.
Proof. intros H1 H2. induction H2; [assumption|]. econstructor; [apply IHsteps; assumption|eassumption]. Qed.

Section Reached.
Variables (g0 : memory) (ideo : ideographic) (jobs : list (list job)).
Hypothesis Hg : left_over g0.
Hypothesis Hj : forall js, In js jobs -> forall j, In j js -> job_ok j.
Variables (g : memory) (ths : list (thread (list answer))).
Hypothesis Hs : steps (start g0 ideo jobs) (g, ths).

Lemma reached : ginv (map (ideal ideo) jobs) (g, ths).
Proof. exact (steps_ginv Hs (start_inv ideo Hg Hj)). Qed.

Lemma Forall2_nth A B (R : A -> B -> Prop) l l' k x y : Forall2 R l l' -> nth_error l k = Some x -> nth_error l' k = Some y -> R x y.
Proof.
  intros F. revert k. induction F; intros [|k] H1 H2; cbn in *; try discriminate; [congruence|eauto].
Qed.

Lemma reached_thread k js th : nth_error jobs k = Some js -> nth_error ths k = Some th -> tinv g (ideal ideo js) th.
Proof.
  intros H1 H2. destruct reached as (F & _). apply (Forall2_nth (k := k) F); [|exact H2]. rewrite nth_error_map, H1. reflexivity.
Qed.

Lemma no_interference :
  length ths = length jobs /\
  forall k js th, nth_error jobs k = Some js -> nth_error ths k = Some th ->
    (forall rs, th_prog th = Ret rs -> Forall2 (right_answer ideo) js rs) /\
    (finished th \/ exists g' th', tstep g th g' th').
Proof.
  split.
  - destruct reached as (F & _). apply Forall2_length in F. rewrite map_length in F. auto.
  - intros k js th H1 H2. pose proof (reached_thread H1 H2) as T. split.
    + intros rs E. destruct T as (s & W & _). rewrite E in W. apply W.
    + destruct (tinv_progress T) as [(r & _ & E & _)|P]; [left; exists r; exact E|right; exact P].
Qed.

Lemma one_owner :
  NoDup (g_node_pool g ++ flat_map (fun th => th_nodes th ++ th_new th) ths) /\
  NoDup (g_lat_pool g ++ flat_map th_lats ths) /\
  (forall th, In th ths ->
     (forall a, uses_node (th_prog th) a -> In a (th_nodes th ++ th_new th)) /\
     (forall a k, th_prog th = NodePut a k -> In a (th_nodes th)) /\
     (forall a, uses_lat (th_prog th) a -> In a (th_lats th)) /\
     (finished th -> th_nodes th = [] /\ th_lats th = [])) /\
  (forall a, In a (g_lat_pool g) -> freed (g_lats g a)).
Proof.
  destruct reached as (F & An & Al & Ac). apply apart_NoDup in An. apply apart_NoDup in Al.
  split; [exact (proj1 An)|]. split; [exact (proj1 Al)|]. split.
  - intros th Hth. apply In_nth_error in Hth. destruct Hth as (k & Hk).
    destruct (nth_error jobs k) as [js|] eqn:Ej.
    2:{ apply nth_error_None in Ej. apply Forall2_length in F. rewrite map_length in F. assert (k < length ths) by (apply nth_error_Some; congruence). lia. }
    pose proof (reached_thread Ej Hk) as T. split; [|split; [|split]].
    + intros a Ha. destruct T as (s & W & AG). rewrite in_app_iff, !cnt_In, (ag_nodes AG), (ag_new AG).
      destruct Ha; cbn in W.
      * destruct W as (E & _). auto.
      * destruct W as ([] & h & E & _); eauto.
      * destruct W as ([] & h & E & _); eauto.
    + intros a p E. destruct T as (s & W & AG). rewrite E in W. cbn in W. apply cnt_In, (ag_nodes AG). apply W.
    + intros a Ha. destruct T as (s & W & AG). apply cnt_In, (ag_lats AG). destruct Ha; cbn in W.
      * destruct W as ((l & E & _) & _). eauto.
      * destruct W as (l & E & _). eauto.
      * destruct W as (l & E & _). eauto.
    + intros (r & E). destruct (tinv_progress T) as [(r' & s & _ & (_ & H) & AG)|(g' & th' & St)]; [exact (empty_none AG H)|].
      exfalso. destruct St; discriminate.
  - intros a Ha. apply freed_clean, Ac, cnt_In, Ha.
Qed.

Lemma completes : exists g' ths', steps (g, ths) (g', ths') /\ (forall th, In th ths' -> finished th) /\ left_over g'.
Proof.
  assert (K : forall x, ginv (map (ideal ideo) jobs) x -> exists y, steps x y /\ ginv (map (ideal ideo) jobs) y /\ forall th, In th (snd y) -> finished th).
  { intros x. induction (step_wf (A := list answer) x) as [x _ IH]. intros G.
    assert (D : (forall th, In th (snd x) -> finished th) \/ exists y, step x y).
    { destruct x as [g1 ths1]. destruct G as (F & _). clear - F. cbn. remember (map (ideal ideo) jobs) as Rs. clear HeqRs.
      assert (Q : forall pre, (forall th, In th ths1 -> finished th) \/ exists y, step (g1, pre ++ ths1) y).
      { induction F as [|R th Rs ths1 HT F IH]; intros pre; [left; contradiction|].
        destruct (tinv_progress HT) as [(r & _ & E & _)|(g' & th' & St)].
        - destruct (IH (pre ++ [th])) as [A|[y Hy]].
          + left. intros t [<-|Ht]; [exists r; exact E|auto].
          + right. exists y. rewrite <- app_assoc in Hy. exact Hy.
        - right. eexists. constructor. exact St. }
      exact (Q []). }
    destruct D as [D|[y Hy]].
    - exists x. split; [constructor|]. auto.
    - destruct (IH y Hy (step_ginv Hy G)) as (z & S1 & G1 & F1). exists z. split; [|auto].
      eapply steps_trans; [|exact S1]. econstructor; [constructor|exact Hy]. }
  destruct (K _ reached) as ([g' ths'] & S1 & G1 & F1). exists g', ths'. split; [exact S1|]. split; [exact F1|].
  destruct G1 as (_ & An & Al & Ac). apply apart_NoDup in An. apply apart_NoDup in Al. split.
  - destruct An as [N L]. apply NoDup_app_l in N. split; [exact N|]. intros a Ha. apply L, in_or_app. auto.
  - destruct Al as [N L]. apply NoDup_app_l in N. split; [exact N|]. intros a Ha. apply L, in_or_app. auto.
  - intros a Ha. apply freed_clean, Ac, cnt_In, Ha.
Qed.
End Reached.

Lemma no_infinite_run g ideo jobs : ~ exists f : nat -> memory * list (thread (list answer)),
  f 0 = start g ideo jobs /\ forall n, step (f n) (f (S n)).
Proof.
  intros (f & _ & H). assert (K : forall x, forall n, f n = x -> False); [|exact (K _ 0 eq_refl)].
  intros x. induction (step_wf (A := list answer) x) as [x _ IH]. intros n <-. exact (IH _ (H n) (S n) eq_refl).
Qed.

Lemma start_left_over : left_over start_memory.
Proof. split; cbn; try contradiction; split; try constructor; contradiction. Qed.

(** Two goroutines are never about to use the same object, and nobody uses a pooled one. *)
Lemma no_shared_use g0 ideo jobs g ths : left_over g0 -> (forall js, In js jobs -> forall j, In j js -> job_ok j) ->
  steps (start g0 ideo jobs) (g, ths) -> forall k k' th th', nth_error ths k = Some th -> nth_error ths k' = Some th' -> k <> k' ->
  (forall a, uses_node (th_prog th) a -> ~ uses_node (th_prog th') a /\ ~ In a (g_node_pool g)) /\
  (forall a, uses_lat (th_prog th) a -> ~ uses_lat (th_prog th') a /\ ~ In a (g_lat_pool g)).
Proof.
  intros Hg Hj Hs k k' th th' H1 H2 N. destruct (one_owner Hg Hj Hs) as (N1 & N2 & O & _).
  assert (K : forall f : thread (list answer) -> list addr, forall pool a, NoDup (pool ++ flat_map f ths) -> In a (f th) -> ~ In a (f th') /\ ~ In a pool).
  { intros f pool a. rewrite cnt_NoDup. intros D Ha. specialize (D a). rewrite cnt_app in D. rewrite !cnt_In in *.
    apply nth_error_split in H1. destruct H1 as (l1 & l2 & -> & L1). rewrite cnt_flat in D. split; [|lia].
    assert (In th' (l1 ++ l2)).
    { destruct (Nat.lt_ge_cases k' k).
      - rewrite nth_error_app1 in H2 by lia. apply in_or_app. left. eapply nth_error_In. exact H2.
      - rewrite nth_error_app2 in H2 by lia. destruct (k' - length l1) as [|m] eqn:Em; [lia|]. cbn in H2. apply in_or_app. right. eapply nth_error_In. exact H2. }
    rewrite <- flat_map_app in D. pose proof (cnt_flat_in f a H). lia. }
  apply nth_error_In in H1 as I1. apply nth_error_In in H2 as I2. destruct (O th I1) as (U1 & _ & U2 & _). destruct (O th' I2) as (V1 & _ & V2 & _).
  split; intros a Ha.
  - destruct (K _ _ a N1 (U1 a Ha)) as [A B]. split; [|exact B]. intros Hb. exact (A (V1 a Hb)).
  - destruct (K _ _ a N2 (U2 a Ha)) as [A B]. split; [|exact B]. intros Hb. exact (A (V2 a Hb)).
Qed.

(** The result of the last of a sequence of calls. *)
Lemma after_history g0 ideo js j g th rs : left_over g0 -> (forall x, In x (js ++ [j]) -> job_ok x) ->
  steps (start g0 ideo [js ++ [j]]) (g, [th]) -> th_prog th = Ret rs ->
  exists a, right_answer ideo j a /\ nth_error rs (length js) = Some a.
Proof.
  intros Hg Hj Hs E. assert (Hj' : forall js', In js' [js ++ [j]] -> forall x, In x js' -> job_ok x) by (intros js' [<-|[]]; exact Hj).
  destruct (@no_interference g0 ideo [js ++ [j]] Hg Hj' g [th] Hs) as (_ & K).
  destruct (K 0 (js ++ [j]) th eq_refl eq_refl) as (R & _). specialize (R rs E). apply Forall2_app_inv_l in R.
  destruct R as (l1 & l2 & F1 & F2 & ->). inversion F2 as [|? a ? l3 Ha F3]; subst. inversion F3; subst. exists a. split; [exact Ha|].
  rewrite nth_error_app2 by (rewrite (Forall2_length F1); lia). rewrite (Forall2_length F1), Nat.sub_diag. reflexivity.
Qed.

(** The text a graph call of any goroutine has written, whatever the run time prints for the
    address of a node. *)
Lemma graph_written g0 ideo jobs g ths : left_over g0 -> (forall js, In js jobs -> forall j, In j js -> job_ok j) ->
  steps (start g0 ideo jobs) (g, ths) -> forall k js th rs i t inp mode, nth_error jobs k = Some js -> nth_error ths k = Some th ->
  th_prog th = Ret rs -> nth_error js i = Some (JGraph t inp mode) ->
  exists ts drawn name, nth_error rs i = Some (AGraph ts drawn) /\ analyze_graph ideo t inp mode = Ok ts /\
    forall ptr : addr -> bytes, graph_text (fun c => ptr (name c)) ideo t inp mode = Ok (dot_text ptr drawn).
Proof.
  intros Hg Hj Hs k js th rs i t inp mode H1 H2 H3 H4. destruct (no_interference Hg Hj Hs) as (_ & K). destruct (K k js th H1 H2) as (F & _).
  specialize (F rs H3). revert i H4. clear - F. induction F as [|j a js rs Ha F IH]; intros [|i] H4; cbn [nth_error] in *; try discriminate; [|eauto].
  injection H4 as ->. inversion Ha as [| |t' i' m' ts ss nm E1 E2 _]; subst. exists ts, (map (renamed nm) ss), nm. split; [reflexivity|]. split; [exact E1|].
  intros ptr. unfold graph_text. rewrite E2. cbn [rbind]. f_equal. unfold dot_text. f_equal. f_equal. f_equal. rewrite map_map. apply map_ext.
  intros []; reflexivity.
Qed.
