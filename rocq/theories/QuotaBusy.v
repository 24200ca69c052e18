(** Only goroutines that are inside a call hold nodes. *)
From Verif Require Export QuotaPeak.
From Coq Require Import ZifyBool ZifyNat.
Set Implicit Arguments.
Unset Strict Implicit.
Open Scope nat_scope.

(** The same program, but it stops if it takes a node without a lattice or gives the lattice back
    while it has nodes. *)
Fixpoint guarded {A} (p : prog A) (h l : nat) : prog (A * nat * nat) :=
  match p with
  | Ret a => Ret (a, h, l)
  | Stop => Stop
  | Choose k => Choose (fun n => guarded (k n) h l)
  | NodeGet k => match l with O => Stop | S _ => NodeGet (fun a => guarded (k a) (S h) l) end
  | NodePut a k => NodePut a (guarded k (pred h) l)
  | NodeNew n k => NodeNew n (fun a => guarded (k a) h l)
  | NodeRead a k => NodeRead a (fun x => guarded (k x) h l)
  | NodeSet a f k => NodeSet a f (guarded k h l)
  | LatGet k => LatGet (fun a => guarded (k a) h (S l))
  | LatPut a k => match h with O => LatPut a (guarded k O (pred l)) | S _ => Stop end
  | LatRead a k => LatRead a (fun x => guarded (k x) h l)
  | LatSet a f k => LatSet a f (guarded k h l)
  end.

Lemma guarded_bind A B (p : prog A) (f : A -> prog B) Q : forall s h l,
  wp (guarded p h l) (fun x s' => wp (guarded (f (fst (fst x))) (snd (fst x)) (snd x)) Q s') s -> wp (guarded (pbind p f) h l) Q s.
Proof.
  induction p as [a| |k IH|k IH|a p IH|n k IH|a k IH|a g p IH|k IH|a p IH|a k IH|a g p IH]; intros s h l; cbn; auto.
  - destruct l; cbn; auto.
  - intros [H1 H2]. auto.
  - intros (b & x & E & W). eauto 6.
  - intros (b & x & E & W). eauto 6.
  - destruct h; cbn; [|auto]. intros [H1 H2]. auto.
  - intros (y & E & W). eauto.
  - intros (y & E & W). eauto.
Qed.

Definition safe {A} (p : prog A) (Q : A -> lheap -> Prop) (s : lheap) : Prop :=
  forall h l, account s h l -> wp (guarded p h l) (fun x s' => Q (fst (fst x)) s' /\ account s' (snd (fst x)) (snd x)) s.
Lemma safe_bind A B (p : prog A) (f : A -> prog B) Q s : safe p (fun a s' => safe (f a) Q s') s -> safe (pbind p f) Q s.
Proof. intros H h l C. apply guarded_bind. eapply wp_mono; [exact (H h l C)|]. intros [[a h'] l'] s' [W C']. exact (W h' l' C'). Qed.
Lemma safe_mono A (p : prog A) (Q Q' : A -> lheap -> Prop) s : safe p Q s -> (forall a s', Q a s' -> Q' a s') -> safe p Q' s.
Proof. intros H HQ h l C. eapply wp_mono; [exact (H h l C)|]. intros x s' [H1 H2]. auto. Qed.

(** Programs that leave the pool of lattices alone; and those whose last step gives one back. *)
Fixpoint nolat {A} (p : prog A) : Prop :=
  match p with
  | Ret _ | Stop => True
  | Choose k => forall n, nolat (k n)
  | LatGet _ | LatPut _ _ => False
  | NodeGet k => forall a, nolat (k a)
  | NodePut _ k | NodeSet _ _ k | LatSet _ _ k => nolat k
  | NodeNew _ k => forall a, nolat (k a)
  | NodeRead _ k => forall h, nolat (k h)
  | LatRead _ k => forall l, nolat (k l)
  end.
Fixpoint lastput {A} (p : prog A) : Prop :=
  match p with
  | Ret _ | Stop => True
  | Choose k => forall n, lastput (k n)
  | LatGet _ => False
  | LatPut _ k => exists r, k = Ret r
  | NodeGet k => forall a, lastput (k a)
  | NodePut _ k | NodeSet _ _ k | LatSet _ _ k => lastput k
  | NodeNew _ k => forall a, lastput (k a)
  | NodeRead _ k => forall h, lastput (k h)
  | LatRead _ k => forall l, lastput (k l)
  end.

Lemma lastput_bind A B (p : prog A) (f : A -> prog B) : nolat p -> (forall a, lastput (f a)) -> lastput (pbind p f).
Proof. intros H1 H2. induction p; cbn in *; auto; contradiction. Qed.
Lemma lastput_ret A B (p : prog A) (f : A -> prog B) : lastput p -> (forall a, exists r, f a = Ret r) -> lastput (pbind p f).
Proof.
  intros H1 H2. induction p; cbn in *; auto.
  - destruct (H2 a) as (r & ->). exact I.
  - destruct H1 as (r & ->). destruct (H2 r) as (r' & E). exists r'. exact E.
Qed.

Lemma safe_lastput A (p : prog A) (Q : A -> lheap -> Prop) s : lastput p -> wp p Q s -> (forall a s', Q a s' -> empty s') -> (exists a y, ll s a = Some y) -> safe p Q s.
Proof.
  intros G W HQ (a0 & y0 & E0) h l C.
  assert (L : 0 < l).
  { destruct (ac_lats C) as (o & [_ O] & <-). assert (In a0 o) by (apply O; eauto). destruct o; [contradiction|cbn; lia]. }
  clear a0 y0 E0. revert s h l G W C L.
  induction p as [a| |k IH|k IH|a p IH|x k IH|a k IH|a g p IH|k IH|a p IH|a k IH|a g p IH]; intros s h l; cbn [guarded wp lastput fst snd].
  - auto.
  - auto.
  - intros G W C L i. exact (IH i _ _ _ (G i) (W i) C L).
  - intros G W C L. destruct l as [|l]; [lia|]. cbn [wp]. intros a x Ha. exact (IH a _ _ _ (G a) (W a x Ha) (account_get x C Ha) L).
  - intros G [(x & E) W] C L. split; [eauto|]. destruct (account_put C E) as [C' _]. exact (IH _ _ _ G W C' L).
  - intros G W C L a Ha. exact (IH a _ _ _ (G a) (W a Ha) (account_new x C Ha) L).
  - intros G (b & x & E & W) C L. exists b, x. split; [exact E|]. exact (IH x _ _ _ (G x) W C L).
  - intros G (b & x & E & W) C L. exists b, x. split; [exact E|]. exact (IH _ _ _ G W (account_set (g x) C E) L).
  - contradiction.
  - intros (r & ->) [(y & E & Hy) W] C L. cbn [wp] in W. destruct (account_lput C E) as [C' _].
    destruct (account_empty C' (HQ _ _ W)) as [-> _]. cbn [wp guarded]. split; [eauto|]. split; [exact W|exact C'].
  - intros G (y & E & W) C L. exists y. split; [exact E|]. exact (IH y _ _ _ (G y) W C L).
  - intros G (y & E & W) C L. exists y. split; [exact E|]. exact (IH _ _ _ G W (account_lset (g y) C E) L).
Qed.

Lemma nolat_bind A B (p : prog A) (f : A -> prog B) : nolat p -> (forall a, nolat (f a)) -> nolat (pbind p f).
Proof. intros H1 H2. induction p; cbn in *; auto. Qed.
Lemma nolat_lift A (r : res A) : nolat (lift r).
Proof. destruct r; exact I. Qed.
Lemma nolat_deref A (r : option A) : nolat (deref r).
Proof. destruct r; exact I. Qed.
Lemma nolat_fold A B (f : A -> B -> prog A) l : (forall a b, nolat (f a b)) -> forall a, nolat (pfold f l a).
Proof. intros H. induction l as [|x l IH]; intros a; cbn [pfold]; [exact I|]. apply nolat_bind; auto. Qed.
Lemma noput_nolat A (p : prog A) : noput p -> nolat p.
Proof. induction p; cbn; auto; contradiction. Qed.

Ltac quiet :=
  repeat first
    [ exact I
    | apply nolat_bind | apply nolat_lift | apply nolat_deref | apply nolat_fold
    | progress intros
    | progress cbn [nolat node_get node_put node_new node_read node_set lat_get lat_put lat_read lat_set p_append]
    | match goal with
      | |- nolat (if ?b then _ else _) => destruct b
      | |- nolat (match ?x with _ => _ end) => destruct x
      end ].

Lemma nolat_build la inp : nolat (h_build la inp).
Proof. apply noput_nolat, noput_build. Qed.
Lemma nolat_forward ideo m la : nolat (h_forward ideo m la).
Proof. unfold h_forward, h_forward_pos, h_forward_target, h_relax, h_cell, peach. quiet. Qed.
Lemma nolat_cell la i j : nolat (h_cell la i j).
Proof. unfold h_cell. quiet. Qed.
Lemma nolat_output la x : nolat (h_output la x).
Proof. unfold h_output. quiet. Qed.
Lemma nolat_stack p l : forall i, nolat (h_stack p i l).
Proof. induction l as [|[k r] l IH]; intros i; cbn [h_stack]; quiet; try apply IH. Qed.
Lemma nolat_visit m la a : nolat (h_visit m la a).
Proof. unfold h_visit, peach. quiet; try first [apply nolat_output|apply nolat_stack]. Qed.
Lemma nolat_walk m la : forall fuel p, nolat (h_walk fuel m la p).
Proof.
  induction fuel as [|f IH]; intros [a|]; cbn [h_walk]; try exact I. apply nolat_bind; [apply nolat_visit|]. intros _. cbn. intros h. apply IH.
Qed.
Lemma nolat_backward m la : nolat (h_backward m la).
Proof.
  unfold h_backward. cbn [lat_read pbind nolat]. intros l. destruct (gs_len (l_list l)) as [|k]; [exact I|]. apply nolat_bind; [apply nolat_cell|]. intros p. apply nolat_walk.
Qed.
Lemma nolat_tokens t la : nolat (h_tokens t la).
Proof. unfold h_tokens. quiet. Qed.
Lemma nolat_graph_tokens t la : nolat (h_graph_tokens t la).
Proof. unfold h_graph_tokens. quiet. Qed.
Lemma nolat_dot la : nolat (h_dot la).
Proof. unfold h_dot, h_edges, h_edges_to, h_node_stmt, h_edge_stmt, h_skipped. quiet. Qed.
Lemma lastput_free la : lastput (h_free la).
Proof.
  unfold h_free. do 8 (apply lastput_bind; [try (unfold h_free_row, peach; quiet; fail)|intros ?]).
  all: cbn; eauto.
Qed.

(** ** One call *)
Lemma safe_run A d u (f : addr -> prog A) (Q : A -> lheap -> Prop) s : (forall la, lastput (f la)) -> (forall a s', Q a s' -> empty s') ->
  wp (do la <- h_new d u; f la) Q s -> safe (do la <- h_new d u; f la) Q s.
Proof.
  intros Hf HQ W. apply wp_unbind in W. apply safe_bind. unfold h_new in *. intros h l C. cbn [pbind lat_get lat_set guarded wp fst snd] in *.
  intros a x Ha Hx. destruct (W a x Ha Hx) as (y1 & E1 & y2 & E2 & W'). exists y1. split; [exact E1|]. exists y2. split; [exact E2|].
  pose proof (account_lget x C Ha) as C1. pose proof (account_lset (set_l_dic (Some d) y1) C1 E1) as C2. pose proof (account_lset (set_l_udic u y2) C2 E2) as C3.
  split; [|exact C3]. apply safe_lastput; [apply Hf|exact W'|exact HQ|]. exists a. eexists. cbn [ll lput_l]. apply set_at_same.
Qed.

Lemma safe_ret A (r : A) (Q : A -> lheap -> Prop) s : Q r s -> safe (Ret r) Q s.
Proof. intros H h l C. cbn. auto. Qed.

Lemma safe_map A B (p : prog A) (f : A -> B) (Q : B -> lheap -> Prop) s :
  safe p (fun a s' => Q (f a) s') s -> safe (do a <- p; Ret (f a)) Q s.
Proof. intros H. apply safe_bind. eapply safe_mono; [exact H|]. intros a s' Ha. apply safe_ret. exact Ha. Qed.

Lemma lastput_analyze ideo t mode inp la :
  lastput (h_build la inp;; h_forward ideo (to_lmode mode) la;; h_backward (to_lmode mode) la;; do tokens <- h_tokens t la; h_free la;; Ret tokens).
Proof.
  apply lastput_bind; [apply nolat_build|intros _]. apply lastput_bind; [apply nolat_forward|intros _]. apply lastput_bind; [apply nolat_backward|intros _].
  apply lastput_bind; [apply nolat_tokens|intros x]. apply lastput_ret; [apply lastput_free|eauto].
Qed.

Lemma safe_job ideo j s : job_ok j -> empty s -> safe (h_job ideo j) (fun r s' => right_answer ideo j r /\ empty s') s.
Proof.
  intros H Hs. pose proof (sim_job ideo H Hs) as W. destruct j as [t inp mode|t inp|t inp mode]; cbn [h_job] in *; apply wp_unbind in W.
  - apply safe_map. unfold h_analyze in *. apply safe_run; [intros la; apply lastput_analyze|intros a s' [_ E]; exact E|exact W].
  - apply wp_unbind in W. apply safe_map. apply safe_map. unfold h_analyze in *. apply safe_run; [intros la; apply lastput_analyze|intros a s' [_ E]; exact E|exact W].
  - apply safe_map. unfold h_graph in *. apply safe_run; [|intros a s' [_ E]; exact E|exact W]. intros la.
    apply lastput_bind; [apply nolat_build|intros _]. apply lastput_bind; [apply nolat_forward|intros _]. apply lastput_bind; [apply nolat_backward|intros _].
    apply lastput_bind; [apply nolat_graph_tokens|intros x]. apply lastput_bind; [apply nolat_dot|intros y]. apply lastput_ret; [apply lastput_free|eauto].
Qed.

Lemma safe_jobs ideo js : (forall j, In j js -> job_ok j) -> forall s, empty s -> safe (h_jobs ideo js) (fun rs s' => Forall2 (right_answer ideo) js rs /\ empty s') s.
Proof.
  induction js as [|j js IH]; intros H s Hs; cbn [h_jobs].
  - apply safe_ret. auto.
  - apply safe_bind. eapply safe_mono; [exact (safe_job ideo (H j (or_introl eq_refl)) Hs)|]. intros r s1 [Hr H1].
    apply safe_bind. eapply safe_mono; [apply (IH (fun x Hx => H x (or_intror Hx)) s1 H1)|]. intros rs s2 [Hrs H2]. apply safe_ret. auto.
Qed.

(** ** The system *)
Definition guard_of {A} (th : thread A) : thread (A * nat * nat) :=
  Thread (guarded (th_prog th) (length (th_nodes th)) (length (th_lats th))) (th_nodes th) (th_new th) (th_lats th).
Definition proper {A} (th : thread A) : Prop := th_lats th = [] -> th_nodes th = [].

Lemma guard_step A g (th : thread A) g' th' R : tstep g th g' th' -> proper th -> tinv g R (guard_of th) -> tstep g (guard_of th) g' (guard_of th') /\ proper th'.
Proof.
  intros St F (s & W & AG). unfold guard_of, proper in *.
  destruct St; cbn [th_prog th_nodes th_new th_lats guarded] in *.
  - split; [|auto]. exact (@t_choose _ g (fun n => guarded (k n) _ _) n hn hw hl).
  - destruct hl as [|b hl]; [destruct W|]. cbn [length] in *. split; [|discriminate].
    exact (@t_node_get _ nodes next p1 a p2 lats lnext lpool (fun a => guarded (k a) (S (length hn)) (S (length hl))) hn hw (b :: hl)).
  - destruct hl as [|b hl]; [destruct W|]. cbn [length] in *. split; [|discriminate].
    exact (@t_node_make _ nodes next pool lats lnext lpool (fun a => guarded (k a) (S (length hn)) (S (length hl))) hn hw (b :: hl)).
  - cbn [wp] in W. destruct W as ((h & Eh) & W). assert (I : In a hn) by (apply cnt_In; apply (ag_nodes AG); eauto).
    pose proof (remove_one_length I). split; [|intros E; rewrite (F E) in I; destruct I]. replace (length (remove_one a hn)) with (pred (length hn)) by lia. constructor.
  - split; [|auto]. exact (@t_node_new _ nodes next pool lats lnext lpool n (fun a => guarded (k a) _ _) hn hw hl).
  - split; [|auto]. exact (@t_node_read _ g a (fun a => guarded (k a) _ _) hn hw hl).
  - split; [|auto]. constructor.
  - cbn [length]. split; [|discriminate].
    exact (@t_lat_get _ nodes next pool lats lnext p1 a p2 (fun a => guarded (k a) (length hn) (S (length hl))) hn hw hl).
  - cbn [length]. split; [|discriminate].
    exact (@t_lat_make _ nodes next pool lats lnext lpool (fun a => guarded (k a) (length hn) (S (length hl))) hn hw hl).
  - destruct hn as [|b hn]; [|destruct W]. cbn [wp length] in *. destruct W as ((l & El & _) & W). assert (I : In a hl) by (apply cnt_In; apply (ag_lats AG); eauto).
    pose proof (remove_one_length I). split; [|auto]. replace (length (remove_one a hl)) with (pred (length hl)) by lia. constructor.
  - split; [|auto]. exact (@t_lat_read _ g a (fun a => guarded (k a) _ _) hn hw hl).
  - split; [|auto]. constructor.
Qed.

Section System.
Variables (g0 : memory) (ideo : ideographic) (jobs : list (list job)).
Hypothesis Hg : left_over g0.
Hypothesis Hj : forall js, In js jobs -> forall j, In j js -> job_ok j.

Definition guards (ths : list (thread (list answer))) := map guard_of ths.

Lemma guards_start : ginv (map (mideal ideo) jobs) (g0, guards (map (fun js => start_thread (h_jobs ideo js)) jobs)).
Proof.
  destruct Hg as [Ln Ll Lf]. unfold guards. rewrite map_map.
  replace (map (fun js => guard_of (start_thread (h_jobs ideo js))) jobs)
    with (map (@start_thread _) (map (fun js => guarded (h_jobs ideo js) 0 0) jobs)) by (rewrite map_map; reflexivity).
  apply start_ginv.
  - clear Ln Ll Lf. induction jobs as [|js l IH]; cbn [map]; constructor.
    + eapply wp_mono; [refine (safe_jobs _ (js := js) _ _ account_start)|].
      * apply Hj. left. reflexivity.
      * split; cbn; [discriminate|reflexivity].
      * intros x s' [H _]. exact H.
    + apply IH. intros js' I. apply Hj. right. exact I.
  - apply apart_NoDup. rewrite app_nil_r. exact Ln.
  - apply apart_NoDup. rewrite app_nil_r. exact Ll.
  - intros a Ha. apply freed_clean, Lf, cnt_In, Ha.
Qed.

Lemma guards_reach g ths : steps (start g0 ideo jobs) (g, ths) -> Forall proper ths /\ ginv (map (mideal ideo) jobs) (g, guards ths).
Proof.
  intros S. remember (start g0 ideo jobs) as x eqn:Ex. remember (g, ths) as y eqn:Ey. revert g ths Ey. induction S as [x|x y z S IH T]; intros g ths Ey.
  - rewrite Ex in Ey. unfold start in Ey. injection Ey as <- <-. split; [|exact guards_start]. rewrite Forall_map. apply Forall_forall. intros js _ _. reflexivity.
  - subst z. specialize (IH Ex). clear Ex S. inversion T as [g1 t1 th t2 g' th' T1 E1 E2]; subst. destruct (IH _ _ eq_refl) as (F & G).
    apply Forall_app in F. destruct F as [Fa Fb]. inversion Fb as [|? ? Fc Fd]; subst. unfold guards in *. rewrite map_app in *. cbn [map] in *.
    assert (TI : exists R, tinv g1 R (guard_of th)).
    { destruct G as (FG & _). apply Forall2_split in FG. destruct FG as (l1 & R & l2 & _ & _ & H & _). eauto. }
    destruct TI as (R & TI). destruct (guard_step T1 Fc TI) as [T2 F2].
    split; [apply Forall_app; split; [exact Fa|constructor; [exact F2|exact Fd]]|]. refine (step_ginv _ G). constructor. exact T2.
Qed.

Lemma held_inside g ths : steps (start g0 ideo jobs) (g, ths) -> forall th, In th ths -> inside th = false -> th_nodes th = [].
Proof.
  intros S th I E. destruct (guards_reach S) as [F _]. rewrite Forall_forall in F. apply (F th I). unfold inside in E. destruct (th_lats th); [reflexivity|discriminate].
Qed.

Lemma held_load g ths : steps (start g0 ideo jobs) (g, ths) -> length (flat_map th_nodes ths) <= load jobs ths /\ length (flat_map th_lats ths) <= busy ths.
Proof.
  intros S. pose proof (held_inside S) as HI. pose proof (held_bound Hg Hj S) as HB.
  assert (L : length jobs = length ths).
  { destruct (meters_reach Hg Hj S) as (kts & -> & Ek & _). rewrite map_length, <- (map_length largest_call jobs), <- Ek, map_length. reflexivity. }
  clear S. revert L HB. generalize jobs as js. intros js. revert ths HI. induction js as [|j js IH]; intros [|th ths] HI L HB; try discriminate; [cbn; lia|].
  destruct (IH ths (fun x Hx => HI x (or_intror Hx))) as [I1 I2]; [cbn in L; lia|intros k; exact (HB (S k))|].
  specialize (HB 0 j th eq_refl eq_refl). specialize (HI th (or_introl eq_refl)). unfold load, busy in *. cbn [flat_map combine map filter list_sum fold_right fst snd] in *. rewrite !app_length.
  unfold list_sum in *. unfold inside at 1 3. unfold inside in HI at 1. destruct (th_lats th) as [|b l]; [rewrite (HI eq_refl)|]; cbn [length] in *; lia.
Qed.

Lemma frugal_run_steps A (P : memory * list (thread A) -> Prop) (x y : memory * list (thread A)) : frugal_run P x y -> frugal_steps x y /\ P y.
Proof. intros S. induction S as [x H|x y z S [IH _] T H]; [split; [constructor|exact H]|]. split; [econstructor; eassumption|exact H]. Qed.

(** What is there is bounded by what was needed at some moment. *)
Lemma busy_bound B n x : frugal_run (fun y => load jobs (snd y) <= B /\ busy (snd y) <= n) (start g0 ideo jobs) x ->
  pooled_nodes x <= Nat.max (length (g_node_pool g0)) B /\ pooled_lats x <= Nat.max (length (g_lat_pool g0)) n.
Proof.
  intros S. remember (start g0 ideo jobs) as x0 eqn:E0. induction S as [x H|x y z S IH T H].
  - subst x. unfold pooled_nodes, pooled_lats, start. cbn [fst snd].
    assert (Z : forall f : thread (list answer) -> list addr, (forall p, f (start_thread p) = []) -> flat_map f (map (fun js => start_thread (h_jobs ideo js)) jobs) = []).
    { intros f Hf. clear - Hf. induction jobs as [|js l IH]; cbn; [reflexivity|]. rewrite Hf, IH. reflexivity. }
    rewrite !Z by reflexivity. cbn [length]. lia.
  - subst x. specialize (IH eq_refl). destruct (frugal_run_steps S) as [Sf _]. pose proof (frugal_steps_steps Sf) as Sx. destruct T as [g t1 th t2 g' th' T R].
    assert (Sz : steps (start g0 ideo jobs) (g', t1 ++ th' :: t2)) by (econstructor; [exact Sx|constructor; exact T]).
    destruct (held_load Sz) as [B1 B2]. destruct (one_owner Hg Hj Sx) as (_ & _ & O & _).
    destruct (O th) as (_ & P1 & P2 & _); [apply in_or_app; right; left; reflexivity|].
    destruct (frugal_pool T R P1) as [D1 D2]; [intros a k E; apply P2; rewrite E; constructor|].
    unfold pooled_nodes, pooled_lats in *. cbn [fst snd] in *. rewrite !flat_map_app in *. cbn [flat_map] in *. rewrite !app_length in *.
    split; [destruct D1 as [D|D]|destruct D2 as [D|D]]; try rewrite D in *; cbn [length] in *; lia.
Qed.
End System.

Lemma load_busy d u K V R jobs (ths : list (thread (list answer))) : wf_dict d -> wf_udict u -> SpecWork.words_bound d u K V ->
  (forall js, In js jobs -> forall j, In j js -> short_job d u R j) -> load jobs ths <= busy ths * (2 + R * (K + 2 * V)).
Proof.
  intros Hd Hu Hb. revert ths. unfold load, busy, list_sum. induction jobs as [|js jobs IH]; intros [|th ths] Hs; cbn [combine map fold_right filter]; try lia.
  specialize (IH ths (fun x Hx => Hs x (or_intror Hx))). cbn [fst snd].
  assert (B : largest_call js <= 2 + R * (K + 2 * V)).
  { apply list_max_le. rewrite Forall_map. apply Forall_forall. intros j I. exact (short_nodes Hd Hu Hb (Hs js (or_introl eq_refl) j I)). }
  destruct (inside th); cbn [length]; lia.
Qed.

Lemma frugal_run_mono A (P Q : memory * list (thread A) -> Prop) x y : (forall z, P z -> Q z) -> frugal_run P x y -> frugal_run Q x y.
Proof. intros H S. induction S; econstructor; eauto. Qed.

Lemma busy_texts d u : wf_dict d -> wf_udict u -> exists a, forall g0 ideo jobs R n, left_over g0 -> (forall js, In js jobs -> forall j, In j js -> job_ok j) ->
  (forall js, In js jobs -> forall j, In j js -> short_job d u R j) ->
  forall x, frugal_run (fun y => busy (snd y) <= n) (start g0 ideo jobs) x -> pooled_nodes x <= Nat.max (length (g_node_pool g0)) (n * (a * (R + 1))).
Proof.
  intros Hd Hu. destruct (WorkFacts.has_bounds u Hd) as (K & V & L & Hb & _). exists (2 + K + 2 * V). intros g0 ideo jobs R n Hg Hj Hs x S.
  refine (proj1 (busy_bound (n := n) Hg Hj (frugal_run_mono _ S))). intros z Hz. split; [|exact Hz].
  pose proof (load_busy (snd z) Hd Hu Hb Hs) as B. pose proof (Nat.mul_le_mono_r _ _ (2 + R * (K + 2 * V)) Hz) as C. nia.
Qed.

(** One goroutine after the other. *)
Lemma run_among A (P : memory * list (thread A) -> Prop) (x0 : memory * list (thread A)) t1 t2 (p : prog A) : (forall g th, P (g, t1 ++ th :: t2)) -> forall g a g' hn hw hl, run p g = Some (a, g') ->
  frugal_run P x0 (g, t1 ++ Thread p hn hw hl :: t2) -> exists th, frugal_run P x0 (g', t1 ++ th :: t2) /\ th_prog th = Ret a.
Proof.
  intros HP. induction p as [a| |k IH|k IH|a p IH|n k IH|a k IH|a f p IH|k IH|a p IH|a k IH|a f p IH];
    intros [nodes next pool lats lnext lpool] r g' hn hw hl E S; cbn [run] in E; try discriminate.
  - injection E as <- <-. eexists. split; [exact S|reflexivity].
  - refine (IH _ _ _ _ _ _ _ E _). eapply fr_step; [exact S|apply fs_step; [constructor|no_get]|apply HP].
  - destruct pool as [|a pool]; refine (IH _ _ _ _ _ _ _ E _); (eapply fr_step; [exact S|apply fs_step|apply HP]).
    + apply t_node_make.
    + no_get.
    + exact (@t_node_get A nodes next [] a pool lats lnext lpool k hn hw hl).
    + no_get.
  - refine (IH _ _ _ _ _ _ E _). eapply fr_step; [exact S|apply fs_step; [constructor|no_get]|apply HP].
  - refine (IH _ _ _ _ _ _ _ E _). eapply fr_step; [exact S|apply fs_step; [constructor|no_get]|apply HP].
  - refine (IH _ _ _ _ _ _ _ E _). eapply fr_step; [exact S|apply fs_step; [apply t_node_read|no_get]|apply HP].
  - refine (IH _ _ _ _ _ _ E _). eapply fr_step; [exact S|apply fs_step; [constructor|no_get]|apply HP].
  - destruct lpool as [|a lpool]; refine (IH _ _ _ _ _ _ _ E _); (eapply fr_step; [exact S|apply fs_step|apply HP]).
    + apply t_lat_make.
    + no_get.
    + exact (@t_lat_get A nodes next pool lats lnext [] a lpool k hn hw hl).
    + no_get.
  - refine (IH _ _ _ _ _ _ E _). eapply fr_step; [exact S|apply fs_step; [constructor|no_get]|apply HP].
  - refine (IH _ _ _ _ _ _ _ E _). eapply fr_step; [exact S|apply fs_step; [apply t_lat_read|no_get]|apply HP].
  - refine (IH _ _ _ _ _ _ E _). eapply fr_step; [exact S|apply fs_step; [constructor|no_get]|apply HP].
Qed.

(** Requests one after the other, each in its own goroutine. *)
Fixpoint run_each (ideo : ideographic) (jobs : list (list job)) (g : memory) : option memory :=
  match jobs with
  | [] => Some g
  | js :: rest => match run (h_jobs ideo js) g with Some (_, g') => run_each ideo rest g' | None => None end
  end.

Section Each.
Variables (g0 : memory) (ideo : ideographic) (jobs : list (list job)) (K : nat).
Hypothesis Hg : left_over g0.
Hypothesis Hj : forall js, In js jobs -> forall j, In j js -> job_ok j.
Hypothesis HK : forall js, In js jobs -> largest_call js <= K.

Lemma each_run rest : forall done g g', jobs = map fst done ++ rest -> (forall jt, In jt done -> inside (snd jt) = false) ->
  let P := fun y : memory * list (thread (list answer)) => load jobs (snd y) <= K /\ busy (snd y) <= 1 in
  frugal_run P (start g0 ideo jobs) (g, map snd done ++ map (fun js => start_thread (h_jobs ideo js)) rest) ->
  (forall jt, In jt done -> finished (snd jt)) ->
  run_each ideo rest g = Some g' -> exists ths, frugal_run P (start g0 ideo jobs) (g', ths) /\ forall th, In th ths -> finished th.
Proof.
  induction rest as [|js rest IH]; intros done g g' Ej Hd P S Hf E; cbn [run_each map] in *.
  - injection E as <-. exists (map snd done). rewrite app_nil_r in S. split; [exact S|]. intros th I. apply in_map_iff in I. destruct I as (jt & <- & I). exact (Hf jt I).
  - destruct (run (h_jobs ideo js) g) as [[a g1]|] eqn:E1; [|discriminate].
    assert (Z : forall (t : list (thread (list answer))), (forall th, In th t -> inside th = false) -> forall l, load l t = 0 /\ busy t = 0).
    { clear. unfold load, busy, list_sum. induction t as [|th t IH]; intros H l; [rewrite combine_nil; auto|]. destruct (IH (fun x Hx => H x (or_intror Hx)) (tl l)) as [I1 I2]. cbn [filter]. rewrite (H th (or_introl eq_refl)).
      destruct l as [|j l]; cbn [combine map fold_right fst snd tl] in *; [auto|]. rewrite (H th (or_introl eq_refl)). auto. }
    assert (Q : forall (t1 t2 : list (thread (list answer))) th, length t1 = length done -> (forall x, In x t1 -> inside x = false) -> (forall x, In x t2 -> inside x = false) -> forall g, P (g, t1 ++ th :: t2)).
    { intros t1 t2 th Lt H1 H2 m. unfold P. cbn [snd]. unfold load, busy. rewrite Ej.
      assert (C : forall (l1 l2 : list (list job)) (r1 r2 : list (thread (list answer))), length l1 = length r1 -> combine (l1 ++ l2) (r1 ++ r2) = combine l1 r1 ++ combine l2 r2).
      { clear. induction l1 as [|x l1 IH]; intros l2 [|y r1] r2 L; cbn in *; try discriminate; [reflexivity|]. rewrite IH by lia. reflexivity. }
      rewrite C by (rewrite map_length; lia). cbn [combine]. rewrite map_app, list_sum_app, filter_app, app_length. cbn [map filter fst snd].
      destruct (Z t1 H1 (map fst done)) as [Z1 Z2]. destruct (Z t2 H2 rest) as [Z3 Z4]. unfold load, busy in *. rewrite Z1, Z2. cbn [list_sum fold_right]. unfold list_sum in Z3. rewrite Z3.
      assert (B : largest_call js <= K) by (apply HK; rewrite Ej; apply in_or_app; right; left; reflexivity).
      destruct (inside th); cbn [length]; rewrite Z4; lia. }
    assert (Hr : forall x, In x (map (fun js => start_thread (h_jobs ideo js)) rest) -> inside x = false) by (intros x I; apply in_map_iff in I; destruct I as (? & <- & _); reflexivity).
    assert (Hm : forall x, In x (map snd done) -> inside x = false) by (intros x I; apply in_map_iff in I; destruct I as (jt & <- & I); exact (Hd jt I)).
    destruct (run_among (P := P) (x0 := start g0 ideo jobs) (t1 := map snd done) (t2 := map (fun js => start_thread (h_jobs ideo js)) rest)) with (p := h_jobs ideo js) (g := g) (a := a) (g' := g1) (hn := @nil addr) (hw := @nil addr) (hl := @nil addr)
      as (th & S1 & Et); [intros g2 th; apply Q; [apply map_length|exact Hm|exact Hr]|exact E1|exact S|].
    assert (F1 : finished th) by (exists a; exact Et).
    assert (In1 : inside th = false).
    { destruct (frugal_run_steps S1) as [S2 _]. destruct (one_owner Hg Hj (frugal_steps_steps S2)) as (_ & _ & O & _).
      destruct (O th) as (_ & _ & _ & W); [apply in_or_app; right; left; reflexivity|]. unfold inside. rewrite (proj2 (W F1)). reflexivity. }
    apply (IH (done ++ [(js, th)]) g1 g').
    + rewrite map_app, <- app_assoc. exact Ej.
    + intros jt I. apply in_app_or in I. destruct I as [I|[<-|[]]]; [exact (Hd jt I)|exact In1].
    + rewrite map_app, <- app_assoc. exact S1.
    + intros jt I. apply in_app_or in I. destruct I as [I|[<-|[]]]; [exact (Hf jt I)|exact F1].
    + exact E.
Qed.

Lemma each_left B `{Eqb B} (f : memory -> B) b : match run_each ideo jobs g0 with Some g' => test_eq (f g') b | None => false end = true ->
  exists g' ths, frugal_run (fun y => load jobs (snd y) <= K /\ busy (snd y) <= 1) (start g0 ideo jobs) (g', ths) /\ (forall th, In th ths -> finished th) /\ f g' = b.
Proof.
  destruct (run_each ideo jobs g0) as [g'|] eqn:E; [|discriminate]. intros T.
  destruct (@each_run jobs [] g0 g') as (ths & S & F).
  - reflexivity.
  - intros ? [].
  - constructor. unfold start. cbn [snd].
    assert (Z : forall l, load l (map (fun js => start_thread (h_jobs ideo js)) jobs) = 0 /\ busy (map (fun js => start_thread (h_jobs ideo js)) jobs) = 0).
    { clear. unfold load, busy, list_sum. induction jobs as [|js t IH]; intros l; cbn [map filter]; [rewrite combine_nil; auto|]. cbn [inside start_thread th_lats].
      destruct l as [|j l]; cbn [combine map fold_right fst snd]; [destruct (IH []); auto|]. cbn [inside start_thread th_lats]. destruct (IH l) as [-> ->]. auto. }
    destruct (Z jobs) as [Z1 Z2]. split.
    + change (load jobs (map (fun js => start_thread (h_jobs ideo js)) jobs) <= K). lia.
    + change (busy (map (fun js => start_thread (h_jobs ideo js)) jobs) <= 1). lia.
  - intros ? [].
  - exact E.
  - exists g', ths. split; [exact S|]. split; [exact F|apply test_eq_ok; exact T].
Qed.
End Each.
