(** No goroutine ever holds more pooled nodes than its largest call has, nor more than one lattice. *)
From Verif Require Export SpecQuota HeapProps.
From Coq Require Import ZifyBool ZifyNat.
Set Implicit Arguments.
Unset Strict Implicit.
Open Scope nat_scope.

(** ** Programs with a quota *)
(** The same program, but Get beyond the quota stops it; Put gives quota back. *)
Fixpoint metered {A} (p : prog A) (q r : nat) : prog (A * nat * nat) :=
  match p with
  | Ret a => Ret (a, q, r)
  | Stop => Stop
  | Choose k => Choose (fun n => metered (k n) q r)
  | NodeGet k => match q with O => Stop | S q' => NodeGet (fun a => metered (k a) q' r) end
  | NodePut a k => NodePut a (metered k (S q) r)
  | NodeNew n k => NodeNew n (fun a => metered (k a) q r)
  | NodeRead a k => NodeRead a (fun h => metered (k h) q r)
  | NodeSet a f k => NodeSet a f (metered k q r)
  | LatGet k => match r with O => Stop | S r' => LatGet (fun a => metered (k a) q r') end
  | LatPut a k => LatPut a (metered k q (S r))
  | LatRead a k => LatRead a (fun h => metered (k h) q r)
  | LatSet a f k => LatSet a f (metered k q r)
  end.

Lemma metered_bind A B (p : prog A) (f : A -> prog B) Q : forall s q r,
  wp (metered p q r) (fun x s' => wp (metered (f (fst (fst x))) (snd (fst x)) (snd x)) Q s') s -> wp (metered (pbind p f) q r) Q s.
Proof.
  induction p as [a| |k IH|k IH|a p IH|n k IH|a k IH|a g p IH|k IH|a p IH|a k IH|a g p IH]; intros s q r; cbn; auto.
  - destruct q as [|q]; cbn; auto.
  - intros [H1 H2]. auto.
  - intros (b & h & E & W). eauto 6.
  - intros (b & h & E & W). eauto 6.
  - destruct r as [|r]; cbn; auto.
  - intros [H1 H2]. auto.
  - intros (l & E & W). eauto.
  - intros (l & E & W). eauto.
Qed.

Lemma wp_unbind A B (p : prog A) (f : A -> prog B) Q : forall s, wp (pbind p f) Q s -> wp p (fun a s' => wp (f a) Q s') s.
Proof.
  induction p as [a| |k IH|k IH|a p IH|n k IH|a k IH|a g p IH|k IH|a p IH|a k IH|a g p IH]; intros s; cbn; auto.
  - intros [H1 H2]. auto.
  - intros (b & h & E & W). eauto 6.
  - intros (b & h & E & W). eauto 6.
  - intros [H1 H2]. auto.
  - intros (l & E & W). eauto.
  - intros (l & E & W). eauto.
Qed.

Lemma wp_and A (p : prog A) Q Q' : forall s, wp p Q s -> wp p Q' s -> wp p (fun a s' => Q a s' /\ Q' a s') s.
Proof.
  induction p as [a| |k IH|k IH|a p IH|n k IH|a k IH|a g p IH|k IH|a p IH|a k IH|a g p IH]; intros s; cbn; auto.
  - intros [H1 H2] [_ H3]. auto.
  - intros (b & h & E & W) (b' & h' & E' & W'). rewrite E in E'. injection E' as <- <-. eauto 6.
  - intros (b & h & E & W) (b' & h' & E' & W'). rewrite E in E'. injection E' as <- <-. eauto 6.
  - intros [H1 H2] [_ H3]. auto.
  - intros (l & E & W) (l' & E' & W'). rewrite E in E'. injection E' as <-. eauto.
  - intros (l & E & W) (l' & E' & W'). rewrite E in E'. injection E' as <-. eauto.
Qed.

(** ** The number of pooled objects of a private view *)
Definition lowns (s : lheap) (own : list addr) : Prop := NoDup own /\ forall a, In a own <-> exists l, ll s a = Some l.
Record account (s : lheap) (n m : nat) : Prop := {
  ac_nodes : exists own, owns s own /\ length own = n;
  ac_lats : exists own, lowns s own /\ length own = m;
  ac_fresh : exists N, forall a, N <= a -> ln s a = None
}.

Lemma owns_unique s o o' : owns s o -> owns s o' -> length o = length o'.
Proof.
  intros [N1 H1] [N2 H2]. apply Nat.le_antisymm; apply NoDup_incl_length; try assumption; intros a Ha; [apply H2, H1|apply H1, H2]; exact Ha.
Qed.
Lemma lowns_unique s o o' : lowns s o -> lowns s o' -> length o = length o'.
Proof.
  intros [N1 H1] [N2 H2]. apply Nat.le_antisymm; apply NoDup_incl_length; try assumption; intros a Ha; [apply H2, H1|apply H1, H2]; exact Ha.
Qed.
Lemma account_unique s n m n' m' : account s n m -> account s n' m' -> n = n' /\ m = m'.
Proof.
  intros [(o & O & <-) (p & P & <-) _] [(o' & O' & <-) (p' & P' & <-) _]. split; [exact (owns_unique O O')|exact (lowns_unique P P')].
Qed.
Lemma account_empty s n m : account s n m -> empty s -> n = 0 /\ m = 0.
Proof.
  intros [([|a o] & [_ O] & <-) ([|b p] & [_ P] & <-) _] [E1 E2]; cbn; auto; exfalso.
  - destruct (proj1 (P b)) as (l & E); [left; reflexivity|]. rewrite E2 in E. discriminate.
  - destruct (proj1 (O a)) as (h & E); [left; reflexivity|]. exact (E1 _ _ E).
  - destruct (proj1 (O a)) as (h & E); [left; reflexivity|]. exact (E1 _ _ E).
Qed.
Lemma account_start : account lheap0 0 0.
Proof.
  split.
  - exists []. split; [|reflexivity]. split; [constructor|]. intros a. split; [contradiction|intros (h & E); discriminate].
  - exists []. split; [|reflexivity]. split; [constructor|]. intros a. split; [contradiction|intros (h & E); discriminate].
  - exists 0. reflexivity.
Qed.

Lemma fresh_put s a b h : (exists N, forall x, N <= x -> ln s x = None) -> exists N, forall x, N <= x -> ln (lput_n s a b h) x = None.
Proof. intros (N & H). exists (Nat.max N (S a)). intros x Hx. cbn. rewrite set_at_other by lia. apply H. lia. Qed.
Lemma fresh_del s a : (exists N, forall x, N <= x -> ln s x = None) -> exists N, forall x, N <= x -> ln (ldel_n s a) x = None.
Proof. intros (N & H). exists N. intros x Hx. cbn. unfold set_at. destruct (x =? a); [reflexivity|apply H; exact Hx]. Qed.

Lemma account_get s n m a h : account s n m -> ln s a = None -> account (lput_n s a true h) (S n) m.
Proof.
  intros [(o & [N O] & <-) L F] Ha. split; [|exact L|exact (fresh_put a true h F)]. exists (a :: o). split; [|reflexivity]. split.
  - constructor; [|exact N]. intros I. apply O in I. destruct I as (h' & E). congruence.
  - intros x. cbn. unfold set_at. destruct (Nat.eqb_spec x a) as [->|D]; [split; [eauto|auto]|]. rewrite <- O. split; [intros [E|E]; [congruence|exact E]|auto].
Qed.
Lemma account_put s n m a h : account s n m -> ln s a = Some (true, h) -> account (ldel_n s a) (pred n) m /\ 0 < n.
Proof.
  intros [(o & O & <-) L F] Ha. assert (I : In a o) by (apply (proj2 O); eauto). apply in_split in I. destruct I as (o1 & o2 & ->).
  assert (O' : owns s (a :: o1 ++ o2)).
  { destruct O as [N O]. split; [apply NoDup_cons_iff; apply NoDup_remove in N; split; apply N|]. intros x. rewrite <- O. cbn. rewrite !in_app_iff. cbn. tauto. }
  split; [split; [|exact L|exact (fresh_del a F)]|rewrite app_length; cbn; lia].
  exists (o1 ++ o2). split; [exact (owns_del O')|]. rewrite !app_length. cbn. lia.
Qed.
Lemma account_new s n m a h : account s n m -> ln s a = None -> account (lput_n s a false h) n m.
Proof.
  intros [(o & [N O] & <-) L F] Ha. split; [|exact L|exact (fresh_put a false h F)]. exists o. split; [|reflexivity]. split; [exact N|].
  intros x. rewrite O. cbn. unfold set_at. destruct (Nat.eqb_spec x a) as [->|D]; [|reflexivity]. rewrite Ha. split; intros (h' & E); discriminate.
Qed.
Lemma account_set s n m a b h h' : account s n m -> ln s a = Some (b, h) -> account (lput_n s a b h') n m.
Proof.
  intros [(o & [N O] & <-) L F] Ha. split; [|exact L|exact (fresh_put a b h' F)]. exists o. split; [|reflexivity]. split; [exact N|].
  intros x. rewrite O. cbn. unfold set_at. destruct (Nat.eqb_spec x a) as [->|D]; [|reflexivity]. rewrite (some_iff _ Ha), (some_iff _ eq_refl). reflexivity.
Qed.
Lemma account_lget s n m a l : account s n m -> ll s a = None -> account (lput_l s a l) n (S m).
Proof.
  intros [O (o & [N L] & <-) F] Ha. split; [exact O| |exact F]. exists (a :: o). split; [|reflexivity]. split.
  - constructor; [|exact N]. intros I. apply L in I. destruct I as (h' & E). congruence.
  - intros x. cbn. unfold set_at. destruct (Nat.eqb_spec x a) as [->|D]; [split; [eauto|auto]|]. rewrite <- L. split; [intros [E|E]; [congruence|exact E]|auto].
Qed.
Lemma account_lput s n m a l : account s n m -> ll s a = Some l -> account (ldel_l s a) n (pred m) /\ 0 < m.
Proof.
  intros [O (o & [N L] & <-) F] Ha. assert (I : In a o) by (apply L; eauto). apply in_split in I. destruct I as (o1 & o2 & ->).
  split; [split; [exact O| |exact F]|rewrite app_length; cbn; lia].
  exists (o1 ++ o2). split; [|rewrite !app_length; cbn; lia]. apply NoDup_remove in N. split; [apply N|]. intros x. cbn. unfold set_at.
  destruct (Nat.eqb_spec x a) as [->|D].
  - split; [intros I; destruct (proj2 N I)|intros (y & E); discriminate].
  - rewrite <- L, !in_app_iff. cbn. split; [tauto|intros [I|[I|I]]; [tauto|congruence|tauto]].
Qed.
Lemma account_lset s n m a l l' : account s n m -> ll s a = Some l -> account (lput_l s a l') n m.
Proof.
  intros [O (o & [N L] & <-) F] Ha. split; [exact O| |exact F]. exists o. split; [|reflexivity]. split; [exact N|].
  intros x. rewrite L. cbn. unfold set_at. destruct (Nat.eqb_spec x a) as [->|D]; [|reflexivity]. rewrite Ha. split; intros _; eauto.
Qed.

(** The quota left and the objects held always add up. *)
Lemma metered_account A (p : prog A) Q : forall s q r n m, wp (metered p q r) Q s -> account s n m ->
  wp (metered p q r) (fun x s' => Q x s' /\ exists n' m', account s' n' m' /\ n' + snd (fst x) = n + q /\ m' + snd x = m + r) s.
Proof.
  induction p as [a| |k IH|k IH|a p IH|x k IH|a k IH|a g p IH|k IH|a p IH|a k IH|a g p IH]; intros s q r n m; cbn [metered wp].
  - intros H K. split; [exact H|]. exists n, m. auto.
  - auto.
  - intros H K i. exact (IH i s q r n m (H i) K).
  - destruct q as [|q]; cbn [wp]; [auto|]. intros H K a h Ha. eapply wp_mono; [exact (IH a _ q r _ _ (H a h Ha) (account_get h K Ha))|].
    intros y s' (H1 & n' & m' & H2 & H3 & H4). split; [exact H1|]. exists n', m'. split; [exact H2|]. lia.
  - intros [(h & Eh) H] K. split; [eauto|]. destruct (account_put K Eh) as [K' P].
    eapply wp_mono; [exact (IH _ (S q) r _ _ H K')|]. intros y s' (H1 & n' & m' & H2 & H3 & H4). split; [exact H1|]. exists n', m'. split; [exact H2|]. lia.
  - intros H K a Ha. exact (IH a _ q r n m (H a Ha) (account_new x K Ha)).
  - intros (b & h & E & H) K. exists b, h. split; [exact E|]. exact (IH h s q r n m H K).
  - intros (b & h & E & H) K. exists b, h. split; [exact E|]. exact (IH _ q r n m H (account_set (g h) K E)).
  - destruct r as [|r]; cbn [wp]; [auto|]. intros H K a l Ha Hl. eapply wp_mono; [exact (IH a _ q r _ _ (H a l Ha Hl) (account_lget l K Ha))|].
    intros y s' (H1 & n' & m' & H2 & H3 & H4). split; [exact H1|]. exists n', m'. split; [exact H2|]. lia.
  - intros [(l & El & Hl) H] K. split; [eauto|]. destruct (account_lput K El) as [K' P].
    eapply wp_mono; [exact (IH _ q (S r) _ _ H K')|]. intros y s' (H1 & n' & m' & H2 & H3 & H4). split; [exact H1|]. exists n', m'. split; [exact H2|]. lia.
  - intros (l & E & H) K. exists l. split; [exact E|]. exact (IH l s q r n m H K).
  - intros (l & E & H) K. exists l. split; [exact E|]. exact (IH _ q r n m H (account_lset (g l) K E)).
Qed.

(** Never more than K nodes and one lattice. *)
Definition within {A} (K : nat) (p : prog A) (Q : A -> lheap -> Prop) (s : lheap) : Prop :=
  forall q r n m, account s n m -> n + q = K -> m + r = 1 -> wp (metered p q r) (fun x s' => Q (fst (fst x)) s') s.

Lemma within_bind A B K (p : prog A) (f : A -> prog B) Q s : within K p (fun a s' => within K (f a) Q s') s -> within K (pbind p f) Q s.
Proof.
  intros H q r n m C E1 E2. apply metered_bind. eapply wp_mono; [exact (metered_account (H q r n m C E1 E2) C)|].
  intros [[a q'] r'] s' (W & n' & m' & C' & E3 & E4). cbn in *. apply (W q' r' n' m' C'); lia.
Qed.
Lemma within_mono A K (p : prog A) (Q Q' : A -> lheap -> Prop) s : within K p Q s -> (forall a s', Q a s' -> Q' a s') -> within K p Q' s.
Proof. intros H HQ q r n m C E1 E2. eapply wp_mono; [exact (H q r n m C E1 E2)|]. intros x s'. apply HQ. Qed.

(** ** Phases *)
Fixpoint noget {A} (p : prog A) : Prop :=
  match p with
  | Ret _ | Stop => True
  | Choose k => forall n, noget (k n)
  | NodeGet _ | LatGet _ => False
  | NodePut _ k | NodeSet _ _ k | LatPut _ k | LatSet _ _ k => noget k
  | NodeNew _ k => forall a, noget (k a)
  | NodeRead _ k => forall h, noget (k h)
  | LatRead _ k => forall l, noget (k l)
  end.
Fixpoint noput {A} (p : prog A) : Prop :=
  match p with
  | Ret _ | Stop => True
  | Choose k => forall n, noput (k n)
  | NodePut _ _ | LatPut _ _ | LatGet _ => False
  | NodeGet k => forall a, noput (k a)
  | NodeSet _ _ k | LatSet _ _ k => noput k
  | NodeNew _ k => forall a, noput (k a)
  | NodeRead _ k => forall h, noput (k h)
  | LatRead _ k => forall l, noput (k l)
  end.

Lemma within_noget A K (p : prog A) Q s : noget p -> wp p Q s -> within K p Q s.
Proof.
  intros G W q r n m _ _ _. revert s q r G W.
  induction p as [a| |k IH|k IH|a p IH|x k IH|a k IH|a g p IH|k IH|a p IH|a k IH|a g p IH]; intros s q r; cbn [metered wp noget fst]; auto; try contradiction.
  - intros G [H1 H2]. auto.
  - intros G (b & h & E & W). eauto 7.
  - intros G (b & h & E & W). eauto 7.
  - intros G [H1 H2]. auto.
  - intros G (l & E & W). eauto.
  - intros G (l & E & W). eauto.
Qed.

(** A phase that gives nothing back ends with at least what it had. *)
Lemma grows A (p : prog A) Q : forall s n m, noput p -> wp p Q s -> account s n m ->
  exists a s' n', Q a s' /\ account s' n' m /\ n <= n'.
Proof.
  induction p as [a| |k IH|k IH|a p IH|x k IH|a k IH|a g p IH|k IH|a p IH|a k IH|a g p IH]; intros s n m; cbn [wp noput]; try contradiction.
  - intros _ H K. exists a, s, n. auto.
  - intros G H K. exact (IH 0 s n m (G 0) (H 0) K).
  - intros G H K. destruct (ac_fresh K) as (N & HN). destruct (IH N _ _ _ (G N) (H N zero_hnode (HN N (le_n N))) (account_get _ K (HN N (le_n N)))) as (a & s' & n' & H1 & H2 & H3).
    exists a, s', n'. split; [exact H1|]. split; [exact H2|lia].
  - intros G H K. destruct (ac_fresh K) as (N & HN). exact (IH N _ _ _ (G N) (H N (HN N (le_n N))) (account_new _ K (HN N (le_n N)))).
  - intros G (b & h & E & H) K. exact (IH h s n m (G h) H K).
  - intros G (b & h & E & H) K. exact (IH _ n m G H (account_set (g h) K E)).
  - intros G (l & E & H) K. exact (IH l s n m (G l) H K).
  - intros G (l & E & H) K. exact (IH _ n m G H (account_lset (g l) K E)).
Qed.

Lemma within_noput A K (p : prog A) Q s : noput p -> wp p Q s -> (forall a s' n m, Q a s' -> account s' n m -> n <= K) -> within K p Q s.
Proof.
  intros G W HK q r n m C E1 _. revert s q r n m G W C E1.
  induction p as [a| |k IH|k IH|a p IH|x k IH|a k IH|a g p IH|k IH|a p IH|a k IH|a g p IH]; intros s q r n m; cbn [metered wp noput fst]; try contradiction.
  - intros _ W _ _. exact W.
  - intros G W C E i. exact (IH i _ _ _ _ _ (G i) (W i) C E).
  - intros G W C E. destruct (ac_fresh C) as (N & HN).
    destruct (grows (G N) (W N zero_hnode (HN N (le_n N))) (account_get _ C (HN N (le_n N)))) as (a & s' & n' & H1 & H2 & H3).
    pose proof (HK _ _ _ _ H1 H2). destruct q as [|q]; [lia|]. cbn [wp]. intros b h Hb. apply (IH b _ q r _ _ (G b) (W b h Hb) (account_get h C Hb)). lia.
  - intros G W C E a Ha. exact (IH a _ _ _ _ _ (G a) (W a Ha) (account_new x C Ha) E).
  - intros G (b & h & Eh & W) C E. exists b, h. split; [exact Eh|]. exact (IH h _ _ _ _ _ (G h) W C E).
  - intros G (b & h & Eh & W) C E. exists b, h. split; [exact Eh|]. exact (IH _ _ _ _ _ G W (account_set (g h) C Eh) E).
  - intros G (l & El & W) C E. exists l. split; [exact El|]. exact (IH l _ _ _ _ _ (G l) W C E).
  - intros G (l & El & W) C E. exists l. split; [exact El|]. exact (IH _ _ _ _ _ G W (account_lset (g l) C El) E).
Qed.

(** *** The phases of an analysis *)
Lemma noget_bind A B (p : prog A) (f : A -> prog B) : noget p -> (forall a, noget (f a)) -> noget (pbind p f).
Proof. intros H1 H2. induction p; cbn in *; auto. Qed.
Lemma noget_lift A (r : res A) : noget (lift r).
Proof. destruct r; exact I. Qed.
Lemma noget_deref A (r : option A) : noget (deref r).
Proof. destruct r; exact I. Qed.
Lemma noget_fold A B (f : A -> B -> prog A) l : (forall a b, noget (f a b)) -> forall a, noget (pfold f l a).
Proof. intros H. induction l as [|x l IH]; intros a; cbn [pfold]; [exact I|]. apply noget_bind; auto. Qed.
Lemma noput_bind A B (p : prog A) (f : A -> prog B) : noput p -> (forall a, noput (f a)) -> noput (pbind p f).
Proof. intros H1 H2. induction p; cbn in *; auto. Qed.
Lemma noput_lift A (r : res A) : noput (lift r).
Proof. destruct r; exact I. Qed.
Lemma noput_deref A (r : option A) : noput (deref r).
Proof. destruct r; exact I. Qed.
Lemma noput_fold A B (f : A -> B -> prog A) l : (forall a b, noput (f a b)) -> forall a, noput (pfold f l a).
Proof. intros H. induction l as [|x l IH]; intros a; cbn [pfold]; [exact I|]. apply noput_bind; auto. Qed.

Ltac phase :=
  repeat first
    [ exact I
    | apply noget_bind | apply noget_lift | apply noget_deref | apply noget_fold
    | apply noput_bind | apply noput_lift | apply noput_deref | apply noput_fold
    | progress intros
    | progress cbn [noget noput node_get node_put node_new node_read node_set lat_get lat_put lat_read lat_set p_append]
    | match goal with
      | |- noget (if ?b then _ else _) => destruct b
      | |- noput (if ?b then _ else _) => destruct b
      | |- noget (match ?x with _ => _ end) => destruct x
      | |- noput (match ?x with _ => _ end) => destruct x
      end ].

Lemma noput_add la pos id position start class surface : noput (h_add_node la pos id position start class surface).
Proof. unfold h_add_node. phase. Qed.
Lemma noput_matches la inp runePos pos class ms : noput (h_add_matches la inp runePos pos class ms).
Proof. unfold h_add_matches, peach. phase; try apply noput_add. Qed.
Lemma noput_unknowns la inp runePos pos prev e id dup : noput (h_add_unknowns la inp runePos pos prev e id dup).
Proof. unfold h_add_unknowns, peach. phase; try apply noput_add. Qed.
Lemma noput_step la inp runePos pos ch : noput (h_build_step la inp runePos pos ch).
Proof. unfold h_build_step, h_build_unknown. phase; try first [apply noput_matches|apply noput_unknowns]. Qed.
Lemma noput_loop la inp l : forall runePos, noput (h_build_loop la inp runePos l).
Proof. induction l as [|[pos ch] l IH]; intros runePos; cbn [h_build_loop]; [exact I|]. apply noput_bind; [apply noput_step|intros; apply IH]. Qed.
Lemma noput_build la inp : noput (h_build la inp).
Proof. unfold h_build. phase; try first [apply noput_add|apply noput_loop]. Qed.

Lemma noget_cell la i j : noget (h_cell la i j).
Proof. unfold h_cell. phase. Qed.
Lemma noget_forward ideo m la : noget (h_forward ideo m la).
Proof. unfold h_forward, h_forward_pos, h_forward_target, h_relax, peach. phase; try apply noget_cell. Qed.
Lemma noget_output la x : noget (h_output la x).
Proof. unfold h_output. phase. Qed.
Lemma noget_stack p l : forall i, noget (h_stack p i l).
Proof. induction l as [|[k r] l IH]; intros i; cbn [h_stack]; phase; try apply IH. Qed.
Lemma noget_visit m la a : noget (h_visit m la a).
Proof. unfold h_visit, peach. phase; try first [apply noget_output|apply noget_stack]. Qed.
Lemma noget_walk m la : forall fuel p, noget (h_walk fuel m la p).
Proof.
  induction fuel as [|f IH]; intros [a|]; cbn [h_walk]; try exact I. apply noget_bind; [apply noget_visit|]. intros _. cbn. intros h. apply IH.
Qed.
Lemma noget_backward m la : noget (h_backward m la).
Proof.
  unfold h_backward. cbn [lat_read pbind noget]. intros l. destruct (gs_len (l_list l)) as [|k]; [exact I|]. apply noget_bind; [apply noget_cell|]. intros p. apply noget_walk.
Qed.
Lemma noget_free la : noget (h_free la).
Proof. unfold h_free, h_free_row, peach. phase. Qed.
Lemma noget_tokens t la : noget (h_tokens t la).
Proof. unfold h_tokens. phase. Qed.
Lemma noget_graph_tokens t la : noget (h_graph_tokens t la).
Proof. unfold h_graph_tokens. phase. Qed.
Lemma noget_dot la : noget (h_dot la).
Proof. unfold h_dot, h_edges, h_edges_to, h_node_stmt, h_edge_stmt, h_skipped. phase. Qed.

(** ** One call *)
Lemma rep_account s la d u cells outs v n m : rep s la d u cells outs v -> account s n m -> n = length (concat v).
Proof.
  intros R C. destruct (ac_nodes C) as (o & O & <-).
  assert (O' : owns s (concat cells)).
  { split; [apply inj_NoDup, (r_inj R)|]. intros a. split.
    - intros I. apply in_concat in I. destruct I as (r & Ir & Ia). apply In_nth_error in Ir. destruct Ir as (i & Ei). apply In_nth_error in Ia. destruct Ia as (j & Ej).
      assert (E : nth2 cells i j = Some a) by (unfold nth2; rewrite Ei; exact Ej). destruct (rep_get R E) as (h & _ & E1 & _). eauto.
    - intros (h & E). destruct (r_own R E) as (i & j & E1). unfold nth2 in E1. destruct (nth_error cells i) as [r|] eqn:Ei; [|discriminate].
      apply in_concat. exists r. split; [exact (nth_error_In _ _ Ei)|exact (nth_error_In _ _ E1)]. }
  rewrite (owns_unique O O'). pose proof (r_shape R) as Sh. clear - Sh. revert v Sh.
  induction cells as [|r cells IH]; intros [|x v] Sh; cbn in *; try discriminate; [reflexivity|]. injection Sh as E1 E2. rewrite !app_length, E1, (IH v E2). reflexivity.
Qed.

Lemma within_run A K d u inp v1 (f : addr -> prog A) Q s : build d u inp = Ok v1 -> length (concat v1) <= K -> empty s -> (forall la, noget (f la)) ->
  wp (do la <- h_new d u; h_build la inp;; f la) Q s -> within K (do la <- h_new d u; h_build la inp;; f la) Q s.
Proof.
  intros Eb Hk [Z1 Z2] Hf W. apply wp_unbind in W. apply within_bind.
  assert (F : wp (h_new d u) (fun la s1 => fresh la d u s1) s).
  { unfold h_new. cbn [pbind lat_get wp]. intros la l Hla Hcl.
    eapply wp_lat_set; [cbn [ll lput_l]; apply set_at_same|]. eapply wp_lat_set; [cbn [ll lput_l]; apply set_at_same|]. apply wp_ret. split.
    - eexists. split; [cbn [ll lput_l]; apply set_at_same|]. cbn. split; [reflexivity|]. split; [reflexivity|]. split; [apply Hcl|]. split; [apply Hcl|apply Hcl].
    - exact Z1.
    - intros b Hb. cbn. rewrite !set_at_other by exact Hb. apply Z2. }
  pose proof (wp_and W F) as WF. clear W F.
  assert (N : within K (h_new d u) (fun la s' => wp (h_build la inp;; f la) Q s' /\ fresh la d u s') s).
  { intros q r n m C E1 E2. destruct (account_empty C (Build_empty Z1 Z2)) as [-> ->]. destruct r as [|r]; [discriminate|].
    unfold h_new in *. cbn [pbind lat_get lat_set metered wp fst snd] in *. intros a l Ha Hl. specialize (WF a l Ha Hl). exact WF. }
  eapply within_mono; [exact N|]. intros la s1 [W F]. apply within_bind. cbn beta in *. apply wp_unbind in W.
  pose proof (wp_and W (sim_build Eb F)) as WB. eapply within_mono; [refine (within_noput (noput_build la inp) WB _)|].
  - intros [] s2 n m [_ (cells & R)] C. rewrite (rep_account R C). exact Hk.
  - intros [] s2 [W2 _]. cbn beta in *. apply within_noget; [apply Hf|exact W2].
Qed.


Lemma within_job ideo K j s : job_ok j -> empty s -> job_nodes j <= K -> within K (h_job ideo j) (fun r s' => right_answer ideo j r /\ empty s') s.
Proof.
  intros H Hs Hk. pose proof (sim_job ideo H Hs) as W.
  assert (B : forall A t inp mode (f : addr -> prog A), run_lattice ideo t inp mode <> Panic -> run_lattice ideo t inp mode <> Diverge ->
    match build (tk_dict t) (tk_udict t) inp with Ok v => length (concat v) | _ => 0 end <= K -> forall (Q : A -> lheap -> Prop), (forall la, noget (f la)) ->
    wp (do la <- h_new (tk_dict t) (tk_udict t); h_build la inp;; f la) Q s -> within K (do la <- h_new (tk_dict t) (tk_udict t); h_build la inp;; f la) Q s).
  { intros A t inp mode f N1 N2 Hb Q Hf W0. unfold run_lattice in N1, N2. cbn zeta in N1, N2. destruct (build (tk_dict t) (tk_udict t) inp) as [v| |] eqn:Eb; try (exfalso; cbn in *; congruence).
    exact (within_run Eb Hb Hs Hf W0). }
  destruct j as [[d u o] inp mode|[d u o] inp|[d u o] inp mode]; cbn [h_job job_ok job_nodes tk_dict tk_udict] in *.
  - destruct H as [Hd Hu]. destruct (@AnalyzeFacts.analyze_total d u Hd Hu ideo o inp mode) as (ts & E). apply wp_unbind in W. apply within_bind.
    eapply within_mono; [apply (B _ (Tokenizer d u o) inp mode (fun la => h_forward ideo (to_lmode mode) la;; h_backward (to_lmode mode) la;; do tokens <- h_tokens (Tokenizer d u o) la; h_free la;; Ret tokens))|].
    + intros R. unfold analyze in E. rewrite R in E. discriminate.
    + intros R. unfold analyze in E. rewrite R in E. discriminate.
    + exact Hk.
    + intros la. apply noget_bind; [apply noget_forward|intros _]. apply noget_bind; [apply noget_backward|intros _]. apply noget_bind; [apply noget_tokens|intros x].
      apply noget_bind; [apply noget_free|intros _; exact I].
    + exact W.
    + intros ts' s'. apply within_noget. exact I.
  - destruct H as [Hd Hu]. destruct (@AnalyzeFacts.analyze_total d u Hd Hu ideo o inp mode_normal) as (ts & E). apply wp_unbind in W. apply wp_unbind in W. apply within_bind. apply within_bind.
    eapply within_mono; [apply (B _ (Tokenizer d u o) inp mode_normal (fun la => h_forward ideo (to_lmode mode_normal) la;; h_backward (to_lmode mode_normal) la;; do tokens <- h_tokens (Tokenizer d u o) la; h_free la;; Ret tokens))|].
    + intros R. unfold analyze in E. rewrite R in E. discriminate.
    + intros R. unfold analyze in E. rewrite R in E. discriminate.
    + exact Hk.
    + intros la. apply noget_bind; [apply noget_forward|intros _]. apply noget_bind; [apply noget_backward|intros _]. apply noget_bind; [apply noget_tokens|intros x].
      apply noget_bind; [apply noget_free|intros _; exact I].
    + exact W.
    + intros ts' s' W'. apply within_noget; [exact I|]. cbn [wp] in *. apply within_noget; [exact I|]. exact W'.
  - destruct H as (Hd & Hu & Hw). destruct (DotFacts.graph_ok o ideo inp mode Hd Hu Hw) as (la & la' & l & _ & _ & _ & E1 & E2). apply wp_unbind in W. apply within_bind.
    eapply within_mono; [apply (B _ (Tokenizer d u o) inp mode (fun la => h_forward ideo (to_lmode mode) la;; h_backward (to_lmode mode) la;;
      do tokens <- h_graph_tokens (Tokenizer d u o) la; do drawn <- h_dot la; h_free la;; Ret (tokens, drawn)))|].
    + intros R. unfold analyze_graph in E2. rewrite R in E2. discriminate.
    + intros R. unfold analyze_graph in E2. rewrite R in E2. discriminate.
    + exact Hk.
    + intros la0. apply noget_bind; [apply noget_forward|intros _]. apply noget_bind; [apply noget_backward|intros _]. apply noget_bind; [apply noget_graph_tokens|intros x].
      apply noget_bind; [apply noget_dot|intros y]. apply noget_bind; [apply noget_free|intros _; exact I].
    + exact W.
    + intros r s'. apply within_noget. exact I.
Qed.

Lemma within_jobs ideo js K : (forall j, In j js -> job_ok j) -> (forall j, In j js -> job_nodes j <= K) -> forall s, empty s ->
  within K (h_jobs ideo js) (fun rs s' => Forall2 (right_answer ideo) js rs /\ empty s') s.
Proof.
  induction js as [|j js IH]; intros H Hk s Hs; cbn [h_jobs].
  - apply within_noget; [exact I|]. cbn. auto.
  - apply within_bind. eapply within_mono; [exact (within_job ideo (H j (or_introl eq_refl)) Hs (Hk j (or_introl eq_refl)))|]. intros r s1 [Hr H1].
    apply within_bind. eapply within_mono; [apply (IH (fun x Hx => H x (or_intror Hx)) (fun x Hx => Hk x (or_intror Hx)) s1 H1)|]. intros rs s2 [Hrs H2].
    apply within_noget; [exact I|]. cbn. auto.
Qed.

(** ** The system *)
Definition meter_of {A} (K : nat) (th : thread A) : thread (A * nat * nat) :=
  Thread (metered (th_prog th) (K - length (th_nodes th)) (1 - length (th_lats th))) (th_nodes th) (th_new th) (th_lats th).
Definition fits {A} (K : nat) (th : thread A) : Prop := length (th_nodes th) <= K /\ length (th_lats th) <= 1.

Lemma remove_one_length a l : In a l -> S (length (remove_one a l)) = length l.
Proof.
  induction l as [|x l IH]; cbn [remove_one]; intros H; [destruct H|]. destruct (Nat.eqb_spec x a); [reflexivity|]. destruct H as [H|H]; [congruence|].
  cbn [length]. rewrite (IH H). reflexivity.
Qed.

Lemma meter_step A K g (th : thread A) g' th' R : tstep g th g' th' -> fits K th -> tinv g R (meter_of K th) -> tstep g (meter_of K th) g' (meter_of K th') /\ fits K th'.
Proof.
  intros St [F1 F2] (s & W & AG). unfold meter_of, fits in *.
  destruct St; cbn [th_prog th_nodes th_new th_lats metered] in *.
  - split; [|auto]. exact (@t_choose _ g (fun n => metered (k n) _ _) n hn hw hl).
  - destruct (K - length hn) as [|q] eqn:Eq; [destruct W|]. cbn [length] in *. split; [|split; lia]. replace (K - S (length hn)) with q by lia.
    exact (@t_node_get _ nodes next p1 a p2 lats lnext lpool (fun a => metered (k a) q (1 - length hl)) hn hw hl).
  - destruct (K - length hn) as [|q] eqn:Eq; [destruct W|]. cbn [length] in *. split; [|split; lia]. replace (K - S (length hn)) with q by lia.
    exact (@t_node_make _ nodes next pool lats lnext lpool (fun a => metered (k a) q (1 - length hl)) hn hw hl).
  - cbn [wp] in W. destruct W as ((h & Eh) & W). assert (I : In a hn) by (apply cnt_In; apply (ag_nodes AG); eauto).
    pose proof (remove_one_length I). split; [|split; lia]. replace (K - length (remove_one a hn)) with (S (K - length hn)) by lia. constructor.
  - split; [|auto]. exact (@t_node_new _ nodes next pool lats lnext lpool n (fun a => metered (k a) _ _) hn hw hl).
  - split; [|auto]. exact (@t_node_read _ g a (fun a => metered (k a) _ _) hn hw hl).
  - split; [|auto]. constructor.
  - destruct (1 - length hl) as [|q] eqn:Eq; [destruct W|]. cbn [length] in *. split; [|split; lia]. replace (1 - S (length hl)) with q by lia.
    exact (@t_lat_get _ nodes next pool lats lnext p1 a p2 (fun a => metered (k a) (K - length hn) q) hn hw hl).
  - destruct (1 - length hl) as [|q] eqn:Eq; [destruct W|]. cbn [length] in *. split; [|split; lia]. replace (1 - S (length hl)) with q by lia.
    exact (@t_lat_make _ nodes next pool lats lnext lpool (fun a => metered (k a) (K - length hn) q) hn hw hl).
  - cbn [wp] in W. destruct W as ((l & El & _) & W). assert (I : In a hl) by (apply cnt_In; apply (ag_lats AG); eauto).
    pose proof (remove_one_length I). split; [|split; lia]. replace (1 - length (remove_one a hl)) with (S (1 - length hl)) by lia. constructor.
  - split; [|auto]. exact (@t_lat_read _ g a (fun a => metered (k a) _ _) hn hw hl).
  - split; [|auto]. constructor.
Qed.

Section System.
Variables (g0 : memory) (ideo : ideographic) (jobs : list (list job)).
Hypothesis Hg : left_over g0.
Hypothesis Hj : forall js, In js jobs -> forall j, In j js -> job_ok j.

Definition mideal (js : list job) (x : list answer * nat * nat) (s : lheap) : Prop := ideal ideo js (fst (fst x)) s.
Definition meters (kts : list (nat * thread (list answer))) := map (fun kt => meter_of (fst kt) (snd kt)) kts.

Lemma meters_start : ginv (map mideal jobs) (g0, meters (map (fun js => (largest_call js, start_thread (h_jobs ideo js))) jobs)).
Proof.
  destruct Hg as [Ln Ll Lf]. unfold meters. rewrite map_map. cbn [fst snd].
  replace (map (fun js => meter_of (largest_call js) (start_thread (h_jobs ideo js))) jobs)
    with (map (@start_thread _) (map (fun js => metered (h_jobs ideo js) (largest_call js) 1) jobs))
    by (rewrite map_map; apply map_ext; intros js; unfold meter_of, start_thread; cbn [th_prog th_nodes th_new th_lats length]; rewrite Nat.sub_0_r; reflexivity).
  apply start_ginv.
  - clear Ln Ll Lf. induction jobs as [|js l IH]; cbn [map]; constructor.
    + refine (within_jobs _ (js := js) (K := largest_call js) _ _ _ account_start _ _); try lia.
      * apply Hj. left. reflexivity.
      * intros j I. unfold largest_call. pose proof (proj1 (list_max_le (map job_nodes js) _) (le_n _)) as F. rewrite Forall_forall in F. apply F. apply in_map. exact I.
      * split; cbn; [discriminate|reflexivity].
    + apply IH. intros js' I. apply Hj. right. exact I.
  - apply apart_NoDup. rewrite app_nil_r. exact Ln.
  - apply apart_NoDup. rewrite app_nil_r. exact Ll.
  - intros a Ha. apply freed_clean, Lf, cnt_In, Ha.
Qed.

Lemma meters_reach g ths : steps (start g0 ideo jobs) (g, ths) ->
  exists kts, ths = map snd kts /\ map fst kts = map largest_call jobs /\ Forall (fun kt => fits (fst kt) (snd kt)) kts /\ ginv (map mideal jobs) (g, meters kts).
Proof.
  intros S. remember (start g0 ideo jobs) as x eqn:Ex. remember (g, ths) as y eqn:Ey. revert g ths Ey. induction S as [x|x y z S IH T]; intros g ths Ey.
  - rewrite Ex in Ey. unfold start in Ey. injection Ey as <- <-. exists (map (fun js => (largest_call js, start_thread (h_jobs ideo js))) jobs).
    rewrite !map_map. split; [reflexivity|]. split; [reflexivity|]. split; [|exact meters_start].
    rewrite Forall_map. apply Forall_forall. intros js _. split; cbn; lia.
  - subst z. specialize (IH Ex). clear Ex S. inversion T as [g1 t1 th t2 g' th' T1 E1 E2]; subst. destruct (IH _ _ eq_refl) as (kts & E & Ek & F & G).
    symmetry in E. apply map_eq_app in E. destruct E as (k1 & kr & -> & <- & E). destruct kr as [|[K th0] k2]; [discriminate|]. cbn in E. injection E as -> <-.
    apply Forall_app in F. destruct F as [Fa Fb]. inversion Fb as [|? ? Fc Fd]; subst. cbn [fst snd] in Fc.
    unfold meters in G. rewrite map_app in G. cbn [map fst snd] in G.
    assert (TI : exists R, tinv g1 R (meter_of K th)).
    { destruct G as (FG & _). apply Forall2_split in FG. destruct FG as (l1 & R & l2 & _ & _ & H & _). eauto. }
    destruct TI as (R & TI). destruct (meter_step T1 Fc TI) as [T2 F2].
    exists (k1 ++ (K, th') :: k2). split; [rewrite map_app; reflexivity|]. split; [rewrite map_app in Ek |- *; exact Ek|].
    split; [apply Forall_app; split; [exact Fa|constructor; [exact F2|exact Fd]]|].
    unfold meters. rewrite map_app. cbn [map fst snd]. refine (step_ginv _ G). constructor. exact T2.
Qed.

Lemma held_bound g ths : steps (start g0 ideo jobs) (g, ths) -> forall k js th, nth_error jobs k = Some js -> nth_error ths k = Some th ->
  length (th_nodes th) <= largest_call js /\ length (th_lats th) <= 1.
Proof.
  intros S k js th H1 H2. destruct (meters_reach S) as (kts & -> & Ek & F & _). rewrite nth_error_map in H2. destruct (nth_error kts k) as [[K th0]|] eqn:E; [|discriminate].
  cbn in H2. injection H2 as ->. rewrite Forall_forall in F. pose proof (F _ (nth_error_In _ _ E)) as [F1 F2]. cbn [fst snd] in *.
  assert (EK : nth_error (map fst kts) k = Some K) by (rewrite nth_error_map, E; reflexivity). rewrite Ek, nth_error_map, H1 in EK. injection EK as <-. auto.
Qed.

Lemma held_sum g ths : steps (start g0 ideo jobs) (g, ths) ->
  length (flat_map th_nodes ths) <= list_sum (map largest_call jobs) /\ length (flat_map th_lats ths) <= length jobs.
Proof.
  intros S. destruct (meters_reach S) as (kts & -> & Ek & F & _). rewrite <- Ek.
  assert (L : length jobs = length kts) by (rewrite <- (map_length largest_call jobs), <- Ek, map_length; reflexivity). rewrite L. clear - F.
  induction F as [|[K th] l [F1 F2] F [IH1 IH2]]; cbn [map flat_map length list_sum fold_right fst snd] in *; [auto|]. rewrite !app_length. cbn [list_sum] in *. unfold list_sum in *. lia.
Qed.

Lemma frugal_steps_steps A (x y : memory * list (thread A)) : frugal_steps x y -> steps x y.
Proof. intros S. induction S as [x|x y z S IH T]; [constructor|]. econstructor; [exact IH|]. destruct T. constructor. assumption. Qed.

Lemma frugal_pool A (g : memory) (th : thread A) g' th' : tstep g th g' th' -> reuses g th g' ->
  (forall a k, th_prog th = NodePut a k -> In a (th_nodes th)) -> (forall a k, th_prog th = LatPut a k -> In a (th_lats th)) ->
  (length (g_node_pool g') + length (th_nodes th') = length (g_node_pool g) + length (th_nodes th) \/ g_node_pool g' = []) /\
  (length (g_lat_pool g') + length (th_lats th') = length (g_lat_pool g) + length (th_lats th) \/ g_lat_pool g' = []).
Proof.
  intros T [R1 R2] P1 P2. destruct T; cbn [g_node_pool g_node_next g_lat_pool g_lat_next th_prog th_nodes th_lats length] in *; try (split; left; reflexivity).
  - split; left; [|reflexivity]. rewrite !app_length. cbn [length]. lia.
  - split; [right|left; reflexivity]. destruct pool as [|a pool]; [reflexivity|]. exfalso. specialize (R1 k eq_refl). assert (S next = next) by (apply R1; discriminate). lia.
  - split; left; [|reflexivity]. pose proof (remove_one_length (P1 _ _ eq_refl)). lia.
  - split; left; [reflexivity|]. rewrite !app_length. cbn [length]. lia.
  - split; [left; reflexivity|right]. destruct lpool as [|a lpool]; [reflexivity|]. exfalso. specialize (R2 k eq_refl). assert (S lnext = lnext) by (apply R2; discriminate). lia.
  - split; left; [reflexivity|]. pose proof (remove_one_length (P2 _ _ eq_refl)). lia.
Qed.

Lemma pool_bound x : frugal_steps (start g0 ideo jobs) x ->
  pooled_nodes x <= Nat.max (length (g_node_pool g0)) (list_sum (map largest_call jobs)) /\
  pooled_lats x <= Nat.max (length (g_lat_pool g0)) (length jobs).
Proof.
  intros S. remember (start g0 ideo jobs) as x0 eqn:E0. induction S as [x|x y z S IH T].
  - subst x. unfold pooled_nodes, pooled_lats, start. cbn [fst snd].
    assert (Z : forall f : thread (list answer) -> list addr, (forall p, f (start_thread p) = []) -> flat_map f (map (fun js => start_thread (h_jobs ideo js)) jobs) = []).
    { intros f Hf. clear - Hf. induction jobs as [|js l IH]; cbn; [reflexivity|]. rewrite Hf, IH. reflexivity. }
    rewrite !Z by reflexivity. cbn [length]. lia.
  - subst x. specialize (IH eq_refl). pose proof (frugal_steps_steps S) as Sx. destruct T as [g t1 th t2 g' th' T R].
    assert (Sz : steps (start g0 ideo jobs) (g', t1 ++ th' :: t2)) by (econstructor; [exact Sx|constructor; exact T]).
    destruct (held_sum Sz) as [B1 B2]. destruct (one_owner Hg Hj Sx) as (_ & _ & O & _).
    destruct (O th) as (_ & P1 & P2 & _); [apply in_or_app; right; left; reflexivity|].
    destruct (frugal_pool T R P1) as [D1 D2]; [intros a k E; apply P2; rewrite E; constructor|].
    unfold pooled_nodes, pooled_lats in *. cbn [fst snd] in *. rewrite !flat_map_app in *. cbn [flat_map] in *. rewrite !app_length in *.
    split; [destruct D1 as [D|D]|destruct D2 as [D|D]]; try rewrite D in *; cbn [length] in *; lia.
Qed.
End System.
