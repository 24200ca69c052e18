(** The patterns a features filter keeps decide what it matches. *)
From Verif Require Import GoBase Filter SpecFilter.
From Verif Require Export SpecRules FilterWork FilterMore FilterText.
From Coq Require Import List Lia ZifyBool ZifyNat.
Set Implicit Arguments.
Unset Strict Implicit.
Open Scope nat_scope.

Lemma add_cases n v q :
  (exists l x c r, fanout n = l ++ (x, c) :: r /\ has n v = Some (length l) /\ child n (length l) = c /\ stands_for x v /\ (forall v' c', In (v', c') l -> ~ stands_for v' v) /\
     add_features n (v :: q) = if is_leaf c then n else FNode (l ++ (x, match q with [] => FNode [] | _ => add_features c q end) :: r)) \/
  ((forall v' c', In (v', c') (fanout n) -> ~ stands_for v' v) /\ has n v = None /\ add_features n (v :: q) = FNode (fanout n ++ [(v, add_features (FNode []) q)])).
Proof.
  destruct (has n v) as [k|] eqn:E.
  - left. pose proof E as E0. unfold has in E. apply has_from_spec in E. destruct E as (l & x & c & r & E & -> & Hs & Hl). exists l, x, c, r. cbn [Nat.add] in *.
    assert (Ec : child n (length l) = c) by (unfold child; rewrite E, nth_error_mid; reflexivity).
    split; [exact E|]. split; [reflexivity|]. split; [exact Ec|]. split; [exact Hs|]. split; [exact Hl|]. cbn [add_features]. rewrite E0, Ec. destruct (is_leaf c); [reflexivity|].
    destruct q; unfold set_child; rewrite E, update_nth_mid; reflexivity.
  - right. split; [unfold has in E; apply (proj1 (has_from_none _ _ _) E)|]. split; [reflexivity|]. cbn [add_features]. rewrite E. reflexivity.
Qed.

(** ** Any comes last at each node *)
Inductive canon : fnode -> Prop :=
| canon_node es : NoDup (map fst es) -> (forall l r, map fst es = l ++ any_feature :: r -> r = []) -> (forall v c, In (v, c) es -> canon c) -> canon (FNode es).
Lemma canon_leaf : canon (FNode []).
Proof. constructor; [constructor|intros [|? ?] r E; discriminate|intros v c []]. Qed.
Lemma canon_tidy n : canon n -> tidy n.
Proof. intros H. induction H as [es H1 H2 H3 H4]. constructor; assumption. Qed.

Lemma any_last (es : list (bytes * fnode)) l c r : (forall l r, map fst es = l ++ any_feature :: r -> r = []) -> es = l ++ (any_feature, c) :: r -> r = [].
Proof. intros H E. assert (X : map fst r = []) by (apply (H (map fst l)); rewrite E, map_app; reflexivity). destruct r; [reflexivity|discriminate]. Qed.

Lemma canon_replace l x c y r : canon (FNode (l ++ (x, c) :: r)) -> canon y -> canon (FNode (l ++ (x, y) :: r)).
Proof.
  intros H Hy. inversion H as [es H1 H2 H3 X]; subst. constructor.
  - rewrite map_app in *. cbn [map fst] in *. exact H1.
  - rewrite map_app in *. cbn [map fst] in *. exact H2.
  - intros v d I. apply in_app_or in I. destruct I as [I|[I|I]].
    + apply (H3 v). apply in_or_app. left. exact I.
    + injection I as _ <-. exact Hy.
    + apply (H3 v). apply in_or_app. right. right. exact I.
Qed.

Lemma canon_add q : forall n, canon n -> canon (add_features n q).
Proof.
  induction q as [|v q IH]; intros n Hn; [exact Hn|]. destruct (add_cases n v q) as [(l & x & c & r & E & _ & _ & Hs & Hl & ->)|(Hno & _ & ->)].
  - destruct (is_leaf c); [exact Hn|]. destruct n as [es]. cbn [fanout] in E. subst es. apply (canon_replace Hn). inversion Hn as [es H1 H2 H3 X]; subst.
    destruct q; [apply canon_leaf|]. apply IH. apply (H3 x). apply in_or_app. right. left. reflexivity.
  - destruct n as [es]. cbn [fanout] in *. inversion Hn as [es' H1 H2 H3 X]; subst. constructor.
    + rewrite map_app. cbn [map fst].
      assert (Hv : ~ In v (map fst es)) by (intros I; apply in_map_iff in I; destruct I as ([a b] & <- & I); apply (Hno a b I); right; reflexivity).
      clear - H1 Hv. induction (map fst es) as [|y l IH]; cbn [app]; [constructor; [intros []|constructor]|]. inversion H1 as [|? ? N1 N2]; subst. constructor.
      * intros I. apply in_app_or in I. destruct I as [I|[<-|[]]]; [exact (N1 I)|]. apply Hv. left. reflexivity.
      * apply IH; [exact N2|]. intros I. apply Hv. right. exact I.
    + intros l r E. destruct r as [|e r _] using rev_ind; [reflexivity|]. exfalso. rewrite map_app, app_comm_cons, app_assoc in E. cbn [map fst] in E. apply app_inj_tail in E. destruct E as [E _].
      assert (I : In any_feature (map fst es)) by (rewrite E; apply in_or_app; right; left; reflexivity). apply in_map_iff in I. destruct I as ([a c] & Ea & I). apply (Hno a c I). left. exact Ea.
    + intros w c I. apply in_app_or in I. destruct I as [I|[I|[]]]; [exact (H3 w c I)|]. injection I as _ <-. apply IH, canon_leaf.
Qed.
Lemma canon_filter pats : canon (new_features_filter pats).
Proof. unfold new_features_filter. generalize canon_leaf. generalize (FNode []). induction pats as [|p pats IH]; intros n H; [exact H|]. apply IH, canon_add, H. Qed.

(** ** The patterns kept and those given *)
Lemma weaker_nil q : weaker [] q -> q = [].
Proof. intros H. inversion H. reflexivity. Qed.
Lemma weaker_refl p : weaker p p.
Proof. induction p; constructor; auto. Qed.

Lemma leafpath_from q : forall n p, leafpath (add_features n q) p -> leafpath n p \/ weaker p q /\ q <> [].
Proof.
  induction q as [|v q IH]; intros n p H; [left; exact H|]. destruct (add_cases n v q) as [(l & x & c & r & E & _ & _ & Hs & Hl & A)|(Hno & _ & A)]; rewrite A in H; clear A.
  - destruct (is_leaf c) eqn:Lc; [left; exact H|]. destruct p as [|w p]; [destruct (leafpath_nil H)|]. apply leafpath_cons in H. destruct H as (d & I & Hb). cbn [fanout] in I.
    apply in_app_or in I. destruct I as [I|[I|I]].
    + left. apply leafpath_cons. exists d. split; [rewrite E; apply in_or_app; left; exact I|exact Hb].
    + injection I as <- <-.
      assert (K : leafpath c p \/ weaker p q).
      { destruct q as [|v' q].
        - destruct Hb as [(-> & _)|Hb]; [right; constructor|destruct (leaf_no_path Hb)].
        - destruct Hb as [(_ & Hb)|Hb]; [rewrite is_leaf_false_new in Hb; discriminate|]. destruct (IH c p Hb) as [H|[H _]]; auto. }
      destruct K as [K|K]; [left; apply leafpath_cons; exists c; split; [rewrite E; apply in_or_app; right; left; reflexivity|right; exact K]|].
      right. split; [|discriminate]. constructor; [exact Hs|exact K].
    + left. apply leafpath_cons. exists d. split; [rewrite E; apply in_or_app; right; right; exact I|exact Hb].
  - destruct p as [|w p]; [destruct (leafpath_nil H)|]. apply leafpath_cons in H. destruct H as (d & I & Hb). cbn [fanout] in I. apply in_app_or in I. destruct I as [I|[I|[]]].
    + left. apply leafpath_cons. exists d. split; assumption.
    + injection I as <- <-. right. split; [|discriminate]. constructor; [right; reflexivity|]. destruct q as [|v' q].
      * destruct Hb as [(-> & _)|Hb]; [constructor|destruct (leaf_no_path Hb)].
      * destruct Hb as [(_ & Hb)|Hb]; [rewrite is_leaf_false_new in Hb; discriminate|]. destruct (IH _ _ Hb) as [H|[H _]]; [destruct (leaf_no_path H)|exact H].
Qed.

(** A kept pattern stays or gives way to a beginning of it. *)
Lemma leafpath_stays q : forall n p, leafpath n p -> exists p1 p2, leafpath (add_features n q) p1 /\ p = p1 ++ p2.
Proof.
  induction q as [|v q IH]; intros n p H; [exists p, []; split; [exact H|rewrite app_nil_r; reflexivity]|].
  destruct p as [|w p]; [destruct (leafpath_nil H)|]. pose proof H as H0. apply leafpath_cons in H. destruct H as (d & I & Hb).
  destruct (add_cases n v q) as [(l & x & c & r & E & _ & _ & Hs & Hl & ->)|(Hno & _ & ->)].
  - destruct (is_leaf c) eqn:Lc; [exists (w :: p), []; split; [exact H0|rewrite app_nil_r; reflexivity]|]. rewrite E in I. apply in_app_or in I. destruct I as [I|[I|I]].
    + exists (w :: p), []. split; [|rewrite app_nil_r; reflexivity]. apply leafpath_cons. exists d. split; [apply in_or_app; left; exact I|exact Hb].
    + injection I as <- <-. destruct Hb as [(-> & X)|Hb]; [rewrite X in Lc; discriminate|]. destruct q as [|v' q].
      * exists [x], p. split; [|reflexivity]. apply leafpath_cons. eexists. split; [apply in_or_app; right; left; reflexivity|left; split; reflexivity].
      * destruct (IH c p Hb) as (p1 & p2 & H1 & ->). exists (x :: p1), p2. split; [|reflexivity]. apply leafpath_cons. eexists. split; [apply in_or_app; right; left; reflexivity|right; exact H1].
    + exists (w :: p), []. split; [|rewrite app_nil_r; reflexivity]. apply leafpath_cons. exists d. split; [apply in_or_app; right; right; exact I|exact Hb].
  - exists (w :: p), []. split; [|rewrite app_nil_r; reflexivity]. apply leafpath_cons. exists d. split; [apply in_or_app; left; exact I|exact Hb].
Qed.

Lemma leafpath_new q : forall n, q <> [] -> exists p q1 q2, leafpath (add_features n q) p /\ q = q1 ++ q2 /\ weaker p q1.
Proof.
  induction q as [|v q IH]; intros n Hq; [contradiction|]. clear Hq. destruct (add_cases n v q) as [(l & x & c & r & E & _ & _ & Hs & Hl & ->)|(Hno & _ & ->)].
  - destruct (is_leaf c) eqn:Lc.
    + exists [x], [v], q. split; [|split; [reflexivity|constructor; [exact Hs|constructor]]]. apply leafpath_cons. exists c. split; [rewrite E; apply in_or_app; right; left; reflexivity|left; auto].
    + destruct q as [|v' q].
      * exists [x], [v], []. split; [|split; [reflexivity|constructor; [exact Hs|constructor]]]. apply leafpath_cons. eexists. split; [apply in_or_app; right; left; reflexivity|left; auto].
      * destruct (IH c) as (p & q1 & q2 & H1 & E1 & H2); [discriminate|]. exists (x :: p), (v :: q1), q2. split; [|split; [cbn; rewrite E1; reflexivity|constructor; [exact Hs|exact H2]]].
        apply leafpath_cons. eexists. split; [apply in_or_app; right; left; reflexivity|right; exact H1].
  - destruct q as [|v' q].
    + exists [v], [v], []. split; [|split; [reflexivity|apply weaker_refl]]. apply leafpath_cons. eexists. split; [apply in_or_app; right; left; reflexivity|left; auto].
    + destruct (IH (FNode [])) as (p & q1 & q2 & H1 & E1 & H2); [discriminate|]. exists (v :: p), (v :: q1), q2. split; [|split; [cbn; rewrite E1; reflexivity|constructor; [right; reflexivity|exact H2]]].
      apply leafpath_cons. eexists. split; [apply in_or_app; right; left; reflexivity|right; exact H1].
Qed.

Lemma weaker_split p1 p2 : forall q, weaker (p1 ++ p2) q -> exists q1 q2, q = q1 ++ q2 /\ weaker p1 q1.
Proof. intros q H. apply Forall2_app_inv_l in H. destruct H as (q1 & q2 & H1 & _ & ->). eauto. Qed.

Lemma fold_from pats : forall n p, leafpath (fold_left add_features pats n) p -> leafpath n p \/ exists q, In q pats /\ q <> [] /\ weaker p q.
Proof.
  induction pats as [|q pats IH]; intros n p H; [left; exact H|]. cbn [fold_left] in H. destruct (IH _ _ H) as [H1|(q' & I & H1)]; [|right; exists q'; split; [right; exact I|exact H1]].
  destruct (leafpath_from H1) as [H2|[H2 H3]]; [left; exact H2|right; exists q; split; [left; reflexivity|auto]].
Qed.
Lemma fold_stays pats : forall n p, leafpath n p -> exists p1 p2, leafpath (fold_left add_features pats n) p1 /\ p = p1 ++ p2.
Proof.
  induction pats as [|q pats IH]; intros n p H; [exists p, []; split; [exact H|rewrite app_nil_r; reflexivity]|]. cbn [fold_left]. destruct (leafpath_stays q H) as (p1 & p2 & H1 & ->).
  destruct (IH _ _ H1) as (a & b & H2 & ->). exists a, (b ++ p2). split; [exact H2|rewrite app_assoc; reflexivity].
Qed.
Lemma fold_new pats : forall n q, In q pats -> q <> [] -> exists p q1 q2, leafpath (fold_left add_features pats n) p /\ q = q1 ++ q2 /\ weaker p q1.
Proof.
  induction pats as [|q0 pats IH]; intros n q I Hq; [destruct I|]. destruct I as [->|I]; cbn [fold_left]; [|exact (IH _ _ I Hq)]. destruct (leafpath_new n Hq) as (p & q1 & q2 & H1 & -> & H2).
  destruct (fold_stays pats H1) as (a & b & H3 & ->). destruct (weaker_split H2) as (c & d & -> & H4). exists a, c, (d ++ q2). split; [exact H3|]. split; [rewrite app_assoc; reflexivity|exact H4].
Qed.

(** ** What a filter matches *)
Lemma has_path n : is_leaf n = false -> exists p, leafpath n p.
Proof.
  induction n as [es IH] using trie_ind. intros H. destruct es as [|[v c] es]; [discriminate|]. destruct (is_leaf c) eqn:Lc.
  - exists [v]. apply leafpath_cons. exists c. split; [left; reflexivity|left; auto].
  - destruct (IH v c (or_introl eq_refl) Lc) as (p & Hp). exists (v :: p). apply leafpath_cons. exists c. split; [left; reflexivity|right; exact Hp].
Qed.
Lemma edge_path n v c : In (v, c) (fanout n) -> exists p, leafpath n (v :: p).
Proof.
  intros I. destruct (is_leaf c) eqn:Lc; [exists []; apply leafpath_cons; exists c; split; [exact I|left; auto]|].
  destruct (has_path Lc) as (p & Hp). exists p. apply leafpath_cons. exists c. split; [exact I|right; exact Hp].
Qed.

Definition picks (n : fnode) (p fs : list bytes) : Prop :=
  leafpath n p /\ covers p fs /\ forall common v r w r', p = common ++ v :: r -> leafpath n (common ++ w :: r') -> nth_error fs (length common) = Some w -> v = w.

Lemma match_picks fs : forall n, canon n -> (features_match n fs = true <-> exists p, picks n p fs).
Proof.
  induction fs as [|s fs IH]; intros n Hn.
  { split; [discriminate|]. intros (p & H1 & H2 & _). inversion H2; subst. destruct (leafpath_nil H1). }
  split.
  - destruct (add_cases n s []) as [(l & x & c & r & E & _ & _ & Hs & Hl & _)|(Hno & _ & _)]; [|rewrite (match_none fs Hno); discriminate].
    rewrite (match_cons fs E Hs Hl).
    assert (Hx : forall w r', leafpath n (w :: r') -> w = s -> x = w).
    { intros w r' H ->. destruct Hs as [->| ->]; [|reflexivity]. apply leafpath_cons in H. destruct H as (d & I & _). rewrite E in I. apply in_app_or in I. destruct I as [I|[I|I]].
      - destruct (Hl _ _ I). right. reflexivity.
      - injection I as I _. exact I.
      - exfalso. inversion Hn as [es H1 H2 H3 X]; subst n. cbn [fanout] in E. rewrite (any_last H2 E) in I. destruct I. }
    assert (I0 : In (x, c) (fanout n)) by (rewrite E; apply in_or_app; right; left; reflexivity).
    destruct (is_leaf c) eqn:Lc.
    + intros _. exists [x]. split; [eapply lp_leaf; eassumption|]. split; [constructor; [exact Hs|constructor]|]. intros [|a common] v r0 w r' E1 H1 H2.
      * injection E1 as <- _. cbn in H2. injection H2 as <-. exact (Hx _ _ H1 eq_refl).
      * injection E1 as _ E1. destruct common; discriminate.
    + intros H. apply IH in H; [|inversion Hn as [es H1 H2 H3 X]; subst n; exact (H3 _ _ I0)]. destruct H as (p & P1 & P2 & P3). exists (x :: p). split; [eapply lp_step; eassumption|].
      split; [constructor; assumption|]. intros [|a common] v r0 w r' E1 H1 H2.
      * injection E1 as <- _. cbn in H2. injection H2 as <-. exact (Hx _ _ H1 eq_refl).
      * injection E1 as <- E1. cbn [app] in H1. apply (below_tidy _ (canon_tidy Hn) E) in H1. destruct H1 as [(H1 & _)|H1]; [destruct common; discriminate|]. exact (P3 _ _ _ _ _ E1 H1 H2).
  - intros (p & P1 & P2 & P3). destruct p as [|x p]; [destruct (leafpath_nil P1)|]. inversion P2 as [|? ? ? ? Hs P2']; subst. pose proof P1 as P1'. apply leafpath_cons in P1. destruct P1 as (c & I & Hb).
    apply in_split in I. destruct I as (l & r & E). inversion Hn as [es H1 H2 H3 X]; subst n. cbn [fanout] in E.
    assert (Hl : forall v' c', In (v', c') l -> ~ stands_for v' s).
    { intros v' c' I [->| ->].
      - apply in_split in I. destruct I as (l1 & l2 & ->). rewrite <- app_assoc in E. cbn [app] in E. pose proof (any_last H2 E) as Z. destruct l2; discriminate.
      - assert (I' : In (s, c') (fanout (FNode es))) by (cbn; rewrite E; apply in_or_app; left; exact I). destruct (edge_path I') as (p' & Hp').
        assert (x = s) as -> by exact (P3 [] x p s p' eq_refl Hp' eq_refl). rewrite E, map_app in H1. cbn [map fst] in H1. apply NoDup_remove_2 in H1. apply H1. apply in_or_app. left.
        apply in_map_iff. exists (s, c'). split; [reflexivity|exact I]. }
    rewrite (@match_cons (FNode es) s fs l x c r E Hs Hl). destruct Hb as [(_ & ->)|Hb]; [reflexivity|]. destruct (is_leaf c) eqn:Lc; [reflexivity|].
    apply IH; [apply (H3 x); rewrite E; apply in_or_app; right; left; reflexivity|]. exists p. split; [exact Hb|]. split; [exact P2'|]. intros common v r0 w r' E1 G1 G2.
    apply (P3 (x :: common) v r0 w r'); [rewrite E1; reflexivity| |exact G2]. cbn [app]. apply leafpath_cons. exists c. split; [cbn; rewrite E; apply in_or_app; right; left; reflexivity|right; exact G1].
Qed.

(** ** No kept pattern begins with another *)
Lemma leafpath_free p : forall n r, tidy n -> leafpath n p -> leafpath n (p ++ r) -> r = [].
Proof.
  induction p as [|v p IH]; intros n r Hn H1 H2; [destruct (leafpath_nil H1)|]. apply leafpath_cons in H1. destruct H1 as (c & I & Hb). pose proof I as I'. apply in_split in I. destruct I as (l & r' & E).
  cbn [app] in H2. apply (below_tidy _ Hn E) in H2. destruct H2 as [(H2 & _)|H2]; [apply app_eq_nil in H2; apply H2|]. destruct Hb as [(-> & Lc)|Hb]; [destruct (leafpath_leaf Lc H2)|].
  refine (IH c r _ Hb H2). inversion Hn as [es Nd Hc X]; subst n. exact (Hc _ _ I').
Qed.

(** ** The kept patterns make the filter again *)
Lemma leaf_paths_pre n : forall pre, leaf_paths pre n = map (app pre) (leaf_paths [] n).
Proof.
  induction n as [es IH] using trie_ind. intros pre. cbn [leaf_paths]. rewrite concat_map, map_map. f_equal. apply map_ext_in. intros [v c] I. cbn [fst snd app].
  destruct (fanout c) as [|e0 es0]; [reflexivity|]. rewrite (IH v c I (pre ++ [v])), (IH v c I [v]), map_map. apply map_ext. intros q. rewrite <- app_assoc. reflexivity.
Qed.

Lemma fold_under done v : (forall v' c', In (v', c') done -> ~ stands_for v' v) -> forall ps x, (forall p, In p ps -> p <> []) -> is_leaf x = false ->
  fold_left add_features (map (cons v) ps) (FNode (done ++ [(v, x)])) = FNode (done ++ [(v, fold_left add_features ps x)]).
Proof.
  intros Hd. induction ps as [|p ps IH]; intros x Hp Hx; cbn [map fold_left]; [reflexivity|].
  assert (A : add_features (FNode (done ++ [(v, x)])) (v :: p) = FNode (done ++ [(v, add_features x p)])).
  { cbn [add_features]. unfold has. cbn [fanout]. rewrite (has_from_app x [] 0 (or_intror eq_refl) Hd). cbn [Nat.add]. unfold child, set_child. cbn [fanout]. rewrite nth_error_mid, Hx.
    destruct p as [|v' p]; [|rewrite update_nth_mid; reflexivity]. destruct (Hp []); [left; reflexivity|reflexivity]. }
  rewrite A. apply IH; [intros q I; apply Hp; right; exact I|]. destruct p as [|v' p]; [|apply is_leaf_false_new]. destruct (Hp []); [left; reflexivity|reflexivity].
Qed.

Lemma rebuild n : canon n -> new_features_filter (leaf_paths [] n) = n.
Proof.
  induction n as [es IH] using trie_ind. intros Hn. inversion Hn as [es' H1 H2 H3 X]; subst. unfold new_features_filter. cbn [leaf_paths].
  assert (G : forall es2 done, es = done ++ es2 ->
    fold_left add_features (concat (map (fun e => match fanout (snd e) with [] => [[] ++ [fst e]] | _ => leaf_paths ([] ++ [fst e]) (snd e) end) es2)) (FNode done) = FNode es).
  { induction es2 as [|[v c] es2 IH2]; intros done E; cbn [map concat]; [rewrite app_nil_r in E; rewrite E; reflexivity|]. rewrite fold_left_app. cbn [fst snd app].
    assert (I : In (v, c) es) by (rewrite E; apply in_or_app; right; left; reflexivity).
    assert (Hd : forall v' c', In (v', c') done -> ~ stands_for v' v).
    { intros v' c' I' [->| ->].
      - apply in_split in I'. destruct I' as (l1 & l2 & ->). rewrite <- app_assoc in E. cbn [app] in E. pose proof (any_last H2 E) as Z. destruct l2; discriminate.
      - rewrite E, map_app in H1. cbn [map fst] in H1. apply NoDup_remove_2 in H1. apply H1. apply in_or_app. left. apply in_map_iff. exists (v, c'). split; [reflexivity|exact I']. }
    assert (A : fold_left add_features (match fanout c with [] => [[v]] | _ => leaf_paths [v] c end) (FNode done) = FNode (done ++ [(v, c)])).
    { pose proof (IH v c I (H3 v c I)) as R. unfold new_features_filter in R. destruct c as [ces]. cbn [fanout]. destruct ces as [|ce ces].
      - cbn [fold_left add_features]. unfold has. cbn [fanout]. rewrite (proj2 (has_from_none _ _ _) Hd). reflexivity.
      - rewrite leaf_paths_pre. assert (Ne : forall p, In p (leaf_paths [] (FNode (ce :: ces))) -> p <> []).
        { intros p Ip ->. apply in_leaf_paths in Ip. destruct Ip as (q & Hq & Eq). cbn in Eq. subst q. destruct (leafpath_nil Hq). }
        destruct (@has_path (FNode (ce :: ces)) eq_refl) as (p0 & Hp0). assert (In0 : In p0 (leaf_paths [] (FNode (ce :: ces)))) by (apply in_leaf_paths; exists p0; auto).
        destruct (leaf_paths [] (FNode (ce :: ces))) as [|p ps] eqn:El; [destruct In0|]. cbn [map fold_left].
        assert (A1 : add_features (FNode done) ([v] ++ p) = FNode (done ++ [(v, add_features (FNode []) p)])).
        { cbn [app add_features]. unfold has. cbn [fanout]. rewrite (proj2 (has_from_none _ _ _) Hd). reflexivity. }
        rewrite A1. change (map (app [v]) ps) with (map (cons v) ps). rewrite (fold_under Hd).
        + cbn [fold_left] in R. rewrite R. reflexivity.
        + intros q Iq. apply Ne. right. exact Iq.
        + destruct p as [|v' p]; [|apply is_leaf_false_new]. destruct (Ne []); [left; reflexivity|reflexivity]. }
    rewrite A. apply IH2. rewrite <- app_assoc. exact E. }
  exact (G es [] eq_refl).
Qed.

(** ** Sizes *)
Fixpoint edges (n : fnode) : nat := let 'FNode es := n in list_sum (map (fun e => S (edges (snd e))) es).
Fixpoint leaves (n : fnode) : nat := let 'FNode es := n in list_sum (map (fun e => match fanout (snd e) with [] => 1 | _ => leaves (snd e) end) es).

Lemma leaves_paths n : forall pre, length (leaf_paths pre n) = leaves n.
Proof.
  induction n as [es IH] using trie_ind. intros pre. cbn [leaf_paths leaves].
  assert (C : forall (A : Type) (ll : list (list A)), length (concat ll) = list_sum (map (@length A) ll)) by (clear; induction ll as [|x ll IH]; cbn; [reflexivity|rewrite app_length, IH; reflexivity]).
  rewrite C, map_map. f_equal. apply map_ext_in. intros [v c] I. cbn [fst snd]. destruct (fanout c); [reflexivity|]. apply (IH v c I).
Qed.

Lemma edges_add q : forall n, edges (add_features n q) <= edges n + length q.
Proof.
  induction q as [|v q IH]; intros n; [cbn; lia|]. destruct (add_cases n v q) as [(l & x & c & r & E & _ & _ & Hs & Hl & ->)|(Hno & _ & ->)].
  - destruct (is_leaf c); [lia|]. destruct n as [es]. cbn [fanout] in E. subst es. cbn [edges]. rewrite !map_app, !list_sum_app. cbn [map list_sum fold_right snd length].
    assert (edges (match q with [] => FNode [] | _ => add_features c q end) <= edges c + length q) by (destruct q; [cbn; lia|apply IH]). lia.
  - destruct n as [es]. cbn [fanout edges]. rewrite map_app, list_sum_app. cbn [map list_sum fold_right snd length]. specialize (IH (FNode [])). cbn [edges map list_sum fold_right] in IH. lia.
Qed.
Lemma leaves_add q : forall n, leaves (add_features n q) <= S (leaves n).
Proof.
  induction q as [|v q IH]; intros n; [cbn; lia|]. destruct (add_cases n v q) as [(l & x & c & r & E & _ & _ & Hs & Hl & ->)|(Hno & _ & ->)].
  - destruct (is_leaf c) eqn:Lc; [lia|]. destruct n as [es]. cbn [fanout] in E. subst es. cbn [leaves]. rewrite !map_app, !list_sum_app. cbn [map list_sum fold_right snd].
    unfold is_leaf in Lc. destruct (fanout c) eqn:Ec; [discriminate|]. destruct q as [|v' q].
    + cbn [fanout]. lia.
    + specialize (IH c). pose proof (is_leaf_false_new c v' q) as L. unfold is_leaf in L. destruct (fanout (add_features c (v' :: q))); [discriminate|]. lia.
  - destruct n as [es]. cbn [fanout leaves]. rewrite map_app, list_sum_app. cbn [map list_sum fold_right snd]. specialize (IH (FNode [])). cbn [leaves map list_sum fold_right] in IH.
    destruct (fanout (add_features (FNode []) q)); lia.
Qed.
Lemma edges_fold pats : forall n, edges (fold_left add_features pats n) <= edges n + total_length pats.
Proof. unfold total_length. induction pats as [|p pats IH]; intros n; cbn [fold_left map list_sum fold_right]; [lia|]. pose proof (IH (add_features n p)) as H. pose proof (edges_add p n). unfold list_sum in H. lia. Qed.
Lemma leaves_fold pats : forall n, leaves (fold_left add_features pats n) <= leaves n + length pats.
Proof. induction pats as [|p pats IH]; intros n; cbn [fold_left length]; [lia|]. pose proof (IH (add_features n p)). pose proof (leaves_add p n). lia. Qed.

(** ** Work *)
Lemma has_steps_found l x c r s : (forall v' c', In (v', c') l -> ~ stands_for v' s) -> stands_for x s -> has_steps (l ++ (x, c) :: r) s = S (length l).
Proof.
  intros Hl Hs. induction l as [|[v d] l IH]; cbn [app has_steps length].
  - destruct Hs as [->| ->]; rewrite bytes_eqb_refl'; [reflexivity|rewrite orb_true_r; reflexivity].
  - destruct (bytes_eqb v any_feature || bytes_eqb v s) eqn:E.
    + exfalso. apply (Hl v d); [left; reflexivity|]. apply orb_true_iff in E. rewrite !bytes_eqb_true in E. exact E.
    + rewrite IH; [reflexivity|]. intros v' c' I. apply (Hl v' c'). right. exact I.
Qed.
Lemma has_steps_le es s : has_steps es s <= length es.
Proof. induction es as [|[v c] es IH]; cbn; [lia|]. destruct (_ || _); lia. Qed.
Lemma edges_length es : length es <= edges (FNode es).
Proof. cbn [edges]. induction es as [|e es IH]; cbn [length map list_sum fold_right]; [lia|]. unfold list_sum in IH. lia. Qed.
Lemma edges_split l x c r : S (length l) + edges c <= edges (FNode (l ++ (x, c) :: r)).
Proof. pose proof (edges_length l) as H. cbn [edges] in *. rewrite map_app, list_sum_app. cbn [map list_sum fold_right snd]. lia. Qed.

Lemma match_steps_edges fs : forall n, match_steps n fs <= edges n.
Proof.
  induction fs as [|s fs IH]; intros n; cbn [match_steps]; [lia|]. destruct (add_cases n s []) as [(l & x & c & r & E & -> & -> & Hs & Hl & _)|(_ & -> & _)].
  - rewrite E, (has_steps_found c r Hl Hs). destruct n as [es]. cbn [fanout] in E. subst es. pose proof (edges_split l x c r). destruct (is_leaf c); [lia|]. pose proof (IH c). lia.
  - destruct n as [es]. cbn [fanout]. pose proof (has_steps_le es s). pose proof (edges_length es). lia.
Qed.
Lemma add_steps_leaf q : add_steps (FNode []) q = 0.
Proof. induction q as [|v q IH]; cbn; [reflexivity|exact IH]. Qed.
Lemma add_steps_edges q : forall n, add_steps n q <= edges n.
Proof.
  induction q as [|s q IH]; intros n; cbn [add_steps]; [lia|]. destruct (add_cases n s []) as [(l & x & c & r & E & -> & -> & Hs & Hl & _)|(_ & -> & _)].
  - rewrite E, (has_steps_found c r Hl Hs). destruct n as [es]. cbn [fanout] in E. subst es. pose proof (edges_split l x c r). destruct (is_leaf c); [lia|]. pose proof (IH c). destruct q; lia.
  - destruct n as [es]. cbn [fanout]. pose proof (has_steps_le es s). pose proof (edges_length es). rewrite add_steps_leaf. lia.
Qed.
Lemma build_steps_le pats : forall n, build_steps n pats <= length pats * (edges n + total_length pats).
Proof.
  unfold total_length. induction pats as [|p pats IH]; intros n; cbn [build_steps length map list_sum fold_right Nat.mul]; [lia|].
  pose proof (IH (add_features n p)) as H. pose proof (edges_add p n) as H1. pose proof (add_steps_edges p n) as H2. unfold list_sum in H.
  assert (length pats * (edges (add_features n p) + fold_right Nat.add 0 (map (@length bytes) pats)) <= length pats * (edges n + (length p + fold_right Nat.add 0 (map (@length bytes) pats)))) by (apply Nat.mul_le_mono_l; lia).
  lia.
Qed.

(** ** Together *)
Theorem rules pats : exists kept, new_features_filter kept = new_features_filter pats /\
  NoDup kept /\ prefix_free kept /\ length kept <= length pats /\
  (readable_patterns pats -> read_outline (features_string (new_features_filter pats)) = Some kept) /\
  (forall p, In p kept -> exists q, In q pats /\ q <> [] /\ weaker p q) /\
  (forall q, In q pats -> q <> [] -> exists p q1 q2, In p kept /\ q = q1 ++ q2 /\ weaker p q1) /\
  (forall fs, features_match (new_features_filter pats) fs = true <-> chosen kept fs).
Proof.
  pose proof (canon_filter pats) as C. exists (leaf_paths [] (new_features_filter pats)).
  assert (K : forall p, In p (leaf_paths [] (new_features_filter pats)) <-> leafpath (new_features_filter pats) p).
  { intros p. rewrite in_leaf_paths. split; [intros (q & H & ->); exact H|intros H; exists p; auto]. }
  split; [exact (rebuild C)|]. split; [exact (nodup_leaf_paths [] (canon_tidy C))|].
  split; [intros p q r H1 H2 E; subst q; apply K in H1; apply K in H2; exact (leafpath_free (canon_tidy C) H1 H2)|].
  split; [rewrite leaves_paths; exact (leaves_fold pats (FNode []))|].
  split; [intros R; apply read_leaf_paths, readable_filter, R|].
  split; [intros p H; apply K in H; destruct (fold_from H) as [X|X]; [destruct (leaf_no_path X)|exact X]|].
  split; [intros q I Hq; destruct (fold_new (FNode []) I Hq) as (p & q1 & q2 & H1 & H2); exists p, q1, q2; split; [apply K; exact H1|exact H2]|].
  intros fs. rewrite (match_picks fs C). unfold chosen, picks. split; intros (p & H1 & H2 & H3); exists p; (split; [apply K; exact H1|]); (split; [exact H2|]); intros common v r w r' E H4 H5;
    (apply (H3 common v r w r' E); [apply K; exact H4|exact H5]).
Qed.

Theorem work pats fs : match_steps (new_features_filter pats) fs <= total_length pats /\ build_steps (FNode []) pats <= length pats * total_length pats.
Proof.
  split; [|exact (build_steps_le pats (FNode []))]. eapply Nat.le_trans; [apply match_steps_edges|]. exact (edges_fold pats (FNode [])).
Qed.
