(** What the features filter does for pattern lists with ambiguous wildcards. *)
From Verif Require Import GoBase Filter SpecFilter.
From Verif Require Export FilterFacts.
From Coq Require Import List Lia ZifyBool ZifyNat.
Import ListNotations.
Set Implicit Arguments.
Unset Strict Implicit.
Open Scope nat_scope.

(** ** Edges after an insertion *)
Lemma has_from_labels es es' s : map fst es = map fst es' -> forall i, has_from es s i = has_from es' s i.
Proof.
  revert es'. induction es as [|[v c] es IH]; intros [|[v' c'] es'] E i; try discriminate; cbn in *; [reflexivity|].
  injection E as -> E. rewrite (IH _ E). reflexivity.
Qed.
Lemma labels_update (es : list (bytes * fnode)) k c : map fst (update_nth es k (fun e => (fst e, c))) = map fst es.
Proof. revert k. induction es as [|e es IH]; intros [|k]; cbn; try reflexivity. f_equal. apply IH. Qed.
Lemma has_set_child n k c s : has (set_child n k c) s = has n s.
Proof. unfold has, set_child. apply has_from_labels. cbn [fanout]. apply labels_update. Qed.
Lemma nth_update A (l : list A) k f j : nth_error (update_nth l k f) j = if j =? k then option_map f (nth_error l j) else nth_error l j.
Proof.
  revert k j. induction l as [|a l IH]; intros [|k] [|j]; cbn; try reflexivity; [destruct (j =? k); reflexivity|].
  apply IH.
Qed.
Lemma has_edge n s k : has n s = Some k -> exists v c, nth_error (fanout n) k = Some (v, c) /\ child n k = c /\ stands_for v s.
Proof.
  unfold has, child. intros H. apply has_from_spec in H. destruct H as (l & v & c & r & E & -> & Hs & _). rewrite E. cbn [Nat.add].
  exists v, c. rewrite nth_error_mid. auto.
Qed.
Lemma child_set_same n k c s : has n s = Some k -> child (set_child n k c) k = c.
Proof.
  intros H. destruct (has_edge H) as (v & c' & E & _). unfold child, set_child. cbn [fanout]. rewrite nth_update, Nat.eqb_refl, E. reflexivity.
Qed.
Lemma child_set_other n k j c : j <> k -> child (set_child n k c) j = child n j.
Proof. intros H. unfold child, set_child. cbn [fanout]. rewrite nth_update. destruct (Nat.eqb_spec j k); [contradiction|reflexivity]. Qed.
Lemma has_from_snoc es e s k : forall i, has_from es s i = Some k -> has_from (es ++ [e]) s i = Some k.
Proof.
  induction es as [|[v c] es IH]; intros i; cbn; [discriminate|]. destruct (bytes_eqb v any_feature || bytes_eqb v s); [auto|apply IH].
Qed.
Lemma child_snoc es e k s i : has_from es s i = Some (i + k) -> child (FNode (es ++ [e])) k = child (FNode es) k.
Proof.
  intros H. apply has_from_spec in H. destruct H as (l & v & c & r & E & Hk & _). assert (k = length l) by lia. subst k. unfold child. cbn [fanout].
  rewrite E, <- app_assoc. cbn [app]. rewrite !nth_error_mid. reflexivity.
Qed.

(** ** A match is never lost by adding patterns *)
Lemma match_mono q : forall n fs, features_match n fs = true -> features_match (add_features n q) fs = true.
Proof.
  induction q as [|v rest IH]; intros n fs H; [exact H|]. destruct fs as [|s fs]; [discriminate|]. cbn [features_match] in H.
  destruct (has n s) as [k|] eqn:Ek; [|discriminate]. cbn [add_features]. destruct (has n v) as [k'|] eqn:Ek'.
  - destruct (is_leaf (child n k')) eqn:El; [cbn [features_match]; rewrite Ek; exact H|].
    assert (G : forall c, (k = k' -> is_leaf c = true \/ features_match c fs = true) -> features_match (set_child n k' c) (s :: fs) = true).
    { intros c Hc. cbn [features_match]. rewrite has_set_child, Ek. destruct (Nat.eq_dec k k') as [->|D].
      - rewrite (child_set_same c Ek'). destruct (Hc eq_refl) as [-> | ->]; [reflexivity|]. destruct (is_leaf c); reflexivity.
      - rewrite (child_set_other _ _ D). exact H. }
    destruct rest as [|v' rest]; apply G; intros ->; [left; reflexivity|]. right. rewrite El in H. apply IH. exact H.
  - cbn [features_match]. unfold has at 1. cbn [fanout]. rewrite (has_from_snoc _ Ek). rewrite (child_snoc (i := 0) _ Ek).
    destruct n as [es]. exact H.
Qed.
Lemma fold_mono pats : forall n fs, features_match n fs = true -> features_match (fold_left add_features pats n) fs = true.
Proof. induction pats as [|q pats IH]; intros n fs H; cbn [fold_left]; [exact H|]. apply IH, match_mono, H. Qed.

(** ** Every label at depth k of the trie is related to p[k] *)
Section Depth.
Variable R : bytes -> bytes -> Prop.
Fixpoint depthwise (p : list bytes) (n : fnode) : Prop :=
  match p with
  | [] => True
  | v :: rest => (forall w c, In (w, c) (fanout n) -> R v w) /\ (forall w c, In (w, c) (fanout n) -> depthwise rest c)
  end.
Lemma depthwise_leaf p : depthwise p (FNode []).
Proof. destruct p; cbn; [exact I|]. split; contradiction. Qed.
Lemma depthwise_add : forall q p n, depthwise p n -> (forall k v w, nth_error p k = Some v -> nth_error q k = Some w -> R v w) -> depthwise p (add_features n q).
Proof.
  induction q as [|w q IH]; intros p n H Hr; [exact H|]. destruct p as [|v p]; [exact I|]. destruct H as [H1 H2].
  assert (Hr' : forall k v w, nth_error p k = Some v -> nth_error q k = Some w -> R v w) by (intros k; exact (Hr (S k))).
  assert (G : forall k c, depthwise p c -> depthwise (v :: p) (set_child n k c)).
  { intros k c Hc. unfold set_child. cbn [depthwise fanout]. split; intros x y Hin; apply In_nth_error in Hin; destruct Hin as (j & Hj);
      rewrite nth_update in Hj; (destruct (j =? k) eqn:Ejk; [destruct (nth_error (fanout n) j) as [[x' y']|] eqn:Ej; [injection Hj as <- <-|discriminate]|]).
    - eapply H1. eapply nth_error_In. exact Ej.
    - eapply H1. eapply nth_error_In. exact Hj.
    - exact Hc.
    - eapply H2. eapply nth_error_In. exact Hj. }
  cbn [add_features]. destruct (has n w) as [k|] eqn:Ek.
  - destruct (is_leaf (child n k)); [exact (conj H1 H2)|]. destruct (has_edge Ek) as (x & c & Ex & Ec & _).
    destruct q as [|w' q]; apply G; [apply depthwise_leaf|]. apply IH; [|exact Hr']. rewrite Ec. eapply H2. eapply nth_error_In. exact Ex.
  - cbn [depthwise fanout]. split; intros x y Hin; apply in_app_or in Hin; destruct Hin as [Hin|[E|[]]]; eauto; injection E as <- <-.
    + exact (Hr 0 v w eq_refl eq_refl).
    + apply IH; [apply depthwise_leaf|exact Hr'].
Qed.
Lemma depthwise_fold p pats : (forall q, In q pats -> forall k v w, nth_error p k = Some v -> nth_error q k = Some w -> R v w) ->
  forall n, depthwise p n -> depthwise p (fold_left add_features pats n).
Proof.
  induction pats as [|q pats IH]; intros H n Hn; cbn [fold_left]; [exact Hn|]. apply IH; [intros q' Hq; apply H; right; exact Hq|].
  apply depthwise_add; [exact Hn|]. apply H. left. reflexivity.
Qed.
End Depth.

(** ** A pattern inserted where its wildcards meet no literal is found *)
Lemma has_open n v s : (v = any_feature -> forall w c, In (w, c) (fanout n) -> w = any_feature) -> stands_for v s -> has n v = has n s.
Proof.
  intros H [->| ->]; [|reflexivity]. specialize (H eq_refl). unfold has. destruct (fanout n) as [|[w c] es]; [reflexivity|].
  assert (w = any_feature) as -> by (eapply H; left; reflexivity). reflexivity.
Qed.
Lemma match_added : forall p n fs, depthwise (fun v w => v = any_feature -> w = any_feature) p n -> p <> [] -> covers p fs ->
  features_match (add_features n p) fs = true.
Proof.
  induction p as [|v p IH]; intros n fs H Hp Hc; [contradiction|]. inversion Hc as [|? ? s fs' Hs Hc']; subst. destruct H as [H1 H2].
  assert (E : has n v = has n s) by (apply has_open; [intros Hv w c Hin; exact (H1 w c Hin Hv)|exact Hs]).
  cbn [add_features]. destruct (has n v) as [k|] eqn:Ek.
  - destruct (is_leaf (child n k)) eqn:El; [cbn [features_match]; rewrite <- E, El; reflexivity|].
    destruct (has_edge Ek) as (x & c & Ex & Ec & _).
    destruct p as [|v' p]; cbn [features_match]; rewrite has_set_child, <- E, (child_set_same _ Ek); [reflexivity|].
    rewrite IH; [match goal with |- (if ?b then _ else _) = _ => destruct b; reflexivity end| |discriminate|exact Hc']. rewrite Ec. eapply H2. eapply nth_error_In. exact Ex.
  - cbn [features_match]. unfold has. cbn [fanout]. rewrite (has_from_app (add_features (FNode []) p) [] 0 Hs).
    2:{ apply (has_from_none _ _ 0). symmetry. exact E. }
    cbn [Nat.add]. unfold child. cbn [fanout]. rewrite nth_error_mid. destruct p as [|v' p]; [reflexivity|].
    rewrite IH; [match goal with |- (if ?b then _ else _) = _ => destruct b; reflexivity end|apply depthwise_leaf|discriminate|exact Hc'].
Qed.

Theorem complete_after before p after fs : p <> [] ->
  meets_no_literal before p -> covers p fs -> features_match (new_features_filter (before ++ p :: after)) fs = true.
Proof.
  intros Hp H Hc. unfold new_features_filter. rewrite fold_left_app. cbn [fold_left]. apply fold_mono. apply match_added; [|exact Hp|exact Hc].
  apply depthwise_fold; [|apply depthwise_leaf]. intros q Hq k v w Hv Hw ->. exact (H q k w Hq Hv Hw).
Qed.

(** ** If no literal follows Any at the same depth, every match is right *)
Inductive leafpath : fnode -> list bytes -> Prop :=
| lp_leaf n v c : In (v, c) (fanout n) -> is_leaf c = true -> leafpath n [v]
| lp_step n v c p : In (v, c) (fanout n) -> leafpath c p -> leafpath n (v :: p).

Lemma match_leafpath fs : forall n, features_match n fs = true -> exists p, leafpath n p /\ covers p fs.
Proof.
  induction fs as [|s fs IH]; intros n H; [discriminate|]. cbn [features_match] in H. destruct (has n s) as [k|] eqn:Ek; [|discriminate].
  destruct (has_edge Ek) as (v & c & Ev & Ec & Hs). apply nth_error_In in Ev. rewrite Ec in H. destruct (is_leaf c) eqn:El.
  - exists [v]. split; [eapply lp_leaf; eassumption|]. constructor; [exact Hs|constructor].
  - destruct (IH c H) as (p & H1 & H2). exists (v :: p). split; [eapply lp_step; eassumption|]. constructor; assumption.
Qed.

Lemma leafpath_leaf p n : is_leaf n = true -> ~ leafpath n p.
Proof. destruct n as [[|e es]]; [|discriminate]. intros _ H. inversion H; contradiction. Qed.

Lemma leafpath_added : forall q n p, depthwise (fun v w => w = any_feature -> v = any_feature) q n -> leafpath (add_features n q) p -> leafpath n p \/ (p = q /\ q <> []).
Proof.
  induction q as [|v q IH]; intros n p H Hl; [left; exact Hl|]. destruct H as [H1 H2]. cbn [add_features] in Hl.
  destruct (has n v) as [k|] eqn:Ek.
  - destruct (is_leaf (child n k)) eqn:El; [left; exact Hl|]. destruct (has_edge Ek) as (x & c & Ex & Ec & Hx).
    assert (Hin : In (x, c) (fanout n)) by (eapply nth_error_In; exact Ex).
    assert (x = v) as -> by (destruct Hx as [->|]; [symmetry; exact (H1 _ _ Hin eq_refl)|assumption]).
    assert (G : forall c', (forall r, leafpath c' r -> leafpath c r \/ r = q /\ q <> []) -> (is_leaf c' = true -> q = []) ->
      leafpath (set_child n k c') p -> leafpath n p \/ p = v :: q /\ v :: q <> []).
    { clear Hl. intros c' Hc Hq Hl. inversion Hl as [? w y Hy Hyl|? w y r Hy Hyl]; subst; unfold set_child in Hy; cbn [fanout] in Hy;
        apply In_nth_error in Hy; destruct Hy as (j & Hj); rewrite nth_update in Hj;
        (destruct (j =? k) eqn:Ejk; [apply Nat.eqb_eq in Ejk; rewrite Ejk, Ex in Hj; injection Hj as <- <-|apply nth_error_In in Hj]).
      - right. rewrite (Hq Hyl). split; [reflexivity|discriminate].
      - left. eapply lp_leaf; eassumption.
      - destruct (Hc r Hyl) as [Hr|[-> _]]; [left; eapply lp_step; eassumption|right]. split; [reflexivity|discriminate].
      - left. eapply lp_step; eassumption. }
    destruct q as [|v' q]; eapply G; try exact Hl; cbn beta.
    + intros r Hr. exfalso. exact (leafpath_leaf (p := r) (n := FNode []) eq_refl Hr).
    + reflexivity.
    + rewrite Ec. intros r Hr. apply IH; [eapply H2; exact Hin|exact Hr].
    + rewrite is_leaf_false_new. discriminate.
  - inversion Hl as [? w y Hy Hyl|? w y r Hy Hyl]; subst; cbn [fanout] in Hy; apply in_app_or in Hy; destruct Hy as [Hy|[E|[]]];
      try injection E as <- <-.
    + left. eapply lp_leaf; eassumption.
    + right. destruct q as [|v' q]; [split; [reflexivity|discriminate]|]. rewrite is_leaf_false_new in Hyl. discriminate.
    + left. eapply lp_step; eassumption.
    + right. destruct (IH (FNode []) r (depthwise_leaf _ _) Hyl) as [Hr|[-> _]]; [|split; [reflexivity|discriminate]].
      exfalso. exact (leafpath_leaf (p := r) (n := FNode []) eq_refl Hr).
Qed.

(** No literal comes after Any at the same depth. *)
Lemma fold_leafpaths : forall pats n p,
  (forall q, In q pats -> depthwise (fun v w => w = any_feature -> v = any_feature) q n) ->
  (forall l1 q1 l2 q2 l3 k w, pats = l1 ++ q1 :: l2 ++ q2 :: l3 -> nth_error q1 k = Some any_feature -> nth_error q2 k = Some w -> w = any_feature) ->
  leafpath (fold_left add_features pats n) p -> leafpath n p \/ (In p pats /\ p <> []).
Proof.
  induction pats as [|q pats IH]; intros n p Hd Ho Hl; cbn [fold_left] in Hl; [left; exact Hl|].
  destruct (IH (add_features n q) p) as [H|[H1 H2]].
  - intros q' Hq. apply depthwise_add; [apply Hd; right; exact Hq|]. intros k v w Hv Hw ->.
    apply in_split in Hq. destruct Hq as (l2 & l3 & ->). exact (Ho [] q l2 q' l3 k v eq_refl Hw Hv).
  - intros l1 q1 l2 q2 l3 k w ->. exact (Ho (q :: l1) q1 l2 q2 l3 k w eq_refl).
  - exact Hl.
  - destruct (leafpath_added (Hd q (or_introl eq_refl)) H) as [H'|[-> Hq]]; [left; exact H'|right]. split; [left; reflexivity|exact Hq].
  - right. split; [right; exact H1|exact H2].
Qed.

Theorem sound_literals_first pats fs :
  literals_first pats -> features_match (new_features_filter pats) fs = true -> covered pats fs.
Proof.
  intros Ho H. destruct (match_leafpath H) as (p & Hl & Hc). unfold new_features_filter in Hl.
  destruct (@fold_leafpaths pats (FNode []) p) as [Hx|[H1 H2]]; [intros; apply depthwise_leaf|exact Ho|exact Hl| |].
  - exfalso. exact (leafpath_leaf (p := p) (n := FNode []) eq_refl Hx).
  - exists p. auto.
Qed.

Theorem more_patterns pats more fs : features_match (new_features_filter pats) fs = true ->
  features_match (new_features_filter (pats ++ more)) fs = true.
Proof. intros H. unfold new_features_filter in *. rewrite fold_left_app. apply fold_mono. exact H. Qed.
