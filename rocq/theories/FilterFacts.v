(** Facts about the filters. *)
From Verif Require Import GoBase Token Filter SpecFilter Check TokenFacts.
From Coq Require Import List Lia Permutation ZifyBool ZifyNat.
Import ListNotations.
Set Implicit Arguments.
Unset Strict Implicit.

(** ** The trie *)
(** p is the sequence of labels from n down to some edge. *)
Inductive path : fnode -> list bytes -> Prop :=
| path_nil n : path n []
| path_cons n v c p : In (v, c) (fanout n) -> path c p -> path n (v :: p).

(** One node never has both Any edges and others. *)
Definition homog (n : fnode) : Prop :=
  forall common v w, path n (common ++ [v]) -> path n (common ++ [w]) -> v = any_feature -> w = any_feature.

Definition fits (n : fnode) (q : list bytes) : Prop :=
  forall common v w r, path n (common ++ [v]) -> q = common ++ w :: r -> (v = any_feature <-> w = any_feature).

Lemma bytes_eqb_true a b : bytes_eqb a b = true <-> a = b.
Proof.
  revert b. induction a as [|x a IH]; intros [|y b]; cbn; try (split; congruence).
  rewrite andb_true_iff, IH. rewrite byte_test_ok. split; [intros [-> ->]; reflexivity|intros [= -> ->]; auto].
Qed.
Lemma bytes_eqb_refl' a : bytes_eqb a a = true.
Proof. apply bytes_eqb_true. reflexivity. Qed.

(** Where has finds its edge. *)
Lemma has_from_spec es s i k : has_from es s i = Some k ->
  exists l v c r, es = l ++ (v, c) :: r /\ (k = i + length l)%nat /\ stands_for v s /\
                  (forall v' c', In (v', c') l -> ~ stands_for v' s).
Proof.
  revert i. induction es as [|[v c] es IH]; intros i; cbn; [discriminate|].
  destruct (bytes_eqb v any_feature || bytes_eqb v s) eqn:E.
  - intros [= <-]. exists [], v, c, es. rewrite Nat.add_0_r. repeat split; auto.
    apply orb_true_iff in E. rewrite !bytes_eqb_true in E. assumption.
  - intros H. apply IH in H. destruct H as (l & v' & c' & r & -> & -> & Hs & Hl).
    exists ((v, c) :: l), v', c', r. cbn. split; [reflexivity|]. split; [lia|]. split; [assumption|].
    intros v2 c2 [[= <- <-]|Hin]; [|eapply Hl; eassumption].
    apply orb_false_iff in E. destruct E as [E1 E2]. intros [->| ->].
    + rewrite bytes_eqb_refl' in E1. discriminate.
    + rewrite bytes_eqb_refl' in E2. discriminate.
Qed.
Lemma has_from_none es s i : has_from es s i = None <-> (forall v c, In (v, c) es -> ~ stands_for v s).
Proof.
  revert i. induction es as [|[v c] es IH]; intros i; cbn; [split; auto|].
  destruct (bytes_eqb v any_feature || bytes_eqb v s) eqn:E.
  - split; [discriminate|]. intros H. exfalso. apply (H v c); [auto|].
    apply orb_true_iff in E. rewrite !bytes_eqb_true in E. assumption.
  - rewrite IH. apply orb_false_iff in E. destruct E as [E1 E2]. split.
    + intros H v2 c2 [[= <- <-]|Hin]; [|eapply H; eassumption]. intros [->| ->].
      * rewrite bytes_eqb_refl' in E1. discriminate.
      * rewrite bytes_eqb_refl' in E2. discriminate.
    + intros H v2 c2 Hin. eapply H. right. eassumption.
Qed.
Lemma has_from_app l v (c : fnode) r s i : stands_for v s -> (forall v' c', In (v', c') l -> ~ stands_for v' s) ->
  has_from (l ++ (v, c) :: r) s i = Some (i + length l)%nat.
Proof.
  intros Hs. revert i. induction l as [|[v' c'] l IH]; intros i Hl; cbn.
  - rewrite Nat.add_0_r. destruct Hs as [->| ->]; rewrite bytes_eqb_refl'; [reflexivity|rewrite orb_true_r; reflexivity].
  - assert (Hn : ~ stands_for v' s) by (eapply Hl; left; reflexivity).
    destruct (bytes_eqb v' any_feature || bytes_eqb v' s) eqn:E.
    + exfalso. apply Hn. apply orb_true_iff in E. rewrite !bytes_eqb_true in E. assumption.
    + rewrite IH; [f_equal; lia|]. intros v2 c2 Hin. eapply Hl. right. eassumption.
Qed.

Lemma update_nth_mid {A} (l : list A) x r f : update_nth (l ++ x :: r) (length l) f = l ++ f x :: r.
Proof. induction l as [|a l IH]; cbn; [reflexivity|f_equal; assumption]. Qed.
Lemma nth_error_mid {A} (l : list A) x r : nth_error (l ++ x :: r) (length l) = Some x.
Proof. induction l as [|a l IH]; cbn; auto. Qed.

(** Match as a relation on edges. *)
Lemma match_cons n s fs l v c r : fanout n = l ++ (v, c) :: r -> stands_for v s ->
  (forall v' c', In (v', c') l -> ~ stands_for v' s) ->
  features_match n (s :: fs) = if is_leaf c then true else features_match c fs.
Proof.
  intros E Hs Hl. cbn [features_match]. unfold has. rewrite E, (has_from_app c r 0 Hs Hl). cbn [Nat.add].
  unfold child. rewrite E, nth_error_mid. reflexivity.
Qed.
Lemma match_none n s fs : (forall v c, In (v, c) (fanout n) -> ~ stands_for v s) -> features_match n (s :: fs) = false.
Proof. intros H. cbn [features_match]. unfold has. rewrite (proj2 (has_from_none _ _ _) H). reflexivity. Qed.

Lemma find_app {A} (f : A -> bool) l1 l2 : find f (l1 ++ l2) = match find f l1 with Some a => Some a | None => find f l2 end.
Proof. induction l1 as [|a l1 IH]; cbn; [reflexivity|]. destruct (f a); [reflexivity|assumption]. Qed.

Lemma match_find n s fs : features_match n (s :: fs) =
  match find (fun e => bytes_eqb (fst e) any_feature || bytes_eqb (fst e) s) (fanout n) with
  | Some (_, c) => if is_leaf c then true else features_match c fs
  | None => false
  end.
Proof.
  destruct (has n s) as [k|] eqn:E.
  - unfold has in E. apply has_from_spec in E. destruct E as (l & v & c & r & E & -> & Hs & Hl).
    rewrite (match_cons fs E Hs Hl), E. clear E. induction l as [|[a b] l IH]; cbn [find app fst].
    + destruct Hs as [->| ->]; rewrite bytes_eqb_refl'; [reflexivity|rewrite orb_true_r; reflexivity].
    + destruct (bytes_eqb a any_feature || bytes_eqb a s) eqn:Ea.
      * exfalso. apply (Hl a b); [left; reflexivity|]. apply orb_true_iff in Ea. rewrite !bytes_eqb_true in Ea. assumption.
      * apply IH. intros a' b' Hin. eapply Hl. right. eassumption.
  - unfold has in E. pose proof (proj1 (has_from_none _ _ _) E) as Hn. rewrite (match_none fs Hn).
    destruct (find _ _) as [[v c]|] eqn:Ef; [|reflexivity]. apply find_some in Ef. destruct Ef as [Hin Ef].
    exfalso. apply (Hn v c Hin). cbn in Ef. apply orb_true_iff in Ef. rewrite !bytes_eqb_true in Ef. assumption.
Qed.
Lemma find_skip l v (c x : fnode) r s : ~ stands_for v s ->
  find (fun e => bytes_eqb (fst e) any_feature || bytes_eqb (fst e) s) (l ++ (v, x) :: r) =
  find (fun e => bytes_eqb (fst e) any_feature || bytes_eqb (fst e) s) (l ++ (v, c) :: r).
Proof.
  intros Hn. induction l as [|[a b] l IH]; cbn [find app fst].
  - destruct (bytes_eqb v any_feature || bytes_eqb v s) eqn:E; [|reflexivity].
    exfalso. apply Hn. apply orb_true_iff in E. rewrite !bytes_eqb_true in E. assumption.
  - rewrite IH. reflexivity.
Qed.

Lemma path_edge n v c : In (v, c) (fanout n) -> path n [v].
Proof. intros H. econstructor; [eassumption|constructor]. Qed.

Lemma homog_child n v c : homog n -> In (v, c) (fanout n) -> homog c.
Proof.
  intros H Hin common a b Ha Hb. apply (H (v :: common)); cbn; econstructor; eassumption.
Qed.
Lemma fits_child n v c q : fits n (v :: q) -> In (v, c) (fanout n) -> fits c q.
Proof.
  intros H Hin common a b r Ha ->. apply (H (v :: common) a b r); [|reflexivity]. cbn. econstructor; eassumption.
Qed.
(** Labels of one node: with fits and homog, the edge found for v has label v. *)
Lemma found_label n q s l v c r : homog n -> fits n (s :: q) -> fanout n = l ++ (v, c) :: r -> stands_for v s -> v = s.
Proof.
  intros Hh Hf E [->|]; [|assumption].
  assert (Hp : path n ([] ++ [any_feature])) by (cbn; eapply path_edge; rewrite E; apply in_or_app; right; left; reflexivity).
  symmetry. apply (Hf [] any_feature s q Hp eq_refl). reflexivity.
Qed.

Lemma is_leaf_false_new n v q : is_leaf (add_features n (v :: q)) = false.
Proof.
  cbn [add_features]. destruct (has n v) eqn:E.
  - unfold has in E. apply has_from_spec in E. destruct E as (l & v' & c & r & E & -> & _). cbn [Nat.add].
    destruct (is_leaf (child n (length l))).
    + unfold is_leaf. rewrite E. destruct l; reflexivity.
    + assert (Hs : forall x, is_leaf (set_child n (length l) x) = false).
      { intros x. unfold set_child, is_leaf. cbn. rewrite E, update_nth_mid. destruct l; reflexivity. }
      destruct q; apply Hs.
  - unfold is_leaf. cbn. destruct (fanout n); reflexivity.
Qed.

(** Paths after an insertion are old ones or prefixes of the new pattern. *)
Lemma path_add n q p : homog n -> fits n q -> path (add_features n q) p -> path n p \/ exists r, q = p ++ r.
Proof.
  revert n p. induction q as [|s q IH]; intros n p Hh Hf Hp; [left; assumption|].
  cbn [add_features] in Hp. destruct (has n s) eqn:E.
  - unfold has in E. apply has_from_spec in E. destruct E as (l & v & c & r & E & -> & Hs & Hl). cbn [Nat.add] in Hp.
    assert (v = s) by (eapply found_label; eassumption). subst v.
    assert (Ec : child n (length l) = c) by (unfold child; rewrite E, nth_error_mid; reflexivity).
    rewrite Ec in Hp. destruct (is_leaf c) eqn:Lc; [left; assumption|].
    assert (Hset : forall x, path (set_child n (length l) x) p ->
                    path n p \/ exists p', p = s :: p' /\ path x p').
    { intros x Hx. inversion Hx as [|n' v c' p' Hin Hc]; subst; [left; constructor|].
      unfold set_child in Hin. cbn [fanout] in Hin. rewrite E, update_nth_mid in Hin. cbn [fst] in Hin.
      apply in_app_or in Hin. destruct Hin as [Hin|[[= -> ->]|Hin]].
      - left. econstructor; [rewrite E; apply in_or_app; left; eassumption|assumption].
      - right. eauto.
      - left. econstructor; [rewrite E; apply in_or_app; right; right; eassumption|assumption]. }
    assert (Hcin : In (s, c) (fanout n)) by (rewrite E; apply in_or_app; right; left; reflexivity).
    destruct q as [|s2 q].
    + apply Hset in Hp. destruct Hp as [Hp|(p' & -> & Hp)]; [auto|].
      inversion Hp as [|? ? ? ? Hin]; subst; [right; exists []; reflexivity|destruct Hin].
    + apply Hset in Hp. destruct Hp as [Hp|(p' & -> & Hp)]; [auto|].
      apply IH in Hp; [|eapply homog_child; eassumption|eapply fits_child; eassumption].
      destruct Hp as [Hp|(r' & ->)]; [left; econstructor; eassumption|right; exists r'; reflexivity].
  - inversion Hp as [|n' v c' p' Hin Hc]; subst; [left; constructor|]. cbn [fanout] in Hin.
    apply in_app_or in Hin. destruct Hin as [Hin|[[= -> <-]|[]]]; [left; econstructor; eassumption|].
    apply IH in Hc.
    + destruct Hc as [Hc|(r' & ->)].
      * inversion Hc as [|? ? ? ? Hin]; subst; [right; exists q; reflexivity|destruct Hin].
      * right. exists r'. reflexivity.
    + intros common a b Ha. destruct common as [|x common]; inversion Ha as [|? ? ? ? Hin]; subst; destruct Hin.
    + intros common a b r Ha. destruct common as [|x common]; inversion Ha as [|? ? ? ? Hin]; subst; destruct Hin.
Qed.

Lemma homog_add n q : homog n -> fits n q -> homog (add_features n q).
Proof.
  intros Hh Hf common v w Hv Hw Hany.
  apply (path_add Hh Hf) in Hv. apply (path_add Hh Hf) in Hw.
  destruct Hv as [Hv|(rv & Ev)], Hw as [Hw|(rw & Ew)].
  - exact (Hh _ _ _ Hv Hw Hany).
  - rewrite <- app_assoc in Ew. cbn in Ew. apply (Hf common v w rw Hv Ew). assumption.
  - rewrite <- app_assoc in Ev. cbn in Ev. apply (Hf common w v rv Hw Ev). assumption.
  - rewrite <- app_assoc in Ev, Ew. cbn in Ev, Ew. rewrite Ev in Ew. apply app_inv_head in Ew. congruence.
Qed.

(** The main step: one insertion adds exactly the vectors covered by the pattern. *)
Lemma match_add n q fs : homog n -> fits n q -> q <> [] ->
  (features_match (add_features n q) fs = true <-> features_match n fs = true \/ covers q fs).
Proof.
  revert n fs. induction q as [|s q IH]; intros n fs Hh Hf Hq; [contradiction|].
  destruct fs as [|f fs].
  { destruct (add_features n (s :: q)); destruct n; cbn. split; [discriminate|]. intros [H|H]; [discriminate|inversion H]. }
  cbn [add_features]. destruct (has n s) as [k|] eqn:E.
  - unfold has in E. apply has_from_spec in E. destruct E as (l & v & c & r & E & -> & Hs & Hl). cbn [Nat.add].
    assert (v = s) by (eapply found_label; eassumption). subst v.
    assert (Ec : child n (length l) = c) by (unfold child; rewrite E, nth_error_mid; reflexivity). rewrite Ec.
    assert (Hcin : In (s, c) (fanout n)) by (rewrite E; apply in_or_app; right; left; reflexivity).
    (* the edge s is the one used for f exactly when s stands for f *)
    assert (Hl' : stands_for s f -> forall v' c', In (v', c') l -> ~ stands_for v' f).
    { intros Hsf v' c' Hin. destruct Hsf as [->| ->]; [|eauto].
      exfalso. apply (Hl v' c' Hin). left.
      apply (Hh [] any_feature v'); cbn; try reflexivity; eapply path_edge; try eassumption.
      rewrite E. apply in_or_app. left. eassumption. }
    destruct (is_leaf c) eqn:Lc.
    + split; [auto|]. intros [H|H]; [assumption|].
      inversion H as [|? ? ? ? Hsf _]; subst. rewrite (match_cons fs E Hsf (Hl' Hsf)), Lc. reflexivity.
    + assert (Hset : forall x, fanout (set_child n (length l) x) = l ++ (s, x) :: r)
        by (intros x; unfold set_child; cbn; rewrite E, update_nth_mid; reflexivity).
      assert (Hcase : forall x, (stands_for s f -> features_match (set_child n (length l) x) (f :: fs) =
                                  if is_leaf x then true else features_match x fs) /\
                                (~ stands_for s f -> features_match (set_child n (length l) x) (f :: fs) = features_match n (f :: fs))).
      { intros x. split.
        - intros Hsf. apply (match_cons fs (Hset x) Hsf (Hl' Hsf)).
        - intros Hsf. rewrite !match_find, Hset, E, (find_skip l c x r Hsf). reflexivity. }
      destruct (Hcase (FNode [])) as [Hc1 Hc2]. destruct (Hcase (add_features c q)) as [Hc3 Hc4].
      assert (Hold : stands_for s f -> features_match n (f :: fs) = features_match c fs)
        by (intros Hsf; rewrite (match_cons fs E Hsf (Hl' Hsf)), Lc; reflexivity).
      assert (Hdec : stands_for s f \/ ~ stands_for s f).
      { unfold stands_for. destruct (bytes_eqb s any_feature) eqn:E1; [rewrite bytes_eqb_true in E1; auto|].
        destruct (bytes_eqb s f) eqn:E2; [rewrite bytes_eqb_true in E2; auto|].
        right. intros [->| ->]; rewrite bytes_eqb_refl' in *; discriminate. }
      assert (Hno : ~ stands_for s f -> ~ covers (s :: q) (f :: fs)) by (intros Hn Hc; inversion Hc; auto).
      destruct Hdec as [Hsf|Hsf].
      * destruct q as [|s2 q].
        -- rewrite (Hc1 Hsf). cbn. split; auto. intros _. right. constructor; [assumption|constructor].
        -- rewrite (Hc3 Hsf), is_leaf_false_new, (Hold Hsf).
           rewrite IH; [|eapply homog_child; eassumption|eapply fits_child; eassumption|discriminate].
           split; (intros [H|H]; [auto|]); [right; constructor; assumption|inversion H; auto].
      * apply Hno in Hsf as Hnc. destruct q as [|s2 q]; [rewrite (Hc2 Hsf)|rewrite (Hc4 Hsf)]; tauto.
  - unfold has in E. pose proof (proj1 (has_from_none _ _ _) E) as Hn.
    assert (Hfits : fits (FNode []) q)
      by (intros common a b r Ha; destruct common as [|x common]; inversion Ha as [|? ? ? ? Hin]; subst; destruct Hin).
    assert (Hhom : homog (FNode []))
      by (intros common a b Ha; destruct common as [|x common]; inversion Ha as [|? ? ? ? Hin]; subst; destruct Hin).
    rewrite match_find, (match_find n). cbn [fanout].
    destruct (find _ (fanout n)) as [[v c]|] eqn:Ef.
    + rewrite find_app, Ef. split; [auto|]. intros [H|H]; [assumption|]. exfalso.
      apply find_some in Ef. destruct Ef as [Hin Ef]. cbn in Ef. apply orb_true_iff in Ef. rewrite !bytes_eqb_true in Ef.
      inversion H as [|? ? ? ? [Hs|Hs] _]; subst.
      * (* s = Any: then v is Any as well, so has finds it *)
        apply (Hn v c Hin). left. apply (Hf [] v any_feature q); [cbn; eapply path_edge; eassumption|reflexivity|reflexivity].
      * apply (Hn v c Hin). destruct Ef; [left|right]; congruence.
    + rewrite find_app, Ef. cbn [find fst].
      destruct (bytes_eqb s any_feature || bytes_eqb s f) eqn:Es.
      * apply orb_true_iff in Es. rewrite !bytes_eqb_true in Es. destruct q as [|s2 q].
        -- cbn. split; auto. intros _. right. constructor; [assumption|constructor].
        -- rewrite is_leaf_false_new. rewrite IH; [|assumption|assumption|discriminate].
           split.
           ++ intros [H|H]; [destruct fs; discriminate|]. right. constructor; assumption.
           ++ intros [H|H]; [discriminate|]. inversion H; auto.
      * split; [discriminate|]. intros [H|H]; [discriminate|]. inversion H as [|? ? ? ? Hs _]; subst.
        unfold stands_for in Hs. rewrite <- !bytes_eqb_true, <- orb_true_iff in Hs. congruence.
Qed.

(** Every path of the trie comes from a pattern. *)
Definition built (pats : list (list bytes)) (n : fnode) : Prop :=
  homog n /\ forall p, path n p -> p <> [] -> exists q r, In q pats /\ q = p ++ r.

Lemma built_fits pats n q : built pats n -> unambiguous (pats ++ [q]) -> fits n q.
Proof.
  intros [Hh Hp] Hu common v w r Hv ->.
  destruct (Hp _ Hv) as (q & r' & Hin & ->); [destruct common; discriminate|].
  rewrite <- app_assoc in Hin. cbn in Hin. split.
  - apply (Hu common v w r' r); apply in_or_app; [auto|right; left; reflexivity].
  - apply (Hu common w v r r'); apply in_or_app; [right; left; reflexivity|auto].
Qed.

Lemma add_nil n : add_features n [] = n.
Proof. reflexivity. Qed.

Lemma built_add pats n q : built pats n -> unambiguous (pats ++ [q]) -> built (pats ++ [q]) (add_features n q).
Proof.
  intros Hb Hu. pose proof (built_fits Hb Hu) as Hf. destruct Hb as [Hh Hp]. split; [apply homog_add; assumption|].
  intros p Hpath Hne. apply (path_add Hh Hf) in Hpath. destruct Hpath as [H|(r & ->)].
  - destruct (Hp p H Hne) as (q' & r & Hin & E). exists q', r. split; [apply in_or_app; auto|assumption].
  - exists (p ++ r), r. split; [apply in_or_app; right; left; reflexivity|reflexivity].
Qed.

Lemma covered_app p1 p2 fs : covered (p1 ++ p2) fs <-> covered p1 fs \/ covered p2 fs.
Proof.
  unfold covered. split.
  - intros (p & Hin & H). apply in_app_or in Hin. destruct Hin; [left|right]; eauto.
  - intros [(p & Hin & H)|(p & Hin & H)]; exists p; (split; [apply in_or_app; auto|assumption]).
Qed.

Lemma unambiguous_incl p1 p2 : (forall p, In p p1 -> In p p2) -> unambiguous p2 -> unambiguous p1.
Proof. intros Hi Hu common v w r1 r2 H1 H2. apply (Hu common v w r1 r2); auto. Qed.

Lemma fold_add pats done n : built done n -> unambiguous (done ++ pats) ->
  forall fs, (features_match (fold_left add_features pats n) fs = true <-> features_match n fs = true \/ covered pats fs).
Proof.
  revert done n. induction pats as [|q pats IH]; intros done n Hb Hu fs; cbn [fold_left].
  - split; [auto|]. intros [H|(p & [] & _)]; assumption.
  - assert (Hu1 : unambiguous (done ++ [q])).
    { eapply unambiguous_incl; [|eassumption]. intros p Hin. apply in_app_or in Hin. apply in_or_app.
      destruct Hin as [Hin|[<-|[]]]; [auto|right; left; reflexivity]. }
    rewrite (IH (done ++ [q])); [|apply built_add; assumption|rewrite <- app_assoc; assumption].
    assert (Hq : features_match (add_features n q) fs = true <-> features_match n fs = true \/ covered [q] fs).
    { destruct q as [|s q].
      - cbn. split; [auto|]. intros [H|(p & [<-|[]] & Hne & _)]; [assumption|contradiction].
      - rewrite match_add; [|apply Hb|eapply built_fits; eassumption|discriminate].
        split; (intros [H|H]; [auto|right]).
        + exists (s :: q). repeat split; [left; reflexivity|discriminate|assumption].
        + destruct H as (p & [<-|[]] & _ & H). assumption. }
    rewrite Hq. change (q :: pats) with ([q] ++ pats). rewrite covered_app. tauto.
Qed.

Lemma new_filter_match pats fs : unambiguous pats ->
  (features_match (new_features_filter pats) fs = true <-> covered pats fs).
Proof.
  intros Hu. unfold new_features_filter. rewrite (fold_add (done := [])).
  - split; [intros [H|H]; [destruct fs; discriminate|assumption]|auto].
  - split.
    + intros common a b Ha; destruct common as [|x common]; inversion Ha as [|? ? ? ? Hin]; subst; destruct Hin.
    + intros p Hp Hne. inversion Hp as [|? ? ? ? Hin]; subst; [contradiction|destruct Hin].
  - assumption.
Qed.

(** ** Drop and Keep *)
Lemma index_app_mid {A} (l : list A) x r : index (l ++ x :: r) (length l) = Ok x.
Proof. unfold index. rewrite nth_error_mid. reflexivity. Qed.

Lemma update_at {A} (l : list A) x r f n : n = length l -> update (l ++ x :: r) n f = Ok (l ++ f x :: r).
Proof.
  intros ->. unfold update. rewrite app_length. cbn [length].
  destruct (length l <? length l + S (length r))%nat eqn:E; [|apply Nat.ltb_ge in E; lia].
  rewrite update_nth_mid. reflexivity.
Qed.

Lemma apply_loop_ok {S : Type} (pred : S -> token -> res (S * bool)) drop rest kept junk s :
  match spec_select pred (negb drop) s rest with
  | Ok (s', out) => exists junk', apply_loop pred drop (length rest) (length (kept ++ junk)) (length kept) s (kept ++ junk ++ rest)
                      = Ok (s', kept ++ out ++ junk', length (kept ++ out))
  | Panic => apply_loop pred drop (length rest) (length (kept ++ junk)) (length kept) s (kept ++ junk ++ rest) = Panic
  | Diverge => apply_loop pred drop (length rest) (length (kept ++ junk)) (length kept) s (kept ++ junk ++ rest) = Diverge
  end.
Proof.
  revert kept junk s. induction rest as [|v rest IH]; intros kept junk s; cbn [spec_select].
  - cbn [length apply_loop]. exists junk. rewrite !app_nil_r. cbn [app]. rewrite ?app_nil_r. reflexivity.
  - cbn [length apply_loop]. rewrite app_assoc, index_app_mid. cbn [rbind].
    destruct (pred s v) as [[s' b]| |]; cbn [rbind]; try reflexivity.
    destruct (Bool.eqb b drop) eqn:Eb.
    + replace (Bool.eqb b (negb drop)) with false by (destruct b, drop; cbn in *; congruence).
      specialize (IH kept (junk ++ [v]) s').
      rewrite app_assoc in IH. rewrite app_length in IH. cbn [length] in IH.
      rewrite Nat.add_1_r in IH. rewrite <- !app_assoc in IH. cbn [app] in IH. rewrite app_assoc in IH.
      destruct (spec_select pred (negb drop) s' rest) as [[s'' out]| |]; assumption.
    + replace (Bool.eqb b (negb drop)) with true by (destruct b, drop; cbn in *; congruence).
      assert (Hup : exists junk1, length junk1 = length junk /\
                (if negb (length (kept ++ junk) =? length kept)%nat then update ((kept ++ junk) ++ v :: rest) (length kept) (fun _ => v)
                 else Ok ((kept ++ junk) ++ v :: rest)) = Ok ((kept ++ [v]) ++ junk1 ++ rest)).
      { destruct junk as [|j junk].
        - exists []. split; [reflexivity|]. rewrite app_nil_r, Nat.eqb_refl. cbn. rewrite <- app_assoc. reflexivity.
        - exists (junk ++ [v]). split; [rewrite app_length; cbn; lia|].
          replace (length (kept ++ j :: junk) =? length kept)%nat with false
            by (symmetry; apply Nat.eqb_neq; rewrite app_length; cbn; lia).
          cbn [negb]. rewrite <- app_assoc. cbn [app]. rewrite (update_at _ _ _ eq_refl), <- !app_assoc. reflexivity. }
      destruct Hup as (junk1 & Lj & ->). cbn [rbind].
      specialize (IH (kept ++ [v]) junk1 s').
      replace (Datatypes.S (length (kept ++ junk))) with (length ((kept ++ [v]) ++ junk1)) by (rewrite !app_length; cbn; lia).
      replace (Datatypes.S (length kept)) with (length (kept ++ [v])) by (rewrite app_length; cbn; lia).
      destruct (spec_select pred (negb drop) s' rest) as [[s'' out]| |]; try assumption.
      destruct IH as (junk' & ->). exists junk'. rewrite <- !app_assoc. cbn [app]. reflexivity.
Qed.

Lemma slice_prefix {A} (l r : list A) : slice (l ++ r) 0 (length l) = Ok l.
Proof.
  unfold slice. rewrite app_length, Nat.sub_0_r. cbn [skipn].
  replace ((0 <=? length l)%nat && (length l <=? length l + length r)%nat) with true
    by (symmetry; apply andb_true_iff; split; apply Nat.leb_le; lia).
  rewrite firstn_app, firstn_all, Nat.sub_diag. cbn. rewrite app_nil_r. reflexivity.
Qed.

Lemma apply_filter_ok {S : Type} (pred : S -> token -> res (S * bool)) drop ts s :
  apply_filter pred drop (Some ts) s =
  match spec_select pred (negb drop) s ts with
  | Ok (s', out) => Ok (s', Some out) | Panic => Panic | Diverge => Diverge
  end.
Proof.
  unfold apply_filter. pose proof (apply_loop_ok pred drop ts [] [] s) as H. cbn [app length] in H.
  destruct (spec_select pred (negb drop) s ts) as [[s' out]| |]; [|rewrite H; reflexivity..].
  destruct H as (junk & ->). cbn [rbind]. rewrite slice_prefix. reflexivity.
Qed.

Lemma select_pure {S A} (p : A -> bool) want (s : S) l :
  spec_select (fun s a => Ok (s, p a)) want s l = Ok (s, filter (fun a => Bool.eqb (p a) want) l).
Proof. induction l as [|a l IH]; cbn; [reflexivity|]. rewrite IH. destruct (Bool.eqb (p a) want); reflexivity. Qed.

(** The copies of the loop in pos.go and word.go. *)
Definition pos_pred (f : fnode) (s : unit) (t : token) : res (unit * bool) :=
  let* p := token_pos t in Ok (tt, pos_match f p).
Lemma pos_loop_eq f drop k i tail arr :
  apply_loop (pos_pred f) drop k i tail tt arr =
  let* r := pos_apply_loop f drop k i tail arr in let (a, t) := r : list token * nat in Ok (tt, a, t).
Proof.
  revert i tail arr. induction k as [|k IH]; intros i tail arr; [reflexivity|]. cbn [apply_loop pos_apply_loop].
  destruct (index arr i) as [v| |]; cbn [rbind]; try reflexivity. unfold pos_pred at 1.
  destruct (token_pos v) as [p| |]; cbn [rbind]; try reflexivity.
  destruct (Bool.eqb _ _); [apply IH|].
  destruct (if negb (i =? tail)%nat then _ else _) as [a| |]; cbn [rbind]; try reflexivity. apply IH.
Qed.
Lemma pos_apply_ok f drop ts :
  pos_apply f drop (Some ts) =
  match spec_select (pos_pred f) (negb drop) tt ts with
  | Ok (_, out) => Ok (Some out) | Panic => Panic | Diverge => Diverge
  end.
Proof.
  pose proof (apply_filter_ok (pos_pred f) drop ts tt) as H. unfold apply_filter in H. rewrite pos_loop_eq in H.
  unfold pos_apply. destruct (pos_apply_loop f drop (length ts) 0 0 ts) as [[a t]| |]; cbn [rbind] in *.
  - destruct (slice a 0 t) as [out| |]; cbn [rbind] in *; destruct (spec_select _ _ _ _) as [[[] o]| |]; congruence.
  - destruct (spec_select _ _ _ _) as [[[] o]| |]; congruence.
  - destruct (spec_select _ _ _ _) as [[[] o]| |]; congruence.
Qed.

Definition word_pred (f : list bytes) (s : unit) (t : token) : res (unit * bool) := Ok (s, word_match f (t_surface t)).
Lemma word_loop_eq f drop k i tail arr :
  apply_loop (word_pred f) drop k i tail tt arr =
  let* r := word_apply_loop f drop k i tail arr in let (a, t) := r : list token * nat in Ok (tt, a, t).
Proof.
  revert i tail arr. induction k as [|k IH]; intros i tail arr; [reflexivity|]. cbn [apply_loop word_apply_loop].
  destruct (index arr i) as [v| |]; cbn [rbind]; try reflexivity. unfold word_pred at 1. cbn [rbind].
  destruct (Bool.eqb _ _); [apply IH|].
  destruct (if negb (i =? tail)%nat then _ else _) as [a| |]; cbn [rbind]; try reflexivity. apply IH.
Qed.
Lemma word_apply_ok f drop ts :
  word_apply f drop (Some ts) = Ok (Some (filter (fun t => Bool.eqb (word_match f (t_surface t)) (negb drop)) ts)).
Proof.
  pose proof (apply_filter_ok (word_pred f) drop ts tt) as H. unfold apply_filter in H. rewrite word_loop_eq in H.
  unfold word_pred in H. rewrite (select_pure (fun t => word_match f (t_surface t))) in H.
  unfold word_apply. destruct (word_apply_loop f drop (length ts) 0 0 ts) as [[a t]| |]; cbn [rbind] in *; try congruence.
  destruct (slice a 0 t) as [out| |]; cbn [rbind] in *; congruence.
Qed.

Lemma word_match_in words w : word_match (new_word_filter words) w = true <-> In w words.
Proof.
  unfold word_match, new_word_filter.
  assert (H : forall m, map_has (fold_left map_put words m) w = true <-> In w words \/ map_has m w = true).
  { induction words as [|x words IH]; intros m; cbn [fold_left In]; [tauto|].
    rewrite IH. assert (Hp : map_has (map_put m x) w = true <-> x = w \/ map_has m w = true).
    { unfold map_put. destruct (map_has m x) eqn:E.
      - split; [auto|]. intros [->|H]; assumption.
      - cbn. rewrite orb_true_iff, bytes_eqb_true. fold (map_has m w). intuition congruence. }
    rewrite Hp. tauto. }
  rewrite H. cbn. intuition discriminate.
Qed.

(** ** Statements used by the property theorems *)
Lemma picked_filter {A} (f : A -> bool) (P : A -> Prop) l : (forall a, In a l -> (f a = true <-> P a)) -> picked P l (filter f l).
Proof.
  induction l as [|a l IH]; intros H; cbn; [constructor|].
  assert (IH' : picked P l (filter f l)) by (apply IH; intros b Hb; apply H; right; assumption).
  destruct (f a) eqn:E.
  - constructor; [apply H; [left; reflexivity|assumption]|assumption].
  - constructor; [|assumption]. intros Hp. apply H in Hp; [congruence|left; reflexivity].
Qed.
Lemma picked_det {A} (P : A -> Prop) l o1 o2 : picked P l o1 -> picked P l o2 -> o1 = o2.
Proof.
  intros H. revert o2. induction H as [|a l out Hp H IH|a l out Hp H IH]; intros o2 H2; inversion H2; subst; try contradiction; auto.
  f_equal. auto.
Qed.
Lemma eqb_true_id b : Bool.eqb b true = b.
Proof. destruct b; reflexivity. Qed.
Lemma eqb_false_negb b : Bool.eqb b false = negb b.
Proof. destruct b; reflexivity. Qed.

Lemma c28_pure_lemma : forall (p : token -> bool) ts, exists dropped kept,
  filter_drop (Some ts) (fun (_ : unit) t => Ok (tt, p t)) tt = Ok (tt, Some dropped) /\
  filter_keep (Some ts) (fun (_ : unit) t => Ok (tt, p t)) tt = Ok (tt, Some kept) /\
  picked (fun t => p t = false) ts dropped /\ picked (fun t => p t = true) ts kept /\
  Permutation ts (dropped ++ kept).
Proof.
  intros p ts. exists (filter (fun t => negb (p t)) ts), (filter p ts).
  unfold filter_drop, filter_keep. rewrite !apply_filter_ok.
  assert (E : forall want, spec_select (fun (_ : unit) t => Ok (tt, p t)) want tt ts = Ok (tt, filter (fun a => Bool.eqb (p a) want) ts)).
  { intros want. induction ts as [|a l IH]; cbn; [reflexivity|]. rewrite IH. destruct (Bool.eqb (p a) want); reflexivity. }
  rewrite !E. cbn [negb].
  rewrite (filter_ext _ _ (fun t => eqb_false_negb (p t))), (filter_ext _ _ (fun t => eqb_true_id (p t))).
  repeat split; try reflexivity.
  - apply picked_filter. intros a _. destruct (p a); cbn; split; congruence.
  - apply picked_filter. intros a _. tauto.
  - clear. induction ts as [|a l IH]; cbn; [constructor|].
    destruct (p a); cbn; [apply Permutation_cons_app; assumption|constructor; assumption].
Qed.

Lemma pos_select f want ts ps : Forall2 (fun t p => token_pos t = Ok p) ts ps ->
  exists out, spec_select (pos_pred f) want tt ts = Ok (tt, out) /\
    forall P : token -> Prop, (forall t p, In t ts -> token_pos t = Ok p -> (pos_match f p = want <-> P t)) -> picked P ts out.
Proof.
  induction 1 as [|t p ts ps Ht H IH].
  - exists []. split; [reflexivity|]. intros. constructor.
  - destruct IH as (out & E & IH). exists (if Bool.eqb (pos_match f p) want then t :: out else out). split.
    + cbn [spec_select]. unfold pos_pred at 1. rewrite Ht. cbn [rbind]. rewrite E. reflexivity.
    + intros P HP. assert (H1 : picked P ts out) by (apply IH; intros; apply HP; [right; assumption|assumption]).
      assert (H2 : pos_match f p = want <-> P t) by (apply HP; [left; reflexivity|assumption]).
      destruct (Bool.eqb (pos_match f p) want) eqn:Eb.
      * apply Bool.eqb_prop in Eb. apply picked_keep; [apply H2; assumption|assumption].
      * rewrite Bool.eqb_false_iff in Eb. apply picked_skip; [rewrite <- H2; assumption|assumption].
Qed.

Lemma pos_match_covered pats p : unambiguous pats ->
  (pos_match (new_pos_filter pats) p = true <-> covered pats (strings_list p)).
Proof. intros Hu. unfold pos_match, new_pos_filter. apply new_filter_match. assumption. Qed.
Lemma pos_match_not_covered pats p : unambiguous pats ->
  (pos_match (new_pos_filter pats) p = false <-> ~ covered pats (strings_list p)).
Proof. intros Hu. rewrite <- (pos_match_covered _ Hu). destruct (pos_match _ _); intuition congruence. Qed.

(** The tokens whose part of speech is covered. *)
Definition pos_covered (pats : list (list bytes)) (t : token) : Prop :=
  exists p, token_pos t = Ok p /\ covered pats (strings_list p).

Lemma c30_pos_lemma : forall pats ts, unambiguous pats -> (forall t, In t ts -> exists p, token_pos t = Ok p) ->
  exists dropped kept, pos_drop (new_pos_filter pats) (Some ts) = Ok (Some dropped) /\
    pos_keep (new_pos_filter pats) (Some ts) = Ok (Some kept) /\
    picked (fun t => ~ pos_covered pats t) ts dropped /\ picked (pos_covered pats) ts kept.
Proof.
  intros pats ts Hu Hp.
  assert (exists ps, Forall2 (fun t p => token_pos t = Ok p) ts ps) as (ps & Hps).
  { clear Hu. induction ts as [|t ts IH]; [exists []; constructor|].
    destruct IH as (ps & IH); [intros; apply Hp; right; assumption|].
    destruct (Hp t) as (p & E); [left; reflexivity|]. exists (p :: ps). constructor; assumption. }
  destruct (pos_select (new_pos_filter pats) false Hps) as (dropped & E1 & H1).
  destruct (pos_select (new_pos_filter pats) true Hps) as (kept & E2 & H2).
  exists dropped, kept. unfold pos_drop, pos_keep. rewrite !pos_apply_ok. cbn [negb]. rewrite E1, E2.
  split; [reflexivity|]. split; [reflexivity|]. split.
  - apply H1. intros t p _ Ht. rewrite (pos_match_not_covered _ Hu). unfold pos_covered. split.
    + intros H (p' & E & Hc). rewrite Ht in E. injection E as <-. contradiction.
    + intros H Hc. apply H. eauto.
  - apply H2. intros t p _ Ht. rewrite (pos_match_covered _ Hu). unfold pos_covered. split.
    + intros H. eauto.
    + intros (p' & E & Hc). rewrite Ht in E. injection E as <-. assumption.
Qed.

Lemma c29_word_lemma : forall words ts, exists dropped kept,
  word_drop (new_word_filter words) (Some ts) = Ok (Some dropped) /\
  word_keep (new_word_filter words) (Some ts) = Ok (Some kept) /\
  picked (fun t => ~ In (t_surface t) words) ts dropped /\ picked (fun t => In (t_surface t) words) ts kept.
Proof.
  intros words ts. unfold word_drop, word_keep. rewrite !word_apply_ok. cbn [negb].
  eexists _, _. split; [reflexivity|]. split; [reflexivity|]. split; apply picked_filter; intros t _.
  - rewrite eqb_false_negb, negb_true_iff, <- word_match_in. destruct (word_match _ _); intuition congruence.
  - rewrite eqb_true_id. apply word_match_in.
Qed.

(** ** ja filter *)
Lemma yield_acc f ts ret : ja_yield_loop f ts ret = let* r := ja_yield_loop f ts [] in Ok (ret ++ r).
Proof.
  revert ret. induction ts as [|t ts IH]; intros ret; cbn [ja_yield_loop]; [cbn; rewrite app_nil_r; reflexivity|].
  destruct (token_pos t) as [p| |]; cbn [rbind]; try reflexivity.
  destruct (pos_match (jf_stop_tags f) p); [apply IH|].
  destruct (word_match (jf_stop_words f) (t_surface t)); [apply IH|].
  assert (H1 : forall w, ja_yield_loop f ts (ret ++ [w]) = let* r := ja_yield_loop f ts ([] ++ [w]) in Ok (ret ++ r)).
  { intros w. rewrite IH, (IH ([] ++ [w])). destruct (ja_yield_loop f ts []); cbn [rbind]; try reflexivity.
    rewrite <- app_assoc. reflexivity. }
  destruct (pos_match (jf_base_form f) p); [|apply H1].
  destruct (base_form t) as [[b ok]| |]; cbn [rbind]; try reflexivity.
  destruct ok; [apply H1|apply IH].
Qed.

Lemma yield_app f a b : ja_yield f (a ++ b) = let* x := ja_yield f a in let* y := ja_yield f b in Ok (x ++ y).
Proof.
  unfold ja_yield. change (@nil bytes) with (@nil bytes ++ []) at 1.
  revert b. induction a as [|t a IH]; intros b; cbn [app].
  - cbn. destruct (ja_yield_loop f b []); reflexivity.
  - cbn [ja_yield_loop app]. destruct (token_pos t) as [p| |]; cbn [rbind]; try reflexivity.
    destruct (pos_match (jf_stop_tags f) p); [apply IH|].
    destruct (word_match (jf_stop_words f) (t_surface t)); [apply IH|].
    assert (H1 : forall w, ja_yield_loop f (a ++ b) [w] =
               let* x := ja_yield_loop f a [w] in let* y := ja_yield_loop f b [] in Ok (x ++ y)).
    { intros w. rewrite (yield_acc f (a ++ b) [w]), (yield_acc f a [w]). cbn [app] in IH. rewrite IH.
      destruct (ja_yield_loop f a []); cbn [rbind]; try reflexivity.
      destruct (ja_yield_loop f b []); cbn [rbind]; reflexivity. }
    destruct (pos_match (jf_base_form f) p); [|apply H1].
    destruct (base_form t) as [[w ok]| |]; cbn [rbind]; try reflexivity.
    destruct ok; [apply H1|apply IH].
Qed.

(** Base form as an option. *)
Definition base_of (t : token) (b : option bytes) : Prop :=
  exists w ok, base_form t = Ok (w, ok) /\ b = if ok then Some w else None.

Definition ja_of (tags : list (list bytes)) (words : list bytes) (base : list (list bytes)) : ja_filter :=
  JaFilter (new_pos_filter base) (new_pos_filter tags) (new_word_filter words).

Lemma c31_yield_lemma : forall tags words base ts, unambiguous tags -> unambiguous base ->
  (forall t, In t ts -> exists p b, token_pos t = Ok p /\ base_of t b) ->
  exists yss, ja_yield (ja_of tags words base) ts = Ok (concat yss) /\
    Forall2 (fun t ys => exists p b, token_pos t = Ok p /\ base_of t b /\
               yields tags words base (strings_list p) (t_surface t) b ys) ts yss.
Proof.
  intros tags words base ts Ht Hb. induction ts as [|t ts IH]; intros Hok.
  - exists []. split; [reflexivity|constructor].
  - destruct IH as (yss & E & IH); [intros; apply Hok; right; assumption|].
    destruct (Hok t) as (p & b & Hp & w & ok & Eb & ->); [left; reflexivity|].
    unfold ja_yield in *. cbn [ja_yield_loop]. rewrite Hp. cbn [rbind].
    assert (Hgo : forall ys, yields tags words base (strings_list p) (t_surface t) (if ok then Some w else None) ys ->
        ja_yield_loop (ja_of tags words base) ts ys = Ok (concat (ys :: yss)) /\
        Forall2 (fun t ys => exists p b, token_pos t = Ok p /\ base_of t b /\
               yields tags words base (strings_list p) (t_surface t) b ys) (t :: ts) (ys :: yss)).
    { intros ys Hy. split.
      - rewrite yield_acc, E. reflexivity.
      - constructor; [|assumption]. exists p, (if ok then Some w else None). split; [assumption|]. split; [|assumption].
        exists w, ok. auto. }
    cbn [jf_stop_tags jf_stop_words jf_base_form ja_of].
    destruct (pos_match (new_pos_filter tags) p) eqn:E1.
    { apply (pos_match_covered _ Ht) in E1. destruct (Hgo []) as [G1 G2]; [constructor 1; assumption|]. eauto. }
    apply (pos_match_not_covered _ Ht) in E1.
    destruct (word_match (new_word_filter words) (t_surface t)) eqn:E2.
    { apply word_match_in in E2. destruct (Hgo []) as [G1 G2]; [constructor 2; assumption|]. eauto. }
    assert (E2' : ~ In (t_surface t) words) by (rewrite <- word_match_in; congruence).
    destruct (pos_match (new_pos_filter base) p) eqn:E3.
    + apply (pos_match_covered _ Hb) in E3. rewrite Eb. cbn [rbind]. destruct ok.
      * destruct (Hgo [w]) as [G1 G2]; [constructor 3; auto|]. eauto.
      * destruct (Hgo []) as [G1 G2]; [constructor 4; auto|]. eauto.
    + apply (pos_match_not_covered _ Hb) in E3.
      destruct (Hgo [t_surface t]) as [G1 G2]; [constructor 5; auto|]. eauto.
Qed.

Lemma picked_sub {A} (P : A -> Prop) l out a : picked P l out -> In a out -> In a l /\ P a.
Proof.
  induction 1 as [|b l out Hp H IH|b l out Hp H IH]; cbn; [tauto| |].
  - intros [<-|Hin]; [auto|]. destruct (IH Hin). auto.
  - intros Hin. destruct (IH Hin). auto.
Qed.
Lemma picked_and {A} (P Q : A -> Prop) l m out : picked P l m -> picked Q m out -> picked (fun a => P a /\ Q a) l out.
Proof.
  intros H. revert out. induction H as [|a l m Hp H IH|a l m Hp H IH]; intros out Hq.
  - inversion Hq. constructor.
  - inversion Hq; subst; constructor; auto; tauto.
  - constructor; [tauto|auto].
Qed.

Lemma c31_drop_lemma : forall tags words base ts, unambiguous tags -> (forall t, In t ts -> exists p, token_pos t = Ok p) ->
  exists out, ja_drop (ja_of tags words base) (Some ts) = Ok (Some out) /\
    picked (fun t => ~ pos_covered tags t /\ ~ In (t_surface t) words) ts out.
Proof.
  intros tags words base ts Hu Hp. destruct (c30_pos_lemma Hu Hp) as (d1 & k1 & E1 & _ & P1 & _).
  destruct (c29_word_lemma words d1) as (d2 & k2 & E2 & _ & P2 & _).
  exists d2. unfold ja_drop. cbn [ja_of jf_stop_tags jf_stop_words]. rewrite E1. cbn [rbind]. split; [assumption|].
  eapply picked_and; eassumption.
Qed.

(** Yield skips what Drop removes. *)
Lemma yield_select_pos f ts out : spec_select (pos_pred (jf_stop_tags f)) false tt ts = Ok (tt, out) -> ja_yield f out = ja_yield f ts.
Proof.
  unfold ja_yield. generalize (@nil bytes). revert out. induction ts as [|t ts IH]; intros out acc; cbn [spec_select].
  - intros [= <-]. reflexivity.
  - unfold pos_pred at 1. destruct (token_pos t) as [p| |] eqn:Ep; cbn [rbind]; try discriminate.
    destruct (spec_select _ false tt ts) as [[[] o]| |]; try discriminate. intros [= <-].
    cbn [ja_yield_loop]. rewrite Ep. cbn [rbind].
    destruct (pos_match (jf_stop_tags f) p) eqn:E; cbn [Bool.eqb].
    + apply IH. reflexivity.
    + cbn [ja_yield_loop]. rewrite Ep. cbn [rbind]. rewrite E.
      destruct (word_match _ _); [apply IH; reflexivity|].
      destruct (pos_match (jf_base_form f) p); [|apply IH; reflexivity].
      destruct (base_form t) as [[w ok]| |]; cbn [rbind]; try reflexivity. destruct ok; apply IH; reflexivity.
Qed.
Lemma yield_select_word f ts : (forall t, In t ts -> exists p, token_pos t = Ok p) ->
  ja_yield f (filter (fun t => Bool.eqb (word_match (jf_stop_words f) (t_surface t)) false) ts) = ja_yield f ts.
Proof.
  unfold ja_yield. generalize (@nil bytes). induction ts as [|t ts IH]; intros acc Hp; cbn [filter]; [reflexivity|].
  assert (IH' : forall acc, ja_yield_loop f (filter (fun t => Bool.eqb (word_match (jf_stop_words f) (t_surface t)) false) ts) acc = ja_yield_loop f ts acc)
    by (intros a; apply IH; intros; apply Hp; right; assumption).
  destruct (Hp t) as (p & Ep); [left; reflexivity|].
  cbn [ja_yield_loop]. rewrite Ep. cbn [rbind].
  destruct (word_match (jf_stop_words f) (t_surface t)) eqn:E; cbn [Bool.eqb].
  - rewrite IH'. destruct (pos_match _ _); reflexivity.
  - cbn [ja_yield_loop]. rewrite Ep, E. cbn [rbind].
    destruct (pos_match (jf_stop_tags f) p); [apply IH'|].
    destruct (pos_match (jf_base_form f) p); [|apply IH'].
    destruct (base_form t) as [[w ok]| |]; cbn [rbind]; try reflexivity. destruct ok; apply IH'.
Qed.

Lemma c31_yield_drop_lemma : forall f ts out, ja_drop f (Some ts) = Ok (Some out) -> ja_yield f out = ja_yield f ts.
Proof.
  intros f ts out. unfold ja_drop, pos_drop. rewrite pos_apply_ok. cbn [negb].
  destruct (spec_select (pos_pred (jf_stop_tags f)) false tt ts) as [[[] o]| |] eqn:E; cbn [rbind]; try discriminate.
  unfold word_drop. rewrite word_apply_ok. cbn [negb]. intros [= <-].
  rewrite <- (yield_select_pos E). apply yield_select_word.
  revert o E. induction ts as [|t ts IH]; intros o; cbn [spec_select]; [intros [= <-]; intros ? []|].
  unfold pos_pred at 1. destruct (token_pos t) as [p| |] eqn:Ep; cbn [rbind]; try discriminate.
  destruct (spec_select (pos_pred (jf_stop_tags f)) false tt ts) as [[[] o']| |]; try discriminate. intros [= <-].
  intros x Hx. destruct (Bool.eqb _ false); [destruct Hx as [<-|Hx]; [eauto|]|]; apply (IH o' eq_refl x Hx).
Qed.

(** ** Order and duplicates *)
Lemma c27_lemma : forall pats pats', unambiguous pats -> unambiguous pats' ->
  (forall p, In p pats' -> p <> [] -> exists q r, In q pats /\ q <> [] /\ p = q ++ r) ->
  (forall p, In p pats -> p <> [] -> exists q r, In q pats' /\ q <> [] /\ p = q ++ r) ->
  forall fs, features_match (new_features_filter pats) fs = features_match (new_features_filter pats') fs.
Proof.
  assert (Hcov : forall p r fs, covers (p ++ r) fs -> covers p fs).
  { induction p as [|x p IH]; intros r fs H; [constructor|]. cbn in H. inversion H; subst. constructor; eauto. }
  intros pats pats' Hu Hu' H1 H2 fs.
  apply Bool.eq_true_iff_eq. rewrite (new_filter_match fs Hu), (new_filter_match fs Hu'). split.
  - intros (p & Hin & Hne & Hc). destruct (H2 p Hin Hne) as (q & r & Hq & Hqn & ->). exists q. eauto.
  - intros (p & Hin & Hne & Hc). destruct (H1 p Hin Hne) as (q & r & Hq & Hqn & ->). exists q. eauto.
Qed.

Lemma no_any_unambiguous pats : (forall p v, In p pats -> In v p -> v <> any_feature) -> unambiguous pats.
Proof. intros H common v w r1 r2 H1 _ ->. exfalso. apply (H _ any_feature H1); [apply in_or_app; right; left; reflexivity|reflexivity]. Qed.

(** Inserting the same unambiguous patterns again changes nothing; extending a present pattern neither. *)
Lemma c27_permutation_lemma : forall pats pats', unambiguous pats -> (forall p, In p pats <-> In p pats') ->
  forall fs, features_match (new_features_filter pats) fs = features_match (new_features_filter pats') fs.
Proof.
  intros pats pats' Hu Hp. apply c27_lemma; [assumption| | |].
  - eapply unambiguous_incl; [|eassumption]. intros p. apply Hp.
  - intros p Hin Hne. exists p, []. rewrite app_nil_r. repeat split; auto. apply Hp. assumption.
  - intros p Hin Hne. exists p, []. rewrite app_nil_r. repeat split; auto. apply Hp. assumption.
Qed.

(** Splitting a stop tag. *)
Lemma split_byte_spec sep s cur : exists x l, split_byte sep cur s = (rev cur ++ x) :: l /\
  x ++ concat (map (fun p => sep :: p) l) = s /\ ~ In sep x /\ Forall (fun p => ~ In sep p) l.
Proof.
  revert cur. induction s as [|b s IH]; intros cur; cbn [split_byte].
  - exists [], []. rewrite app_nil_r. repeat split; auto.
  - destruct (Byte.eqb b sep) eqn:E.
    + apply byte_test_ok in E. subst b. destruct (IH []) as (x & l & -> & E & Hx & Hl). cbn [rev app] in *.
      exists [], (x :: l). rewrite app_nil_r. cbn. repeat split; [f_equal; assumption|tauto|constructor; assumption].
    + destruct (IH (b :: cur)) as (x & l & -> & E2 & Hx & Hl). exists (b :: x), l. cbn [rev].
      rewrite <- app_assoc. cbn. repeat split; [f_equal; assumption| |assumption].
      intros [->|H]; [|contradiction]. apply Hx. assert (Byte.eqb sep sep = true) by (apply byte_test_ok; reflexivity). congruence.
Qed.

(** Tokens of Analyze have a POS and a base form, so no filter panics on them. *)
Lemma c31_no_panic_lemma : forall d u f ts, wf_dict d -> wf_udict u -> wf_data d -> (forall t, In t ts -> from_analyze d u t) ->
  exists ws out, ja_yield f ts = Ok ws /\ ja_drop f (Some ts) = Ok (Some out) /\ ja_yield f out = Ok ws.
Proof.
  intros d u f ts Hd Hu Hw Hts.
  assert (Hok : forall t, In t ts -> exists p b, token_pos t = Ok p /\ base_form t = Ok b).
  { intros t Hin. destruct (c50_no_panic_lemma Hd Hu Hw (Hts t Hin)) as (_ & _ & (p & Hp) & _ & Hk & _).
    destruct (Hk key_base) as (b & Hb). exists p, b. auto. }
  clear Hts.
  assert (Hy : forall acc, exists ws, ja_yield_loop f ts acc = Ok ws).
  { induction ts as [|t ts IH]; intros acc; [exists acc; reflexivity|].
    assert (IH' : forall acc, exists ws, ja_yield_loop f ts acc = Ok ws) by (apply IH; intros; apply Hok; right; assumption).
    destruct (Hok t) as (p & [b ok] & Hp & Hb); [left; reflexivity|]. cbn [ja_yield_loop]. rewrite Hp. cbn [rbind].
    destruct (pos_match _ p); [apply IH'|]. destruct (word_match _ _); [apply IH'|].
    destruct (pos_match _ p); [|apply IH']. rewrite Hb. cbn [rbind]. destruct ok; apply IH'. }
  destruct (Hy []) as (ws & Ew).
  assert (Hdrop : exists out, ja_drop f (Some ts) = Ok (Some out)).
  { assert (exists ps, Forall2 (fun t p => token_pos t = Ok p) ts ps) as (ps & Hps).
    { clear -Hok. induction ts as [|t ts IH]; [exists []; constructor|].
      destruct IH as (ps & IH); [intros; apply Hok; right; assumption|].
      destruct (Hok t) as (p & b & E & _); [left; reflexivity|]. exists (p :: ps). constructor; assumption. }
    destruct (pos_select (jf_stop_tags f) false Hps) as (d1 & E1 & _).
    unfold ja_drop, pos_drop. rewrite pos_apply_ok. cbn [negb]. rewrite E1. cbn [rbind].
    unfold word_drop. rewrite word_apply_ok. eauto. }
  destruct Hdrop as (out & Eo). exists ws, out. split; [assumption|]. split; [assumption|].
  rewrite (c31_yield_drop_lemma Eo). assumption.
Qed.

Lemma c26_unsound_lemma : exists pats fs, features_match (new_features_filter pats) fs = true /\ ~ covered pats fs.
Proof.
  exists [[any_feature; s2b "foo"]; [s2b "a"; s2b "b"]], [s2b "x"; s2b "b"].
  split; [vm_compute; reflexivity|]. intros (p & [<-|[<-|[]]] & _ & H); inversion H as [|? ? ? ? Hs H']; subst.
  - inversion H' as [|? ? ? ? [Hs'|Hs'] _]; subst; discriminate.
  - destruct Hs as [Hs|Hs]; discriminate.
Qed.
Lemma c26_incomplete_lemma : exists pats fs, features_match (new_features_filter pats) fs = false /\ covered pats fs.
Proof.
  exists [[s2b "a"; s2b "b"]; [any_feature; s2b "foo"]], [s2b "a"; s2b "foo"].
  split; [vm_compute; reflexivity|]. exists [any_feature; s2b "foo"]. split; [right; left; reflexivity|].
  split; [discriminate|]. constructor; [left; reflexivity|]. constructor; [right; reflexivity|constructor].
Qed.

(** Deciding unambiguity. *)
Fixpoint agree (p q : list bytes) : bool :=
  match p, q with
  | a :: p', b :: q' => Bool.eqb (bytes_eqb a any_feature) (bytes_eqb b any_feature) && (negb (bytes_eqb a b) || agree p' q')
  | _, _ => true
  end.
Lemma agree_ok pats : forallb (fun p => forallb (agree p) pats) pats = true -> unambiguous pats.
Proof.
  intros H common v w r1 r2 H1 H2 ->. rewrite forallb_forall in H. specialize (H _ H1). rewrite forallb_forall in H. specialize (H _ H2).
  clear H1 H2. induction common as [|a common IH]; cbn [app agree] in H; apply andb_true_iff in H; destruct H as [Ha Hb].
  - rewrite bytes_eqb_refl' in Ha. apply Bool.eqb_prop in Ha. symmetry in Ha. apply bytes_eqb_true in Ha. assumption.
  - rewrite bytes_eqb_refl' in Hb. cbn in Hb. auto.
Qed.
