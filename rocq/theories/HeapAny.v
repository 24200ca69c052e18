(** Interleavings of any programs that keep to objects of their own, from HeapSound.v: the general
    form of the facts that HeapProps.v states for calls of the tokenizer. *)
From Verif Require Export SpecHeap HeapProps.
From Coq Require Import ZifyBool ZifyNat.
Set Implicit Arguments.
Unset Strict Implicit.
Open Scope nat_scope.

Definition loose {A} (R : A -> Prop) (a : A) (_ : lheap) : Prop := R a.
Lemma Forall2_map_l A B C (f : A -> B) (P : B -> C -> Prop) l r : Forall2 (fun a c => P (f a) c) l r -> Forall2 P (map f l) r.
Proof. intros F. induction F; cbn [map]; constructor; assumption. Qed.

Section Any.
Variables (A : Type) (g0 : memory) (ps : list (prog A)) (Rs : list (A -> Prop)).
Hypothesis Hg : left_over g0.
Hypothesis Hp : Forall2 (fun (R : A -> Prop) p => wp p (fun a _ => R a) lheap0) Rs ps.

Lemma any_start : ginv (map loose Rs) (g0, map start_thread ps).
Proof.
  destruct Hg as [Ln Ll Lf]. apply start_ginv; [apply Forall2_map_l; exact Hp| | |].
  - apply apart_NoDup. rewrite app_nil_r. exact Ln.
  - apply apart_NoDup. rewrite app_nil_r. exact Ll.
  - intros a Ha. apply freed_clean, Lf, cnt_In, Ha.
Qed.

Variables (g : memory) (ths : list (thread A)).
Hypothesis Hs : steps (g0, map start_thread ps) (g, ths).

Lemma any_reached : ginv (map loose Rs) (g, ths).
Proof. exact (steps_ginv Hs any_start). Qed.

Lemma any_results : length ths = length ps /\
  forall k R th, nth_error Rs k = Some R -> nth_error ths k = Some th ->
    (forall r, th_prog th = Ret r -> R r) /\ (finished th \/ exists g' th', tstep g th g' th').
Proof.
  destruct any_reached as (F & _). split.
  - apply Forall2_length in F. rewrite map_length in F. apply Forall2_length in Hp. congruence.
  - intros k R th H1 H2. pose proof (Forall2_nth F (map_nth_error loose _ _ H1) H2) as T. split.
    + intros rs E. destruct T as (s & W & _). rewrite E in W. apply W.
    + destruct (tinv_progress T) as [(r & _ & E & _)|P]; [left; exists r; exact E|right; exact P].
Qed.

Lemma any_completes : exists g' ths', steps (g, ths) (g', ths') /\ (forall th, In th ths' -> finished th) /\ left_over g'.
Proof.
  assert (K : forall x, ginv (map loose Rs) x -> exists y, steps x y /\ ginv (map loose Rs) y /\ forall th, In th (snd y) -> finished th).
  { intros x. induction (step_wf (A := A) x) as [x _ IH]. intros G.
    assert (D : (forall th, In th (snd x) -> finished th) \/ exists y, step x y).
    { destruct x as [g1 ths1]. destruct G as (F & _). clear - F. cbn.
      assert (Q : forall pre, (forall th, In th ths1 -> finished th) \/ exists y, step (g1, pre ++ ths1) y).
      { induction F as [|R th Rs' ths1 HT F IH]; intros pre; [left; contradiction|].
        destruct (tinv_progress HT) as [(r & _ & E & _)|(g' & th' & St)].
        - destruct (IH (pre ++ [th])) as [D|[y Hy]].
          + left. intros t [<-|Ht]; [exists r; exact E|auto].
          + right. exists y. rewrite <- app_assoc in Hy. exact Hy.
        - right. eexists. constructor. exact St. }
      exact (Q []). }
    destruct D as [D|[y Hy]].
    - exists x. split; [constructor|]. auto.
    - destruct (IH y Hy (step_ginv Hy G)) as (z & S1 & G1 & F1). exists z. split; [|auto].
      eapply steps_trans; [|exact S1]. econstructor; [constructor|exact Hy]. }
  destruct (K _ any_reached) as ([g' ths'] & S1 & G1 & F1). exists g', ths'. split; [exact S1|]. split; [exact F1|].
  destruct G1 as (_ & An & Al & Ac). apply apart_NoDup in An. apply apart_NoDup in Al. split.
  - destruct An as [N L]. apply NoDup_app_l in N. split; [exact N|]. intros a Ha. apply L, in_or_app. auto.
  - destruct Al as [N L]. apply NoDup_app_l in N. split; [exact N|]. intros a Ha. apply L, in_or_app. auto.
  - intros a Ha. apply freed_clean, Ac, cnt_In, Ha.
Qed.
End Any.

Lemma any_finite A (x : memory * list (thread A)) : ~ exists f : nat -> memory * list (thread A), f 0 = x /\ forall n, step (f n) (f (S n)).
Proof.
  intros (f & _ & H). assert (K : forall x, forall n, f n = x -> False); [|exact (K _ 0 eq_refl)].
  intros y. induction (step_wf (A := A) y) as [y _ IH]. intros n <-. exact (IH _ (H n) (S n) eq_refl).
Qed.
