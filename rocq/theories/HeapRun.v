(** One execution of a single goroutine, for concrete cases: Get takes the object put last, append
    grows without spare capacity. *)
From Verif Require Export Check Heap.
From Coq Require Import ZifyBool ZifyNat.
Set Implicit Arguments.
Unset Strict Implicit.
Open Scope nat_scope.

Fixpoint run {A} (p : prog A) (g : memory) : option (A * memory) :=
  let '(Memory nodes next pool lats lnext lpool) := g in
  match p with
  | Ret a => Some (a, g)
  | Stop => None
  | Choose k => run (k 0) g
  | NodeGet k =>
    match pool with
    | a :: pool' => run (k a) (Memory nodes next pool' lats lnext lpool)
    | [] => run (k next) (Memory (set_at nodes next zero_hnode) (S next) pool lats lnext lpool)
    end
  | NodePut a k => run k (Memory nodes next (a :: pool) lats lnext lpool)
  | NodeNew n k => run (k next) (Memory (set_at nodes next n) (S next) pool lats lnext lpool)
  | NodeRead a k => run (k (nodes a)) g
  | NodeSet a f k => run k (Memory (set_at nodes a (f (nodes a))) next pool lats lnext lpool)
  | LatGet k =>
    match lpool with
    | a :: lpool' => run (k a) (Memory nodes next pool lats lnext lpool')
    | [] => run (k lnext) (Memory nodes next pool (set_at lats lnext zero_hlat) (S lnext) lpool)
    end
  | LatPut a k => run k (Memory nodes next pool lats lnext (a :: lpool))
  | LatRead a k => run (k (lats a)) g
  | LatSet a f k => run k (Memory nodes next pool (set_at lats a (f (lats a))) lnext lpool)
  end.

Lemma steps_one A (x y : memory * list (thread A)) : step x y -> steps x y.
Proof. intros H. econstructor; [constructor|exact H]. Qed.
Lemma steps_more A (x y z : memory * list (thread A)) : step x y -> steps y z -> steps x z.
Proof.
  intros H1 H2. revert H1. induction H2 as [y|y z w H IH S]; intros H1; [apply steps_one; exact H1|]. econstructor; [exact (IH H1)|exact S].
Qed.
Lemma step_alone A g (th : thread A) g' th' : tstep g th g' th' -> step (g, [th]) (g', [th']).
Proof. intros H. exact (@s_step A g [] th [] g' th' H). Qed.

Theorem run_steps A (p : prog A) : forall g a g' hn hw hl, run p g = Some (a, g') ->
  exists th, steps (g, [Thread p hn hw hl]) (g', [th]) /\ th_prog th = Ret a.
Proof.
  induction p as [a| |k IH|k IH|a p IH|n k IH|a k IH|a f p IH|k IH|a p IH|a k IH|a f p IH];
    intros [nodes next pool lats lnext lpool] r g' hn hw hl E; cbn [run] in E; try discriminate.
  - injection E as <- <-. eexists. split; [constructor|reflexivity].
  - destruct (IH _ _ _ _ hn hw hl E) as (th & S & H). exists th. split; [|exact H]. eapply steps_more; [apply step_alone; constructor|exact S].
  - destruct pool as [|a pool].
    + destruct (IH _ _ _ _ (next :: hn) hw hl E) as (th & S & H). exists th. split; [|exact H]. eapply steps_more; [apply step_alone; apply t_node_make|exact S].
    + destruct (IH _ _ _ _ (a :: hn) hw hl E) as (th & S & H). exists th. split; [|exact H]. eapply steps_more; [apply step_alone|exact S].
      exact (@t_node_get A nodes next [] a pool lats lnext lpool k hn hw hl).
  - destruct (IH _ _ _ (remove_one a hn) hw hl E) as (th & S & H). exists th. split; [|exact H]. eapply steps_more; [apply step_alone; constructor|exact S].
  - destruct (IH _ _ _ _ hn (next :: hw) hl E) as (th & S & H). exists th. split; [|exact H]. eapply steps_more; [apply step_alone; constructor|exact S].
  - destruct (IH _ _ _ _ hn hw hl E) as (th & S & H). exists th. split; [|exact H]. eapply steps_more; [apply step_alone; apply t_node_read|exact S].
  - destruct (IH _ _ _ hn hw hl E) as (th & S & H). exists th. split; [|exact H]. eapply steps_more; [apply step_alone; constructor|exact S].
  - destruct lpool as [|a lpool].
    + destruct (IH _ _ _ _ hn hw (lnext :: hl) E) as (th & S & H). exists th. split; [|exact H]. eapply steps_more; [apply step_alone; apply t_lat_make|exact S].
    + destruct (IH _ _ _ _ hn hw (a :: hl) E) as (th & S & H). exists th. split; [|exact H]. eapply steps_more; [apply step_alone|exact S].
      exact (@t_lat_get A nodes next pool lats lnext [] a lpool k hn hw hl).
  - destruct (IH _ _ _ hn hw (remove_one a hl) E) as (th & S & H). exists th. split; [|exact H]. eapply steps_more; [apply step_alone; constructor|exact S].
  - destruct (IH _ _ _ _ hn hw hl E) as (th & S & H). exists th. split; [|exact H]. eapply steps_more; [apply step_alone; apply t_lat_read|exact S].
  - destruct (IH _ _ _ hn hw hl E) as (th & S & H). exists th. split; [|exact H]. eapply steps_more; [apply step_alone; constructor|exact S].
Qed.

(** The execution exists and its result passes a test. *)
Lemma run_result A B `{Eqb B} (p : prog A) g (f : A -> B) b :
  match run p g with Some (a, _) => test_eq (f a) b | None => false end = true ->
  exists g' th a, steps (g, [start_thread p]) (g', [th]) /\ th_prog th = Ret a /\ f a = b.
Proof.
  destruct (run p g) as [[a g']|] eqn:E; [|discriminate]. intros Hb. destruct (run_steps [] [] [] E) as (th & S & Ht).
  exists g', th, a. split; [exact S|]. split; [exact Ht|apply test_eq_ok; exact Hb].
Qed.
