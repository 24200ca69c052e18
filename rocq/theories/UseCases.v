(** What goes wrong when a lattice is built twice. *)
From Verif Require Import Check Example Utf8Facts SpecUse HeapRun.
Set Implicit Arguments.
Unset Strict Implicit.
Open Scope Z_scope.

Fixpoint is_prefix (p s : bytes) : bool :=
  match p, s with
  | [], _ => true
  | a :: p', b :: s' => Byte.eqb a b && is_prefix p' s'
  | _, _ => false
  end.
Fixpoint is_factor (p s : bytes) : bool := is_prefix p s || match s with [] => false | _ :: s' => is_factor p s' end.
Lemma is_prefix_app p q : is_prefix p (p ++ q) = true.
Proof. induction p as [|a p IH]; [destruct q; reflexivity|]. cbn. rewrite IH, (Byte.byte_dec_lb (x := a) (y := a) eq_refl). reflexivity. Qed.
Lemma occurs_factor w s : occurs w s -> is_factor w s = true.
Proof.
  intros (p & q & ->). induction p as [|a p IH]; cbn [app].
  - destruct (w ++ q) eqn:E; cbn [is_factor]; rewrite <- E, is_prefix_app; reflexivity.
  - cbn [is_factor]. rewrite IH. apply orb_true_r.
Qed.

Definition stale_use : list lop := [LBuild (s2b "東京都"); LBuild (s2b "東")].
Definition stale_client : list work := [Use ex_dict None stale_use; Call (JAnalyze (Tokenizer ex_dict None false) (s2b "行くに") mode_normal)].
Lemma stale_analysis : exists g th o o2, steps (start_memory, [start_thread (h_works ex_ideo stale_client)]) (g, [th]) /\ th_prog th = Ret [o; o2] /\
  exists ts tk, o2 = Called (ATokens ts) /\ In tk ts /\ t_class tk <> DUMMY /\ t_surface tk = s2b "東京都".
Proof.
  assert (E : match run (h_works ex_ideo stale_client) start_memory with
              | Some ([_; Called (ATokens [_; tk; _])], _) => bytes_eqb (t_surface tk) (s2b "東京都") && negb (class_eqb (t_class tk) DUMMY)
              | _ => false end = true) by (vm_compute; reflexivity).
  destruct (run (h_works ex_ideo stale_client) start_memory) as [[a g']|] eqn:R; [|discriminate E].
  destruct (run_steps [] [] [] R) as (th & S & Ht).
  destruct a as [|o [|[[ts| |]|] [|]]]; try discriminate E.
  2: { destruct ts as [|t1 [|tk [|t3 [|]]]]; discriminate E. }
  destruct ts as [|t1 [|tk [|t3 [|]]]]; try discriminate E. apply andb_true_iff in E. destruct E as [E1 E2].
  exists g', th, o, (Called (ATokens [t1; tk; t3])). split; [exact S|]. split; [exact Ht|].
  exists [t1; tk; t3], tk. split; [reflexivity|]. split; [right; left; reflexivity|]. split.
  - intros C. rewrite C in E2. discriminate.
  - apply bytes_eqb_eq. exact E1.
Qed.

Theorem others_notice : ~ forall ideo clients g ths, (forall ws, In ws clients -> forall w, In w ws -> in_order w) ->
  steps (h_clients start_memory ideo clients) (g, ths) ->
  forall k ws th os, nth_error clients k = Some ws -> nth_error ths k = Some th -> th_prog th = Ret os -> Forall2 words_there ws os.
Proof.
  intros H. destruct stale_analysis as (g & th & o & o2 & S & Ht & ts & tk & Eo & Hi & Hc & Es).
  assert (F : Forall2 words_there stale_client [o; o2]).
  { apply (H ex_ideo [stale_client] g [th]) with (k := 0%nat) (th := th); try reflexivity; try assumption.
    intros ws [<-|[]] w [<-|[<-|[]]]; [exact (conj wf_ex I)|exact (conj wf_ex I)]. }
  inversion F as [|? ? ? ? _ F2]; subst. inversion F2 as [|? ? ? ? W _]; subst.
  specialize (W _ _ _ _ _ eq_refl eq_refl Hi Hc). rewrite Es in W. apply occurs_factor in W. vm_compute in W. discriminate.
Qed.

Definition rebuild : prog (list node) := h_use ex_ideo ex_dict None [LBuild (s2b "東京都"); LBuild (s2b "行く"); LForward LNormal; LBackward LNormal].
Lemma rebuild_output : exists g th n rest, steps (start_memory, [start_thread rebuild]) (g, [th]) /\ th_prog th = Ret (n :: rest) /\
  n_class n <> DUMMY /\ n_surface n = s2b "東京都".
Proof.
  assert (E : match run rebuild start_memory with
              | Some (n :: _, _) => bytes_eqb (n_surface n) (s2b "東京都") && negb (class_eqb (n_class n) DUMMY)
              | _ => false end = true) by (vm_compute; reflexivity).
  destruct (run rebuild start_memory) as [[a g']|] eqn:R; [|discriminate E].
  destruct (run_steps [] [] [] R) as (th & S & Ht). destruct a as [|n rest]; [discriminate E|].
  apply andb_true_iff in E. destruct E as [E1 E2]. exists g', th, n, rest. split; [exact S|]. split; [exact Ht|]. split.
  - intros C. rewrite C in E2. discriminate.
  - apply bytes_eqb_eq. exact E1.
Qed.
Theorem rebuild_stale : ~ forall ideo d u a b m m' g th out, wf_dict d -> wf_udict u ->
  steps (start_memory, [start_thread (h_use ideo d u [LBuild a; LBuild b; LForward m; LBackward m'])]) (g, [th]) ->
  th_prog th = Ret out -> forall n, In n out -> n_class n <> DUMMY -> occurs (n_surface n) b.
Proof.
  intros H. destruct rebuild_output as (g & th & n & rest & S & Ht & Hc & Es).
  specialize (H ex_ideo ex_dict None (s2b "東京都") (s2b "行く") LNormal LNormal g th _ wf_ex I S Ht n (or_introl eq_refl) Hc). rewrite Es in H. apply occurs_factor in H. vm_compute in H. discriminate.
Qed.
