(** Proofs about concurrent requests. *)
From Verif Require Export SpecServing HeapAny.
From Verif Require Import SpecServer TokFacts AnalyzeFacts TokenFacts DotFacts ServerFacts.
Set Implicit Arguments.
Unset Strict Implicit.
Open Scope nat_scope.

Lemma page_mode_demo m : page_mode m (demo_mode m).
Proof.
  unfold demo_mode. destruct (bytes_eqb m (s2b "Search")) eqn:E1; [apply bytes_eqb_eq in E1; subst m; constructor|].
  destruct (bytes_eqb m (s2b "Extended")) eqn:E2; [apply bytes_eqb_eq in E2; subst m; constructor|]. cbn [orb]. constructor.
  - intros ->. discriminate.
  - intros ->. discriminate.
Qed.

Section Serving.
Variables (decode : bytes -> request + bytes) (newer : bool) (dot : bytes -> bytes) (ptr : addr -> bytes).
Variables (ideo : ideographic) (d : dict) (u : option udict) (omit : bool).
Hypothesis Hd : wf_dict d.
Hypothesis Hu : wf_udict u.
Hypothesis Hw : wf_data d.
Notation t := (Tokenizer d u omit).

Lemma sim_tokenize body s : empty s -> wp (h_tokenize decode newer ideo t body) (fun r s' => alone decode newer dot ptr ideo t (Tokenize body) r /\ empty s') s.
Proof.
  intros Hs. destruct (serve_total omit ideo newer decode body Hd Hu Hw) as (r & E). assert (E' := E). unfold serve_tokenize in E'. unfold h_tokenize.
  destruct (decode body) as [[sen m]|e]; [|injection E' as <-; cbn; split; [constructor; exact E|exact Hs]]. cbn [rq_input rq_mode] in *.
  destruct (bytes_eqb sen []); [injection E' as <-; cbn; split; [constructor; exact E|exact Hs]|].
  apply ok_bind in E'. destruct E' as (ts & Et & E'). apply ok_bind in E'. destruct E' as (data & Ed & E'). injection E' as <-.
  eapply wp_seq; [exact (sim_analyze Et Hs)|]. intros r s1 [-> H1]. rewrite Ed. cbn. split; [constructor; exact E|exact H1].
Qed.

Lemma sim_draw sen mode s : empty s -> wp (h_draw dot ptr ideo t sen mode) (fun r s' => alone decode newer dot ptr ideo t (Draw sen mode) r /\ empty s') s.
Proof.
  intros Hs. destruct (DotFacts.graph_ok omit ideo sen (demo_mode mode) Hd Hu Hw) as (la & la' & l & _ & _ & _ & E1 & E2).
  unfold h_draw. eapply wp_seq; [exact (sim_graph E2 E1 Hs)|]. intros r s1 [Hr H1]. inversion Hr as [| |t' i' m' ts ss nm F1 F2 F3 G1 G2]; subst.
  destruct (demo_page dot (fun c => ptr (nm c)) omit ideo sen Hd Hu Hw (m := mode) (mode := demo_mode mode)) as (ts' & g & rs & svg & _ & K2 & K3 & _).
  { exact (page_mode_demo mode). }
  assert (K3' := K3). unfold serve_demo, demo_graph in K3. rewrite K2 in K3. cbn [rbind] in K3. rewrite F1 in K3. cbn [rbind] in K3.
  apply ok_bind in K3. destruct K3 as (rs' & Er & K3). injection K3 as -> <-. rewrite Er. cbn [lift pbind wp]. split; [|exact H1].
  replace (dot_text ptr (map (renamed nm) ss)) with g.
  - apply al_draw with (name := nm); [|exact K3']. intros ss' c c' E. rewrite F2 in E. injection E as <-. apply F3.
  - unfold graph_text in K2. rewrite F2 in K2. cbn [rbind] in K2. injection K2 as <-.
    unfold dot_text. f_equal. f_equal. f_equal. rewrite map_map. apply map_ext.
    intros []; reflexivity.
Qed.

Lemma sim_connection cs : forall s, empty s ->
  wp (h_connection decode newer dot ptr ideo t cs) (fun rs s' => Forall2 (alone decode newer dot ptr ideo t) cs rs /\ empty s') s.
Proof.
  induction cs as [|c cs IH]; intros s Hs; cbn [h_connection].
  - cbn. auto.
  - eapply wp_seq.
    + destruct c as [body|sen mode]; cbn [h_call]; [exact (sim_tokenize body Hs)|exact (sim_draw sen mode Hs)].
    + intros r s1 [Hr H1]. eapply wp_seq; [exact (IH s1 H1)|]. intros rs s2 [Hrs H2]. cbn. auto.
Qed.

Lemma serving_start conns : Forall2 (fun (R : list reply -> Prop) p => wp p (fun a _ => R a) lheap0)
  (map (fun cs rs => Forall2 (alone decode newer dot ptr ideo t) cs rs) conns) (map (h_connection decode newer dot ptr ideo t) conns).
Proof.
  induction conns as [|cs conns IH]; cbn [map]; constructor; [|exact IH]. eapply wp_mono; [apply sim_connection; split; cbn; [discriminate|reflexivity]|]. intros a s [H _]. exact H.
Qed.

Section Reached.
Variables (g0 : memory) (conns : list (list call)) (g : memory) (ths : list (thread (list reply))).
Hypothesis Hg : left_over g0.
Hypothesis Hs : steps (h_server decode newer dot ptr ideo t g0 conns) (g, ths).

Lemma serving_steps : steps (g0, map start_thread (map (h_connection decode newer dot ptr ideo t) conns)) (g, ths).
Proof. rewrite map_map. exact Hs. Qed.

Theorem serving_results : length ths = length conns /\
  forall k cs th, nth_error conns k = Some cs -> nth_error ths k = Some th ->
    (forall rs, th_prog th = Ret rs -> Forall2 (alone decode newer dot ptr ideo t) cs rs) /\
    (finished th \/ exists g' th', tstep g th g' th').
Proof.
  destruct (any_results Hg (serving_start conns) serving_steps) as (L & K). rewrite map_length in L. split; [exact L|].
  intros k cs th H1 H2. apply (K k _ th); [|exact H2]. rewrite nth_error_map, H1. reflexivity.
Qed.

Theorem serving_completes : exists g' ths', steps (g, ths) (g', ths') /\ (forall th, In th ths' -> finished th) /\ left_over g'.
Proof. exact (any_completes Hg (serving_start conns) serving_steps). Qed.
End Reached.
End Serving.

Theorem serving_finite decode newer dot ptr ideo t g0 conns :
  ~ exists f : nat -> memory * list (thread (list reply)), f 0 = h_server decode newer dot ptr ideo t g0 conns /\ forall n, step (f n) (f (S n)).
Proof. apply any_finite. Qed.
