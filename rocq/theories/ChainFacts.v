(** Chains of filters: every call is a List.filter with a test of its own. *)
From Verif Require Import TokenFacts SpecFilter FilterFacts SpecChain.
From Coq Require Import Permutation.
Set Implicit Arguments.
Unset Strict Implicit.

Definition posb (pats : list (list bytes)) (t : token) : bool :=
  match token_pos t with Ok p => pos_match (new_pos_filter pats) p | _ => false end.
Definition wordb (words : list bytes) (t : token) : bool := word_match (new_word_filter words) (t_surface t).
Definition leavesb (c : filter_call) (t : token) : bool :=
  match c with
  | MatchDrop m => negb (m t) | MatchKeep m => m t
  | PosDrop pats => negb (posb pats t) | PosKeep pats => posb pats t
  | WordDrop words => negb (wordb words t) | WordKeep words => wordb words t
  | JaDrop tags words _ => negb (posb tags t) && negb (wordb words t)
  end.
Definition with_pos (ts : list token) : Prop := forall t, In t ts -> exists p, token_pos t = Ok p.

Lemma with_pos_filter f ts : with_pos ts -> with_pos (filter f ts).
Proof. intros H t Ht. apply filter_In in Ht. apply H. tauto. Qed.

Lemma select_pos pats want ts : with_pos ts ->
  spec_select (pos_pred (new_pos_filter pats)) want tt ts = Ok (tt, filter (fun t => Bool.eqb (posb pats t) want) ts).
Proof.
  induction ts as [|t ts IH]; intros H; cbn [spec_select filter]; [reflexivity|].
  destruct (H t) as (p & Ep); [left; reflexivity|]. unfold pos_pred at 1, posb at 1. rewrite Ep. cbn [rbind].
  rewrite IH by (intros x Hx; apply H; right; assumption). destruct (Bool.eqb _ want); reflexivity.
Qed.
Lemma filter_both {A} (f g : A -> bool) l : filter g (filter f l) = filter (fun a => f a && g a) l.
Proof. induction l as [|a l IH]; cbn; [reflexivity|]. destruct (f a); cbn; [destruct (g a)|]; rewrite IH; reflexivity. Qed.

Lemma call_ok c ts : with_pos ts -> call_filter c (Some ts) = Ok (Some (filter (leavesb c) ts)).
Proof.
  intros H. destruct c as [m|m|pats|pats|words|words|tags words base]; cbn [call_filter].
  - unfold filter_drop. rewrite apply_filter_ok. cbn [negb]. rewrite select_pure. cbn [rbind snd].
    do 2 f_equal; try (apply filter_ext; intros t; apply eqb_false_negb).
  - unfold filter_keep. rewrite apply_filter_ok. cbn [negb]. rewrite select_pure. cbn [rbind snd].
    do 2 f_equal; try (apply filter_ext; intros t; apply eqb_true_id).
  - unfold pos_drop. rewrite pos_apply_ok. cbn [negb]. rewrite (select_pos _ _ H).
    do 2 f_equal; try (apply filter_ext; intros t; apply eqb_false_negb).
  - unfold pos_keep. rewrite pos_apply_ok. cbn [negb]. rewrite (select_pos _ _ H).
    do 2 f_equal; try (apply filter_ext; intros t; apply eqb_true_id).
  - unfold word_drop. rewrite word_apply_ok. cbn [negb]. do 2 f_equal; try (apply filter_ext; intros t; apply eqb_false_negb).
  - unfold word_keep. rewrite word_apply_ok. cbn [negb]. do 2 f_equal; try (apply filter_ext; intros t; apply eqb_true_id).
  - unfold ja_drop. cbn [ja_of jf_stop_tags jf_stop_words]. unfold pos_drop. rewrite pos_apply_ok. cbn [negb].
    rewrite (select_pos _ _ H). cbn [rbind]. unfold word_drop. rewrite word_apply_ok. cbn [negb]. rewrite filter_both.
    do 2 f_equal; try (apply filter_ext; intros t; cbn [leavesb]; rewrite !eqb_false_negb; reflexivity).
Qed.

Lemma calls_ok cs ts : with_pos ts ->
  call_filters cs (Some ts) = Ok (Some (filter (fun t => forallb (fun c => leavesb c t) cs) ts)).
Proof.
  revert ts. induction cs as [|c cs IH]; intros ts H; cbn [call_filters forallb].
  - do 2 f_equal. induction ts as [|t ts IHt]; cbn; [reflexivity|]. f_equal. apply IHt. intros x Hx. apply H. right. assumption.
  - rewrite (call_ok _ H). cbn [rbind]. rewrite IH by (apply with_pos_filter; assumption). rewrite filter_both. reflexivity.
Qed.

Lemma posb_covered pats t : unambiguous pats -> (posb pats t = true <-> pos_covered pats t).
Proof.
  intros Hu. unfold posb, pos_covered. destruct (token_pos t) as [p| |] eqn:E.
  - rewrite (pos_match_covered _ Hu). split; [eauto|]. intros (q & [= ->] & Hq). assumption.
  - split; [discriminate|]. intros (q & ? & _). discriminate.
  - split; [discriminate|]. intros (q & ? & _). discriminate.
Qed.
Lemma negb_iff b P : (b = true <-> P) -> (negb b = true <-> ~ P).
Proof. destruct b; cbn; intuition congruence. Qed.
Lemma leavesb_ok c t : clear_call c -> (leavesb c t = true <-> leaves c t).
Proof.
  destruct c as [m|m|pats|pats|words|words|tags words base]; cbn [clear_call leavesb leaves]; intros H.
  - destruct (m t); cbn; intuition congruence.
  - tauto.
  - apply negb_iff, posb_covered, H.
  - apply posb_covered, H.
  - apply negb_iff. apply word_match_in.
  - apply word_match_in.
  - rewrite andb_true_iff, (negb_iff (posb_covered t H)), (negb_iff (word_match_in words (t_surface t))). tauto.
Qed.

Lemma c122_chain : forall cs ts, Forall clear_call cs -> (forall t, In t ts -> exists p, token_pos t = Ok p) ->
  exists out, call_filters cs (Some ts) = Ok (Some out) /\ picked (fun t => forall c, In c cs -> leaves c t) ts out.
Proof.
  intros cs ts Hc Hp. eexists. split; [apply (calls_ok cs Hp)|]. apply picked_filter. intros t _.
  rewrite forallb_forall. rewrite Forall_forall in Hc.
  split; intros H c Hin; specialize (H c Hin); apply (leavesb_ok t (Hc c Hin)); assumption.
Qed.

Lemma c122_same : forall cs cs' ts, (forall c, In c cs <-> In c cs') -> (forall t, In t ts -> exists p, token_pos t = Ok p) ->
  call_filters cs (Some ts) = call_filters cs' (Some ts) /\ exists out, call_filters cs (Some ts) = Ok (Some out).
Proof.
  intros cs cs' ts Hs Hp. rewrite (calls_ok cs Hp), (calls_ok cs' Hp). split; [|eauto].
  do 2 f_equal. apply filter_ext. intros t. apply Bool.eq_true_iff_eq. rewrite !forallb_forall.
  split; intros H c Hin; apply H, Hs, Hin.
Qed.

Lemma opposite_b c c' t : opposite c c' -> leavesb c t = negb (leavesb c' t).
Proof. destruct 1; reflexivity. Qed.
Lemma filter_none {A} (f : A -> bool) l : (forall a, f a = false) -> filter f l = [].
Proof. intros H. induction l as [|a l IH]; cbn; [reflexivity|]. rewrite H. assumption. Qed.
Lemma filter_split {A} (f g : A -> bool) l : (forall a, f a = negb (g a)) -> Permutation l (filter f l ++ filter g l).
Proof.
  intros H. induction l as [|a l IH]; cbn; [constructor|]. rewrite (H a). destruct (g a); cbn.
  - apply Permutation_cons_app; assumption.
  - constructor; assumption.
Qed.
Lemma c122_opposite : forall c c' cs ts, opposite c c' -> (forall t, In t ts -> exists p, token_pos t = Ok p) ->
  (In c cs -> In c' cs -> call_filters cs (Some ts) = Ok (Some [])) /\
  exists all dropped kept, call_filters cs (Some ts) = Ok (Some all) /\ call_filters (c :: cs) (Some ts) = Ok (Some dropped) /\
    call_filters (c' :: cs) (Some ts) = Ok (Some kept) /\ Permutation all (dropped ++ kept).
Proof.
  intros c c' cs ts Ho Hp. split.
  - intros H1 H2. rewrite (calls_ok cs Hp). do 2 f_equal. apply filter_none. intros t.
    destruct (forallb _ cs) eqn:E; [|reflexivity]. rewrite forallb_forall in E. pose proof (E c H1) as E1. pose proof (E c' H2) as E2. cbn beta in E1, E2.
    rewrite (opposite_b t Ho), E2 in E1. discriminate.
  - rewrite (calls_ok cs Hp), (calls_ok (c :: cs) Hp), (calls_ok (c' :: cs) Hp). eexists _, _, _.
    do 3 (split; [reflexivity|]). cbn [forallb].
    assert (E : forall x, filter (fun t => leavesb x t && forallb (fun c => leavesb c t) cs) ts =
                          filter (leavesb x) (filter (fun t => forallb (fun c => leavesb c t) cs) ts)).
    { intros x. rewrite filter_both. apply filter_ext. intros t. apply andb_comm. }
    rewrite !E. apply filter_split. intros t. apply opposite_b. assumption.
Qed.

Lemma c122_yield : forall tags words base cs1 cs2 ts, (forall t, In t ts -> exists p, token_pos t = Ok p) ->
  exists out out', call_filters (cs1 ++ cs2) (Some ts) = Ok (Some out) /\
    call_filters (cs1 ++ JaDrop tags words base :: cs2) (Some ts) = Ok (Some out') /\
    ja_yield (ja_of tags words base) out' = ja_yield (ja_of tags words base) out.
Proof.
  intros tags words base cs1 cs2 ts Hp. rewrite (calls_ok (cs1 ++ cs2) Hp).
  assert (Hs : forall c, In c (cs1 ++ JaDrop tags words base :: cs2) <-> In c ((cs1 ++ cs2) ++ [JaDrop tags words base])).
  { intros c. rewrite !in_app_iff. cbn [In]. tauto. }
  destruct (c122_same Hs Hp) as (E & _). rewrite E, (calls_ok _ Hp). eexists _, _. do 2 (split; [reflexivity|]).
  set (a := filter (fun t => forallb (fun c => leavesb c t) (cs1 ++ cs2)) ts).
  assert (Ha : with_pos a) by (apply with_pos_filter; exact Hp).
  pose proof (call_ok (JaDrop tags words base) Ha) as Hd. cbn [call_filter] in Hd.
  rewrite <- (c31_yield_drop_lemma Hd). f_equal. unfold a. rewrite filter_both. apply filter_ext. intros t.
  rewrite forallb_app. cbn [forallb]. rewrite andb_true_r. reflexivity.
Qed.

Lemma c122_order : forall d u cs cs' ts, wf_dict d -> wf_udict u -> wf_data d -> (forall t, In t ts -> from_analyze d u t) ->
  (forall c, In c cs <-> In c cs') ->
  call_filters cs (Some ts) = call_filters cs' (Some ts) /\ exists out, call_filters cs (Some ts) = Ok (Some out).
Proof. intros d u cs cs' ts Hd Hu Hw Ht Hs. apply c122_same; [assumption|]. intros t Hin. apply (c50_no_panic_lemma Hd Hu Hw (Ht t Hin)). Qed.
