(** Forward computes, position by position, the cheapest predecessor of every node. *)
From Verif Require Export BuildFacts.
From Coq Require Import ZifyBool ZifyNat ZifyN.
Set Implicit Arguments.
Unset Strict Implicit.
Open Scope nat_scope.

(** ** The in-place loops as functions *)
Section Relax.
Variables (d : dict) (ideo : ideographic) (m : lmode).

Fixpoint relax_prevs (start j : nat) (prevs : list node) (t : node) : res node :=
  match prevs with
  | [] => Ok t
  | p :: ps =>
    let* total := total_cost d ideo m p t in
    relax_prevs start (S j) ps
      (if (j =? 0) || (wrap32 total <? n_cost t)%Z
       then set_cost_prev (wrap32 total) (Some (start, j)) t else t)
  end.

Definition relax_node (la : table) (t : node) : res node :=
  match nth (n_start t) la [] with
  | [] => Ok (set_cost maximum_cost t)
  | ps => relax_prevs (n_start t) 0 ps t
  end.

Definition put (la : table) (i idx : nat) (t : node) : table :=
  update_nth la i (fun l => update_nth l idx (fun _ => t)).

Lemma get2_nth la i j l t : nth_error la i = Some l -> nth_error l j = Some t -> get2 la i j = Ok t.
Proof. intros H1 H2. unfold get2, index. rewrite H1. cbn [rbind]. rewrite H2. reflexivity. Qed.

Lemma update_nth_ext {A} (l : list A) i f g x : nth_error l i = Some x -> f x = g x ->
  update_nth l i f = update_nth l i g.
Proof.
  revert i; induction l as [|y l IH]; intros [|i] H E; cbn in *; try discriminate.
  - injection H as ->. congruence.
  - f_equal. eauto.
Qed.

Lemma update_nth_same {A} (l : list A) i f x : nth_error l i = Some x -> f x = x -> update_nth l i f = l.
Proof.
  revert i; induction l as [|y l IH]; intros [|i] H E; cbn in *; try discriminate.
  - injection H as ->. congruence.
  - f_equal. eauto.
Qed.

Lemma update_nth_twice {A} (l : list A) i f g : update_nth (update_nth l i f) i g = update_nth l i (fun x => g (f x)).
Proof. revert i; induction l as [|y l IH]; intros [|i]; cbn; auto. f_equal. auto. Qed.

Lemma put_same la i idx l t : nth_error la i = Some l -> nth_error l idx = Some t -> put la i idx t = la.
Proof.
  intros H1 H2. unfold put. eapply update_nth_same; [exact H1|]. eapply update_nth_same; [exact H2|reflexivity].
Qed.

Lemma relax_loop_eq i idx start prevs : start <> i -> forall k j la l t,
  nth_error la start = Some prevs -> length prevs = j + k ->
  nth_error la i = Some l -> nth_error l idx = Some t ->
  relax_loop d ideo m i idx start j k la =
    let* t' := relax_prevs start j (skipn j prevs) t in Ok (put la i idx t').
Proof.
  intros Hne. induction k as [|k IH]; intros j la l t Hs Hlen Hi Ht.
  - rewrite skipn_all2 by lia. cbn. rewrite (put_same Hi Ht). reflexivity.
  - cbn [relax_loop].
    destruct (nth_error prevs j) as [p|] eqn:Ep; [|apply nth_error_None in Ep; lia].
    rewrite (get2_nth Hs Ep), (get2_nth Hi Ht). cbn [rbind].
    assert (Hsk : skipn j prevs = p :: skipn (S j) prevs).
    { clear -Ep. revert prevs Ep. induction j as [|j IHj]; intros [|q ps] E; cbn in *; try discriminate; [congruence|auto]. }
    rewrite Hsk. cbn [relax_prevs].
    destruct (total_cost d ideo m p t) as [total| |]; cbn [rbind]; [|reflexivity|reflexivity].
    assert (Hlt : i < length la) by (apply nth_error_Some; congruence).
    set (t1 := set_cost_prev (wrap32 total) (Some (start, j)) t).
    destruct ((j =? 0) || (wrap32 total <? n_cost t)%Z).
    + unfold upd2, update. destruct (Nat.ltb_spec i (length la)); [|lia]. cbn [rbind].
      rewrite (IH (S j) _ (update_nth l idx (set_cost_prev (wrap32 total) (Some (start, j)))) t1).
      * destruct (relax_prevs start (S j) (skipn (S j) prevs) t1) as [t'| |]; cbn [rbind]; [|reflexivity|reflexivity].
        f_equal. unfold put. rewrite update_nth_twice. eapply update_nth_ext; [exact Hi|].
        cbn beta. rewrite update_nth_twice. reflexivity.
      * rewrite nth_error_update_nth. destruct (Nat.eqb_spec start i); [congruence|assumption].
      * lia.
      * rewrite nth_error_update_nth, Nat.eqb_refl, Hi. reflexivity.
      * rewrite nth_error_update_nth, Nat.eqb_refl, Ht. reflexivity.
    + cbn [rbind]. apply (IH (S j) la l t); [assumption|lia|assumption|assumption].
Qed.

Lemma forward_target_eq la i idx l t prevs : n_start t <> i ->
  nth_error la i = Some l -> nth_error l idx = Some t -> nth_error la (n_start t) = Some prevs ->
  forward_target d ideo m i la idx = let* t' := relax_node la t in Ok (put la i idx t').
Proof.
  intros Hne Hi Ht Hp. unfold forward_target. rewrite (get2_nth Hi Ht). cbn [rbind]. unfold index.
  rewrite Hp. cbn [rbind]. unfold relax_node. rewrite (nth_error_nth _ _ _ Hp).
  assert (Hlt : i < length la) by (apply nth_error_Some; congruence).
  destruct prevs as [|p ps].
  - cbn [length Nat.eqb rbind]. unfold upd2, update. destruct (Nat.ltb_spec i (length la)); [|lia].
    f_equal. unfold put. eapply update_nth_ext; [exact Hi|]. eapply update_nth_ext; [exact Ht|]. reflexivity.
  - change (length (p :: ps) =? 0) with false. cbv iota.
    rewrite (@relax_loop_eq i idx (n_start t) (p :: ps) Hne (length (p :: ps)) 0 la l t); auto.
Qed.

Lemma mapM_app {A B} (f : A -> res B) l1 l2 :
  mapM f (l1 ++ l2) = let* a := mapM f l1 in let* b := mapM f l2 in Ok (a ++ b).
Proof.
  induction l1 as [|x l1 IH]; cbn [mapM app rbind].
  - destruct (mapM f l2); reflexivity.
  - destruct (f x); cbn [rbind]; [|reflexivity|reflexivity]. rewrite IH.
    destruct (mapM f l1); cbn [rbind]; [|reflexivity|reflexivity].
    destruct (mapM f l2); reflexivity.
Qed.

Lemma forward_pos_eq la i cur :
  nth_error la i = Some cur -> (forall t, In t cur -> n_start t < i) ->
  forward_pos d ideo m la i =
    let* cur' := mapM (relax_node la) cur in Ok (update_nth la i (fun _ => cur')).
Proof.
  intros Hi Hst. unfold forward_pos, index. rewrite Hi. cbn [rbind].
  assert (Hlt : i < length la) by (apply nth_error_Some; congruence).
  assert (G : forall todo done, (forall t, In t todo -> n_start t < i) ->
    foldM (forward_target d ideo m i) (seq (length done) (length todo)) (update_nth la i (fun _ => done ++ todo)) =
    let* todo' := mapM (relax_node la) todo in Ok (update_nth la i (fun _ => done ++ todo'))).
  { induction todo as [|t todo IH]; intros done Ht; cbn [length seq foldM mapM rbind].
    - reflexivity.
    - assert (Hn : n_start t < i) by (apply Ht; left; reflexivity).
      set (la1 := update_nth la i (fun _ => done ++ t :: todo)).
      assert (H1 : nth_error la1 i = Some (done ++ t :: todo)).
      { unfold la1. rewrite nth_error_update_nth, Nat.eqb_refl, Hi. reflexivity. }
      assert (H2 : nth_error (done ++ t :: todo) (length done) = Some t).
      { rewrite nth_error_app2, Nat.sub_diag by lia. reflexivity. }
      assert (H3 : nth_error la1 (n_start t) = nth_error la (n_start t)).
      { unfold la1. rewrite nth_error_update_nth. destruct (Nat.eqb_spec (n_start t) i); [lia|reflexivity]. }
      destruct (nth_error la (n_start t)) as [prevs|] eqn:Ep; [|apply nth_error_None in Ep; lia].
      rewrite (@forward_target_eq la1 i (length done) (done ++ t :: todo) t prevs ltac:(lia) H1 H2 H3).
      assert (R : relax_node la1 t = relax_node la t).
      { unfold relax_node. rewrite (nth_error_nth _ _ _ H3), (nth_error_nth _ _ _ Ep). reflexivity. }
      rewrite R. destruct (relax_node la t) as [t'| |]; cbn [rbind]; [|reflexivity|reflexivity].
      assert (P : put la1 i (length done) t' = update_nth la i (fun _ => (done ++ [t']) ++ todo)).
      { unfold put, la1. rewrite update_nth_twice. eapply update_nth_ext; [exact Hi|]. cbn beta.
        rewrite <- app_assoc. cbn [app]. clear. induction done as [|x done IH]; cbn; [reflexivity|f_equal; exact IH]. }
      rewrite P. replace (S (length done)) with (length (done ++ [t'])) by (rewrite app_length; cbn; lia).
      rewrite IH by (intros t0 H0; apply Ht; right; assumption).
      destruct (mapM (relax_node la) todo); cbn [rbind]; [|reflexivity|reflexivity].
      rewrite <- app_assoc. reflexivity. }
  specialize (G cur [] Hst). cbn [length app] in G.
  rewrite (@update_nth_same _ la i (fun _ => cur) cur Hi eq_refl) in G. exact G.
Qed.
End Relax.

(** ** Costs *)
Definition node_entry (n : node) : morph := Morph (n_left n) (n_right n) (n_weight n).

Definition node_penalty (m : lmode) (ideo : ideographic) (n : node) : Z :=
  match m with LNormal => 0%Z | _ => additional_cost ideo (n_surface n) end.

(** Cost of [t] after [p], before saturation. *)
Definition step_cost (d : dict) (ideo : ideographic) (m : lmode) (p t : node) : Z :=
  (connection d (n_class p) (node_entry p) (n_class t) (node_entry t) + n_weight t + n_cost p + node_penalty m ideo p)%Z.

Definition new_cost (d : dict) (ideo : ideographic) (m : lmode) (p t : node) : Z :=
  wrap32 (Z.min maximum_cost (step_cost d ideo m p t)).

(** Nodes whose connection ids are inside the table. *)
Definition conn_node (d : dict) (rows : Z) (n : node) : Prop :=
  (0 <= n_left n < d_conn_col d /\ 0 <= n_right n < rows)%Z.

Lemma conn_ok d rows p t : (Z.of_nat (length (d_conn_vec d)) = rows * d_conn_col d)%Z ->
  conn_node d rows p -> conn_node d rows t ->
  (0 <= d_conn_col d * n_right p + n_left t < Z.of_nat (length (d_conn_vec d)))%Z.
Proof. intros H [H1 H2] [H3 H4]. rewrite H. nia. Qed.

Lemma total_cost_ok d rows ideo m p t : (Z.of_nat (length (d_conn_vec d)) = rows * d_conn_col d)%Z ->
  conn_node d rows p -> conn_node d rows t ->
  total_cost d ideo m p t = Ok (Z.min maximum_cost (step_cost d ideo m p t)).
Proof.
  intros H Hp Ht. unfold total_cost.
  assert (E : (if negb (class_eqb (n_class p) USER) && negb (class_eqb (n_class t) USER)
     then conn_at d (n_right p) (n_left t) else Ok 0%Z) =
     Ok (connection d (n_class p) (node_entry p) (n_class t) (node_entry t))).
  { assert (I : conn_at d (n_right p) (n_left t) = Ok (nth (Z.to_nat (d_conn_col d * n_right p + n_left t)) (d_conn_vec d) 0%Z)).
    { unfold conn_at. apply indexZ_nth. apply (conn_ok H); assumption. }
    unfold connection, node_entry. cbn [m_right m_left].
    destruct (n_class p), (n_class t); cbn [class_eqb negb andb]; first [exact I|reflexivity]. }
  rewrite E. cbn [rbind]. unfold step_cost, node_penalty. f_equal.
  set (c := connection d (n_class p) (node_entry p) (n_class t) (node_entry t)).
  destruct m; match goal with |- (if ?a <? ?b then _ else _)%Z = _ => destruct (Z.ltb_spec a b) end; lia.
Qed.

(** The predecessor chosen: the first one of least cost. *)
Definition best_prev (d : dict) (ideo : ideographic) (m : lmode) (prevs : list node) (t : node) (j : nat) : Prop :=
  exists p, nth_error prevs j = Some p /\
    (forall j' p', nth_error prevs j' = Some p' -> (new_cost d ideo m p t <= new_cost d ideo m p' t)%Z /\
        (j' < j -> (new_cost d ideo m p t < new_cost d ideo m p' t)%Z)).

Lemma relax_prevs_spec d rows ideo m start : (Z.of_nat (length (d_conn_vec d)) = rows * d_conn_col d)%Z ->
  forall prevs t, (forall p, In p prevs -> conn_node d rows p) -> conn_node d rows t -> prevs <> [] ->
  exists j p, nth_error prevs j = Some p /\ best_prev d ideo m prevs t j /\
    relax_prevs d ideo m start 0 prevs t = Ok (set_cost_prev (new_cost d ideo m p t) (Some (start, j)) t).
Proof.
  intros Hrc prevs t Hp Ht Hne.
  assert (Hnc : forall p c q, new_cost d ideo m p (set_cost_prev c q t) = new_cost d ideo m p t) by reflexivity.
  (* generalised: the first [length done] predecessors are handled *)
  assert (G : forall todo done j p, done <> [] -> (forall q, In q todo -> conn_node d rows q) ->
    nth_error done j = Some p -> best_prev d ideo m done t j ->
    exists j' p', nth_error (done ++ todo) j' = Some p' /\ best_prev d ideo m (done ++ todo) t j' /\
      relax_prevs d ideo m start (length done) todo (set_cost_prev (new_cost d ideo m p t) (Some (start, j)) t) =
      Ok (set_cost_prev (new_cost d ideo m p' t) (Some (start, j')) t)).
  { induction todo as [|q todo IH]; intros done j p Hdn Hq Hj Hb; cbn [relax_prevs].
    - rewrite app_nil_r. exists j, p. auto.
    - rewrite (@total_cost_ok d rows); [|assumption|apply Hq; left; reflexivity|exact Ht]. cbn [rbind].
      fold (new_cost d ideo m q (set_cost_prev (new_cost d ideo m p t) (Some (start, j)) t)). rewrite Hnc.
      cbn [n_cost set_cost_prev].
      assert (Hl0 : length done <> 0) by (destruct done; [congruence|cbn; lia]).
      destruct (Nat.eqb_spec (length done) 0) as [|_]; [lia|]. cbn [orb].
      replace (done ++ q :: todo) with ((done ++ [q]) ++ todo) by (rewrite <- app_assoc; reflexivity).
      replace (S (length done)) with (length (done ++ [q])) by (rewrite app_length; cbn; lia).
      assert (Hjl : j < length done) by (apply nth_error_Some; congruence).
      assert (Hcase : forall j' p', nth_error (done ++ [q]) j' = Some p' ->
                (j' < length done /\ nth_error done j' = Some p') \/ (j' = length done /\ p' = q)).
      { intros j' p' E. destruct (Nat.lt_ge_cases j' (length done)).
        - left. rewrite nth_error_app1 in E by assumption. auto.
        - right. rewrite nth_error_app2 in E by assumption.
          destruct (j' - length done) as [|x] eqn:Ex; cbn in E; [|destruct x; discriminate].
          split; [lia|congruence]. }
      destruct Hb as (p1 & Hp1 & Hb). assert (p1 = p) as -> by congruence.
      destruct (Z.ltb_spec (new_cost d ideo m q t) (new_cost d ideo m p t)) as [Hlt|Hge].
      + assert (E1 : set_cost_prev (new_cost d ideo m q t) (Some (start, length done))
                (set_cost_prev (new_cost d ideo m p t) (Some (start, j)) t) =
                set_cost_prev (new_cost d ideo m q t) (Some (start, length done)) t) by reflexivity.
        rewrite E1. apply IH.
        * destruct done; discriminate.
        * intros q' Hq'. apply Hq. right. assumption.
        * rewrite nth_error_app2, Nat.sub_diag by lia. reflexivity.
        * exists q. split; [rewrite nth_error_app2, Nat.sub_diag by lia; reflexivity|].
          intros j' p' E. destruct (Hcase _ _ E) as [[H1 H2]|[H1 H2]].
          -- specialize (Hb _ _ H2). lia.
          -- subst. split; [lia|intros; lia].
      + apply IH.
        * destruct done; discriminate.
        * intros q' Hq'. apply Hq. right. assumption.
        * rewrite nth_error_app1 by assumption. assumption.
        * exists p. split; [rewrite nth_error_app1 by assumption; assumption|].
          intros j' p' E. destruct (Hcase _ _ E) as [[H1 H2]|[H1 H2]].
          -- specialize (Hb _ _ H2). exact Hb.
          -- subst. split; [lia|intros; lia]. }
  destruct prevs as [|p ps]; [congruence|]. cbn [relax_prevs].
  rewrite (@total_cost_ok d rows); [|assumption|apply Hp; left; reflexivity|assumption]. cbn [rbind].
  fold (new_cost d ideo m p t). cbn [Nat.eqb orb].
  destruct (G ps [p] 0 p) as (j & p' & H1 & H2 & H3).
  - discriminate.
  - intros q Hq. apply Hp. right. assumption.
  - reflexivity.
  - exists p. split; [reflexivity|]. intros [|j'] p' E; cbn in E; [|destruct j'; discriminate].
    injection E as <-. split; [lia|intros; lia].
  - exists j, p'. auto.
Qed.

(** ** The table after Forward *)
(** [t'] is [t] with cost and predecessor chosen among the nodes of [la']. *)
Definition relaxed (d : dict) (ideo : ideographic) (m : lmode) (la' : table) (t t' : node) : Prop :=
  (nth (n_start t) la' [] = [] /\ t' = set_cost_prev maximum_cost (n_prev t) t) \/
  (exists j p, nth_error (nth (n_start t) la' []) j = Some p /\
     best_prev d ideo m (nth (n_start t) la' []) t j /\
     t' = set_cost_prev (new_cost d ideo m p t) (Some (n_start t, j)) t).

Lemma relax_node_ok d rows ideo m la t : (Z.of_nat (length (d_conn_vec d)) = rows * d_conn_col d)%Z ->
  (forall p, In p (nth (n_start t) la []) -> conn_node d rows p) -> conn_node d rows t ->
  exists t', relax_node d ideo m la t = Ok t' /\ relaxed d ideo m la t t'.
Proof.
  intros Hrc Hp Ht. unfold relax_node, relaxed. destruct (nth (n_start t) la []) as [|p ps] eqn:E.
  - eexists. split; [reflexivity|]. left. split; reflexivity.
  - destruct (@relax_prevs_spec d rows ideo m (n_start t) Hrc (p :: ps) t Hp Ht) as (j & p' & H1 & H2 & H3); [discriminate|].
    eexists. split; [exact H3|]. right. exists j, p'. auto.
Qed.

Lemma mapM_Forall2 {A B} (f : A -> res B) (R : A -> B -> Prop) l :
  (forall x, In x l -> exists y, f x = Ok y /\ R x y) ->
  exists l', mapM f l = Ok l' /\ Forall2 R l l'.
Proof.
  induction l as [|x l IH]; intros H; cbn [mapM].
  - exists []. auto.
  - destruct (H x) as (y & E & Hy); [left; reflexivity|]. rewrite E. cbn [rbind].
    destruct IH as (l' & E' & Hl'); [intros; apply H; right; assumption|]. rewrite E'. cbn [rbind].
    exists (y :: l'). auto.
Qed.

Record forwarded (d : dict) (ideo : ideographic) (m : lmode) (la la' : table) : Prop := {
  fw_len : length la' = length la;
  fw_0 : nth 0 la' [] = nth 0 la [];
  fw_step : forall i, 0 < i < length la -> Forall2 (relaxed d ideo m la') (nth i la []) (nth i la' [])
}.

Lemma forward_ok d rows ideo m la :
  (Z.of_nat (length (d_conn_vec d)) = rows * d_conn_col d)%Z ->
  (forall i t, In t (nth i la []) -> conn_node d rows t) ->
  (forall i t, 0 < i < length la -> In t (nth i la []) -> n_start t < i) ->
  exists la', forward d ideo m la = Ok la' /\ forwarded d ideo m la la'.
Proof.
  intros Hrc Hcn Hst. unfold forward.
  destruct (length la) as [|len] eqn:Elen.
  { exists la. split; [reflexivity|]. constructor; [congruence|reflexivity|intros; lia]. }
  replace (S len - 1) with len by lia.
  (* after k positions *)
  assert (G : forall k la1 i, i + k = S len -> 0 < i ->
     length la1 = S len -> nth 0 la1 [] = nth 0 la [] ->
     (forall x, i <= x < S len -> nth x la1 [] = nth x la []) ->
     (forall x, 0 < x < i -> Forall2 (relaxed d ideo m la1) (nth x la []) (nth x la1 [])) ->
     (forall x t, In t (nth x la1 []) -> conn_node d rows t) ->
     exists la', foldM (forward_pos d ideo m) (seq i k) la1 = Ok la' /\ forwarded d ideo m la la').
  { induction k as [|k IH]; intros la1 i Hik Hi0 Hl H0 Hge Hlt Hc; cbn [seq foldM].
    - exists la1. split; [reflexivity|]. constructor; [congruence|assumption|]. intros x Hx. apply Hlt. lia.
    - assert (Hi : nth_error la1 i = Some (nth i la1 [])).
      { apply nth_error_nth'. lia. }
      assert (Hcur : nth i la1 [] = nth i la []) by (apply Hge; lia).
      rewrite (@forward_pos_eq d ideo m la1 i _ Hi).
      2:{ intros t Ht. rewrite Hcur in Ht. apply (Hst i t); [lia|assumption]. }
      destruct (@mapM_Forall2 _ _ (relax_node d ideo m la1) (relaxed d ideo m la1) (nth i la1 [])) as (cur' & E & F).
      { intros t Ht. apply (relax_node_ok ideo m Hrc); [intros p Hp; eapply Hc; eassumption|eapply Hc; eassumption]. }
      rewrite E. cbn [rbind].
      set (la2 := update_nth la1 i (fun _ => cur')).
      assert (Hn2 : forall x, nth x la2 [] = if x =? i then cur' else nth x la1 []).
      { intros x. unfold la2. rewrite nth_update_nth by lia. reflexivity. }
      assert (Hrel : forall t t', n_start t <> i -> relaxed d ideo m la1 t t' -> relaxed d ideo m la2 t t').
      { intros t t' Hne. unfold relaxed. rewrite Hn2. destruct (Nat.eqb_spec (n_start t) i); [congruence|auto]. }
      apply (IH la2 (S i)).
      + lia.
      + lia.
      + unfold la2. rewrite update_nth_length. assumption.
      + rewrite Hn2. destruct (Nat.eqb_spec 0 i); [lia|assumption].
      + intros x Hx. rewrite Hn2. destruct (Nat.eqb_spec x i); [lia|apply Hge; lia].
      + intros x Hx. rewrite Hn2. destruct (Nat.eqb_spec x i) as [->|Hxi].
        * rewrite <- Hcur.
          assert (A : forall l l', (forall t, In t l -> n_start t < i) -> Forall2 (relaxed d ideo m la1) l l' ->
                    Forall2 (relaxed d ideo m la2) l l').
          { induction 2 as [|a b l l' Hab HF IHF]; constructor.
            - apply Hrel; [|assumption]. assert (n_start a < i) by (apply H; left; reflexivity). lia.
            - apply IHF. intros; apply H; right; assumption. }
          apply A; [|assumption]. intros t Ht. rewrite Hcur in Ht. apply (Hst i t); [lia|assumption].
        * assert (A : forall l l', (forall t, In t l -> n_start t < i) -> Forall2 (relaxed d ideo m la1) l l' ->
                    Forall2 (relaxed d ideo m la2) l l').
          { induction 2 as [|a b l l' Hab HF IHF]; constructor.
            - apply Hrel; [|assumption]. assert (n_start a < i) by (apply H; left; reflexivity). lia.
            - apply IHF. intros; apply H; right; assumption. }
          apply A; [|apply Hlt; lia]. intros t Ht. assert (n_start t < x) by (apply (Hst x t); [lia|assumption]). lia.
      + intros x t. rewrite Hn2. destruct (Nat.eqb_spec x i) as [->|Hxi]; [|apply Hc].
        intros Ht. assert (B : exists t0, In t0 (nth i la1 []) /\ relaxed d ideo m la1 t0 t).
        { clear -F Ht. induction F as [|a b l l' Hab HF IHF]; [contradiction|].
          destruct Ht as [<-|Ht]; [exists a; split; [left; reflexivity|assumption]|].
          destruct (IHF Ht) as (t0 & H1 & H2). exists t0. split; [right; assumption|assumption]. }
        destruct B as (t0 & B1 & B2). apply Hc in B1.
        destruct B2 as [[_ ->]|(j & p & _ & _ & ->)]; exact B1. }
  apply (G len la 1); try assumption; try lia; try reflexivity.
Qed.
