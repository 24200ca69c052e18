(** The order in which Build stores the nodes, and the choice among segmentations of equal cost. *)
From Verif Require Export AnalyzeFacts SpecTie.
From Coq Require Import ZifyBool ZifyNat ZifyN.
Set Implicit Arguments.
Unset Strict Implicit.
Open Scope nat_scope.

(** ** What a run of Build appends, in order *)
Definition events := list (nat * node).
Definition appended (la la' : table) (tr : events) : Prop :=
  length la' = length la /\ forall p, nth p la' [] = nth p la [] ++ map snd (filter (fun e => fst e =? p) tr).

Lemma appended_nil la : appended la la [].
Proof. split; [reflexivity|]. intros p. cbn. rewrite app_nil_r. reflexivity. Qed.
Lemma appended_app la la1 la2 t1 t2 : appended la la1 t1 -> appended la1 la2 t2 -> appended la la2 (t1 ++ t2).
Proof.
  intros [L1 H1] [L2 H2]. split; [congruence|]. intros p. rewrite H2, H1, filter_app, map_app, app_assoc. reflexivity.
Qed.

Lemma add_node_appended d la pos id position start class surface la' :
  add_node d la pos id position start class surface = Ok la' ->
  exists m, appended la la' [(pos + rune_count surface, Node id position start class 0 (m_left m) (m_right m) (m_weight m) surface None)].
Proof.
  unfold add_node. intros H. destruct (node_morph d id class) as [m| |]; try discriminate. cbn [rbind] in H.
  exists m. unfold update in H. destruct (Nat.ltb_spec (pos + rune_count surface) (length la)) as [L|L]; [|discriminate].
  injection H as <-. split; [apply update_nth_length|]. intros p. rewrite nth_update_nth by assumption.
  cbn [filter fst]. rewrite (Nat.eqb_sym (pos + rune_count surface) p). destruct (p =? pos + rune_count surface) eqn:E.
  - cbn [map snd]. reflexivity.
  - cbn [map]. rewrite app_nil_r. reflexivity.
Qed.

(** The fields that matter. *)
Definition like (class : node_class) (start : nat) (id : Z) (surface : bytes) (e : nat * node) : Prop :=
  fst e = start + rune_count surface /\ n_class (snd e) = class /\ n_start (snd e) = start /\ n_id (snd e) = id /\ n_surface (snd e) = surface.

Lemma add_matches_appended d inp i pos class ms : forall la la',
  add_matches d inp i pos class ms la = Ok la' ->
  exists tr, appended la la' tr /\
    Forall2 (fun m e => exists s, slice inp pos (pos + snd m) = Ok s /\ like class i (fst m) s e) ms tr.
Proof.
  unfold add_matches. induction ms as [|[id l] ms IH]; intros la la' H; cbn [foldM] in H.
  - injection H as <-. exists []. split; [apply appended_nil|constructor].
  - destruct (slice inp pos (pos + l)) as [s| |] eqn:Es; try discriminate. cbn [rbind] in H.
    destruct (add_node d la i id pos i class s) as [la1| |] eqn:E1; try discriminate. cbn [rbind] in H.
    destruct (add_node_appended E1) as (m & A1). destruct (IH _ _ H) as (tr & A2 & F).
    eexists. split; [exact (appended_app A1 A2)|]. constructor; [|exact F]. exists s. split; [exact Es|]. repeat split.
Qed.

Lemma add_unknowns_appended d inp i pos prev end_pos id dup la la' :
  add_unknowns d inp i pos prev end_pos id dup la = Ok la' ->
  exists tr, appended la la' tr /\ Forall (fun e => n_class (snd e) = UNKNOWN /\ n_start (snd e) = i) tr /\
    ForallOrdPairs (fun e e' => (n_id (snd e) <= n_id (snd e'))%Z) tr.
Proof.
  unfold add_unknowns. set (k := Z.to_nat (dup + 1)).
  assert (G : forall k a la la', foldM (fun la x =>
           let* la := if (pos <? prev)%nat then
                        let* s := slice inp pos prev in
                        add_node d la i (id + Z.of_nat x) pos i UNKNOWN s
                      else Ok la in
           let* s := slice inp pos end_pos in
           add_node d la i (id + Z.of_nat x) pos i UNKNOWN s) (seq a k) la = Ok la' ->
    exists tr, appended la la' tr /\ Forall (fun e => n_class (snd e) = UNKNOWN /\ n_start (snd e) = i) tr /\
      ForallOrdPairs (fun e e' => (n_id (snd e) <= n_id (snd e'))%Z) tr /\ Forall (fun e => (id + Z.of_nat a <= n_id (snd e))%Z) tr).
  { clear. induction k as [|k IH]; intros a la la' H; cbn [seq foldM] in H.
    - injection H as <-. exists []. split; [apply appended_nil|]. repeat constructor.
    - match type of H with (let* la := ?X in _) = _ => destruct X as [la1| |] eqn:E1; try discriminate end. cbn [rbind] in H.
      destruct (IH _ _ _ H) as (tr & A & F1 & F2 & F3).
      match type of E1 with (let* la := ?X in _) = _ => destruct X as [la0| |] eqn:E0; try discriminate end. cbn [rbind] in E1.
      destruct (slice inp pos end_pos) as [s| |]; try discriminate. cbn [rbind] in E1. destruct (add_node_appended E1) as (m & A1).
      set (x1 := (i + rune_count s, Node (id + Z.of_nat a) pos i UNKNOWN 0 (m_left m) (m_right m) (m_weight m) s None)) in *.
      assert (H1 : n_id (snd x1) = (id + Z.of_nat a)%Z) by reflexivity.
      assert (A0 : exists t0, appended la la0 t0 /\ (t0 = [] \/ exists x0, t0 = [x0] /\ n_class (snd x0) = UNKNOWN /\ n_start (snd x0) = i /\ n_id (snd x0) = (id + Z.of_nat a)%Z)).
      { destruct (pos <? prev).
        - destruct (slice inp pos prev) as [s0| |]; try discriminate. cbn [rbind] in E0. destruct (add_node_appended E0) as (m0 & A0).
          eexists. split; [exact A0|]. right. eexists. split; [reflexivity|]. repeat split.
        - injection E0 as <-. exists []. split; [apply appended_nil|left; reflexivity]. }
      destruct A0 as (t0 & A0 & Ht0). exists ((t0 ++ [x1]) ++ tr).
      split; [exact (appended_app (appended_app A0 A1) A)|].
      assert (Fx : Forall (fun e => (n_id (snd x1) <= n_id (snd e))%Z) tr).
      { eapply Forall_impl; [|exact F3]. intros e He. cbv beta in He. lia. }
      assert (Ftr : Forall (fun e => (id + Z.of_nat a <= n_id (snd e))%Z) tr).
      { eapply Forall_impl; [|exact F3]. intros e He. cbv beta in He. lia. }
      assert (B1 : n_class (snd x1) = UNKNOWN /\ n_start (snd x1) = i) by (split; reflexivity). clearbody x1.
      destruct Ht0 as [->|(x0 & -> & C1 & C2 & C3)]; cbn [app].
      + split; [constructor; assumption|]. split; [constructor; assumption|]. constructor; [lia|assumption].
      + split; [repeat (constructor; auto)|]. split.
        * constructor; [constructor; [lia|]|constructor; assumption]. eapply Forall_impl; [|exact Ftr]. intros e He. cbv beta in He. lia.
        * constructor; [lia|]. constructor; [lia|assumption]. }
  intros H. destruct (G _ _ _ _ H) as (tr & A & F1 & F2 & _). exists tr. auto.
Qed.

(** ** The order *)
Section Order.
Variables (d : dict) (u : option udict) (inp : bytes).

Definition in_order (e e' : nat * node) : Prop :=
  n_start (snd e) < n_start (snd e') \/
  n_start (snd e) = n_start (snd e') /\
  match n_class (snd e), n_class (snd e') with
  | KNOWN, UNKNOWN | KNOWN, KNOWN | USER, USER => True
  | UNKNOWN, UNKNOWN => (n_id (snd e) <= n_id (snd e'))%Z
  | _, _ => False
  end.

Definition table_of (c : node_class) : option index_table :=
  match c with
  | KNOWN => Some (d_index d)
  | USER => match u with Some ud => Some (u_index ud) | None => None end
  | _ => None
  end.

(** Every dictionary word stands after those listed before it. *)
Definition listed (tr : events) : Prop := forall a e b, tr = a ++ e :: b ->
  n_class (snd e) = UNKNOWN \/
  exists idx l1 l2, table_of (n_class (snd e)) = Some idx /\ idx = l1 ++ (n_surface (snd e), n_id (snd e)) :: l2 /\
    forall id, In (n_surface (snd e), id) l1 -> exists e', In e' a /\ like (n_class (snd e)) (n_start (snd e)) id (n_surface (snd e)) e' /\ fst e' = fst e.

Lemma listed_nil : listed [].
Proof. intros [|? ?] e b H; discriminate. Qed.
Lemma listed_unknown tr : Forall (fun e => n_class (snd e) = UNKNOWN) tr -> listed tr.
Proof. intros F a e b ->. left. rewrite Forall_app in F. destruct F as [_ F]. inversion F. assumption. Qed.
Lemma split_in {A} (x y : list A) a e b : x ++ y = a ++ e :: b ->
  (exists b', x = a ++ e :: b' /\ b = b' ++ y) \/ (exists a', a = x ++ a' /\ y = a' ++ e :: b).
Proof.
  revert a. induction x as [|c x IH]; intros a H; cbn [app] in H.
  - right. exists a. auto.
  - destruct a as [|a0 a]; cbn [app] in H; injection H as -> H.
    + left. exists x. auto.
    + destruct (IH _ H) as [(b' & -> & ->)|(a' & -> & ->)]; [left; exists b'; auto|right; exists a'; auto].
Qed.
Lemma listed_app x y : listed x -> listed y -> listed (x ++ y).
Proof.
  intros Hx Hy a e b H. destruct (split_in H) as [(b' & E & ->)|(a' & -> & E)].
  - exact (Hx _ _ _ E).
  - destruct (Hy _ _ _ E) as [U|(idx & l1 & l2 & H1 & H2 & H3)]; [left; exact U|right].
    exists idx, l1, l2. split; [assumption|]. split; [assumption|]. intros id Hid. destruct (H3 _ Hid) as (e' & I & L).
    exists e'. rewrite in_app_iff. auto.
Qed.

Lemma cps_split idx rest a id l b : common_prefix_search idx rest = a ++ (id, l) :: b ->
  exists l1 l2, idx = l1 ++ (firstn l rest, id) :: l2 /\ forall id', In (firstn l rest, id') l1 -> In (id', l) a.
Proof.
  unfold common_prefix_search. generalize (seq 1 (length rest)). intros ls. revert a.
  induction ls as [|l0 ls IH]; intros a H; cbn [flat_map] in H; [destruct a; discriminate|].
  destruct (split_in H) as [(b' & E & ->)|(a' & -> & E)].
  - assert (G : forall idx a b, map (fun e => (snd e, l0)) (filter (fun e : bytes * Z => bytes_eqb (fst e) (firstn l0 rest)) idx) = a ++ (id, l) :: b ->
      l = l0 /\ exists l1 l2, idx = l1 ++ (firstn l0 rest, id) :: l2 /\ forall id', In (firstn l0 rest, id') l1 -> In (id', l0) a).
    { clear. induction idx as [|[k i] idx IH]; intros a b H; cbn [filter map fst] in H; [destruct a; discriminate|].
      destruct (bytes_eqb k (firstn l0 rest)) eqn:Ek.
      - apply bytes_eqb_eq in Ek. subst k. cbn [map snd] in H. destruct a as [|a0 a]; cbn [app] in H.
        + injection H as Hi Hl H. split; [congruence|]. exists [], idx. split; [rewrite Hi; reflexivity|intros id' []].
        + injection H as H0 H. destruct (IH _ _ H) as (-> & l1 & l2 & -> & Hin). split; [reflexivity|]. exists ((firstn l0 rest, i) :: l1), l2. split; [reflexivity|].
          intros id' [Hi|Hi]; [left; congruence|right; auto].
      - destruct (IH _ _ H) as (-> & l1 & l2 & -> & Hin). split; [reflexivity|]. exists ((k, i) :: l1), l2. split; [reflexivity|].
        intros id' [Hi|Hi]; [|auto]. injection Hi as -> _. rewrite (proj2 (bytes_eqb_eq _ _) eq_refl) in Ek. discriminate. }
    destruct (G _ _ _ E) as (-> & l1 & l2 & H1 & H2). exists l1, l2. auto.
  - destruct (IH _ E) as (l1 & l2 & H1 & H2). exists l1, l2. split; [assumption|]. intros id' Hi. apply in_app_iff. auto.
Qed.

Lemma Forall2_split {A B} (R : A -> B -> Prop) x y a e b : Forall2 R x y -> y = a ++ e :: b ->
  exists xa xe xb, x = xa ++ xe :: xb /\ Forall2 R xa a /\ R xe e /\ Forall2 R xb b.
Proof.
  intros F ->. apply Forall2_app_inv_r in F. destruct F as (xa & x' & F1 & F2 & ->). inversion F2 as [|xe ? xb ? H1 H2]; subst. eauto 8.
Qed.
Lemma Forall2_in {A B} (R : A -> B -> Prop) x y c : Forall2 R x y -> In c x -> exists e, In e y /\ R c e.
Proof. induction 1 as [|c0 e0 x y H F IH]; intros Hi; [destruct Hi|]. destruct Hi as [<-|Hi]; [exists e0; cbn; auto|]. destruct (IH Hi) as (e & ? & ?). exists e. cbn. auto. Qed.

Lemma matches_listed idx pos i class tr rest : table_of class = Some idx -> slice inp pos (length inp) = Ok rest ->
  Forall2 (fun m e => exists s, slice inp pos (pos + snd m) = Ok s /\ like class i (fst m) s e) (common_prefix_search idx rest) tr -> listed tr.
Proof.
  intros Ht Hr F a e b E. right. destruct (Forall2_split F E) as (xa & [id l] & xb & Ex & Fa & (s & Es & L) & _).
  destruct (cps_split Ex) as (l1 & l2 & E1 & E2). cbn [fst snd] in *. destruct L as (L1 & L2 & L3 & L4 & L5).
  assert (Hs : firstn l rest = s).
  { unfold slice in Hr, Es. destruct (_ && _) in Hr; [|discriminate]. destruct (_ && _) eqn:E0 in Es; [|discriminate].
    injection Hr as <-. injection Es as <-. apply andb_true_iff in E0. destruct E0 as [_ E0]. apply Nat.leb_le in E0.
    rewrite firstn_firstn. f_equal. lia. }
  rewrite Hs in *. exists idx, l1, l2. rewrite L2, L4, L5. split; [assumption|]. split; [assumption|].
  intros id' Hi. specialize (E2 _ Hi). destruct (Forall2_in Fa E2) as (e' & I & s' & Es' & L'). cbn [fst snd] in *.
  assert (s' = s) as -> by congruence. exists e'. split; [assumption|]. rewrite L3. split; [assumption|]. destruct L' as (-> & _). congruence.
Qed.

Definition sorted := ForallOrdPairs in_order.
Lemma sorted_app x y : sorted x -> sorted y -> (forall e e', In e x -> In e' y -> in_order e e') -> sorted (x ++ y).
Proof.
  intros Hx Hy Hc. unfold sorted in *. induction Hx as [|e x He Hx IH]; cbn [app]; [assumption|].
  constructor; [|apply IH; intros; apply Hc; [right|]; assumption].
  apply Forall_app. split; [assumption|]. apply Forall_forall. intros e' H. apply Hc; [left; reflexivity|assumption].
Qed.
Lemma sorted_class c i tr : (c = KNOWN \/ c = USER) -> Forall (fun e => n_class (snd e) = c /\ n_start (snd e) = i) tr -> sorted tr.
Proof.
  intros Hc F. induction F as [|e tr [H1 H2] F IH]; constructor; [|exact IH].
  eapply Forall_impl; [|exact F]. intros e' [H3 H4]. right. rewrite H1, H2, H3, H4. split; [reflexivity|]. destruct Hc as [-> | ->]; trivial.
Qed.
Lemma sorted_unknown i tr : Forall (fun e => n_class (snd e) = UNKNOWN /\ n_start (snd e) = i) tr ->
  ForallOrdPairs (fun e e' => (n_id (snd e) <= n_id (snd e'))%Z) tr -> sorted tr.
Proof.
  intros F O. induction O as [|e tr He O IH]; constructor; inversion F as [|? ? [H1 H2] F']; subst; [|apply IH; assumption].
  apply Forall_forall. intros e' Hi. rewrite Forall_forall in He, F'. destruct (F' _ Hi) as [H3 H4]. specialize (He _ Hi).
  right. rewrite H1, H3. split; [congruence|assumption].
Qed.

Lemma Forall2_Forall_r {A B} (R : A -> B -> Prop) (P : B -> Prop) x y : (forall a b, R a b -> P b) -> Forall2 R x y -> Forall P y.
Proof. intros H. induction 1; constructor; eauto. Qed.

Lemma build_step_order la i pos ch la' : build_step d u inp la i pos ch = Ok la' ->
  exists tr, appended la la' tr /\ Forall (fun e => n_start (snd e) = i) tr /\ sorted tr /\ listed tr.
Proof.
  unfold build_step. intros H. destruct (slice inp pos (length inp)) as [rest| |] eqn:Er; try discriminate. cbn [rbind] in H.
  set (user := match u with Some ud => common_prefix_search (u_index ud) rest | None => [] end) in *.
  destruct (add_matches d inp i pos USER user la) as [la1| |] eqn:E1; try discriminate. cbn [rbind] in H.
  destruct (add_matches_appended E1) as (t1 & A1 & F1).
  assert (C1 : Forall (fun e => n_class (snd e) = USER /\ n_start (snd e) = i) t1).
  { eapply Forall2_Forall_r; [|exact F1]. intros m e (s & _ & _ & L2 & L3 & _). auto. }
  assert (L1 : listed t1).
  { unfold user in F1. destruct u as [ud|] eqn:Eu.
    - eapply (@matches_listed (u_index ud) pos i USER); [unfold table_of; rewrite Eu; reflexivity|exact Er|exact F1].
    - inversion F1. subst. apply listed_nil. }
  destruct (negb (length user =? 0)) eqn:Eb.
  { injection H as <-. exists t1. split; [assumption|]. split; [eapply Forall_impl; [|exact C1]; intros e [? ?]; assumption|]. split; [|assumption].
    eapply sorted_class; [right; reflexivity|exact C1]. }
  assert (t1 = []) as ->.
  { destruct user; [inversion F1; reflexivity|discriminate]. }
  destruct (add_matches d inp i pos KNOWN (common_prefix_search (d_index d) rest) la1) as [la2| |] eqn:E2; try discriminate. cbn [rbind] in H.
  destruct (add_matches_appended E2) as (t2 & A2 & F2).
  assert (C2 : Forall (fun e => n_class (snd e) = KNOWN /\ n_start (snd e) = i) t2).
  { eapply Forall2_Forall_r; [|exact F2]. intros m e (s & _ & _ & L2 & L3 & _). auto. }
  assert (L2 : listed t2) by (eapply (@matches_listed (d_index d) pos i KNOWN); [reflexivity|exact Er|exact F2]).
  assert (A3 : exists t3, appended la2 la' t3 /\ Forall (fun e => n_class (snd e) = UNKNOWN /\ n_start (snd e) = i) t3 /\
     ForallOrdPairs (fun e e' => (n_id (snd e) <= n_id (snd e'))%Z) t3).
  { unfold build_unknown in H. match type of H with (let* go := ?X in _) = _ => destruct X as [go| |]; try discriminate end. cbn [rbind] in H.
    destruct go.
    - match type of H with (let* e := ?X in _) = _ => destruct X as [e| |]; try discriminate end. cbn [rbind] in H.
      match type of H with (let* e := ?X in _) = _ => destruct X as [e'| |]; try discriminate end. cbn [rbind] in H.
      exact (add_unknowns_appended H).
    - injection H as <-. exists []. split; [apply appended_nil|]. split; constructor. }
  destruct A3 as (t3 & A3 & C3 & O3). exists (t2 ++ t3).
  split; [exact (appended_app A1 (appended_app A2 A3))|]. split; [apply Forall_app; split; (eapply Forall_impl; [|eassumption]); intros e [? ?]; assumption|]. split.
  - apply sorted_app; [eapply sorted_class; [left; reflexivity|exact C2]|eapply sorted_unknown; eassumption|].
    intros e e' Hi Hi'. rewrite Forall_forall in C2, C3. destruct (C2 _ Hi) as [X1 X2], (C3 _ Hi') as [X3 X4].
    right. rewrite X1, X2, X3, X4. auto.
  - apply listed_app; [assumption|]. apply listed_unknown. eapply Forall_impl; [|exact C3]. intros e [? ?]; assumption.
Qed.

Lemma build_loop_order l : forall i la la', build_loop d u inp i l la = Ok la' ->
  exists tr, appended la la' tr /\ Forall (fun e => i <= n_start (snd e)) tr /\ sorted tr /\ listed tr.
Proof.
  induction l as [|[pos ch] l IH]; intros i la la' H; cbn [build_loop] in H.
  - injection H as <-. exists []. split; [apply appended_nil|]. split; [constructor|]. split; [constructor|apply listed_nil].
  - destruct (build_step d u inp la i pos ch) as [la1| |] eqn:E1; try discriminate. cbn [rbind] in H.
    destruct (build_step_order E1) as (t1 & A1 & S1 & O1 & L1). destruct (IH _ _ _ H) as (t2 & A2 & S2 & O2 & L2).
    exists (t1 ++ t2). split; [exact (appended_app A1 A2)|]. split.
    { apply Forall_app. split; (eapply Forall_impl; [|eassumption]); intros e He; cbv beta in He; lia. }
    split; [|apply listed_app; assumption]. apply sorted_app; [assumption|assumption|].
    intros e e' Hi Hi'. rewrite Forall_forall in S1, S2. specialize (S1 _ Hi). specialize (S2 _ Hi'). left. cbv beta in *. lia.
Qed.

Lemma FOP_filter {A} (R : A -> A -> Prop) f l : ForallOrdPairs R l -> ForallOrdPairs R (filter f l).
Proof.
  induction 1 as [|x l H O IH]; cbn [filter]; [constructor|]. destruct (f x); [|exact IH]. constructor; [|exact IH].
  apply Forall_forall. intros y Hy. apply filter_In in Hy. rewrite Forall_forall in H. apply H. tauto.
Qed.
Lemma filter_split {A} (f : A -> bool) l : forall a e b, filter f l = a ++ e :: b ->
  exists a' b', l = a' ++ e :: b' /\ filter f a' = a.
Proof.
  induction l as [|x l IH]; intros a e b H; cbn [filter] in H; [destruct a; discriminate|].
  destruct (f x) eqn:E.
  - destruct a as [|a0 a]; cbn [app] in H; injection H as -> H.
    + exists [], l. auto.
    + destruct (IH _ _ _ H) as (a' & b' & -> & <-). exists (a0 :: a'), b'. cbn [filter app]. rewrite E. auto.
  - destruct (IH _ _ _ H) as (a' & b' & -> & <-). exists (x :: a'), b'. cbn [filter app]. rewrite E. auto.
Qed.
Lemma listed_filter p tr : listed tr -> listed (filter (fun e => fst e =? p) tr).
Proof.
  intros H a e b E. destruct (filter_split E) as (a' & b' & E' & <-).
  assert (Hp : fst e =? p = true).
  { assert (I : In e (filter (fun e => fst e =? p) tr)) by (rewrite E; apply in_or_app; right; left; reflexivity). apply filter_In in I. tauto. }
  destruct (H _ _ _ E') as [U|(idx & l1 & l2 & H1 & H2 & H3)]; [left; exact U|right]. exists idx, l1, l2. split; [assumption|]. split; [assumption|].
  intros id Hi. destruct (H3 _ Hi) as (e' & I & L & F). exists e'. split; [|auto]. apply filter_In. rewrite F. auto.
Qed.

(** The list of nodes ending at p: in order, each dictionary word after those listed before it. *)
Lemma build_order la p : build d u inp = Ok la -> 0 < p <= rcount inp ->
  exists tr, nth p la [] = map snd tr /\ sorted tr /\ listed tr.
Proof.
  unfold build. intros H Hp. change (rune_count inp) with (rcount inp) in H. set (n := rcount inp) in *.
  destruct (slice inp 0 0) as [s0| |] eqn:Es0; try discriminate. cbn [rbind] in H.
  destruct (add_node d (repeat [] (n + 2)) 0 bos_eos_id 0 0 DUMMY s0) as [la0| |] eqn:E0; try discriminate. cbn [rbind] in H.
  destruct (slice inp n n) as [s1| |] eqn:Es1; try discriminate. cbn [rbind] in H.
  destruct (add_node d la0 (n + 1) bos_eos_id (length inp) n DUMMY s1) as [la1| |] eqn:E1; try discriminate. cbn [rbind] in H.
  destruct (build_loop_order H) as (tr & A & _ & O & L).
  assert (Hs : forall k s, slice inp k k = Ok s -> s = []).
  { intros k s. unfold slice. destruct (_ && _); [|discriminate]. rewrite Nat.sub_diag. intros [= <-]. reflexivity. }
  apply Hs in Es0, Es1. subst s0 s1.
  destruct (add_node_appended E0) as (m0 & _ & A0). destruct (add_node_appended E1) as (m1 & _ & A1). destruct A as [_ A].
  exists (filter (fun e => fst e =? p) tr). split; [|split; [apply FOP_filter; exact O|apply listed_filter; exact L]].
  rewrite A, A1, A0, nth_repeat. cbn [filter fst].
  change (rune_count []) with 0. replace (0 + 0 =? p) with false by lia. replace (n + 1 + 0 =? p) with false by lia. reflexivity.
Qed.
End Order.

(** ** The choice *)
Section Choice.
Variables (d : dict) (u : option udict) (inp : bytes) (ideo : ideographic) (m : lmode).
Hypothesis Hd : wf_dict d.
Hypothesis Hu : wf_udict u.
Let n := rcount inp.
Variables la la' : table.
Hypothesis Ebuild : build d u inp = Ok la.
Hypothesis Hb : built d u inp la.
Hypothesis Hf : forwarded d ideo m la la'.

Lemma node_of_inj w w' : candidate d u inp w -> candidate d u inp w' -> node_of d inp w = node_of d inp w' -> w = w'.
Proof.
  intros Hc Hc' E. pose proof (surface_count Hc) as S1. pose proof (surface_count Hc') as S2.
  pose proof (f_equal n_id E) as E1. pose proof (f_equal n_start E) as E2. pose proof (f_equal n_class E) as E3. pose proof (f_equal n_surface E) as E4.
  cbn [node_of n_id n_start n_class n_surface] in *. destruct w as [c1 i1 s1 e1], w' as [c2 i2 s2 e2]. cbn [w_class w_id w_start w_stop] in *. subst. f_equal. congruence.
Qed.
Lemma nodes_inj ws : forall ws' i i' j, chain d u inp i ws j -> chain d u inp i' ws' j -> map (node_of d inp) ws = map (node_of d inp) ws' -> ws = ws'.
Proof.
  induction ws as [|w ws IH]; intros [|w' ws'] i i' j C C' E; try discriminate; [reflexivity|].
  cbn [map] in E. pose proof (f_equal (@tl node) E) as E2. apply (f_equal (@hd node bos_node)) in E. cbn [hd tl] in E, E2.
  inversion C; subst. inversion C'; subst. f_equal; [apply node_of_inj; assumption|]. eapply IH; eassumption.
Qed.

Lemma same_word w w' : candidate d u inp w -> candidate d u inp w' -> w_class w = w_class w' -> w_start w = w_start w' -> w_stop w = w_stop w' -> w_id w = w_id w' -> w = w'.
Proof. destruct w, w'. cbn. intros. subst. reflexivity. Qed.

Lemma cell_order p j j' w w' : 0 < p <= n -> candidate d u inp w -> candidate d u inp w' -> w_stop w = p -> w_stop w' = p ->
  nth_error (nth p la []) j = Some (node_of d inp w) -> nth_error (nth p la []) j' = Some (node_of d inp w') -> j < j' ->
  (forall k, k < j' -> nth_error (nth p la []) k <> Some (node_of d inp w')) -> preferred d u inp w w'.
Proof.
  intros Hp Hc Hc' Hs Hs' Hj Hj' Hlt Hfirst.
  destruct (build_order Ebuild Hp) as (tr & Etr & Hsort & Hlist).
  assert (Hne : w <> w') by (intros ->; apply (Hfirst j Hlt); assumption).
  rewrite Etr in Hj, Hj'. rewrite nth_error_map in Hj, Hj'.
  destruct (nth_error tr j) as [e|] eqn:Ee; [|discriminate]. destruct (nth_error tr j') as [e'|] eqn:Ee'; [|discriminate].
  cbn [option_map] in Hj, Hj'. injection Hj as Hj. injection Hj' as Hj'.
  assert (Hin : in_order e e').
  { apply nth_error_split in Ee. destruct Ee as (a & b & -> & <-). rewrite nth_error_app2 in Ee' by lia.
    destruct (j' - length a) as [|k] eqn:Ek; [lia|]. cbn [nth_error] in Ee'. apply nth_error_In in Ee'.
    clear -Hsort Ee'. unfold sorted in Hsort. induction a as [|x a IH]; cbn [app] in Hsort; inversion Hsort as [|? ? H1 H2]; subst; [|auto].
    rewrite Forall_forall in H1. auto. }
  unfold in_order in Hin. rewrite Hj, Hj' in Hin. cbn [node_of n_start n_class n_id] in Hin.
  destruct Hin as [Hin|[Hst Hin]]; [left; assumption|right]. split; [assumption|].
  assert (Hid : w_class w = w_class w' -> w_id w <> w_id w').
  { intros Ec Ei. apply Hne. apply same_word; congruence. }
  assert (Htab : forall idx, table_of d u (w_class w) = Some idx -> w_class w <> UNKNOWN -> w_class w = w_class w' -> listed_before idx (word_text inp w) (w_id w) (w_id w')).
  { intros idx Ht Hk Ec. split; [auto|].
    apply nth_error_split in Ee. destruct Ee as (a & b & E & La).
    destruct (Hlist _ _ _ E) as [U|(idx' & l1 & l2 & H1 & H2 & H3)]; [rewrite Hj in U; cbn in U; contradiction|].
    rewrite Hj in H1, H2, H3. cbn [node_of n_class n_surface n_id n_start] in H1, H2, H3.
    assert (idx' = idx) as -> by congruence.
    assert (Es : forall w, w_class w <> UNKNOWN -> surface_of d inp w = word_text inp w).
    { intros w0 H0. unfold surface_of, odd_b. destruct (w_class w0); try reflexivity. contradiction. }
    rewrite (Es _ Hk) in H2, H3. exists l1, l2. split; [assumption|]. intros Hi. destruct (H3 _ Hi) as (e1 & I1 & L1 & F1).
    destruct L1 as (_ & L2 & L3 & L4 & L5).
    assert (Hin1 : In (snd e1) (nth p la [])).
    { rewrite Etr. apply in_map. rewrite E. apply in_or_app. left. assumption. }
    apply (b_mid Hb) in Hin1; [|exact Hp]. destruct Hin1 as (w1 & Hc1 & Hs1 & En). rewrite En in L2, L3, L4. cbn [node_of n_class n_start n_id] in L2, L3, L4.
    assert (w1 = w') as -> by (apply same_word; congruence).
    apply In_nth_error in I1. destruct I1 as (k & Hk1). assert (k < length a) by (apply nth_error_Some; congruence).
    apply (Hfirst k); [lia|]. rewrite Etr, nth_error_map, E, nth_error_app1 by lia. rewrite Hk1. cbn [option_map]. congruence. }
  destruct (w_class w) eqn:Ec, (w_class w') eqn:Ec'; try contradiction; try exact I.
  - apply Htab; [reflexivity|discriminate|reflexivity].
  - specialize (Hid eq_refl). lia.
  - destruct Hc as [ud id i j0 Eu Hk|id i j0 Hn Hk|id i j0 e0 Hn Hor He Hj0 Hid0]; try discriminate Ec. exists ud. split; [assumption|].
    apply Htab; [cbn [table_of]; rewrite Eu; reflexivity|discriminate|reflexivity].
Qed.

(** Costs that fit. *)
Hypothesis Hlen : (Z.of_nat n <= limit m)%Z.
Hypothesis Hreach : (Z.of_nat (nreach la n) <= 32767)%Z.
Notation sumc := (sumc d inp ideo m).
Notation lastc := (lastc d).
Notation nodes := (map (node_of d inp)).

(** A target of the relaxation: its cost is exact along the path behind it. *)
Lemma target_exact s t t' ws l : n_start t = s -> s <= n -> int16 (n_weight t) -> n_prev t = None -> relaxed d ideo m la' t t' ->
  chain d u inp 0 ws s -> back la' t' (t' :: l) -> map core l = rev (nodes ws) ++ [bos_node] ->
  n_cost t' = (sumc ws + lastc ws (n_class t) (node_entry t) + n_weight t)%Z.
Proof.
  intros Hs Hsn Hw Hp Hr Hch Hbk Hcore.
  destruct (positions_good Hd Hb Hf Hlen Hreach Hsn) as [G M].
  destruct (target_cost Hd Hb Hf Hlen Hreach Hs Hsn Hw Hp Hr G M) as (_ & [(ws1 & l1 & Hch1 & Hc1 & Hbk1 & Hl1)|[U _]] & _).
  - pose proof (back_det Hbk Hbk1) as E. injection E as <-. rewrite Hcore in Hl1. apply app_inj_tail in Hl1. destruct Hl1 as [Hl1 _].
    apply (f_equal (@rev node)) in Hl1. rewrite !rev_involutive in Hl1. rewrite (nodes_inj Hch Hch1 Hl1). assumption.
  - destruct U. exists ws. exact Hch.
Qed.

Lemma node_eq_dec (a b : node) : {a = b} + {a <> b}.
Proof.
  decide equality; try apply Z.eq_dec; try apply Nat.eq_dec; try (apply list_eq_dec; apply Byte.byte_eq_dec).
  - decide equality. decide equality; apply Nat.eq_dec.
  - decide equality.
Defined.
Lemma first_at (l : list node) x : In x l -> exists j, nth_error l j = Some x /\ forall k, k < j -> nth_error l k <> Some x.
Proof.
  induction l as [|y l IH]; [intros []|]. intros H. destruct (node_eq_dec y x) as [->|Hn].
  - exists 0. split; [reflexivity|]. intros k Hk. lia.
  - destruct H as [H|H]; [contradiction|]. destruct (IH H) as (j & Hj & Hk). exists (S j). split; [assumption|].
    intros [|k] Hlt; cbn [nth_error]; [congruence|]. apply Hk. lia.
Qed.

Definition tie (s : nat) : Prop := forall j q l a a' w, nth_error (nth s la' []) j = Some q ->
  chain d u inp 0 (a ++ [w]) s -> chain d u inp 0 (a' ++ [w]) s -> back la' q l -> map core l = rev (nodes (a ++ [w])) ++ [bos_node] ->
  (sumc (a' ++ [w]) <= sumc (a ++ [w]))%Z -> a' = a \/ right_before d u inp a a'.

Lemma right_before_snoc a a' w : right_before d u inp a a' -> right_before d u inp (a ++ [w]) (a' ++ [w]).
Proof.
  intros (x & x' & v & v' & b & -> & -> & H). exists x, x', v, v', (b ++ [w]). rewrite <- !app_assoc. auto.
Qed.
Lemma relaxed_core t t' : relaxed d ideo m la' t t' -> core t' = core t.
Proof. intros [[_ ->]|(j & p & _ & _ & ->)]; reflexivity. Qed.

Lemma lastc_snoc ws w : lastc (ws ++ [w]) = connection d (w_class w) (entry d (w_class w) (w_id w)).
Proof. unfold lastc, last_ce. rewrite last_from_snoc. reflexivity. Qed.

Lemma prev_tie s t t' ws ws' l : n_start t = s -> s <= n -> int16 (n_weight t) -> n_prev t = None -> relaxed d ideo m la' t t' ->
  chain d u inp 0 ws s -> back la' t' (t' :: l) -> map core l = rev (nodes ws) ++ [bos_node] -> chain d u inp 0 ws' s ->
  (sumc ws' + lastc ws' (n_class t) (node_entry t) <= sumc ws + lastc ws (n_class t) (node_entry t))%Z ->
  tie s -> ws' = ws \/ right_before d u inp ws ws'.
Proof.
  intros Hs Hsn Hw Hpn Hr Hch Hbk Hcore Hch' Hle Ht.
  pose proof (target_exact Hs Hsn Hw Hpn Hr Hch Hbk Hcore) as Hex.
  destruct (positions_good Hd Hb Hf Hlen Hreach Hsn) as [G M].
  destruct (Nat.eq_dec s 0) as [H0|H0].
  { rewrite H0 in Hch, Hch'. left. rewrite (chain_0_0 la Hch), (chain_0_0 la Hch'). reflexivity. }
  destruct ws as [|w a _] using rev_ind; [inversion Hch; lia|].
  destruct ws' as [|w' a' _] using rev_ind; [inversion Hch'; lia|].
  destruct Hr as [[_ E]|(j & q & Hq & Hbest & E)].
  { exfalso. inversion Hbk as [t0 Hp0 Et0|t0 i0 j0 q0 l0 Hp0 Hg0 Hb0 Et0]; subst.
    - symmetry in Hcore. apply app_eq_nil in Hcore. destruct Hcore as [_ C]. discriminate C.
    - cbn [n_prev set_cost_prev] in Hp0. congruence. }
  rewrite Hs in *. rewrite E in Hex. cbn [n_cost set_cost_prev] in Hex.
  assert (Hbq : back la' q l).
  { inversion Hbk as [t0 Hp0 Et0|t0 i0 j0 q0 l0 Hp0 Hg0 Hb0 Et0]; subst.
    - symmetry in Hcore. apply app_eq_nil in Hcore. destruct Hcore as [_ C]. discriminate C.
    - cbn [n_prev set_cost_prev] in Hp0. injection Hp0 as <- <-.
      rewrite (@get2_la' d u inp ideo m la la' Hb Hf (n_start t) j q) in Hg0 by (fold n; lia || assumption). injection Hg0 as ->. assumption. }
  destruct (chain_inv_snoc Hch) as (_ & Hc & Hst). destruct (chain_inv_snoc Hch') as (Cha' & Hc' & Hst').
  assert (Hsr : 0 < s < length la) by (rewrite (b_len Hb); fold n; lia).
  pose proof (fw_step Hf Hsr) as F.
  (* the nodes of the two words *)
  assert (Hcq : core q = node_of d inp w).
  { rewrite map_app, rev_app_distr in Hcore. cbn [map rev app] in Hcore. inversion Hbq; subst; cbn [map] in Hcore; injection Hcore; intros; congruence. }
  destruct (Forall2_nth F Hq) as (q0 & Hq0 & Rq).
  assert (Eq0 : q0 = node_of d inp w).
  { rewrite <- Hcq, (relaxed_core Rq). apply nth_error_In in Hq0.
    destruct (built_node Hb Hq0) as [[? _]|[[? _]|(_ & w0 & _ & _ & ->)]]; [lia|lia|reflexivity]. }
  subst q0.
  assert (Hin : In (node_of d inp w') (nth s la [])) by (apply (b_mid Hb); [fold n; lia|]; exists w'; auto).
  destruct (first_at Hin) as (j' & Hj' & Hfirst).
  destruct (Forall2_nth_l F Hj') as (q' & Hq' & Rq').
  (* the cost through w' *)
  pose proof (candidate_range Hc') as R'. fold n in R'.
  assert (Hsw : w_start w' <= n) by lia.
  destruct (positions_good Hd Hb Hf Hlen Hreach Hsw) as [G' M'].
  destruct (target_cost (t := node_of d inp w') Hd Hb Hf Hlen Hreach eq_refl Hsw (entry16 inp Hd (candidate_id Hd Hc')) eq_refl Rq' G' M') as (_ & _ & Hmin).
  specialize (Hmin _ Cha'). cbn [node_of n_class n_weight] in Hmin.
  assert (Hent : node_entry (node_of d inp w') = entry d (w_class w') (w_id w')) by (unfold node_entry; cbn; destruct (entry d (w_class w') (w_id w')); reflexivity).
  rewrite Hent in Hmin.
  assert (Hpen : node_penalty m ideo q' = penalty m ideo inp w').
  { rewrite <- (node_penalty_word Hf Hc'). apply (penalty_core Hf). rewrite (relaxed_core Rq'). reflexivity. }
  assert (Hce : n_class q' = w_class w' /\ node_entry q' = entry d (w_class w') (w_id w')).
  { rewrite <- Hent. change (n_class q') with (n_class (core q')). change (node_entry q') with (node_entry (core q')). rewrite (relaxed_core Rq'). split; reflexivity. }
  assert (Hsum : (n_cost q' + node_penalty m ideo q' <= sumc (a' ++ [w']))%Z).
  { unfold PathFacts.sumc, sum in *. rewrite sum_from_snoc, Hpen. unfold word_cost, lastc, last_ce in *. lia. }
  assert (Hnc : (new_cost d ideo m q' t <= sumc (a' ++ [w']) + lastc (a' ++ [w']) (n_class t) (node_entry t) + n_weight t)%Z).
  { unfold new_cost, maximum_cost. destruct (G _ _ Hq') as [G1 _]. rewrite wrap32_id.
    - unfold step_cost. rewrite lastc_snoc. destruct Hce as [-> ->]. lia.
    - pose proof (connection16 inp Hd (n_class q') (node_entry q') (n_class t) (node_entry t)) as C. unfold int16 in C, Hw.
      pose proof (@node_penalty_nonneg d inp ideo m la la' Hf q'). pose proof (Hlen2 Hf Hlen) as HL. pose proof (nreach_le inp la Hsn) as HR. unfold step_cost. lia. }
  destruct Hbest as (q1 & Hq1 & Hbest). assert (q1 = q) as -> by congruence. destruct (Hbest _ _ Hq') as [B1 B2].
  destruct (Nat.lt_trichotomy j j') as [Hjj|[Hjj|Hjj]].
  - right. exists a, a', w, w', []. split; [reflexivity|]. split; [reflexivity|].
    apply (@cell_order s j j' w w'); auto. fold n. lia.
  - subst j'. assert (w' = w) as ->.
    { apply node_of_inj; auto. congruence. }
    rewrite !lastc_snoc in Hle.
    destruct (Ht j q l a a' w Hq Hch Hch' Hbq Hcore ltac:(lia)) as [->|Hrb]; [left; reflexivity|right; apply right_before_snoc; assumption].
  - specialize (B2 Hjj). lia.
Qed.

Lemma tie_all s : s <= n -> tie s.
Proof.
  induction s as [s IH] using lt_wf_ind. intros Hs j q l a a' w Hq Hch Hch' Hbk Hcore Hle.
  destruct (chain_inv_snoc Hch) as (Ca & Hc & Hst). destruct (chain_inv_snoc Hch') as (Ca' & _ & _).
  pose proof (candidate_range Hc) as R. fold n in R.
  assert (Hsr : 0 < s < n + 2) by lia.
  destruct (@fw_node d u inp ideo m la la' Hb Hf s j q Hsr Hq) as (t0 & Ht0 & Hpn & Hr).
  assert (Hcq : core q = node_of d inp w).
  { rewrite map_app, rev_app_distr in Hcore. cbn [map rev app] in Hcore. inversion Hbk; subst; cbn [map] in Hcore; injection Hcore; intros; congruence. }
  assert (t0 = node_of d inp w) as ->.
  { rewrite <- Hcq, (relaxed_core Hr). destruct (built_node Hb Ht0) as [[? _]|[[? _]|(_ & w0 & _ & _ & ->)]]; [lia|lia|reflexivity]. }
  assert (Hl : exists l0, l = q :: l0 /\ map core l0 = rev (nodes a) ++ [bos_node]).
  { rewrite map_app, rev_app_distr in Hcore. cbn [map rev app] in Hcore. inversion Hbk; subst; cbn [map] in Hcore;
      apply (f_equal (@tl node)) in Hcore; cbn [tl] in Hcore; eexists; split; try reflexivity; assumption. }
  destruct Hl as (l0 & -> & Hl0).
  eapply (@prev_tie (w_start w) (node_of d inp w) q a a' l0); [reflexivity|lia|apply (entry16 inp Hd (candidate_id Hd Hc))|reflexivity|exact Hr|exact Ca|exact Hbk|exact Hl0|exact Ca'| |apply IH; lia].
  assert (Hent : node_entry (node_of d inp w) = entry d (w_class w) (w_id w)) by (unfold node_entry; cbn; destruct (entry d (w_class w) (w_id w)); reflexivity).
  rewrite Hent. cbn [node_of n_class]. unfold PathFacts.sumc, sum in Hle. rewrite !sum_from_snoc in Hle. unfold PathFacts.sumc, sum, lastc, last_ce. unfold word_cost in Hle. lia.
Qed.
End Choice.

(** The path Backward follows is the chosen segmentation. *)
Theorem run_chosen d u inp ideo m : wf_dict d -> wf_udict u -> (Z.of_nat (rcount inp) <= limit m)%Z -> (Z.of_nat (rcount inp) <= 32767)%Z ->
  exists la la' l ws, build d u inp = Ok la /\ forward d ideo m la = Ok la' /\
  (forall m2, backward m2 la' = Ok (flat_map (output_fun m2) l)) /\ chosen m ideo d u inp ws /\
  (forall m2 omit, analyze_tokens (Tokenizer d u omit) (flat_map (output_fun m2) l) = Ok (final_tokens (Tokenizer d u omit) inp m2 0 ws)).
Proof.
  intros Hd Hu Hlen Hn. set (n := rcount inp) in *.
  destruct (lattice_ok inp Hd Hu ideo m) as (la & la' & E1 & Hb & E2 & Hf).
  assert (NR : (Z.of_nat (nreach la n) <= 32767)%Z) by (pose proof (nreach_bound inp la n); lia).
  destruct (best_path Hd Hu Hb Hf Hlen NR) as (eos & ws & l & He & B & Hcore & Hseg & Hmin). fold n in He.
  exists la, la', (eos :: l), ws. split; [assumption|]. split; [assumption|].
  split; [intros m2; eapply backward_ok; eassumption|].
  split; [|intros m2 omit; eapply tokens_of_walk; try eassumption; auto].
  split; [assumption|]. intros ws' Hseg'. split; [apply Hmin; assumption|]. intros Heq.
  assert (Hsr : 0 < S n < length la) by (rewrite (b_len Hb); fold n; lia).
  pose proof (fw_step Hf Hsr) as F. unfold n in F. rewrite (b_eos Hb) in F.
  destruct (Forall2_nth F He) as (t & Ht & Hr). cbn [nth_error] in Ht. injection Ht as <-.
  assert (Hcl : map core l = rev (map (node_of d inp) ws) ++ [bos_node]).
  { cbn [map] in Hcore. apply (f_equal (@tl node)) in Hcore. exact Hcore. }
  eapply (@prev_tie d u inp ideo m Hd la la' E1 Hb Hf Hlen NR n (eos_node inp) eos ws ws' l);
    [reflexivity|fold n; lia|unfold int16; cbn; lia|reflexivity|exact Hr|exact Hseg|exact B|exact Hcl|exact Hseg'| |].
  - assert (Hsc : forall ws, seg_cost m ideo d inp ws = (sumc d inp ideo m ws + lastc d ws (n_class (eos_node inp)) (node_entry (eos_node inp)))%Z).
    { intros ws0. unfold seg_cost. rewrite cost_from_sum. unfold sumc, sum, lastc, last_ce. reflexivity. }
    rewrite <- !Hsc. lia.
  - apply (@tie_all d u inp ideo m Hd la la' E1 Hb Hf Hlen NR). fold n. lia.
Qed.

Theorem analyze_chosen d u ideo omit inp mode : wf_dict d -> wf_udict u -> mode <> mode_extended ->
  (Z.of_nat (rcount inp) <= optimal_limit mode)%Z ->
  exists ts, analyze ideo (Tokenizer d u omit) inp mode = Ok ts /\ chosen (to_lmode mode) ideo d u inp (words_of ts).
Proof.
  intros Hd Hu Hm Hlen. destruct (limits mode) as (L1 & L2 & L3).
  destruct (@run_chosen d u inp ideo (to_lmode mode) Hd Hu ltac:(lia) ltac:(lia)) as (la & la' & l & ws & E1 & E2 & E3 & C & T).
  exists (final_tokens (Tokenizer d u omit) inp (to_lmode mode) 0 ws). split.
  - unfold analyze, run_lattice. cbn [tk_dict tk_udict]. rewrite E1. cbn [rbind]. rewrite E2. cbn [rbind]. rewrite E3. cbn [rbind snd]. apply T.
  - assert (W : words_of (final_tokens (Tokenizer d u omit) inp (to_lmode mode) 0 ws) = ws); [|rewrite W; exact C].
    unfold words_of. rewrite (map_final Hd Hu omit (to_lmode mode) word_of_free (proj1 C)).
    clear -Hm. induction ws as [|w ws IH]; cbn [flat_map map]; [reflexivity|]. rewrite map_app, IH.
    unfold word_tokens. pose proof (lmode_not_extended Hm). destruct (to_lmode mode); [| |congruence]; destruct w; reflexivity.
Qed.

(** ** There is one chosen segmentation *)
Lemma listed_before_asym idx k i j : listed_before idx k i j -> listed_before idx k j i -> False.
Proof.
  intros (Hn & l1 & l2 & E & N) (_ & m1 & m2 & E' & N').
  assert (E2 : l1 ++ (k, i) :: l2 = m1 ++ (k, j) :: m2) by congruence.
  destruct (split_in E2) as [(b & E1 & _)|(b & E1 & E3)].
  - apply N. rewrite E1. apply in_or_app. right. left. reflexivity.
  - destruct b as [|x b]; cbn [app] in E3; [injection E3 as E3 _; contradiction|].
    injection E3 as E3 _. apply N'. rewrite E1, E3. apply in_or_app. right. left. reflexivity.
Qed.
Lemma preferred_irrefl d u inp w : ~ preferred d u inp w w.
Proof.
  intros [H|[_ H]]; [lia|]. destruct (w_class w); try contradiction.
  - destruct H as [H _]. apply H. reflexivity.
  - lia.
  - destruct H as (ud & _ & H & _). apply H. reflexivity.
Qed.
Lemma preferred_asym d u inp w w' : w_stop w = w_stop w' -> preferred d u inp w w' -> preferred d u inp w' w -> False.
Proof.
  intros Hs [H|[H1 H]] [H'|[H1' H']]; try lia.
  assert (T : word_text inp w' = word_text inp w) by (unfold word_text; rewrite H1, Hs; reflexivity).
  rewrite T in H'. destruct (w_class w), (w_class w'); try contradiction; try lia.
  - exact (listed_before_asym H H').
  - destruct H as (ud & E & H), H' as (ud' & E' & H'). assert (ud' = ud) by congruence. subst ud'.
    exact (listed_before_asym H H').
Qed.
Lemma first_diff {A} (p p2 : list A) : forall x y q q2 x' y' q' q2', p ++ x :: q = p2 ++ y :: q2 -> p ++ x' :: q' = p2 ++ y' :: q2' ->
  x <> x' -> y <> y' -> p = p2 /\ x = y /\ x' = y'.
Proof.
  revert p2. induction p as [|c p IH]; intros [|c2 p2] x y q q2 x' y' q' q2' H H' Hx Hy; cbn [app] in *.
  - injection H as -> _. injection H' as -> _. auto.
  - injection H as -> _. injection H' as -> _. congruence.
  - injection H as <- _. injection H' as <- _. congruence.
  - injection H as -> H. injection H' as H'. destruct (IH _ _ _ _ _ _ _ _ _ H H' Hx Hy) as (-> & -> & ->). auto.
Qed.
Lemma chain_after d u inp : forall a i w b j, chain d u inp i (a ++ w :: b) j -> chain d u inp (w_stop w) b j.
Proof.
  induction a as [|c a IH]; intros i w b j H; cbn [app] in H; inversion H; subst; [assumption|]. eapply IH. eassumption.
Qed.
Lemma chain_from d u inp i i' b j : chain d u inp i b j -> chain d u inp i' b j -> i = i'.
Proof. intros H H'. inversion H; subst; inversion H'; subst; reflexivity. Qed.

Theorem right_before_asym d u inp ws ws' : segmentation d u inp ws -> segmentation d u inp ws' ->
  right_before d u inp ws ws' -> right_before d u inp ws' ws -> False.
Proof.
  intros S S' (a & a' & w & w' & b & E & E' & P) (c & c' & v & v' & b2 & F & F' & P').
  assert (Hw : w <> w') by (intros ->; exact (preferred_irrefl P)).
  assert (Hv : v' <> v) by (intros ->; exact (preferred_irrefl P')).
  assert (X : rev b ++ w :: rev a = rev b2 ++ v' :: rev c').
  { pose proof (f_equal (@rev word) (eq_trans (eq_sym E) F')) as X. rewrite !rev_app_distr in X. cbn [rev] in X. rewrite <- !app_assoc in X. exact X. }
  assert (Y : rev b ++ w' :: rev a' = rev b2 ++ v :: rev c).
  { pose proof (f_equal (@rev word) (eq_trans (eq_sym E') F)) as Y. rewrite !rev_app_distr in Y. cbn [rev] in Y. rewrite <- !app_assoc in Y. exact Y. }
  destruct (first_diff X Y Hw Hv) as (_ & <- & <-).
  eapply preferred_asym; [|exact P|exact P'].
  unfold segmentation in S, S'. rewrite E in S. rewrite E' in S'. eapply chain_from; eapply chain_after; eassumption.
Qed.

Theorem chosen_unique m ideo d u inp ws ws' : chosen m ideo d u inp ws -> chosen m ideo d u inp ws' -> ws' = ws.
Proof.
  intros [S H] [S' H']. destruct (H _ S') as [L T]. destruct (H' _ S) as [L' T'].
  destruct (T ltac:(lia)) as [->|R]; [reflexivity|]. destruct (T' ltac:(lia)) as [->|R']; [reflexivity|].
  exfalso. exact (right_before_asym S S' R R').
Qed.
