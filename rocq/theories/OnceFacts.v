(** Build stores each candidate word once, if no table lists an entry twice. *)
From Verif Require Import TieFacts.
From Coq Require Import ZifyBool ZifyNat ZifyN.
Set Implicit Arguments.
Unset Strict Implicit.
Open Scope nat_scope.

Lemma nodup_two {A} (l1 l2 : list A) : NoDup l1 -> NoDup l2 -> (forall x, In x l1 -> ~ In x l2) -> NoDup (l1 ++ l2).
Proof.
  intros H1 H2 H. induction H1 as [|x l Hx H1 IH]; cbn [app]; [exact H2|]. constructor.
  - intros Hin. apply in_app_iff in Hin. destruct Hin as [Hin|Hin]; [contradiction|]. exact (H x (or_introl eq_refl) Hin).
  - apply IH. intros y Hy. apply H. right. exact Hy.
Qed.
Lemma nodup_flat {A B} (f : A -> list B) l : NoDup l -> (forall a, In a l -> NoDup (f a)) ->
  (forall a b x, In a l -> In b l -> In x (f a) -> In x (f b) -> a = b) -> NoDup (flat_map f l).
Proof.
  intros H. induction H as [|a l Ha H IH]; intros H1 H2; cbn [flat_map]; [constructor|]. apply nodup_two.
  - apply H1. left. reflexivity.
  - apply IH; [intros b Hb; apply H1; right; exact Hb|]. intros b c x Hb Hc. apply H2; right; assumption.
  - intros x Hx Hin. apply in_flat_map in Hin. destruct Hin as (b & Hb & Hin). apply Ha. rewrite (H2 a b x); [exact Hb|left; reflexivity|right; exact Hb|exact Hx|exact Hin].
Qed.
Lemma nodup_map_in {A B} (f : A -> B) l : NoDup l -> (forall x y, In x l -> In y l -> f x = f y -> x = y) -> NoDup (map f l).
Proof.
  intros H. induction H as [|a l Ha H IH]; intros Hf; cbn [map]; constructor.
  - intros Hin. apply in_map_iff in Hin. destruct Hin as (b & E & Hb). apply Ha. rewrite (Hf a b); [exact Hb|left; reflexivity|right; exact Hb|congruence].
  - apply IH. intros x y Hx Hy. apply Hf; right; assumption.
Qed.
Lemma nodup_forall2 {A B} (R : A -> B -> Prop) l l' : Forall2 R l l' -> (forall a a' b, In a l -> In a' l -> R a b -> R a' b -> a = a') -> NoDup l -> NoDup l'.
Proof.
  intros F. induction F as [|a b l l' H F IH]; intros Hi N; [constructor|]. inversion N as [|? ? Ha N']; subst. constructor.
  - intros Hb. apply In_nth_error in Hb. destruct Hb as (k & Hk). destruct (Forall2_nth F Hk) as (a' & Ha' & R').
    apply nth_error_In in Ha'. apply Ha. rewrite (Hi a a' b); [exact Ha'|left; reflexivity|right; exact Ha'|exact H|exact R'].
  - apply IH; [|exact N']. intros x y z Hx Hy. apply Hi; right; assumption.
Qed.

Lemma search_nodup idx rest : NoDup idx -> NoDup (common_prefix_search idx rest).
Proof.
  intros H. unfold common_prefix_search. apply nodup_flat; [apply seq_NoDup| |].
  - intros l _. apply nodup_map_in; [apply NoDup_filter; exact H|]. intros [k v] [k' v'] Hx Hy E.
    apply filter_In in Hx, Hy. destruct Hx as [_ Hx], Hy as [_ Hy]. cbn [fst snd] in *. apply bytes_eqb_eq in Hx, Hy. congruence.
  - intros a b [id l] _ _ Ha Hb. apply in_map_iff in Ha, Hb. destruct Ha as (e & Ea & _), Hb as (e' & Eb & _). congruence.
Qed.
Lemma slice_len (inp : bytes) a b s : slice inp a b = Ok s -> a <= b /\ length s = b - a.
Proof.
  unfold slice. destruct (_ && _) eqn:E; [|discriminate]. intros [= <-]. rewrite firstn_length, skipn_length. lia.
Qed.
Lemma matches_nodup inp pos class i ms tr : NoDup ms ->
  Forall2 (fun (m : Z * nat) (e : nat * node) => exists s, slice inp pos (pos + snd m) = Ok s /\ like class i (fst m) s e) ms tr -> NoDup tr.
Proof.
  intros N F. eapply nodup_forall2; [exact F| |exact N]. intros [id l] [id' l'] e _ _ (s & Hs & L) (s' & Hs' & L').
  destruct L as (_ & _ & _ & L1 & L2), L' as (_ & _ & _ & L3 & L4). cbn [fst snd] in *.
  apply slice_len in Hs, Hs'. assert (length s = length s') by congruence. f_equal; [congruence|lia].
Qed.
Lemma unknowns_nodup d inp i pos prev end_pos id dup la la' : (pos < prev -> prev < end_pos) ->
  add_unknowns d inp i pos prev end_pos id dup la = Ok la' ->
  exists tr, appended la la' tr /\ Forall (fun e => n_class (snd e) = UNKNOWN /\ n_start (snd e) = i) tr /\ NoDup tr.
Proof.
  intros Hpe. unfold add_unknowns. set (k := Z.to_nat (dup + 1)).
  assert (G : forall k a la la', foldM (fun la x =>
           let* la := if (pos <? prev)%nat then
                        let* s := slice inp pos prev in
                        add_node d la i (id + Z.of_nat x) pos i UNKNOWN s
                      else Ok la in
           let* s := slice inp pos end_pos in
           add_node d la i (id + Z.of_nat x) pos i UNKNOWN s) (seq a k) la = Ok la' ->
    exists tr, appended la la' tr /\ Forall (fun e => n_class (snd e) = UNKNOWN /\ n_start (snd e) = i) tr /\
      NoDup tr /\ Forall (fun e => (id + Z.of_nat a <= n_id (snd e))%Z) tr).
  { clear - Hpe. induction k as [|k IH]; intros a la la' H; cbn [seq foldM] in H.
    - injection H as <-. exists []. split; [apply appended_nil|]. repeat constructor.
    - match type of H with (let* la := ?X in _) = _ => destruct X as [la1| |] eqn:E1; try discriminate end. cbn [rbind] in H.
      destruct (IH _ _ _ H) as (tr & A & F1 & F2 & F3).
      match type of E1 with (let* la := ?X in _) = _ => destruct X as [la0| |] eqn:E0; try discriminate end. cbn [rbind] in E1.
      destruct (slice inp pos end_pos) as [s| |] eqn:Es; try discriminate. cbn [rbind] in E1. destruct (add_node_appended E1) as (m & A1).
      set (x1 := (i + rune_count s, Node (id + Z.of_nat a) pos i UNKNOWN 0 (m_left m) (m_right m) (m_weight m) s None)) in *.
      assert (H1 : n_id (snd x1) = (id + Z.of_nat a)%Z) by reflexivity. assert (H2 : n_surface (snd x1) = s) by reflexivity.
      assert (A0 : exists t0, appended la la0 t0 /\ (t0 = [] \/ exists x0, t0 = [x0] /\ n_class (snd x0) = UNKNOWN /\ n_start (snd x0) = i /\ n_id (snd x0) = (id + Z.of_nat a)%Z /\
         length (n_surface (snd x0)) < length s)).
      { destruct (Nat.ltb_spec pos prev) as [Hlt|Hge].
        - destruct (slice inp pos prev) as [s0| |] eqn:Es0; try discriminate. cbn [rbind] in E0. destruct (add_node_appended E0) as (m0 & A0).
          eexists. split; [exact A0|]. right. eexists. split; [reflexivity|]. repeat split. cbn [snd n_surface].
          apply slice_len in Es, Es0. specialize (Hpe Hlt). lia.
        - injection E0 as <-. exists []. split; [apply appended_nil|left; reflexivity]. }
      destruct A0 as (t0 & A0 & Ht0). exists ((t0 ++ [x1]) ++ tr).
      split; [exact (appended_app (appended_app A0 A1) A)|].
      assert (Hno : forall x, n_id (snd x) = (id + Z.of_nat a)%Z -> ~ In x tr).
      { intros x Hx Hin. rewrite Forall_forall in F3. specialize (F3 x Hin). cbv beta in F3. lia. }
      assert (Ftr : Forall (fun e => (id + Z.of_nat a <= n_id (snd e))%Z) tr).
      { eapply Forall_impl; [|exact F3]. intros e He. cbv beta in He. lia. }
      assert (B1 : n_class (snd x1) = UNKNOWN /\ n_start (snd x1) = i) by (split; reflexivity). clearbody x1.
      destruct Ht0 as [->|(x0 & -> & C1 & C2 & C3 & C4)]; cbn [app].
      + split; [constructor; assumption|]. split; [constructor; [apply Hno; exact H1|assumption]|]. constructor; [lia|assumption].
      + split; [repeat (constructor; auto)|]. split.
        * constructor; [|constructor; [apply Hno; exact H1|assumption]]. intros [E|Hin]; [subst x1; rewrite H2 in C4; lia|exact (Hno x0 C3 Hin)].
        * constructor; [lia|]. constructor; [lia|assumption]. }
  intros H. destruct (G _ _ _ _ H) as (tr & A & F1 & F2 & _). exists tr. auto.
Qed.

Lemma prev_before inp pos end_pos prev : unknown_prev inp pos end_pos = Ok prev -> pos < prev -> prev < end_pos.
Proof.
  unfold unknown_prev. destruct (slice inp pos end_pos) as [s| |] eqn:Es; try discriminate. cbn [rbind]. apply slice_len in Es.
  destruct (decode_last_rune s) as [c size] eqn:E. destruct (N.eqb_spec c rune_error) as [->|Hne]; cbn [negb]; intros [= <-] Hlt; [lia|].
  assert (0 < size); [|lia]. destruct (segs s) as [|x l] eqn:Eg using rev_ind.
  - assert (s = []) as -> by (rewrite <- (segs_concat s), Eg; reflexivity). apply (f_equal fst) in E. cbn [decode_last_rune fst] in E. congruence.
  - clear IHl. destruct x as [r b]. rewrite (decode_last_spec Eg) in E. injection E as <- <-.
    assert (In (r, b) (segs s)) by (rewrite Eg; apply in_or_app; right; left; reflexivity). apply segs_nonempty_seg in H. cbn [snd] in H. lia.
Qed.

Section Once.
Variables (d : dict) (u : option udict) (inp : bytes).
Hypothesis Nd : NoDup (d_index d).
Hypothesis Nu : forall ud, u = Some ud -> NoDup (u_index ud).

Lemma build_step_once la i pos ch la' : build_step d u inp la i pos ch = Ok la' ->
  exists tr, appended la la' tr /\ Forall (fun e => n_start (snd e) = i) tr /\ NoDup tr.
Proof.
  unfold build_step. intros H. destruct (slice inp pos (length inp)) as [rest| |] eqn:Er; try discriminate. cbn [rbind] in H.
  set (user := match u with Some ud => common_prefix_search (u_index ud) rest | None => [] end) in *.
  destruct (add_matches d inp i pos USER user la) as [la1| |] eqn:E1; try discriminate. cbn [rbind] in H.
  destruct (add_matches_appended E1) as (t1 & A1 & F1).
  assert (C1 : Forall (fun e => n_class (snd e) = USER /\ n_start (snd e) = i) t1).
  { eapply Forall2_Forall_r; [|exact F1]. intros m e (s & _ & _ & L2 & L3 & _). auto. }
  assert (N1 : NoDup t1).
  { eapply matches_nodup; [|exact F1]. unfold user. destruct u as [ud|]; [|constructor]. apply search_nodup, Nu. reflexivity. }
  destruct (negb (length user =? 0)) eqn:Eb.
  { injection H as <-. exists t1. split; [assumption|]. split; [eapply Forall_impl; [|exact C1]; intros e [? ?]; assumption|assumption]. }
  assert (t1 = []) as ->.
  { destruct user; [inversion F1; reflexivity|discriminate]. }
  destruct (add_matches d inp i pos KNOWN (common_prefix_search (d_index d) rest) la1) as [la2| |] eqn:E2; try discriminate. cbn [rbind] in H.
  destruct (add_matches_appended E2) as (t2 & A2 & F2).
  assert (C2 : Forall (fun e => n_class (snd e) = KNOWN /\ n_start (snd e) = i) t2).
  { eapply Forall2_Forall_r; [|exact F2]. intros m e (s & _ & _ & L2 & L3 & _). auto. }
  assert (N2 : NoDup t2) by (eapply matches_nodup; [apply search_nodup; exact Nd|exact F2]).
  assert (A3 : exists t3, appended la2 la' t3 /\ Forall (fun e => n_class (snd e) = UNKNOWN /\ n_start (snd e) = i) t3 /\ NoDup t3).
  { unfold build_unknown in H. match type of H with (let* go := ?X in _) = _ => destruct X as [go| |]; try discriminate end. cbn [rbind] in H.
    destruct go.
    - match type of H with (let* e := ?X in _) = _ => destruct X as [e| |]; try discriminate end. cbn [rbind] in H.
      match type of H with (let* e := ?X in _) = _ => destruct X as [e'| |] eqn:Ep; try discriminate end. cbn [rbind] in H.
      exact (unknowns_nodup (@prev_before _ _ _ _ Ep) H).
    - injection H as <-. exists []. split; [apply appended_nil|]. split; constructor. }
  destruct A3 as (t3 & A3 & C3 & N3). exists (t2 ++ t3).
  split; [exact (appended_app A1 (appended_app A2 A3))|]. split; [apply Forall_app; split; (eapply Forall_impl; [|eassumption]); intros e [? ?]; assumption|].
  apply nodup_two; [exact N2|exact N3|]. intros x H2 H3. rewrite Forall_forall in C2, C3. destruct (C2 _ H2) as [X _], (C3 _ H3) as [Y _]. congruence.
Qed.
Lemma build_loop_once l : forall i la la', build_loop d u inp i l la = Ok la' ->
  exists tr, appended la la' tr /\ Forall (fun e => i <= n_start (snd e)) tr /\ NoDup tr.
Proof.
  induction l as [|[pos ch] l IH]; intros i la la' H; cbn [build_loop] in H.
  - injection H as <-. exists []. split; [apply appended_nil|]. split; constructor.
  - destruct (build_step d u inp la i pos ch) as [la1| |] eqn:E1; try discriminate. cbn [rbind] in H.
    destruct (build_step_once E1) as (t1 & A1 & S1 & N1). destruct (IH _ _ _ H) as (t2 & A2 & S2 & N2).
    exists (t1 ++ t2). split; [exact (appended_app A1 A2)|]. split.
    { apply Forall_app. split; (eapply Forall_impl; [|eassumption]); intros e He; cbv beta in He; lia. }
    apply nodup_two; [exact N1|exact N2|]. intros x H1 H2. rewrite Forall_forall in S1, S2. specialize (S1 _ H1). specialize (S2 _ H2). cbv beta in *. lia.
Qed.
Lemma build_once la p : build d u inp = Ok la -> 0 < p <= rcount inp -> NoDup (nth p la []).
Proof.
  unfold build. intros H Hp. change (rune_count inp) with (rcount inp) in H. set (n := rcount inp) in *.
  destruct (slice inp 0 0) as [s0| |] eqn:Es0; try discriminate. cbn [rbind] in H.
  destruct (add_node d (repeat [] (n + 2)) 0 bos_eos_id 0 0 DUMMY s0) as [la0| |] eqn:E0; try discriminate. cbn [rbind] in H.
  destruct (slice inp n n) as [s1| |] eqn:Es1; try discriminate. cbn [rbind] in H.
  destruct (add_node d la0 (n + 1) bos_eos_id (length inp) n DUMMY s1) as [la1| |] eqn:E1; try discriminate. cbn [rbind] in H.
  destruct (build_loop_once H) as (tr & A & _ & N).
  assert (Hs : forall k s, slice inp k k = Ok s -> s = []).
  { intros k s. unfold slice. destruct (_ && _); [|discriminate]. rewrite Nat.sub_diag. intros [= <-]. reflexivity. }
  apply Hs in Es0, Es1. subst s0 s1.
  destruct (add_node_appended E0) as (m0 & _ & A0). destruct (add_node_appended E1) as (m1 & _ & A1). destruct A as [_ A].
  assert (E : nth p la [] = map snd (filter (fun e => fst e =? p) tr)).
  { rewrite A, A1, A0, nth_repeat. cbn [filter fst].
    change (rune_count []) with 0. replace (0 + 0 =? p) with false by lia. replace (n + 1 + 0 =? p) with false by lia. reflexivity. }
  rewrite E. apply nodup_map_in; [apply NoDup_filter; exact N|]. intros [a x] [b y] Hx Hy Exy. apply filter_In in Hx, Hy. cbn [fst snd] in *. f_equal; [lia|exact Exy].
Qed.
End Once.

(** The nodes that end at p stand in the order of preference. *)
Lemma build_preferred d u inp la p : wf_dict d -> wf_udict u -> NoDup (d_index d) -> (forall ud, u = Some ud -> NoDup (u_index ud)) ->
  build d u inp = Ok la -> 0 < p <= rcount inp -> exists ws, nth p la [] = map (node_of d inp) ws /\ Forall (candidate d u inp) ws /\ ForallOrdPairs (preferred d u inp) ws.
Proof.
  intros Hd Hu Nd Nu E Hp. destruct (@build_spec d u inp Hd Hu) as (la0 & E0 & B). rewrite E in E0. injection E0 as <-.
  pose proof (build_once Nd Nu E Hp) as N.
  assert (W : exists ws, nth p la [] = map (node_of d inp) ws /\ Forall (fun w => candidate d u inp w /\ w_stop w = p) ws).
  { pose proof (b_mid B) as M. assert (K : forall nd, In nd (nth p la []) -> exists w, candidate d u inp w /\ w_stop w = p /\ nd = node_of d inp w) by (intros nd; apply (M p nd Hp)).
    clear -K. induction (nth p la []) as [|nd l IH]; [exists []; split; [reflexivity|constructor]|].
    destruct (K nd (or_introl eq_refl)) as (w & Hc & Hs & ->). destruct IH as (ws & -> & F); [intros x Hx; apply K; right; exact Hx|].
    exists (w :: ws). split; [reflexivity|constructor; auto]. }
  destruct W as (ws & Ew & F). exists ws. split; [exact Ew|]. split; [eapply Forall_impl; [|exact F]; intros w [H _]; exact H|].
  assert (G : forall j j' w w', nth_error ws j = Some w -> nth_error ws j' = Some w' -> j < j' -> preferred d u inp w w').
  { intros j j' w w' Hj Hj' Hlt. rewrite Forall_forall in F. destruct (F w) as [Hc Hs]; [eapply nth_error_In; exact Hj|]. destruct (F w') as [Hc' Hs']; [eapply nth_error_In; exact Hj'|].
    eapply (@cell_order d u inp la E B p j j' w w'); try assumption; rewrite ?Ew, ?nth_error_map, ?Hj, ?Hj'; try reflexivity.
    intros k Hk Ek. assert (k = j'); [|lia]. rewrite Ew in N. refine (proj1 (NoDup_nth_error _) N k j' _ _).
    - apply nth_error_Some. rewrite Ek. discriminate.
    - rewrite Ek, nth_error_map, Hj'. reflexivity. }
  clear -G. induction ws as [|w ws IH]; constructor.
  - apply Forall_forall. intros w' Hin. apply In_nth_error in Hin. destruct Hin as (k & Hk). apply (G 0 (S k)); [reflexivity|exact Hk|lia].
  - apply IH. intros j j' x y Hx Hy Hlt. apply (G (S j) (S j')); [exact Hx|exact Hy|lia].
Qed.
