(** The counted program gives the same results, and the count is linear in the text. *)
From Verif Require Export Work SpecWork TieFacts.
From Coq Require Import ZifyBool ZifyNat ZifyN.
Set Implicit Arguments.
Unset Strict Implicit.
Open Scope nat_scope.

(** ** The same results *)
Lemma result_bind {A B} (t : timed A) (f : A -> timed B) r g : result t = r -> (forall a, result (f a) = g a) ->
  result (tbind t f) = rbind r g.
Proof. intros <- H. unfold tbind. destruct (result t) as [a| |]; cbn; auto. Qed.
Lemma result_charge {A} k (t : timed A) : result (charge k t) = result t.
Proof. reflexivity. Qed.
Lemma steps_charge {A} k (t : timed A) : steps (charge k t) = k + steps t.
Proof. reflexivity. Qed.
Lemma result_fold {A B} (f : A -> B -> timed A) g : (forall a b, result (f a b) = g a b) ->
  forall l a, result (tfold f l a) = foldM g l a.
Proof.
  intros H. induction l as [|b l IH]; intros a; [reflexivity|]. cbn [tfold foldM]. apply result_bind; [apply H|exact IH].
Qed.

Lemma same_matches d inp i pos c ms la : result (t_add_matches d inp i pos c ms la) = add_matches d inp i pos c ms la.
Proof. apply result_fold. intros la' [id l]. apply result_bind; [reflexivity|]. reflexivity. Qed.
Lemma same_group f : forall d inp class i e ul, result (t_group_loop f d inp class i e ul) = group_loop f d inp class i e ul.
Proof.
  induction f as [|f IH]; intros; [reflexivity|]. cbn [t_group_loop group_loop]. destruct (i <? length inp); [|reflexivity].
  rewrite result_charge. apply result_bind; [reflexivity|]. intros rest. destruct (decode_rune rest) as [c w].
  destruct (negb _); [reflexivity|]. destruct (max_unk_len <=? N.succ ul)%N; [reflexivity|]. apply IH.
Qed.
Lemma same_unknowns d inp i pos prev e id dup la : result (t_add_unknowns d inp i pos prev e id dup la) = add_unknowns d inp i pos prev e id dup la.
Proof.
  apply result_fold. intros la' x. rewrite result_charge. apply result_bind.
  - destruct (pos <? prev); [|reflexivity]. apply result_bind; reflexivity.
  - intros la2. apply result_bind; reflexivity.
Qed.
Lemma same_end d inp pos ch c : result (t_unknown_end d inp pos ch c) = unknown_end d inp pos ch c.
Proof. apply result_bind; [reflexivity|]. intros g. destruct g; [apply same_group|reflexivity]. Qed.
Lemma same_unknown d inp i pos ch any la : result (t_build_unknown d inp i pos ch any la) = build_unknown d inp i pos ch any la.
Proof.
  apply result_bind; [reflexivity|]. intros go. destruct go; [|reflexivity]. apply result_bind; [apply same_end|].
  intros e. apply result_bind; [reflexivity|]. intros p. apply same_unknowns.
Qed.
Lemma same_step d u inp la i pos ch : result (t_build_step d u inp la i pos ch) = build_step d u inp la i pos ch.
Proof.
  apply result_bind; [reflexivity|]. intros rest. apply result_bind; [apply same_matches|]. intros la1.
  destruct (negb _); [reflexivity|]. apply result_bind; [apply same_matches|]. intros la2. apply same_unknown.
Qed.
Lemma same_loop d u inp l : forall i la, result (t_build_loop d u inp i l la) = build_loop d u inp i l la.
Proof.
  induction l as [|[pos ch] l IH]; intros i la; [reflexivity|]. cbn [t_build_loop build_loop]. rewrite result_charge.
  apply result_bind; [apply same_step|]. intros la1. apply IH.
Qed.
Lemma same_build d u inp : result (t_build d u inp) = build d u inp.
Proof.
  unfold t_build, build. rewrite result_charge. apply result_bind; [reflexivity|]. intros s0. apply result_bind; [reflexivity|]. intros la0.
  apply result_bind; [reflexivity|]. intros s1. apply result_bind; [reflexivity|]. intros la1. apply same_loop.
Qed.
Lemma same_relax d ideo m i idx start k : forall j la, result (t_relax_loop d ideo m i idx start j k la) = relax_loop d ideo m i idx start j k la.
Proof.
  induction k as [|k IH]; intros j la; [reflexivity|]. cbn [t_relax_loop relax_loop]. rewrite result_charge.
  apply result_bind; [reflexivity|]. intros n. apply result_bind; [reflexivity|]. intros tg. apply result_bind; [reflexivity|]. intros c.
  apply result_bind; [reflexivity|]. intros la1. apply IH.
Qed.
Lemma same_target d ideo m i la idx : result (t_forward_target d ideo m i la idx) = forward_target d ideo m i la idx.
Proof.
  unfold t_forward_target. rewrite result_charge. apply result_bind; [reflexivity|]. intros tg. apply result_bind; [reflexivity|]. intros pl.
  destruct (length pl =? 0); [reflexivity|]. apply same_relax.
Qed.
Lemma same_pos d ideo m la i : result (t_forward_pos d ideo m la i) = forward_pos d ideo m la i.
Proof.
  unfold t_forward_pos. rewrite result_charge. apply result_bind; [reflexivity|]. intros cur. apply result_fold. intros. apply same_target.
Qed.
Lemma same_forward d ideo m la : result (t_forward d ideo m la) = forward d ideo m la.
Proof. apply result_fold. intros. apply same_pos. Qed.
Lemma same_walk f : forall m la p out, result (t_walk f m la p out) = walk f m la p out.
Proof.
  induction f as [|f IH]; intros; [reflexivity|]. cbn [t_walk walk]. apply result_bind; [reflexivity|]. intros o.
  destruct (n_prev p) as [[i j]|]; [|reflexivity]. apply result_bind; [reflexivity|]. intros q. apply IH.
Qed.
Lemma same_backward m la : result (t_backward m la) = backward m la.
Proof. unfold t_backward, backward. destruct (length la); [reflexivity|]. apply result_bind; [reflexivity|]. intros p. apply same_walk. Qed.
Lemma same_tokens t out : result (t_analyze_tokens t out) = analyze_tokens t out.
Proof. apply result_fold. intros ts i. apply result_bind; [reflexivity|]. intros n. reflexivity. Qed.
Theorem same_analyze ideo t inp mode : result (t_analyze ideo t inp mode) = analyze ideo t inp mode.
Proof.
  unfold t_analyze, analyze, run_lattice.
  transitivity (let* la := build (tk_dict t) (tk_udict t) inp in let* la' := forward (tk_dict t) ideo (to_lmode mode) la in
    let* out := backward (to_lmode mode) la' in analyze_tokens t out).
  - apply result_bind; [apply same_build|]. intros la. apply result_bind; [apply same_forward|]. intros la'.
    apply result_bind; [apply same_backward|]. intros out. rewrite result_charge. apply same_tokens.
  - destruct (build _ _ _) as [la| |]; try reflexivity. cbn [rbind]. destruct (forward _ _ _ _) as [la'| |]; try reflexivity. cbn [rbind].
    destruct (backward _ _) as [out| |]; reflexivity.
Qed.

(** ** Counting *)
Definition within {A} (t : timed A) (c : nat) (Q : A -> Prop) : Prop :=
  steps t <= c /\ forall a, result t = Ok a -> Q a.
Lemma within_bind {A B} (t : timed A) (f : A -> timed B) c1 c2 c Q1 Q : c1 + c2 <= c -> within t c1 Q1 ->
  (forall a, Q1 a -> within (f a) c2 Q) -> within (tbind t f) c Q.
Proof.
  intros Hc [H1 H2] H. unfold tbind. destruct (result t) as [a| |] eqn:E.
  - destruct (H a (H2 _ eq_refl)) as [H3 H4]. split; [cbn; lia|exact H4].
  - split; [cbn; lia|discriminate].
  - split; [cbn; lia|discriminate].
Qed.
Lemma within_bind0 {A B} (t : timed A) (f : A -> timed B) c Q1 Q : within t 0 Q1 ->
  (forall a, Q1 a -> within (f a) c Q) -> within (tbind t f) c Q.
Proof. intros H. apply (@within_bind _ _ t f 0 c); [lia|exact H]. Qed.
Lemma within_free {A} (r : res A) c (Q : A -> Prop) : (forall a, r = Ok a -> Q a) -> within (free_of_charge r) c Q.
Proof. intros H. split; [cbn; lia|exact H]. Qed.
Lemma within_ok {A} (a : A) c (Q : A -> Prop) : Q a -> within (0, Ok a) c Q.
Proof. intros H. split; [cbn; lia|]. cbn. intros a' [= <-]. exact H. Qed.
Lemma within_charge {A} k (t : timed A) c Q : k <= c -> within t (c - k) Q -> within (charge k t) c Q.
Proof. intros H [H1 H2]. split; [cbn; lia|exact H2]. Qed.
Lemma within_weaken {A} (t : timed A) c c' (Q Q' : A -> Prop) : c <= c' -> (forall a, Q a -> Q' a) -> within t c Q -> within t c' Q'.
Proof. intros H1 H2 [H3 H4]. split; [lia|]. intros a Ha. apply H2, H4, Ha. Qed.
Lemma within_sum {A B} (f : A -> B -> timed A) (c : B -> nat) (I : A -> Prop) l :
  (forall a b, In b l -> I a -> within (f a b) (c b) I) -> forall a, I a -> within (tfold f l a) (list_sum (map c l)) I.
Proof.
  induction l as [|b l IH]; intros H a Ha; cbn [tfold map list_sum fold_right]; [apply within_ok; exact Ha|].
  eapply within_bind; [|apply H; [left; reflexivity|exact Ha]|].
  - reflexivity.
  - intros a' Ha'. apply IH; [|exact Ha']. intros a2 b2 Hb. apply H. right. exact Hb.
Qed.
Lemma sum_const {B} (l : list B) c : list_sum (map (fun _ => c) l) = length l * c.
Proof. induction l as [|b l IH]; [reflexivity|]. cbn [map list_sum fold_right length]. unfold list_sum in IH. lia. Qed.
Lemma within_fold {A B} (f : A -> B -> timed A) c (I : A -> Prop) l :
  (forall a b, In b l -> I a -> within (f a b) c I) -> forall a, I a -> within (tfold f l a) (length l * c) I.
Proof. intros H a Ha. rewrite <- sum_const. apply (within_sum (c := fun _ => c)); assumption. Qed.
Lemma within_true {A} (t : timed A) c : steps t <= c -> within t c (fun _ => True).
Proof. intros H. split; auto. Qed.

(** ** The words at one place *)
Lemma cps_length idx s : length (common_prefix_search idx s) <= length (filter (begins s) idx).
Proof.
  unfold common_prefix_search.
  assert (G : forall ls, NoDup ls -> (forall l, In l ls -> 1 <= l <= length s) ->
    length (flat_map (fun l => map (fun e : bytes * Z => (snd e, l)) (filter (fun e => bytes_eqb (fst e) (firstn l s)) idx)) ls)
    <= length (filter (begins s) idx)).
  2:{ apply G; [apply seq_NoDup|]. intros l Hl. apply in_seq in Hl. lia. }
  induction idx as [|e idx IH]; intros ls Hn Hl.
  - cbn [filter map]. induction ls; [cbn; lia|]. cbn [flat_map app length]. apply IHls; [inversion Hn; assumption|intros; apply Hl; right; assumption].
  - set (one := fun l => bytes_eqb (fst e) (firstn l s)).
    assert (S1 : length (flat_map (fun l => map (fun e0 : bytes * Z => (snd e0, l)) (filter (fun e0 => bytes_eqb (fst e0) (firstn l s)) (e :: idx))) ls) =
      length (filter one ls) + length (flat_map (fun l => map (fun e0 : bytes * Z => (snd e0, l)) (filter (fun e0 => bytes_eqb (fst e0) (firstn l s)) idx)) ls)).
    { clear. induction ls as [|l ls IH]; [reflexivity|]. cbn [flat_map]. rewrite !app_length, IH, !map_length. cbn [filter]. fold (one l).
      destruct (one l); cbn [length]; lia. }
    rewrite S1. specialize (IH _ Hn Hl). cbn [filter].
    assert (H1 : forall l, In l ls -> one l = true -> l = length (fst e)).
    { intros l Hi Ho. unfold one in Ho. apply bytes_eqb_eq in Ho. rewrite Ho. rewrite firstn_length_le; [reflexivity|]. apply Hl. exact Hi. }
    assert (H2 : length (filter one ls) <= if begins s e then 1 else 0).
    { destruct (begins s e) eqn:Eb.
      - destruct (filter one ls) as [|a [|b r]] eqn:Ef; cbn [length]; try lia. exfalso.
        assert (Na : NoDup (filter one ls)) by (apply NoDup_filter; exact Hn). rewrite Ef in Na.
        assert (In a (filter one ls) /\ In b (filter one ls)) as [Ia Ib] by (rewrite Ef; cbn; auto).
        apply filter_In in Ia, Ib. rewrite (H1 a), (H1 b) in Na by tauto. inversion Na as [|x y Hx _]. apply Hx. left. reflexivity.
      - destruct (filter one ls) as [|a r] eqn:Ef; [cbn; lia|]. exfalso.
        assert (Ia : In a (filter one ls)) by (rewrite Ef; left; reflexivity). apply filter_In in Ia. destruct Ia as [Ia Ea].
        pose proof (H1 _ Ia Ea) as ->. unfold begins in Eb. unfold one in Ea. congruence. }
    destruct (begins s e); cbn [length]; lia.
Qed.
Lemma cps_in idx s id l : In (id, l) (common_prefix_search idx s) -> l <= length s /\ In (firstn l s, id) idx.
Proof.
  unfold common_prefix_search. intros H. apply in_flat_map in H. destruct H as (l' & Hl & H). apply in_seq in Hl.
  apply in_map_iff in H. destruct H as ([key id'] & [= -> ->] & H). apply filter_In in H. destruct H as [H E]. cbn [fst] in E.
  apply bytes_eqb_eq in E. subst key. split; [lia|exact H].
Qed.
Lemma slice_rest_take (inp rest s : bytes) pos l : slice inp pos (length inp) = Ok rest -> l <= length rest ->
  slice inp pos (pos + l) = Ok s -> s = firstn l rest.
Proof.
  unfold slice. destruct (_ && _); [|discriminate]. intros [= <-]. rewrite firstn_length, skipn_length. intros Hl.
  destruct (_ && _); [|discriminate]. intros [= <-]. rewrite firstn_firstn. f_equal. lia.
Qed.

(** ** What Build appends and what that costs *)
Definition weight (tr : events) : nat := list_sum (map (fun e => 2 + rune_count (n_surface (snd e))) tr).
Lemma weight_app a b : weight (a ++ b) = weight a + weight b.
Proof. unfold weight. rewrite map_app, list_sum_app. reflexivity. Qed.
Lemma weight_le tr l : Forall (fun e => rune_count (n_surface (snd e)) <= l) tr -> weight tr <= length tr * (2 + l).
Proof.
  unfold weight. induction 1 as [|e tr H F IH]; [cbn; lia|]. cbn [map length]. change (list_sum (?x :: ?y)) with (x + list_sum y). lia.
Qed.

Lemma bind_ok {A B} (t : timed A) (f : A -> timed B) b : result (tbind t f) = Ok b ->
  exists a, result t = Ok a /\ result (f a) = Ok b /\ steps (tbind t f) = steps t + steps (f a).
Proof.
  unfold tbind. destruct (result t) as [a| |]; try discriminate. intros H. exists a. auto.
Qed.

(** The nodes appended all start at i; the steps are paid for by the nodes and by x. *)
Definition paid (i : nat) (la la' : table) (c x b : nat) : Prop :=
  exists tr, appended la la' tr /\ Forall (fun e => n_start (snd e) = i) tr /\ c <= weight tr + x /\ length tr <= b.
Lemma paid_trans i la la1 la2 c c' x x' b b' : paid i la la1 c x b -> paid i la1 la2 c' x' b' -> paid i la la2 (c + c') (x + x') (b + b').
Proof.
  intros (t & A & S & C & B) (t' & A' & S' & C' & B'). exists (t ++ t'). split; [exact (appended_app A A')|].
  split; [apply Forall_app; auto|]. rewrite weight_app, app_length. split; lia.
Qed.
Lemma paid_refl i la c x : c <= x -> paid i la la c x 0.
Proof. intros H. exists []. split; [apply appended_nil|]. split; [constructor|]. cbn. lia. Qed.
Lemma paid_le i la la' c c' x x' b b' : c' <= c -> x <= x' -> b <= b' -> paid i la la' c x b -> paid i la la' c' x' b'.
Proof. intros H1 H2 H3 (t & A & S & C & B). exists t. repeat split; try apply A; auto; lia. Qed.

Lemma paid_node d la i id pos class s la' : result (t_add_node d la i id pos i class s) = Ok la' ->
  paid i la la' (1 + steps (t_add_node d la i id pos i class s)) 0 1.
Proof.
  intros H. cbn [t_add_node result snd] in H. destruct (add_node_appended H) as (m & A). eexists. split; [exact A|].
  split; [repeat constructor|]. unfold weight, list_sum. cbn [map fold_right snd n_surface steps fst t_add_node length]. lia.
Qed.
Lemma paid_matches d inp i pos class ms : forall la la', result (t_add_matches d inp i pos class ms la) = Ok la' ->
  paid i la la' (steps (t_add_matches d inp i pos class ms la)) 0 (length ms).
Proof.
  unfold t_add_matches. induction ms as [|[id l] ms IH]; intros la la' H; cbn [tfold] in *.
  - cbn in H. injection H as <-. apply paid_refl. cbn. lia.
  - apply bind_ok in H. destruct H as (la1 & H1 & H2 & ->). apply bind_ok in H1. destruct H1 as (s & _ & H1 & ->).
    specialize (IH _ _ H2). apply paid_node in H1. eapply paid_le; [| | |exact (paid_trans H1 IH)]; cbn [length steps fst free_of_charge]; lia.
Qed.
Lemma paid_unknowns d inp i pos prev e id dup la la' : result (t_add_unknowns d inp i pos prev e id dup la) = Ok la' ->
  paid i la la' (steps (t_add_unknowns d inp i pos prev e id dup la)) 0 (2 * Z.to_nat (dup + 1)).
Proof.
  unfold t_add_unknowns. set (k := Z.to_nat (dup + 1)).
  match goal with |- result (tfold ?F _ _) = _ -> _ => set (f := F) end.
  enough (G : forall a la la', result (tfold f (seq a k) la) = Ok la' -> paid i la la' (steps (tfold f (seq a k) la)) 0 (2 * k)) by apply G.
  clear la la'. clearbody k. induction k as [|k IH]; intros a la la' H; cbn [seq tfold] in *.
  - cbn in H. injection H as <-. apply paid_refl. cbn. lia.
  - apply bind_ok in H. destruct H as (la1 & H1 & H2 & ->). specialize (IH _ _ _ H2).
    unfold f in H1. rewrite result_charge in H1. unfold f at 1. cbv beta. rewrite steps_charge.
    apply bind_ok in H1. destruct H1 as (la0 & H0 & H1 & E). rewrite E. clear E.
    assert (P0 : paid i la la0 (steps (if pos <? prev then let+ s := free_of_charge (slice inp pos prev) in
        t_add_node d la i (id + Z.of_nat a)%Z pos i UNKNOWN s else (0, Ok la))) 0 1).
    { destruct (pos <? prev).
      - apply bind_ok in H0. destruct H0 as (s & _ & H0 & ->). apply paid_node in H0.
        eapply paid_le; [| | |exact H0]; cbn [steps fst free_of_charge]; lia.
      - cbn in H0. injection H0 as <-. eapply paid_le; [| | |apply (@paid_refl i la 0 0)]; cbn; lia. }
    apply bind_ok in H1. destruct H1 as (s & _ & H1 & E). rewrite E. apply paid_node in H1.
    eapply paid_le; [| | |exact (paid_trans P0 (paid_trans H1 IH))]; cbn [steps fst free_of_charge]; unfold steps; lia.
Qed.

Lemma group_steps f : forall d inp class i e ul, (ul < 1024)%N ->
  (N.of_nat (steps (t_group_loop f d inp class i e ul)) + ul <= 1024)%N.
Proof.
  induction f as [|f IH]; intros d inp class i e ul H; cbn [t_group_loop]; [unfold steps; cbn [fst]; lia|].
  destruct (i <? length inp); [|unfold steps; cbn [fst]; lia]. rewrite steps_charge. unfold tbind, free_of_charge, result. cbn [snd].
  destruct (slice inp i (length inp)) as [rest| |]; [|unfold steps; cbn [fst]; lia|unfold steps; cbn [fst]; lia]. rewrite steps_charge. 
  destruct (decode_rune rest) as [c w]. destruct (negb _); [unfold steps; cbn [fst]; lia|]. unfold max_unk_len.
  destruct (N.leb_spec 1024 (N.succ ul)) as [Hm|Hm]; [unfold steps; cbn [fst]; lia|]. specialize (IH d inp class (i + w) (e + w) (N.succ ul)).
  unfold steps in *. cbn [fst]. lia.
Qed.

Lemma filter_none {A} (f : A -> bool) l : Forall (fun x => f x = false) l -> filter f l = [].
Proof. induction 1 as [|x l H F IH]; [reflexivity|]. cbn [filter]. rewrite H. exact IH. Qed.
Lemma filter_length {A} (f : A -> bool) l : length (filter f l) <= length l.
Proof. induction l as [|x l IH]; [reflexivity|]. cbn [filter]. destruct (f x); cbn [length]; lia. Qed.

Section Bounds.
Variables (d : dict) (u : option udict) (K V L : nat).
Hypothesis Hw : words_bound d u K V.
Hypothesis Hl : length_bound d u L.
Let B := K + 2 * V.

Lemma paid_unknown inp i pos ch any la la' : result (t_build_unknown d inp i pos ch any la) = Ok la' ->
  paid i la la' (steps (t_build_unknown d inp i pos ch any la)) (1 + L) (2 * V).
Proof.
  unfold t_build_unknown. intros H. apply bind_ok in H. destruct H as (go & _ & H & ->). destruct go.
  - apply bind_ok in H. destruct H as (e & _ & H & ->). apply bind_ok in H. destruct H as (p & _ & H & ->).
    apply paid_unknowns in H. destruct Hw as (_ & _ & Hv). specialize (Hv ch).
    assert (G : steps (t_unknown_end d inp pos ch (d_category d ch)) <= L).
    { unfold t_unknown_end. unfold tbind, free_of_charge, result, charge. cbn [snd fst].
      destruct (index (d_group d) (d_category d ch)) as [g| |]; unfold steps; cbn [fst]; try lia. destruct g; [|cbn; lia].
      match goal with |- context [t_group_loop ?f d inp ?c ?i ?e 1] => pose proof (@group_steps f d inp c i e 1) as G end.
      destruct Hl as (H1024 & _). unfold steps in G. lia. }
    eapply paid_le; [| | |exact (paid_trans H (paid_refl i la' (le_n (1 + L))))]; cbn [steps fst free_of_charge]; try lia.
  - cbn in H. injection H as <-. eapply paid_le; [| | |apply (@paid_refl i la 0 0)]; cbn; lia.
Qed.
Lemma paid_step inp la i pos ch la' : result (t_build_step d u inp la i pos ch) = Ok la' ->
  paid i la la' (steps (t_build_step d u inp la i pos ch)) (1 + L) B.
Proof.
  unfold t_build_step. intros H. apply bind_ok in H. destruct H as (rest & _ & H & ->). apply bind_ok in H. destruct H as (la1 & H1 & H & ->).
  set (user := match u with Some ud => common_prefix_search (u_index ud) rest | None => [] end) in *.
  destruct Hw as (Hk & Huk & _). apply paid_matches in H1.
  assert (Lu : length user <= K).
  { unfold user. destruct u as [ud|]; [|cbn; lia]. pose proof (cps_length (u_index ud) rest). specialize (Huk rest). lia. }
  destruct (length user =? 0) eqn:Eu; cbn [negb] in *.
  - apply bind_ok in H. destruct H as (la2 & H2 & H & ->). apply paid_matches in H2. apply paid_unknown in H.
    pose proof (cps_length (d_index d) rest). specialize (Hk rest).
    eapply paid_le; [| | |exact (paid_trans H1 (paid_trans H2 H))]; cbn [steps fst free_of_charge]; unfold B; unfold steps; lia.
  - cbn in H. injection H as <-. eapply paid_le; [| | |exact H1]; cbn [steps fst free_of_charge]; unfold B; unfold steps; cbn [fst]; lia.
Qed.

(** No more than B of the nodes start at one place. *)
Definition at_start (s : nat) (e : nat * node) : bool := n_start (snd e) =? s.
Lemma loop_paid inp l : forall i la la', result (t_build_loop d u inp i l la) = Ok la' ->
  exists tr, appended la la' tr /\ Forall (fun e => i <= n_start (snd e)) tr /\
    steps (t_build_loop d u inp i l la) <= weight tr + length l * (2 + L) /\ length tr <= length l * B /\
    forall s, length (filter (at_start s) tr) <= B.
Proof.
  induction l as [|[pos ch] l IH]; intros i la la' H; cbn [t_build_loop] in H.
  - cbn in H. injection H as <-. exists []. split; [apply appended_nil|]. split; [constructor|]. cbn. repeat split; intros; lia.
  - rewrite result_charge in H. cbn [t_build_loop]. rewrite steps_charge.
    apply bind_ok in H. destruct H as (la1 & H1 & H & ->).
    destruct (paid_step H1) as (t1 & A1 & S1 & C1 & B1). destruct (IH _ _ _ H) as (t2 & A2 & S2 & C2 & B2 & M2).
    exists (t1 ++ t2). split; [exact (appended_app A1 A2)|]. split.
    { apply Forall_app. split; (eapply Forall_impl; [|eassumption]); intros e He; cbv beta in He; lia. }
    rewrite weight_app, app_length. cbn [length]. split; [|split; [lia|]].
    + lia.
    + intros s. rewrite filter_app, app_length. destruct (Nat.eq_dec s i) as [->|Hne].
      * rewrite (@filter_none _ (at_start i) t2).
        { pose proof (filter_length (at_start i) t1). cbn [length]. lia. }
        eapply Forall_impl; [|exact S2]. intros e He. cbv beta in He. unfold at_start. lia.
      * rewrite (@filter_none _ (at_start s) t1); [cbn [length]; specialize (M2 s); lia|].
        eapply Forall_impl; [|exact S1]. intros e He. cbv beta in He. unfold at_start. lia.
Qed.
End Bounds.

(** ** Sums *)
Lemma filter_both {A} (f : A -> bool) l : length l = length (filter f l) + length (filter (fun x => negb (f x)) l).
Proof. induction l as [|x l IH]; [reflexivity|]. cbn [filter]. destruct (f x); cbn [negb length]; lia. Qed.
Lemma count_by {A} (g : A -> nat) b k : forall a l, Forall (fun x => a <= g x < a + k) l ->
  (forall s, length (filter (fun x => g x =? s) l) <= b) -> length l <= k * b.
Proof.
  induction k as [|k IH]; intros a l H Hb.
  - destruct H as [|x l H _]; [cbn; lia|lia].
  - rewrite (filter_both (fun x => g x =? a) l). specialize (IH (S a) (filter (fun x => negb (g x =? a)) l)).
    assert (length (filter (fun x => negb (g x =? a)) l) <= k * b).
    { apply IH.
      - apply Forall_forall. intros x Hx. apply filter_In in Hx. destruct Hx as [Hx Hne]. rewrite Forall_forall in H. specialize (H _ Hx). cbv beta in H. lia.
      - intros s. specialize (Hb s). clear - Hb. assert (length (filter (fun x => g x =? s) (filter (fun x => negb (g x =? a)) l)) <= length (filter (fun x => g x =? s) l)); [|lia].
        clear. induction l as [|x l IH]; [reflexivity|]. cbn [filter]. destruct (g x =? a); cbn [negb filter]; destruct (g x =? s); cbn [length]; lia. }
    specialize (Hb a). lia.
Qed.
Lemma concat_length {A} (la : list (list A)) : length (concat la) = list_sum (map (fun p => length (nth p la [])) (seq 0 (length la))).
Proof.
  induction la as [|x la IH]; [reflexivity|]. cbn [concat length seq map]. rewrite app_length, IH, <- seq_shift, map_map. reflexivity.
Qed.
Lemma sum_le {A} (f g : A -> nat) l : (forall x, In x l -> f x <= g x) -> list_sum (map f l) <= list_sum (map g l).
Proof.
  induction l as [|x l IH]; intros H; [reflexivity|]. cbn [map]. change (list_sum (?a :: ?b)) with (a + list_sum b).
  pose proof (H x (or_introl eq_refl)). specialize (IH (fun y Hy => H y (or_intror Hy))). lia.
Qed.
Lemma sum_plus {A} (f g : A -> nat) l : list_sum (map (fun x => f x + g x) l) = list_sum (map f l) + list_sum (map g l).
Proof. induction l as [|x l IH]; [reflexivity|]. cbn [map]. change (list_sum (?a :: ?b)) with (a + list_sum b) in *. lia. Qed.
Lemma sum_times {A} (f : A -> nat) c l : list_sum (map (fun x => f x * c) l) = list_sum (map f l) * c.
Proof. induction l as [|x l IH]; [reflexivity|]. cbn [map]. change (list_sum (?a :: ?b)) with (a + list_sum b) in *. lia. Qed.
Lemma sum_hits (e : nat) k : forall a, list_sum (map (fun p => if e =? p then 1 else 0) (seq a k)) <= 1.
Proof.
  assert (Z : forall k a, e < a -> list_sum (map (fun p => if e =? p then 1 else 0) (seq a k)) = 0).
  { clear. induction k as [|k IH]; intros a H; [reflexivity|]. cbn [seq map]. change (list_sum (?a :: ?b)) with (a + list_sum b).
    rewrite IH by lia. destruct (Nat.eqb_spec e a); lia. }
  induction k as [|k IH]; intros a; [cbn; lia|]. cbn [seq map]. change (list_sum (?a :: ?b)) with (a + list_sum b).
  destruct (Nat.eqb_spec e a) as [->|]; [rewrite Z by lia; lia|]. apply IH.
Qed.
Lemma appended_total la la' tr : appended la la' tr -> length (concat la') <= length (concat la) + length tr.
Proof.
  intros [Hl H]. rewrite !concat_length, Hl.
  transitivity (list_sum (map (fun p => length (nth p la []) + length (filter (fun e => fst e =? p) tr)) (seq 0 (length la)))).
  { apply sum_le. intros p _. rewrite H, app_length, map_length. lia. }
  rewrite sum_plus. apply Nat.add_le_mono_l. generalize (seq 0 (length la)) as ps, (fun e => sum_hits e (length la) 0). clear.
  intros ps. intros Hh. induction tr as [|e tr IH].
  - cbn [filter length]. rewrite sum_const. lia.
  - transitivity (list_sum (map (fun p => (if fst e =? p then 1 else 0) + length (filter (fun e => fst e =? p) tr)) ps)).
    { apply sum_le. intros p _. cbn [filter]. destruct (fst e =? p); cbn [length]; lia. }
    rewrite sum_plus. specialize (Hh (fst e)). cbn [length]. lia.
Qed.

(** ** The lattice *)
Section Whole.
Variables (d : dict) (u : option udict) (K V L : nat).
Hypothesis Hd : wf_dict d.
Hypothesis Hu : wf_udict u.
Hypothesis Hw : words_bound d u K V.
Hypothesis Hl : length_bound d u L.
Let B := K + 2 * V.
Let M := 1 + L * B.
Variable inp : bytes.
Let n := rcount inp.

Lemma short_word w : candidate d u inp w -> w_stop w - w_start w <= L.
Proof.
  intros H. pose proof (candidate_range H) as R. destruct Hl as (H1024 & Hk & Hku).
  destruct H as [ud id i j Eu Hk'|id i j Hn Hk'|id i j e Hn Hor He Hj Hid]; cbn [w_start w_stop] in *.
  - rewrite Eu in Hku. destruct Hk' as [Hr Hin]. rewrite <- (@text_rcount inp i j) by lia. exact (Hku _ _ Hin).
  - destruct Hk' as [Hr Hin]. rewrite <- (@text_rcount inp i j) by lia. exact (Hk _ _ Hin).
  - destruct He as [He He2]. destruct (groups d (cat d inp i)).
    + destruct He2 as (_ & l & Hlim & Hle & _). assert (l <= 1024)%N by (destruct Hlim as [[_ ->]|[_ ->]]; lia). lia.
    + lia.
Qed.
Lemma short_surface w : candidate d u inp w -> rune_count (n_surface (node_of d inp w)) <= L.
Proof.
  intros H. pose proof (short_word H) as S. pose proof (candidate_range H) as R. cbn [n_surface node_of]. unfold surface_of.
  destruct (odd_b d inp w); [change (rune_count [xef]) with 1; lia|]. unfold word_text. rewrite text_rcount by lia. exact S.
Qed.

Definition short (nd : node) : Prop := rune_count (n_surface nd) <= L.
Record sized (la : table) : Prop := {
  s_len : length la = n + 2;
  s_list : forall p, length (nth p la []) <= M;
  s_all : length (concat la) <= 2 + n * B;
  s_short : forall p nd, In nd (nth p la []) -> short nd
}.

Lemma build_sized : exists la, build d u inp = Ok la /\ sized la /\ steps (t_build d u inp) <= (n + 1) * (6 + (B + 1) * (2 + L)).
Proof.
  destruct (@build_spec d u inp Hd Hu) as (la & E & Hb). exists la. split; [exact E|].
  pose proof E as E'. rewrite <- same_build in E'. unfold t_build in E'. rewrite result_charge in E'. change (rune_count inp) with n in E'.
  apply bind_ok in E'. destruct E' as (s0 & Es0 & E' & C0). apply bind_ok in E'. destruct E' as (la0 & E0 & E' & C1).
  apply bind_ok in E'. destruct E' as (s1 & Es1 & E' & C2). apply bind_ok in E'. destruct E' as (la1 & E1 & E' & C3).
  destruct (loop_paid Hw Hl E') as (tr & A & _ & Ct & Lt & Mt).
  assert (Lr : length (range_string inp) = n) by (rewrite range_string_offsets, map_length; apply seq_length).
  rewrite Lr in Ct, Lt.
  assert (Hs : forall k s, result (free_of_charge (slice inp k k)) = Ok s -> s = []).
  { intros k s. cbn [free_of_charge result snd]. unfold slice. destruct (_ && _); [|discriminate]. rewrite Nat.sub_diag. intros [= <-]. reflexivity. }
  pose proof (Hs _ _ Es0). pose proof (Hs _ _ Es1). subst s0 s1.
  cbn [t_add_node result snd] in E0, E1. destruct (add_node_appended E0) as (m0 & A0). destruct (add_node_appended E1) as (m1 & A1).
  assert (Rng : forall p, n < p -> p <> S n -> nth p la [] = []).
  { intros p H1 H2. apply nth_overflow. rewrite (b_len Hb). fold n. lia. }
  assert (Sh : forall p nd, In nd (nth p la []) -> short nd).
  { intros p nd Hin. unfold short. destruct (Nat.eq_dec p 0) as [->|Hp].
    { rewrite (b_bos Hb) in Hin. destruct Hin as [<-|[]]. cbn. lia. }
    destruct (Nat.eq_dec p (S n)) as [->|Hp'].
    { unfold n in Hin. rewrite (b_eos Hb) in Hin. destruct Hin as [<-|[]]. cbn. lia. }
    destruct (Nat.le_gt_cases p n) as [Hle|Hgt]; [|rewrite Rng in Hin by lia; destruct Hin].
    apply (b_mid Hb) in Hin; [|fold n; lia]. destruct Hin as (w & Hc & _ & ->). apply short_surface. exact Hc. }
  assert (Evs : forall e, In e tr -> In (snd e) (nth (fst e) la [])).
  { intros e He. destruct A as [_ A]. rewrite A. apply in_or_app. right. apply in_map_iff. exists e. split; [reflexivity|].
    apply filter_In. split; [exact He|]. apply Nat.eqb_refl. }
  split; [constructor|].
  - exact (b_len Hb).
  - intros p. unfold M. destruct (Nat.eq_dec p 0) as [->|Hp]; [rewrite (b_bos Hb); cbn; lia|].
    destruct (Nat.eq_dec p (S n)) as [->|Hp']; [unfold n; rewrite (b_eos Hb); cbn [length]; lia|].
    destruct (Nat.le_gt_cases p n) as [Hle|Hgt]; [|rewrite Rng by lia; cbn [length]; lia].
    assert (Ep : nth p la [] = map snd (filter (fun e => fst e =? p) tr)).
    { destruct A as [_ A]. rewrite A. destruct A1 as [_ A1]. rewrite A1. destruct A0 as [_ A0]. rewrite A0, nth_repeat. cbn [filter fst].
      change (rune_count []) with 0. replace (0 + 0 =? p) with false by lia. replace (n + 1 + 0 =? p) with false by lia. reflexivity. }
    rewrite Ep, map_length.
    assert (length (filter (fun e => fst e =? p) tr) <= L * B); [|lia].
    apply (@count_by _ (fun e => n_start (snd e)) B L (p - L)).
    + apply Forall_forall. intros e He. apply filter_In in He. destruct He as [He Hpe]. apply Nat.eqb_eq in Hpe.
      pose proof (Evs _ He) as Hin. rewrite Hpe in Hin. apply (b_mid Hb) in Hin; [|fold n; lia].
      destruct Hin as (w & Hc & Hst & Hnd). rewrite Hnd. cbn [n_start node_of]. pose proof (short_word Hc). pose proof (candidate_range Hc). lia.
    + intros s. transitivity (length (filter (at_start s) tr)); [|apply Mt].
      clear. induction tr as [|e tr IH]; [reflexivity|]. cbn [filter]. unfold at_start at 1. destruct (fst e =? p); cbn [filter]; destruct (n_start (snd e) =? s); cbn [length]; lia.
  - pose proof (appended_total A). pose proof (appended_total A1). pose proof (appended_total A0). cbn [length] in *.
    assert (length (concat (repeat (@nil node) (n + 2))) = 0).
    { generalize (n + 2) as k. clear. induction k as [|k IH]; [reflexivity|]. exact IH. }
    lia.
  - exact Sh.
  - unfold t_build. rewrite steps_charge. change (rune_count inp) with n. rewrite C0, C1, C2, C3.
    set (X := steps (t_build_loop d u inp 0 (range_string inp) la1)) in *.
    match goal with |- _ + (?a + (?b + (?c + (?e + X)))) <= _ => change a with 0; change b with 1; change c with 0; change e with 1 end.
    assert (Wt : weight tr <= length tr * (2 + L)).
    { apply weight_le. apply Forall_forall. intros e He. exact (Sh _ _ (Evs _ He)). }
    fold B in Lt.
    assert (length tr * (2 + L) <= n * B * (2 + L)) by (apply Nat.mul_le_mono_r; exact Lt).
    assert (Hx : n * B * (2 + L) + n * (2 + L) + n + n + 4 <= (n + 1) * (6 + (B + 1) * (2 + L))) by (clear; generalize (2 + L); generalize B; nia).
    lia.
Qed.

(** ** Forward *)
Definition key (nd : node) : nat * bytes := (n_start nd, n_surface nd).
Definition same_shape (la0 la : table) : Prop :=
  length la = length la0 /\ forall p, map key (nth p la []) = map key (nth p la0 []).
Lemma shape_refl la : same_shape la la.
Proof. split; auto. Qed.
Lemma get2_in la i j nd : get2 la i j = Ok nd -> In nd (nth i la []).
Proof.
  unfold get2, index. destruct (nth_error la i) as [l|] eqn:E; [|discriminate]. cbn [rbind]. destruct (nth_error l j) as [x|] eqn:Ex; [|discriminate].
  intros [= <-]. rewrite (nth_error_nth _ _ [] E). exact (nth_error_In _ _ Ex).
Qed.
Lemma map_update_nth {A C} (g : A -> C) (f : A -> A) : (forall x, g (f x) = g x) -> forall l j, map g (update_nth l j f) = map g l.
Proof. intros H. induction l as [|x l IH]; intros [|j]; cbn [update_nth map]; rewrite ?H, ?IH; reflexivity. Qed.
Lemma upd2_shape la0 la i j f la' : (forall x, key (f x) = key x) -> same_shape la0 la -> upd2 la i j f = Ok la' -> same_shape la0 la'.
Proof.
  intros Hf [H1 H2]. unfold upd2, update. destruct (Nat.ltb_spec i (length la)) as [Hi|]; [|discriminate]. intros [= <-].
  split; [rewrite update_nth_length; exact H1|]. intros p. rewrite nth_update_nth by assumption. destruct (p =? i) eqn:E; [|apply H2].
  apply Nat.eqb_eq in E. subst p. rewrite (map_update_nth Hf). apply H2.
Qed.

Variables (ideo : ideographic) (m : lmode).
Section Fwd.
Variable la0 : table.
Hypothesis Hs : sized la0.
Lemma shape_short la i j nd : same_shape la0 la -> get2 la i j = Ok nd -> short nd.
Proof.
  intros [_ H] Hg. apply get2_in in Hg. apply (in_map key) in Hg. rewrite H in Hg. apply in_map_iff in Hg.
  destruct Hg as (nd' & Hk & Hin). pose proof (s_short Hs Hin) as S. unfold short, key in *. injection Hk as _ Hk. rewrite <- Hk. exact S.
Qed.
Lemma relax_within i idx start k : forall j la, same_shape la0 la ->
  within (t_relax_loop d ideo m i idx start j k la) (k * (1 + (L + L))) (same_shape la0).
Proof.
  induction k as [|k IH]; intros j la I; cbn [t_relax_loop]; [apply within_ok; exact I|].
  apply within_charge; [lia|].
  eapply within_bind0; [apply within_free; intros a H; exact (shape_short I H)|]. intros nd Hnd. cbv beta in Hnd.
  eapply within_bind0 with (Q1 := fun _ => True); [apply within_free; auto|]. intros tg _.
  eapply within_bind with (c1 := L + L) (c2 := k * (1 + (L + L))) (Q1 := fun _ => True); [lia| |].
  { apply within_true. cbn [t_total_cost steps fst]. unfold short in Hnd. destruct m; lia. }
  intros c _.
  eapply within_bind0 with (Q1 := same_shape la0); [ |intros la1 I1; apply IH; exact I1].
  apply within_free. intros la1 H. destruct (_ || _); [eapply upd2_shape; [|exact I|exact H]; reflexivity|injection H as <-; exact I].
Qed.
Lemma index_nth_ok {A} (l : list (list A)) i x : index l i = Ok x -> x = nth i l [].
Proof. unfold index. destruct (nth_error l i) as [y|] eqn:E; [|discriminate]. intros [= <-]. symmetry. exact (nth_error_nth _ _ [] E). Qed.
Lemma shape_length la p : same_shape la0 la -> length (nth p la []) = length (nth p la0 []).
Proof. intros [_ H]. rewrite <- (map_length key), H, map_length. reflexivity. Qed.
Lemma target_within i la idx : same_shape la0 la ->
  within (t_forward_target d ideo m i la idx) (1 + M * (1 + (L + L))) (same_shape la0).
Proof.
  intros I. unfold t_forward_target. apply within_charge; [lia|]. replace (1 + M * (1 + (L + L)) - 1) with (M * (1 + (L + L))) by lia.
  eapply within_bind0 with (Q1 := fun _ => True); [apply within_free; auto|]. intros tg _.
  eapply within_bind0 with (Q1 := fun pl => length pl <= M); [ |].
  { apply within_free. intros pl H. apply index_nth_ok in H. rewrite H, (shape_length _ I). apply (s_list Hs). }
  intros pl Hpl. destruct (length pl =? 0).
  - apply within_free. intros la1 H. eapply upd2_shape; [|exact I|exact H]. reflexivity.
  - eapply within_weaken; [|intros a Ha; exact Ha|apply relax_within; exact I]. apply Nat.mul_le_mono_r. exact Hpl.
Qed.
Lemma pos_within la i : same_shape la0 la ->
  within (t_forward_pos d ideo m la i) (1 + length (nth i la0 []) * (1 + M * (1 + (L + L)))) (same_shape la0).
Proof.
  intros I. unfold t_forward_pos. apply within_charge; [lia|].
  replace (1 + length (nth i la0 []) * (1 + M * (1 + (L + L))) - 1) with (length (nth i la0 []) * (1 + M * (1 + (L + L)))) by lia.
  eapply within_bind0 with (Q1 := fun cur => length cur = length (nth i la0 [])); [ |].
  { apply within_free. intros cur H. apply index_nth_ok in H. rewrite H. apply shape_length. exact I. }
  intros cur Hc. rewrite <- Hc. rewrite <- (seq_length (length cur) 0) at 2. apply within_fold; [|exact I]. intros la1 b _ I1. apply target_within. exact I1.
Qed.
Lemma forward_within : within (t_forward d ideo m la0) ((n + 1) * (1 + (2 + B) * (1 + M * (1 + (L + L))))) (same_shape la0).
Proof.
  unfold t_forward. eapply within_weaken; [|intros a Ha; exact Ha|].
  2:{ apply (within_sum (c := fun i => 1 + length (nth i la0 []) * (1 + M * (1 + (L + L))))); [|apply shape_refl]. intros la i _ I. apply pos_within. exact I. }
  rewrite (sum_plus (fun _ => 1) (fun i => length (nth i la0 []) * (1 + M * (1 + (L + L))))), sum_const, sum_times, seq_length.
  pose proof (s_len Hs) as Hlen. pose proof (s_all Hs) as Hall. rewrite concat_length in Hall.
  assert (T : list_sum (map (fun x => length (nth x la0 [])) (seq 1 (length la0 - 1))) <= (n + 1) * (2 + B)).
  { rewrite Hlen in *. replace (n + 2) with (S (n + 2 - 1)) in Hall by lia. cbn [seq map] in Hall.
    change (list_sum (?a :: ?b)) with (a + list_sum b) in Hall.
    assert (n * B <= (n + 1) * B) by (apply Nat.mul_le_mono_r; lia). rewrite Nat.mul_add_distr_l. lia. }
  apply (Nat.mul_le_mono_r _ _ (1 + M * (1 + (L + L)))) in T.
  rewrite (Nat.mul_add_distr_l (n + 1) 1), (Nat.mul_assoc (n + 1)). apply Nat.add_le_mono; [lia|exact T].
Qed.
End Fwd.

(** ** Backward and the tokens *)
Lemma encode_short r : rune_count (encode_rune r) <= L.
Proof.
  pose proof (rcount_le (encode_rune r)) as H. change (rune_count (encode_rune r)) with (rcount (encode_rune r)).
  assert (length (encode_rune r) <= 4). { unfold encode_rune. destruct (r <? 128)%N; [cbn [length]; lia|]. destruct (r <? 2048)%N; [cbn [length]; lia|].
    destruct (((55296 <=? r) && (r <=? 57343)) || (1114111 <? r))%N; [cbn [length]; lia|]. destruct (r <? 65536)%N; cbn [length]; lia. }
  destruct Hl as (H1024 & _). lia.
Qed.
Lemma split_shape p l : forall i, length (split_from p i l) = length l /\ Forall short (split_from p i l).
Proof.
  induction l as [|[k r] l IH]; intros i; cbn [split_from length]; [auto|]. destruct (IH (S i)) as [H1 H2]. split; [lia|].
  constructor; [|exact H2]. unfold short. cbn [n_surface]. apply encode_short.
Qed.
Lemma mapM_in {A C} (f : A -> res C) l : forall r, mapM f l = Ok r -> length r = length l /\ forall y, In y r -> exists x, In x l /\ f x = Ok y.
Proof.
  induction l as [|x l IH]; intros r H; cbn [mapM] in H; [injection H as <-; split; [reflexivity|intros y []]|].
  destruct (f x) as [y| |] eqn:E; try discriminate. cbn [rbind] in H. destruct (mapM f l) as [ys| |]; try discriminate. cbn [rbind] in H.
  injection H as <-. destruct (IH _ eq_refl) as [H1 H2]. split; [cbn [length]; lia|]. intros z [<-|Hz]; [exists x; cbn; auto|].
  destruct (H2 _ Hz) as (x' & Hi & Hf). exists x'. cbn. auto.
Qed.
Lemma output_within p : short p -> within (t_output_of m p) (1 + (L + L + L)) (fun o => length o <= 1 + L /\ Forall short o).
Proof.
  intros Hp. split.
  - unfold t_output_of, steps. cbn [fst]. unfold short in Hp. destruct m, (n_class p); lia.
  - intros o. unfold t_output_of, result. cbn [snd]. unfold output_of.
    assert (One : Ok [p] = Ok o -> length o <= 1 + L /\ Forall short o).
    { intros [= <-]. cbn [length]. split; [lia|]. constructor; [exact Hp|constructor]. }
    destruct m, (n_class p); try exact One. intros H. apply mapM_in in H. destruct H as [H1 H2]. rewrite seq_length in H1.
    destruct (split_shape p (range_string (n_surface p)) 0) as [S1 S2]. rewrite S1 in H1.
    rewrite range_string_offsets, map_length, seq_length in H1. unfold short in Hp. change (rune_count (n_surface p)) with (rcount (n_surface p)) in Hp.
    split; [lia|]. apply Forall_forall. intros y Hy. destruct (H2 _ Hy) as (x & _ & Hx). rewrite Forall_forall in S2. apply S2.
    unfold index in Hx. destruct (nth_error _ _) as [z|] eqn:Ez; [|discriminate]. injection Hx as <-. exact (nth_error_In _ _ Ez).
Qed.
Lemma walk_within la f : (forall i j nd, get2 la i j = Ok nd -> short nd) -> forall p out, short p -> Forall short out ->
  within (t_walk f m la p out) (f * (1 + (L + L + L))) (fun o => length o <= length out + f * (1 + L) /\ Forall short o).
Proof.
  intros Hg. induction f as [|f IH]; intros p out Hp Ho; cbn [t_walk].
  - split; [cbn; lia|discriminate].
  - eapply within_bind with (c2 := f * (1 + (L + L + L))); [|apply output_within; exact Hp|]; [lia|].
    intros o [Lo So]. assert (Sa : Forall short (out ++ o)) by (apply Forall_app; auto).
    destruct (n_prev p) as [[i j]|].
    + eapply within_bind0; [apply within_free; intros a Ha; exact (Hg _ _ _ Ha)|]. intros q Hq. cbv beta in Hq.
      eapply within_weaken; [reflexivity| |apply IH; [exact Hq|exact Sa]]. intros a [H1 H2]. rewrite app_length in H1. split; [lia|exact H2].
    + apply within_ok. rewrite app_length. split; [lia|exact Sa].
Qed.
Lemma tokens_within t out : Forall short out -> within (t_analyze_tokens t out) (length out * (1 + L)) (fun _ => True).
Proof.
  intros Ho. unfold t_analyze_tokens. rewrite <- (seq_length (length out) 0) at 2. apply within_fold; [|exact I]. intros ts i _ _.
  eapply within_bind0; [ |].
  { apply within_free. intros nd H. unfold index in H. destruct (nth_error _ _) as [z|] eqn:Ez; [|discriminate]. injection H as <-.
    rewrite Forall_forall in Ho. exact (Ho _ (nth_error_In _ _ Ez)). }
  intros nd Hnd. cbv beta in Hnd. unfold short in Hnd. apply within_charge; [lia|]. apply within_free. auto.
Qed.
End Whole.

Definition work_rate (K V L : nat) : nat :=
  let B := K + 2 * V in
  let M := 1 + L * B in
  (6 + (B + 1) * (2 + L)) + (1 + (2 + B) * (1 + M * (1 + (L + L)))) + 3 * (1 + (L + L + L)) + (2 + (2 + B) + 3 * (1 + L)) + 3 * (1 + L) * (1 + L).

Theorem analyze_work d u K V L ideo omit inp mode : wf_dict d -> wf_udict u -> words_bound d u K V -> length_bound d u L ->
  steps (t_analyze ideo (Tokenizer d u omit) inp mode) <= (rcount inp + 1) * work_rate K V L.
Proof.
  intros Hd Hu Hw Hl. set (n := rcount inp). unfold t_analyze. cbn [tk_dict tk_udict].
  destruct (build_sized Hd Hu Hw Hl inp) as (la0 & E0 & S0 & C0).
  set (B := K + 2 * V) in *. set (M := 1 + L * B) in *.
  cut (within (let+ la := t_build d u inp in let+ la1 := t_forward d ideo (to_lmode mode) la in
      let+ out := t_backward (to_lmode mode) la1 in charge (free_steps la1 out) (t_analyze_tokens (Tokenizer d u omit) out))
    ((n + 1) * work_rate K V L) (fun _ => True)); [intros [H _]; exact H|].
  set (r1 := 6 + (B + 1) * (2 + L)) in *. set (r2 := 1 + (2 + B) * (1 + M * (1 + (L + L)))). set (r3 := 3 * (1 + (L + L + L))).
  set (r4 := 2 + (2 + B) + 3 * (1 + L)). set (r5 := 3 * (1 + L) * (1 + L)).
  assert (Rate : (n + 1) * work_rate K V L = (n + 1) * r1 + ((n + 1) * r2 + ((n + 1) * r3 + ((n + 1) * r4 + (n + 1) * r5)))).
  { change (work_rate K V L) with (r1 + r2 + r3 + r4 + r5). clearbody r1 r2 r3 r4 r5. rewrite !Nat.mul_add_distr_l. lia. }
  rewrite Rate. clear Rate.
  eapply (@within_bind _ _ _ _ _ _ _ (fun la => la = la0) _ (le_n _)).
  { split; [exact C0|]. intros a Ha. rewrite same_build in Ha. congruence. }
  intros la ->.
  eapply (@within_bind _ _ _ _ _ _ _ (same_shape la0) _ (le_n _)); [exact (forward_within d ideo (to_lmode mode) S0)|].
  intros la1 I1.
  assert (Len1 : length la1 = n + 2) by (destruct I1 as [I1 _]; rewrite I1; exact (s_len S0)).
  eapply (@within_bind _ _ _ _ _ _ _ (fun out => length out <= (n + 3) * (1 + L) /\ Forall (short L) out) _ (le_n _)).
  { unfold t_backward. rewrite Len1. replace (n + 2) with (S (n + 1)) by lia. cbv iota.
    eapply within_bind0; [apply within_free; intros a Ha; exact (shape_short S0 I1 Ha)|]. intros p Hp. cbv beta in Hp.
    eapply within_weaken; [| |apply (@walk_within d u K V L Hl inp (to_lmode mode) la1); [intros i j nd Hg; exact (shape_short S0 I1 Hg)|exact Hp|constructor]].
    - replace (S (S (n + 1))) with (n + 3) by lia. unfold r3. rewrite (Nat.mul_assoc (n + 1)). apply Nat.mul_le_mono_r. lia.
    - intros o [H1 H2]. split; [cbn [length] in H1; replace (S (S (n + 1))) with (n + 3) in H1 by lia; lia|exact H2]. }
  intros out [Lo So]. unfold free_steps. rewrite Len1.
  assert (Nodes : length (concat la1) <= 2 + n * B).
  { rewrite concat_length, (proj1 I1). rewrite <- (map_ext (fun p => length (nth p la0 []))); [|intros p; symmetry; apply (shape_length p I1)].
    rewrite <- concat_length. exact (s_all S0). }
  assert (Three : (n + 3) * (1 + L) <= (n + 1) * (3 * (1 + L))).
  { replace ((n + 1) * (3 * (1 + L))) with ((n + 1) * 3 * (1 + L)) by (rewrite Nat.mul_assoc; reflexivity). apply Nat.mul_le_mono_r. lia. }
  assert (Lo2 : length out <= (n + 1) * (3 * (1 + L))) by lia. clear Three.
  assert (Lo3 : length out * (1 + L) <= (n + 1) * (3 * (1 + L) * (1 + L))).
  { rewrite Nat.mul_assoc. apply Nat.mul_le_mono_r. exact Lo2. }
  assert (NB : n * B <= (n + 1) * B) by (apply Nat.mul_le_mono_r; lia).
  assert (Fr : n + 2 + length (concat la1) + length out <= (n + 1) * (2 + (2 + B) + 3 * (1 + L))).
  { rewrite !(Nat.mul_add_distr_l (n + 1) _ (3 * (1 + L))), !(Nat.mul_add_distr_l (n + 1) 2). lia. }
  fold r4 in Fr. fold r5 in Lo3. clearbody r4 r5.
  apply within_charge; [lia|].
  eapply within_weaken; [|intros a Ha; exact Ha|apply (@tokens_within K V L inp); exact So].
  lia.
Qed.

(** ** Every dictionary has bounds *)
Theorem has_bounds d u : wf_dict d -> exists K V L, words_bound d u K V /\ length_bound d u L.
Proof.
  intros Hd. set (ui := match u with Some ud => u_index ud | None => [] end).
  exists (length (d_index d) + length ui), (length (d_unk_morphs d)), (N.to_nat 1024 + list_max (map (fun e => rune_count (fst e)) (d_index d ++ ui))).
  assert (Mx : forall e, In e (d_index d ++ ui) -> rune_count (fst e) <= list_max (map (fun e => rune_count (fst e)) (d_index d ++ ui))).
  { intros e He. pose proof (proj1 (list_max_le (map (fun e => rune_count (fst e)) (d_index d ++ ui)) _) (le_n _)) as F. rewrite Forall_forall in F.
    apply F. apply in_map_iff. exists e. auto. }
  split; [split; [|split]|split; [|split]].
  - intros s. pose proof (filter_length (begins s) (d_index d)). lia.
  - unfold ui. destruct u as [ud|]; [|exact I]. intros s. pose proof (filter_length (begins s) (u_index ud)). lia.
  - intros r. pose proof (wf_unk Hd r). cbv zeta in H. lia.
  - lia.
  - intros key id Hin. specialize (Mx (key, id)). cbn [fst] in Mx. rewrite in_app_iff in Mx. specialize (Mx (or_introl Hin)). lia.
  - unfold ui in *. destruct u as [ud|]; [|exact I]. intros key id Hin. specialize (Mx (key, id)). cbn [fst] in Mx. rewrite in_app_iff in Mx. specialize (Mx (or_intror Hin)). lia.
Qed.
Theorem analyze_linear d u : wf_dict d -> wf_udict u -> exists a, forall ideo omit inp mode,
  steps (t_analyze ideo (Tokenizer d u omit) inp mode) <= a * (rcount inp + 1).
Proof.
  intros Hd Hu. destruct (has_bounds u Hd) as (K & V & L & Hw & Hl). exists (work_rate K V L). intros ideo omit inp mode.
  rewrite Nat.mul_comm. apply analyze_work; assumption.
Qed.
Theorem build_nodes d u K V inp la : wf_dict d -> wf_udict u -> words_bound d u K V -> build d u inp = Ok la ->
  length (concat la) <= 2 + rcount inp * (K + 2 * V).
Proof.
  intros Hd Hu Hw E. destruct (has_bounds u Hd) as (_ & _ & L & _ & Hl). destruct (build_sized Hd Hu Hw Hl inp) as (la' & E' & S & _).
  assert (la' = la) by congruence. subst la'. exact (s_all S).
Qed.
