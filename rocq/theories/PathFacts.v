(** Backward: the walk ends; as long as costs fit in 32 bits it yields a cheapest segmentation. *)
From Verif Require Export ForwardFacts.
From Coq Require Import ZifyBool ZifyNat ZifyN.
Set Implicit Arguments.
Unset Strict Implicit.
Open Scope nat_scope.

(** A node without its cost and predecessor. *)
Definition core (t : node) : node := set_cost_prev 0 None t.

Lemma core_set c p t : core (set_cost_prev c p t) = core t.
Proof. reflexivity. Qed.

Lemma core_node_of d inp w : core (node_of d inp w) = node_of d inp w.
Proof. reflexivity. Qed.

(** Following predecessors from t gives the list l. *)
Inductive back (la : table) : node -> list node -> Prop :=
| back_end t : n_prev t = None -> back la t [t]
| back_step t i j q l : n_prev t = Some (i, j) -> get2 la i j = Ok q -> back la q l -> back la t (t :: l).

(** What Backward emits for a node, as a function. *)
Definition output_fun (m : lmode) (p : node) : list node :=
  match m, n_class p with
  | LExtended, UNKNOWN => rev (split_from p 0 (range_string (n_surface p)))
  | _, _ => [p]
  end.

Lemma mapM_index_rev {A} (l : list A) : mapM (fun j => index l (length l - 1 - j)) (seq 0 (length l)) = Ok (rev l).
Proof.
  assert (G : forall (f : nat -> res A) k a ys, (forall x, x < k -> f (a + x) = index ys x) -> length ys = k ->
     mapM f (seq a k) = Ok ys).
  { intros f k. induction k as [|k IH]; intros a ys H Hl; cbn [seq mapM].
    - destruct ys; [reflexivity|discriminate].
    - destruct ys as [|y ys]; [discriminate|].
      assert (E := H 0). rewrite Nat.add_0_r in E. rewrite E by lia. cbn [index nth_error rbind].
      rewrite (IH (S a) ys).
      + reflexivity.
      + intros x Hx. specialize (H (S x)). replace (a + S x) with (S a + x) in H by lia. apply H. lia.
      + cbn in Hl. lia. }
  apply G; [|apply rev_length]. intros x Hx. unfold index. cbn [Nat.add].
  assert (E : nth_error (rev l) x = nth_error l (length l - 1 - x)); [|rewrite E; reflexivity].
  assert (Hd : exists dflt : A, True) by (destruct l as [|a l]; [cbn in Hx; lia|exists a; trivial]).
  destruct Hd as [dflt _].
  rewrite (nth_error_nth' (rev l) dflt) by (rewrite rev_length; lia).
  rewrite (nth_error_nth' l dflt) by lia. f_equal. rewrite rev_nth by lia. f_equal. lia.
Qed.

Lemma split_from_length p l : forall i, length (split_from p i l) = length l.
Proof. induction l as [|[k r] l IH]; intros i; cbn; auto. Qed.

Lemma range_from_length l : forall k, length (range_from k l) = length l.
Proof. induction l as [|[r b] l IH]; intros k; cbn; auto. Qed.

Lemma output_of_ok m p : output_of m p = Ok (output_fun m p).
Proof.
  unfold output_of, output_fun. destruct m; try reflexivity. destruct (n_class p); try reflexivity.
  set (st := split_from p 0 (range_string (n_surface p))).
  assert (L : rune_count (n_surface p) = length st).
  { unfold st. rewrite split_from_length. unfold range_string, rune_count. rewrite range_from_length. reflexivity. }
  rewrite L. apply mapM_index_rev.
Qed.

Lemma walk_back m la t l : back la t l -> forall fuel out, length l <= fuel ->
  walk fuel m la t out = Ok (out ++ flat_map (output_fun m) l).
Proof.
  induction 1 as [t Hp|t i j q l Hp Hg Hb IH]; intros fuel out Hf.
  - destruct fuel as [|f]; [cbn in Hf; lia|]. cbn [walk]. rewrite output_of_ok. cbn [rbind]. rewrite Hp.
    cbn [flat_map]. rewrite app_nil_r. reflexivity.
  - destruct fuel as [|f]; [cbn in Hf; lia|]. cbn [walk]. rewrite output_of_ok. cbn [rbind]. rewrite Hp, Hg. cbn [rbind].
    rewrite IH by (cbn in Hf; lia). cbn [flat_map]. rewrite app_assoc. reflexivity.
Qed.

Lemma Forall2_nth {A B} (R : A -> B -> Prop) l l' j y : Forall2 R l l' -> nth_error l' j = Some y ->
  exists x, nth_error l j = Some x /\ R x y.
Proof.
  intros F; revert j; induction F as [|a b l l' Hab F IH]; intros [|j] H; cbn in *; try discriminate.
  - injection H as <-. eauto.
  - apply IH. assumption.
Qed.

Lemma Forall2_nth_l {A B} (R : A -> B -> Prop) l l' j x : Forall2 R l l' -> nth_error l j = Some x ->
  exists y, nth_error l' j = Some y /\ R x y.
Proof.
  intros F; revert j; induction F as [|a b l l' Hab F IH]; intros [|j] H; cbn in *; try discriminate.
  - injection H as <-. eauto.
  - apply IH. assumption.
Qed.

(** ** Sums along chains *)
Section Sum.
Variables (m : lmode) (ideo : N -> bool) (d : dict) (inp : bytes).

Definition word_cost (c : node_class) (e : morph) (w : word) : Z :=
  (connection d c e (w_class w) (entry d (w_class w) (w_id w)) + m_weight (entry d (w_class w) (w_id w)) +
   penalty m ideo inp w)%Z.

Fixpoint sum_from (c : node_class) (e : morph) (ws : list word) : Z :=
  match ws with
  | [] => 0%Z
  | w :: ws' => (word_cost c e w + sum_from (w_class w) (entry d (w_class w) (w_id w)) ws')%Z
  end.

(** Class and entry of the last word (BOS if none). *)
Fixpoint last_from (c : node_class) (e : morph) (ws : list word) : node_class * morph :=
  match ws with
  | [] => (c, e)
  | w :: ws' => last_from (w_class w) (entry d (w_class w) (w_id w)) ws'
  end.

Lemma sum_from_snoc ws w : forall c e, sum_from c e (ws ++ [w]) =
  (sum_from c e ws + word_cost (fst (last_from c e ws)) (snd (last_from c e ws)) w)%Z.
Proof.
  induction ws as [|x ws IH]; intros c e; cbn [app sum_from last_from fst snd]; [lia|]. rewrite IH. lia.
Qed.

Lemma last_from_snoc ws w : forall c e, last_from c e (ws ++ [w]) = (w_class w, entry d (w_class w) (w_id w)).
Proof. induction ws as [|x ws IH]; intros c e; cbn [app last_from]; [reflexivity|apply IH]. Qed.

Lemma cost_from_sum ws : forall c e, cost_from m ideo d inp c e ws =
  (sum_from c e ws + connection d (fst (last_from c e ws)) (snd (last_from c e ws)) DUMMY zero_morph)%Z.
Proof.
  induction ws as [|x ws IH]; intros c e; cbn [cost_from sum_from last_from fst snd]; [lia|].
  rewrite IH. unfold word_cost. lia.
Qed.

Definition sum ws := sum_from DUMMY zero_morph ws.
Definition last_ce ws := last_from DUMMY zero_morph ws.
End Sum.

Lemma chain_snoc d u inp i ws j w : chain d u inp i ws j -> candidate d u inp w -> w_start w = j ->
  chain d u inp i (ws ++ [w]) (w_stop w).
Proof.
  induction 1 as [i|w0 ws j Hc Hch IH]; intros Hw Hs; cbn [app].
  - subst. constructor; [assumption|constructor].
  - constructor; auto.
Qed.

Lemma chain_inv_snoc d u inp i ws j w : chain d u inp i (ws ++ [w]) j ->
  chain d u inp i ws (w_start w) /\ candidate d u inp w /\ w_stop w = j.
Proof.
  revert i; induction ws as [|x ws IH]; intros i H; cbn [app] in H.
  - inversion H as [|w0 ws0 j0 Hc Hch]; subst. inversion Hch; subst. repeat split; auto. constructor.
  - inversion H as [|w0 ws0 j0 Hc Hch]; subst. destruct (IH _ Hch) as (H1 & H2 & H3).
    repeat split; auto. constructor; assumption.
Qed.

Lemma chain_le d u inp i ws j : chain d u inp i ws j -> i <= rcount inp -> i <= j <= rcount inp.
Proof.
  induction 1 as [i|w ws j Hc Hch IH]; intros Hi; [lia|]. pose proof (candidate_range Hc). lia.
Qed.

Lemma wrap32_id x : (-2147483648 <= x < 2147483648)%Z -> wrap32 x = x.
Proof. intros H. unfold wrap32. rewrite Z.mod_small by lia. lia. Qed.

Section Path.
Variables (d : dict) (u : option udict) (inp : bytes) (ideo : ideographic) (m : lmode).
Hypothesis Hd : wf_dict d.
Hypothesis Hu : wf_udict u.
Let n := rcount inp.
Variables la la' : table.
Hypothesis Hb : built d u inp la.
Hypothesis Hf : forwarded d ideo m la la'.

Lemma candidate_id w : candidate d u inp w -> id_ok d (w_class w) (w_id w).
Proof.
  intros H. destruct H as [ud id i j Eu Hk|id i j Hn Hk|id i j e Hn Hor He Hj Hid]; cbn [w_class w_id id_ok]; trivial.
  - destruct Hk as [_ Hk]. apply (wf_idx Hd _ _ Hk).
  - pose proof (wf_unk Hd (rune_at inp i)) as W. cbv zeta in W. unfold cat in Hid. lia.
Qed.

Lemma entry_wf : exists rows, (0 < rows /\ 0 < d_conn_col d /\ Z.of_nat (length (d_conn_vec d)) = rows * d_conn_col d)%Z /\
  (forall c id, id_ok d c id -> wf_morph rows (d_conn_col d) (entry d c id)).
Proof.
  destruct (wf_conn Hd) as (rows & H1 & H2 & H3 & H4 & H5). exists rows. split; [auto|].
  intros c id Hid. unfold entry, id_ok in *.
  assert (Z0 : wf_morph rows (d_conn_col d) zero_morph) by (unfold wf_morph, int16; cbn; lia).
  destruct c; try exact Z0.
  - apply H4. apply nth_In. lia.
  - apply H5. apply nth_In. lia.
Qed.

Lemma entry16 c id : id_ok d c id -> int16 (m_weight (entry d c id)).
Proof. destruct entry_wf as (rows & _ & H). intros Hid. apply (H _ _ Hid). Qed.

Lemma connection16 c1 e1 c2 e2 : int16 (connection d c1 e1 c2 e2).
Proof.
  assert (N0 : forall k, int16 (nth k (d_conn_vec d) 0%Z)).
  { intros k. destruct (Nat.lt_ge_cases k (length (d_conn_vec d))).
    - apply (wf_conn16 Hd). apply nth_In. assumption.
    - rewrite nth_overflow by assumption. unfold int16. lia. }
  unfold connection. destruct c1, c2; first [apply N0|unfold int16; lia].
Qed.

(** All nodes of the built lattice. *)
Lemma built_node i t : In t (nth i la []) ->
  (i = 0 /\ t = bos_node) \/ (i = S n /\ t = eos_node inp) \/
  (0 < i <= n /\ exists w, candidate d u inp w /\ w_stop w = i /\ t = node_of d inp w).
Proof.
  intros H. destruct (Nat.eq_dec i 0) as [->|H0].
  - left. rewrite (b_bos Hb) in H. destruct H as [<-|[]]. auto.
  - destruct (Nat.eq_dec i (S n)) as [->|H1].
    + right. left. unfold n in H. rewrite (b_eos Hb) in H. destruct H as [<-|[]]. auto.
    + right. right. destruct (Nat.lt_ge_cases n i).
      * rewrite nth_overflow in H; [contradiction|]. rewrite (b_len Hb). fold n. lia.
      * split; [lia|]. apply (b_mid Hb); [fold n; lia|assumption].
Qed.

Lemma built_start i t : 0 < i -> In t (nth i la []) -> n_start t < i /\ n_start t <= n.
Proof.
  intros Hi H. destruct (built_node H) as [[-> _]|[[-> ->]|(Hr & w & Hc & <- & ->)]]; [lia|cbn; fold n; lia|].
  cbn. pose proof (candidate_range Hc). fold n in H0. lia.
Qed.

(** Nodes after Forward. *)
Lemma fw_node i j t' : 0 < i < n + 2 -> nth_error (nth i la' []) j = Some t' ->
  exists t, In t (nth i la []) /\ n_prev t = None /\ relaxed d ideo m la' t t'.
Proof.
  intros Hi H. assert (F := fw_step Hf (i := i)). rewrite (b_len Hb) in F. specialize (F Hi).
  destruct (Forall2_nth F H) as (t & Ht & Hr). apply nth_error_In in Ht. exists t. repeat split; try assumption.
  destruct (built_node Ht) as [[-> ->]|[[-> ->]|(_ & w & _ & _ & ->)]]; reflexivity.
Qed.

Lemma get2_la' s j p : s < n + 2 -> nth_error (nth s la' []) j = Some p -> get2 la' s j = Ok p.
Proof.
  intros Hs H. eapply get2_nth; [|exact H]. apply nth_error_nth'. rewrite (fw_len Hf), (b_len Hb). exact Hs.
Qed.

(** The walk from any node ends. *)
Lemma back_exists i : i < n + 2 -> forall j t', nth_error (nth i la' []) j = Some t' ->
  exists l, back la' t' l /\ length l <= S i.
Proof.
  induction i as [i IH] using lt_wf_ind. intros Hi j t' H.
  destruct (Nat.eq_dec i 0) as [->|H0].
  - rewrite (fw_0 Hf), (b_bos Hb) in H. destruct j as [|j]; [|destruct j; discriminate]. injection H as <-.
    exists [bos_node]. split; [constructor; reflexivity|cbn; lia].
  - destruct (@fw_node i j t') as (t & Ht & Hpn & Hr); [lia|assumption|].
    destruct (@built_start i t) as [Hs1 Hs2]; [lia|assumption|].
    destruct Hr as [[_ ->]|(j0 & p & Hp & _ & ->)].
    + eexists. split; [apply back_end; exact Hpn|cbn; lia].
    + destruct (IH (n_start t) Hs1 ltac:(lia) j0 p Hp) as (l & Hl & Hlen).
      exists (set_cost_prev (new_cost d ideo m p t) (Some (n_start t, j0)) t :: l). split; [|cbn; lia].
      eapply back_step; [reflexivity| |exact Hl]. apply get2_la'; [lia|assumption].
Qed.

(** ** Reachable positions *)
Definition reach (s : nat) : Prop := exists ws, chain d u inp 0 ws s.

Fixpoint reachf (fuel s : nat) : bool :=
  match fuel with
  | O => false
  | S f => (s =? 0) || existsb (fun t => (n_start t <? s) && reachf f (n_start t)) (nth s la [])
  end.
Definition reachb (s : nat) : bool := reachf (S s) s.

Lemma reachf_ok : forall f s, s <= n -> s < f -> reachf f s = true <-> reach s.
Proof.
  induction f as [|f IH]; intros s Hs Hf'; [lia|]. cbn [reachf]. destruct (Nat.eqb_spec s 0) as [->|H0]; cbn [orb].
  - split; [|reflexivity]. intros _. exists []. constructor.
  - rewrite existsb_exists. split.
    + intros (t & Ht & E). apply andb_true_iff in E. destruct E as [E1 E2].
      destruct (built_node Ht) as [[? _]|[[? _]|(_ & w & Hc & Hst & ->)]]; [lia|lia|].
      cbn [node_of n_start] in *. apply IH in E2; [|lia|lia]. destruct E2 as (ws & Hws).
      exists (ws ++ [w]). rewrite <- Hst. apply (chain_snoc Hws Hc). reflexivity.
    + intros (ws & Hws). destruct ws as [|w ws _] using rev_ind; [inversion Hws; lia|].
      apply chain_inv_snoc in Hws. destruct Hws as (Hch & Hc & Hst). pose proof (candidate_range Hc) as R.
      exists (node_of d inp w). split; [apply (b_mid Hb); [fold n; lia|]; exists w; auto|].
      cbn [node_of n_start]. apply andb_true_iff. split; [lia|]. apply IH; [lia|lia|]. exists ws. exact Hch.
Qed.
Lemma reachb_ok s : s <= n -> reachb s = true <-> reach s.
Proof. intros H. apply reachf_ok; lia. Qed.

(** Reachable positions among 1..s, and unreachable ones among 1..s-1. *)
Fixpoint nreach (s : nat) : nat := match s with O => 0 | S s' => nreach s' + (if reachb s then 1 else 0) end.
Fixpoint ngap (s : nat) : nat :=
  match s with O => 0 | S s' => ngap s' + (if (0 <? s') && negb (reachb s') then 1 else 0) end.

Lemma nreach_le s s' : s <= s' -> nreach s <= nreach s'.
Proof. induction 1; [lia|]. cbn [nreach]. lia. Qed.
Lemma nreach_lt s s' : s < s' -> reachb s' = true -> S (nreach s) <= nreach s'.
Proof. intros H R. destruct s' as [|x]; [lia|]. cbn [nreach]. rewrite R. pose proof (@nreach_le s x). lia. Qed.
Lemma ngap_le s s' : s <= s' -> ngap s <= ngap s'.
Proof. induction 1; [lia|]. cbn [ngap]. destruct ((0 <? _) && _); lia. Qed.
Lemma ngap_lt s s' : 0 < s < s' -> reachb s = false -> S (ngap s) <= ngap s'.
Proof.
  intros H R. pose proof (@ngap_le (S s) s' ltac:(lia)) as L. cbn [ngap] in L. rewrite R in L.
  replace (0 <? s) with true in L by (symmetry; apply Nat.ltb_lt; lia). cbn [negb andb] in L. lia.
Qed.
Lemma reach_gap_le s : nreach s + ngap s <= s.
Proof.
  assert (G : forall s, nreach s + ngap s + (if (0 <? s) && negb (reachb s) then 1 else 0) <= s).
  { clear. induction s as [|s IH]; [cbn; lia|]. cbn [nreach ngap]. change (0 <? S s) with true. cbn [andb].
    destruct ((0 <? s) && negb (reachb s)); destruct (reachb (S s)); cbn [negb]; lia. }
  specialize (G s). lia.
Qed.

Lemma all_reach : n <= nreach n -> forall k, 0 < k < n -> exists w, candidate d u inp w /\ w_stop w = k.
Proof.
  intros H k Hk. pose proof (reach_gap_le n). destruct (reachb k) eqn:E.
  - apply reachb_ok in E; [|lia]. destruct E as (ws & Hws). destruct ws as [|w ws _] using rev_ind; [inversion Hws; lia|].
    apply chain_inv_snoc in Hws. exists w. tauto.
  - pose proof (@ngap_lt k n ltac:(lia) E). lia.
Qed.
Lemma nreach_bound s : nreach s <= s.
Proof. pose proof (reach_gap_le s). lia. Qed.

(** ** Costs that fit *)
Definition limit : Z := match m with LNormal => 32768 | _ => 31333 end.
Definition pen1 : Z := match m with LNormal => 0 | _ => 3000 end.
Hypothesis Hlen : (Z.of_nat n <= limit)%Z.
Hypothesis Hreach : (Z.of_nat (nreach n) <= 32767)%Z.
Lemma Hlen2 : (Z.of_nat n <= 32768 /\ (65536 + pen1) * Z.of_nat n <= 2147483648 /\ (65534 + pen1) * Z.of_nat n <= 2147483647 - 65534 /\ 0 <= pen1)%Z.
Proof. unfold limit, pen1 in *. destruct m; lia. Qed.

Definition lastc ws := connection d (fst (last_ce d ws)) (snd (last_ce d ws)).
Definition sumc ws := sum m ideo d inp ws.

Lemma penalty_bounds w : candidate d u inp w ->
  (0 <= penalty m ideo inp w <= pen1 * Z.of_nat (w_stop w - w_start w))%Z.
Proof.
  intros H. pose proof (candidate_range H). unfold penalty, length_penalty, pen1.
  destruct m; try lia; destruct (_ && _) eqn:E; try lia; destruct (Z.ltb_spec 7 (Z.of_nat (w_stop w - w_start w))); lia.
Qed.

Lemma word_cost_bounds c e w : candidate d u inp w ->
  (-65536 <= word_cost m ideo d inp c e w <= 65534 + pen1 * Z.of_nat (w_stop w - w_start w))%Z.
Proof.
  intros H. unfold word_cost. pose proof (connection16 c e (w_class w) (entry d (w_class w) (w_id w))) as C.
  pose proof (entry16 (candidate_id H)) as W. pose proof (penalty_bounds H). unfold int16 in *. lia.
Qed.

Lemma sum_bounds i ws j c e : chain d u inp i ws j -> reach i -> i <= n ->
  (sum_from m ideo d inp c e ws <= 65534 * (Z.of_nat (nreach j) - Z.of_nat (nreach i)) + pen1 * (Z.of_nat j - Z.of_nat i))%Z.
Proof.
  intros H; revert c e; induction H as [i|w ws j Hc Hch IH]; intros c e Hi Hn; cbn [sum_from]; [lia|].
  pose proof (candidate_range Hc) as R. fold n in R.
  pose proof (word_cost_bounds c e Hc) as B.
  assert (Hr : reach (w_stop w)) by (destruct Hi as (ws0 & H0); exists (ws0 ++ [w]); apply (chain_snoc H0 Hc); reflexivity).
  pose proof (IH (w_class w) (entry d (w_class w) (w_id w)) Hr ltac:(lia)) as B2.
  pose proof (@nreach_lt (w_start w) (w_stop w) ltac:(lia) (proj2 (reachb_ok (proj2 R)) Hr)) as L. unfold pen1 in *. destruct m; lia.
Qed.
Lemma reach_0 : reach 0. Proof. exists []. constructor. Qed.
Lemma sum_upper ws s : chain d u inp 0 ws s -> (sumc ws <= 65534 * Z.of_nat (nreach s) + pen1 * Z.of_nat s)%Z.
Proof. intros H. pose proof (@sum_bounds 0 ws s DUMMY zero_morph H reach_0 ltac:(lia)) as B. unfold sumc, sum. cbn [nreach] in B. lia. Qed.

(** Search-mode penalty of a node is that of its word. *)
Lemma node_penalty_word w : candidate d u inp w ->
  node_penalty m ideo (node_of d inp w) = penalty m ideo inp w.
Proof.
  intros H. pose proof (candidate_range H) as R. fold n in R.
  unfold node_penalty, penalty.
  assert (E : additional_cost ideo (surface_of d inp w) = length_penalty ideo inp w).
  { unfold surface_of. destruct (odd_b d inp w) eqn:Ho.
    - assert (Hst : w_stop w = S (w_start w)).
      { unfold odd_b in Ho. destruct H as [ud id i j Eu Hk|id i j Hn Hk|id i j e Hn Hor He Hj Hid]; cbn [w_class w_start w_stop] in *; try discriminate.
        apply andb_true_iff in Ho. destruct Ho as [_ Ho]. destruct He as [_ He].
        destruct (groups d (cat d inp i)); [discriminate|]. lia. }
      unfold length_penalty. rewrite Hst. replace (S (w_start w) - w_start w) with 1 by lia.
      cbn. reflexivity.
    - unfold additional_cost, length_penalty, word_text. rewrite text_rcount by (fold n; lia).
      unfold kanji_length, other_length, kanji_penalty, other_penalty, kanji_only.
      rewrite text_segs by (fold n; lia).
      assert (Hne : length (text inp (w_start w) (w_stop w)) =? 0 = false).
      { apply Nat.eqb_neq. intros C. apply length_zero_iff_nil in C. revert C. apply text_pos. fold n. lia. }
      rewrite Hne. cbn [negb]. rewrite andb_true_r.
      destruct ((2 <? Z.of_nat (w_stop w - w_start w))%Z && _); [lia|].
      destruct (7 <? Z.of_nat (w_stop w - w_start w))%Z; lia. }
  destruct m; [reflexivity|exact E|exact E].
Qed.

Lemma penalty_core t t' : core t = core t' -> node_penalty m ideo t = node_penalty m ideo t'.
Proof.
  intros E. unfold node_penalty. destruct m; [reflexivity| |]; f_equal;
  apply (f_equal n_surface) in E; exact E.
Qed.

(** State of a node [p] in list [s]: it carries the cost of a chain ending with it, or it is
    unreachable and very expensive. *)
Definition good (s : nat) (p : node) : Prop :=
  (-65536 * Z.of_nat (nreach s) <= n_cost p)%Z /\
  ((exists ws l, chain d u inp 0 ws s /\ (n_cost p + node_penalty m ideo p = sumc ws)%Z /\
      (n_class p, node_entry p) = last_ce d ws /\
      back la' p l /\ map core l = rev (map (node_of d inp) ws) ++ [bos_node]) \/
   1 <= ngap s /\ (maximum_cost - 65536 * (Z.of_nat (ngap s) - 1) <= n_cost p)%Z).

Definition minimal (s : nat) : Prop :=
  forall ws, chain d u inp 0 ws s -> exists j p, nth_error (nth s la' []) j = Some p /\
    (n_class p, node_entry p) = last_ce d ws /\ (n_cost p + node_penalty m ideo p <= sumc ws)%Z.

Lemma node_penalty_nonneg p : (0 <= node_penalty m ideo p)%Z.
Proof.
  unfold node_penalty, additional_cost, kanji_length, other_length, kanji_penalty, other_penalty.
  destruct m; try lia; destruct (_ && _) eqn:E; try lia;
  destruct (Z.ltb_spec 7 (Z.of_nat (rune_count (n_surface p)))); lia.
Qed.

(** One relaxation. *)
Lemma target_cost s t t' : n_start t = s -> s <= n -> int16 (n_weight t) -> n_prev t = None ->
  relaxed d ideo m la' t t' ->
  (forall j p, nth_error (nth s la' []) j = Some p -> good s p) -> minimal s ->
  (-65536 * (Z.of_nat (nreach s) + 1) <= n_cost t')%Z /\
  ((exists ws l, chain d u inp 0 ws s /\
      n_cost t' = (sumc ws + lastc ws (n_class t) (node_entry t) + n_weight t)%Z /\
      back la' t' (t' :: l) /\ map core l = rev (map (node_of d inp) ws) ++ [bos_node]) \/
   ~ reach s /\ (maximum_cost - 65536 * Z.of_nat (ngap s) <= n_cost t')%Z) /\
  (forall ws, chain d u inp 0 ws s -> (n_cost t' <= sumc ws + lastc ws (n_class t) (node_entry t) + n_weight t)%Z).
Proof.
  intros Hs Hsn Hw Hpn Hr Hgood Hmin. unfold int16 in Hw. unfold maximum_cost in *. pose proof Hlen2 as HL.
  pose proof (nreach_le Hsn) as HR.
  destruct Hr as [[Hempty ->]|(j & p & Hp & Hbest & ->)].
  - (* no predecessor *)
    assert (Hno : forall ws, ~ chain d u inp 0 ws s).
    { intros ws Hch. destruct (Hmin ws Hch) as (j & p & Hj & _). rewrite Hs in Hempty. rewrite Hempty in Hj.
      destruct j; discriminate. }
    cbn [n_cost set_cost_prev]. unfold maximum_cost. split; [lia|]. split.
    + right. split; [intros (ws & Hws); exact (Hno _ Hws)|lia].
    + intros ws Hch. destruct (Hno _ Hch).
  - rewrite Hs in *. cbn [n_cost set_cost_prev].
    assert (Hnw : forall p0, good s p0 ->
       new_cost d ideo m p0 t = Z.min 2147483647 (step_cost d ideo m p0 t)).
    { intros p0 [G1 _]. unfold new_cost, maximum_cost. apply wrap32_id.
      pose proof (connection16 (n_class p0) (node_entry p0) (n_class t) (node_entry t)) as C. unfold int16 in C.
      pose proof (@node_penalty_nonneg p0). unfold step_cost. lia. }
    assert (Gp := Hgood _ _ Hp). rewrite (Hnw p Gp).
    pose proof (connection16 (n_class p) (node_entry p) (n_class t) (node_entry t)) as C. unfold int16 in C.
    pose proof (@node_penalty_nonneg p) as Pn.
    assert (Hstep : step_cost d ideo m p t = (connection d (n_class p) (node_entry p) (n_class t) (node_entry t) + n_weight t + n_cost p + node_penalty m ideo p)%Z) by reflexivity.
    pose proof (reach_gap_le s) as RG.
    (* no chain costs too much *)
    assert (Hup : forall ws, chain d u inp 0 ws s -> (sumc ws + 65534 <= 2147483647)%Z).
    { intros ws Hch. pose proof (sum_upper Hch) as SB. clear -SB HL RG Hsn. assert ((65534 + pen1) * Z.of_nat s <= (65534 + pen1) * Z.of_nat n)%Z by (apply Z.mul_le_mono_nonneg_l; lia). lia. }
    assert (Hlt : forall ws, chain d u inp 0 ws s ->
      (Z.min 2147483647 (step_cost d ideo m p t) <= sumc ws + lastc ws (n_class t) (node_entry t) + n_weight t)%Z).
    { intros ws Hch. destruct (Hmin ws Hch) as (j' & p' & Hj' & Hl' & Hc').
      destruct Hbest as (p1 & Hp1 & Hbest). assert (p1 = p) as -> by congruence.
      destruct (Hbest _ _ Hj') as [Hle _]. rewrite (Hnw p Gp), (Hnw p' (Hgood _ _ Hj')) in Hle.
      assert (Hlc : connection d (n_class p') (node_entry p') (n_class t) (node_entry t) = lastc ws (n_class t) (node_entry t)).
      { unfold lastc. rewrite <- Hl'. reflexivity. }
      assert (step_cost d ideo m p' t <= sumc ws + lastc ws (n_class t) (node_entry t) + n_weight t)%Z.
      { unfold step_cost. lia. }
      lia. }
    split; [destruct Gp as [G1 _]; lia|]. split; [|exact Hlt].
    destruct Gp as [G1 [(ws & l & Hch & Hc & Hl & Hbk & Hcore)|[G0 G2]]].
    + left. exists ws, l. pose proof (Hup _ Hch) as SB.
      assert (Hlc : connection d (n_class p) (node_entry p) (n_class t) (node_entry t) = lastc ws (n_class t) (node_entry t)).
      { unfold lastc. rewrite <- Hl. reflexivity. }
      split; [assumption|]. split; [lia|]. split; [|assumption].
      eapply back_step; [reflexivity| |exact Hbk]. apply get2_la'; [lia|assumption].
    + right. unfold maximum_cost in G2. split; [|lia].
      intros (ws & Hch). pose proof (Hlt _ Hch) as L1. pose proof (sum_upper Hch) as SB.
      pose proof (connection16 (fst (last_ce d ws)) (snd (last_ce d ws)) (n_class t) (node_entry t)) as C2.
      unfold lastc in L1. unfold int16 in C2.
      assert (1 <= nreach s).
      { destruct s as [|x]; [cbn in G0; lia|]. cbn [nreach]. rewrite (proj2 (reachb_ok Hsn)) by (exists ws; exact Hch). lia. }
      assert ((65536 + pen1) * Z.of_nat s <= 2147483648)%Z by (clear -HL Hsn; assert ((65536 + pen1) * Z.of_nat s <= (65536 + pen1) * Z.of_nat n)%Z by (apply Z.mul_le_mono_nonneg_l; lia); lia).
      clear -SB L1 C C2 G2 RG HL Hw H H0 Hstep Pn G0. lia.
Qed.

Lemma chain_0_0 ws : chain d u inp 0 ws 0 -> ws = [].
Proof.
  destruct ws as [|w ws] using rev_ind; [reflexivity|]. intros H. apply chain_inv_snoc in H.
  destruct H as (_ & Hc & Hs). apply candidate_range in Hc. lia.
Qed.

Lemma positions_good s : s <= n ->
  (forall j p, nth_error (nth s la' []) j = Some p -> good s p) /\ minimal s.
Proof.
  induction s as [s IH] using lt_wf_ind. intros Hs.
  destruct (Nat.eq_dec s 0) as [->|H0].
  - assert (E : nth 0 la' [] = [bos_node]) by (rewrite (fw_0 Hf); apply (b_bos Hb)). split.
    + intros j p H. rewrite E in H. destruct j as [|j]; [|destruct j; discriminate]. injection H as <-.
      split; [cbn; lia|]. left. exists [], [bos_node]. repeat split; try (constructor; reflexivity).
      unfold node_penalty, additional_cost. destruct m; reflexivity.
    + intros ws H. apply chain_0_0 in H. subst. exists 0, bos_node. rewrite E. repeat split.
      unfold node_penalty, additional_cost. destruct m; cbn; lia.
  - split.
    + intros j t' Ht'. destruct (@fw_node s j t') as (t & Ht & Hpn & Hr); [lia|assumption|].
      destruct (built_node Ht) as [[? _]|[[? _]|(_ & w & Hc & Hst & ->)]]; [lia|lia|].
      pose proof (candidate_range Hc) as R. fold n in R.
      destruct (IH (w_start w)) as [IH1 IH2]; [lia|lia|].
      destruct (@target_cost (w_start w) (node_of d inp w) t') as (L & RU & _);
        [reflexivity|lia|apply entry16, candidate_id, Hc|reflexivity|exact Hr|exact IH1|exact IH2|].
      assert (Hcore : core t' = node_of d inp w).
      { destruct Hr as [[_ ->]|(j0 & p & _ & _ & ->)]; reflexivity. }
      assert (Hpen : node_penalty m ideo t' = penalty m ideo inp w).
      { rewrite <- (node_penalty_word Hc). apply penalty_core. exact Hcore. }
      destruct RU as [(ws & l & Hch & Hcost & Hbk & Hl)|[U0 U]].
      2:{ assert (Hx : reachb (w_start w) = false).
          { destruct (reachb (w_start w)) eqn:E; [|reflexivity]. destruct U0. apply reachb_ok; [fold n; lia|assumption]. }
          assert (0 < w_start w) by (destruct (w_start w); [destruct U0; apply reach_0|lia]).
          pose proof (@ngap_lt (w_start w) s ltac:(lia) Hx). pose proof (reach_gap_le (w_start w)). pose proof Hlen2.
          unfold maximum_cost in *. split; [lia|]. right. unfold maximum_cost. lia. }
      split.
      { assert (reachb s = true) by (apply reachb_ok; [lia|]; exists (ws ++ [w]); rewrite <- Hst; apply (chain_snoc Hch Hc); reflexivity).
        pose proof (@nreach_lt (w_start w) s ltac:(lia) ltac:(assumption)). lia. }
      left.
      exists (ws ++ [w]), (t' :: l). split; [rewrite <- Hst; apply (chain_snoc Hch Hc); reflexivity|].
      split.
      { unfold sumc, sum in *. rewrite sum_from_snoc, Hpen, Hcost. unfold word_cost, lastc, last_ce.
        cbn [n_class n_weight node_of]. unfold node_entry at 1. cbn [n_left n_right n_weight node_of].
        destruct (entry d (w_class w) (w_id w)); cbn. lia. }
      split.
      { unfold last_ce. rewrite last_from_snoc. assert (n_class t' = n_class (core t') /\ node_entry t' = node_entry (core t')) as [-> ->] by (split; reflexivity).
        rewrite Hcore. cbn. unfold node_entry. cbn. destruct (entry d (w_class w) (w_id w)); reflexivity. }
      split; [assumption|]. cbn [map]. rewrite Hcore, Hl, map_app, rev_app_distr. reflexivity.
    + intros ws Hch. destruct ws as [|w ws _] using rev_ind.
      { inversion Hch. lia. }
      apply chain_inv_snoc in Hch. destruct Hch as (Hch & Hc & Hst).
      pose proof (candidate_range Hc) as R. fold n in R.
      assert (Hin : In (node_of d inp w) (nth s la [])).
      { apply (b_mid Hb); [fold n; lia|]. exists w. auto. }
      apply In_nth_error in Hin. destruct Hin as (j & Hj).
      assert (F := fw_step Hf (i := s)). rewrite (b_len Hb) in F. fold n in F. specialize (F ltac:(lia)).
      destruct (Forall2_nth_l F Hj) as (t' & Hj' & Hr).
      destruct (IH (w_start w)) as [IH1 IH2]; [lia|lia|].
      destruct (@target_cost (w_start w) (node_of d inp w) t') as (_ & _ & M);
        [reflexivity|lia|apply entry16, candidate_id, Hc|reflexivity|exact Hr|exact IH1|exact IH2|].
      assert (Hcore : core t' = node_of d inp w).
      { destruct Hr as [[_ ->]|(j0 & p & _ & _ & ->)]; reflexivity. }
      exists j, t'. split; [assumption|]. split.
      { unfold last_ce. rewrite last_from_snoc. assert (n_class t' = n_class (core t') /\ node_entry t' = node_entry (core t')) as [-> ->] by (split; reflexivity).
        rewrite Hcore. cbn. unfold node_entry. cbn. destruct (entry d (w_class w) (w_id w)); reflexivity. }
      assert (Hpen : node_penalty m ideo t' = penalty m ideo inp w).
      { rewrite <- (node_penalty_word Hc). apply penalty_core. exact Hcore. }
      specialize (M ws Hch). unfold sumc, sum in *. rewrite sum_from_snoc, Hpen.
      unfold word_cost, lastc, last_ce in *. cbn [n_class n_weight node_of] in M. unfold node_entry in M at 1.
      cbn [n_left n_right n_weight node_of] in M. destruct (entry d (w_class w) (w_id w)); cbn in *. lia.
Qed.

(** Every position before the end has a candidate, so some segmentation exists. *)
Lemma candidate_exists i : i < n -> exists w, candidate d u inp w /\ w_start w = i.
Proof.
  intros Hi. destruct (@unknown_end_spec d inp Hd i Hi) as (e & He & _).
  pose proof (wf_unk Hd (rune_at inp i)) as W. cbv zeta in W. fold (cat d inp i) in W.
  assert (Hk : forall idx size, wf_index idx size -> no_keyword idx inp i \/ exists id j, keyword_at idx inp id i j).
  { intros idx size Hwf. pose proof (no_match_keyword (i := i) (inp := inp) Hwf) as NM. fold n in NM.
    destruct (common_prefix_search idx (text inp i n)) as [|[id l] ms] eqn:E.
    - left. apply NM; [lia|reflexivity].
    - right. assert (C : In (id, l) (common_prefix_search idx (text inp i n))) by (rewrite E; left; reflexivity).
      apply (match_keyword id l Hwf) in C; [|fold n; lia]. destruct C as (j & C & _). eauto. }
  assert (Hnu : no_user_keyword u inp i \/ exists ud id j, u = Some ud /\ keyword_at (u_index ud) inp id i j).
  { destruct u as [ud|] eqn:Eu; cbn [no_user_keyword]; [|left; trivial].
    destruct (Hk _ _ Hu) as [H|(id & j & H)]; [left; assumption|right; eauto 6]. }
  destruct Hnu as [Hnu|(ud & id & j & Eu & Hkw)].
  2:{ exists (Word USER id i j). split; [eapply cand_user; eassumption|reflexivity]. }
  destruct (Hk _ _ (wf_idx Hd)) as [Hnk|(id & j & Hkw)].
  - exists (Word UNKNOWN (map_get (d_unk_index d) (Z.of_nat (cat d inp i))) i e). split; [|reflexivity].
    eapply cand_unknown; try eassumption; [left; assumption|left; reflexivity|lia].
  - exists (Word KNOWN id i j). split; [apply cand_known; assumption|reflexivity].
Qed.

Lemma segmentation_from k i : i + k = n -> exists ws, chain d u inp i ws n.
Proof.
  revert i; induction k as [k IH] using lt_wf_ind. intros i Hik.
  destruct (Nat.eq_dec k 0) as [->|Hk].
  - exists []. replace n with i by lia. constructor.
  - destruct (@candidate_exists i) as (w & Hc & Hs); [lia|]. pose proof (candidate_range Hc) as R. fold n in R.
    destruct (IH (n - w_stop w) ltac:(lia) (w_stop w) ltac:(lia)) as (ws & Hws).
    exists (w :: ws). rewrite <- Hs. constructor; assumption.
Qed.

(** The best path. *)
Theorem best_path : exists eos ws l,
  nth_error (nth (S n) la' []) 0 = Some eos /\ back la' eos (eos :: l) /\
  map core (eos :: l) = eos_node inp :: rev (map (node_of d inp) ws) ++ [bos_node] /\
  segmentation d u inp ws /\
  (forall ws', segmentation d u inp ws' -> (seg_cost m ideo d inp ws <= seg_cost m ideo d inp ws')%Z).
Proof.
  assert (F := fw_step Hf (i := S n)). rewrite (b_len Hb) in F. fold n in F. specialize (F ltac:(lia)).
  unfold n in F. rewrite (b_eos Hb) in F.
  destruct (@Forall2_nth_l _ _ _ _ _ 0 (eos_node inp) F eq_refl) as (eos & He & Hr).
  destruct (positions_good (Nat.le_refl n)) as [G M].
  destruct (@target_cost n (eos_node inp) eos) as (_ & RU & Min);
    [reflexivity|lia|unfold int16; cbn; lia|reflexivity|exact Hr|exact G|exact M|].
  assert (Hcore : core eos = eos_node inp).
  { destruct Hr as [[_ ->]|(j0 & p & _ & _ & ->)]; reflexivity. }
  destruct (@segmentation_from n 0 eq_refl) as (ws0 & Hws0).
  assert (Hsc : forall ws, (sumc ws + lastc ws (n_class (eos_node inp)) (node_entry (eos_node inp)) + n_weight (eos_node inp))%Z = seg_cost m ideo d inp ws).
  { intros ws. unfold seg_cost. rewrite cost_from_sum. unfold sumc, sum, lastc, last_ce. cbn. change (node_entry (eos_node inp)) with zero_morph. lia. }
  destruct RU as [(ws & l & Hch & Hcost & Hbk & Hl)|U].
  - exists eos, ws, l. split; [assumption|]. split; [assumption|]. split; [cbn [map]; rewrite Hcore, Hl; reflexivity|].
    split; [exact Hch|]. intros ws' Hws'. rewrite <- !Hsc, <- Hcost. apply Min. exact Hws'.
  - exfalso. apply (proj1 U). exists ws0. exact Hws0.
Qed.
End Path.
