(** Proofs about the text of a lattice. *)
From Verif Require Export LatticeText SpecLatticeText.
From Verif Require Import BuildFacts ForwardFacts PathFacts TokFacts AnalyzeFacts TieFacts CostFacts OnceFacts.
From Coq Require Import ZifyBool ZifyNat ZifyN.
Set Implicit Arguments.
Unset Strict Implicit.
Open Scope nat_scope.

(** The words of a cell of the table. *)
Definition prev_text (addr : nat * nat -> bytes) (nd : node) : bytes := match n_prev nd with Some c => addr c | None => s2b "<nil>" end.
Definition shown_of (addr : nat * nat -> bytes) (p : nat) (nd : node) : shown :=
  (Word (n_class nd) (n_id nd) (n_start nd) p, n_cost nd, prev_text addr nd).
Definition cells_of (addr : nat * nat -> bytes) (la : table) (p : nat) : list shown := map (shown_of addr p) (nth p la []).

Lemma lists_nth addr l : forall i, lists_text addr i l =
  concat (map (fun k => paragraph k (map (fun nd => node_text addr nd ++ nl) (nth (k - i) l []))) (seq i (length l))).
Proof.
  induction l as [|c l IH]; intros i; [reflexivity|]. cbn [lists_text length seq map concat]. rewrite Nat.sub_diag. cbn [nth].
  unfold paragraph at 1. rewrite <- !app_assoc. do 5 f_equal. f_equal. rewrite IH. f_equal. apply map_ext_in. intros k Hk. apply in_seq in Hk.
  replace (k - i) with (S (k - S i)) by lia. reflexivity.
Qed.

Section Text.
Variables (addr : nat * nat -> bytes) (d : dict) (u : option udict) (inp : bytes).
Hypothesis Hd : wf_dict d.
Hypothesis Hu : wf_udict u.
Hypothesis Hf : fffd_ok d inp.
Notation n := (rcount inp).

(** A table with the nodes of Build, costs and predecessors aside. *)
Record texted (la : table) : Prop := {
  tx_len : length la = n + 2;
  tx_bos : nth 0 la [] = [bos_node];
  tx_eos : exists eos, nth (S n) la [] = [eos] /\ core eos = eos_node inp;
  tx_mid : forall p nd, 0 < p <= n -> In nd (nth p la []) -> exists w, candidate d u inp w /\ w_stop w = p /\ core nd = node_of d inp w;
  tx_all : forall p w, 0 < p <= n -> candidate d u inp w -> w_stop w = p -> exists nd, In nd (nth p la []) /\ core nd = node_of d inp w;
  tx_order : NoDup (d_index d) -> (forall ud, u = Some ud -> NoDup (u_index ud)) -> forall p, 0 < p <= n ->
    ForallOrdPairs (preferred d u inp) (map (fun nd => Word (n_class nd) (n_id nd) (n_start nd) p) (nth p la []))
}.
Lemma word_of p nd w : core nd = node_of d inp w -> w_stop w = p -> Word (n_class nd) (n_id nd) (n_start nd) p = w.
Proof.
  intros E <-. change (n_class nd) with (n_class (core nd)). change (n_id nd) with (n_id (core nd)). change (n_start nd) with (n_start (core nd)).
  rewrite E. destruct w. reflexivity.
Qed.
Lemma word_node nd w : candidate d u inp w -> core nd = node_of d inp w -> node_text addr nd ++ nl = word_line d inp w (n_cost nd) (prev_text addr nd).
Proof.
  intros Hc E. unfold node_text, word_line. fold (prev_text addr nd).
  change (n_class nd) with (n_class (core nd)). change (n_id nd) with (n_id (core nd)). change (n_start nd) with (n_start (core nd)).
  change (n_position nd) with (n_position (core nd)). change (n_left nd) with (n_left (core nd)). change (n_right nd) with (n_right (core nd)).
  change (n_weight nd) with (n_weight (core nd)). change (n_surface nd) with (n_surface (core nd)). rewrite E. unfold node_of.
  cbn [n_id n_position n_start n_class n_left n_right n_weight n_surface].
  rewrite (@surface_of_word_surface d u inp true w), (@word_surface_ok d u inp true w Hc Hf).
  cbn [join]. rewrite <- !app_assoc. destruct (w_class w); reflexivity.
Qed.
Lemma eos_text nd : core nd = eos_node inp -> node_text addr nd ++ nl = end_line (length inp) n (n_cost nd) (prev_text addr nd).
Proof.
  intros E. unfold node_text, end_line. fold (prev_text addr nd).
  change (n_class nd) with (n_class (core nd)). change (n_id nd) with (n_id (core nd)). change (n_start nd) with (n_start (core nd)).
  change (n_position nd) with (n_position (core nd)). change (n_left nd) with (n_left (core nd)). change (n_right nd) with (n_right (core nd)).
  change (n_weight nd) with (n_weight (core nd)). change (n_surface nd) with (n_surface (core nd)). rewrite E. unfold eos_node.
  cbn [n_id n_position n_start n_class n_left n_right n_weight n_surface join]. rewrite <- !app_assoc. reflexivity.
Qed.
Lemma texted_shows la eos : texted la -> nth (S n) la [] = [eos] -> shows d u inp (cells_of addr la) (n_cost eos, prev_text addr eos) (lattice_string addr la).
Proof.
  intros T Ee. split.
  - unfold lattice_string. rewrite lists_nth, (tx_len T). replace (seq 0 (n + 2)) with (0 :: seq 1 n ++ [S n])
      by (replace (n + 2) with (S (S n)) by lia; change (seq 0 (S (S n))) with (0 :: seq 1 (S n)); rewrite seq_S; reflexivity).
    cbn [map concat].
    rewrite map_app, concat_app. cbn [map concat]. rewrite app_nil_r. rewrite !Nat.sub_0_r, (tx_bos T), Ee. cbn [map].
    f_equal. f_equal.
    + f_equal. apply map_ext_in. intros p Hp. apply in_seq in Hp. rewrite Nat.sub_0_r. f_equal. unfold cells_of. rewrite map_map. apply map_ext_in. intros nd Hin.
      destruct (tx_mid T (p := p)) with (nd := nd) as (w & Hc & Hs & E); [lia|exact Hin|]. unfold shown_line, shown_of. cbn [fst snd].
      rewrite (word_of E Hs). apply word_node; assumption.
    + f_equal. f_equal. apply eos_text. destruct (tx_eos T) as (e & E1 & E2). rewrite Ee in E1. injection E1 as ->. exact E2.
  - intros p Hp. unfold cells_of. rewrite map_map. cbn [fst]. split; [intros w; split|].
    + intros Hin. apply in_map_iff in Hin. destruct Hin as (nd & <- & Hin). destruct (tx_mid T Hp Hin) as (w & Hc & Hs & E). cbn [shown_of fst].
      rewrite (word_of E Hs). auto.
    + intros [Hc Hs]. destruct (tx_all T Hp Hc Hs) as (nd & Hin & E). apply in_map_iff. exists nd. split; [|exact Hin]. exact (word_of E Hs).
    + intros N1 N2. exact (tx_order T N1 N2 Hp).
Qed.
Lemma built_texted la : build d u inp = Ok la -> built d u inp la -> texted la.
Proof.
  intros EB B. constructor; [exact (b_len B)|exact (b_bos B)|exists (eos_node inp); split; [exact (b_eos B)|reflexivity]| | |].
  - intros p nd Hp Hin. apply (b_mid B nd Hp) in Hin. destruct Hin as (w & Hc & Hs & ->). exists w. auto.
  - intros p w Hp Hc Hs. exists (node_of d inp w). split; [|reflexivity]. apply (b_mid B _ Hp). exists w. auto.
  - intros N1 N2 p Hp. destruct (build_preferred Hd Hu N1 N2 EB Hp) as (ws & E & F & O).
    replace (map _ _) with ws; [exact O|].
    assert (S : forall w, In w ws -> w_stop w = p).
    { intros w Hin. assert (K : In (node_of d inp w) (nth p la [])) by (rewrite E; apply in_map; exact Hin). apply (b_mid B _ Hp) in K.
      destruct K as (w' & Hc' & Hs & Eq). rewrite Forall_forall in F. rewrite (TieFacts.node_of_inj (F _ Hin) Hc' Eq). exact Hs. }
    rewrite E, map_map. clear -S. induction ws as [|w ws IH]; [reflexivity|]. cbn [map]. f_equal; [|apply IH; intros x Hx; apply S; right; exact Hx].
    symmetry. apply (@word_of p (node_of d inp w) w); [apply core_node_of|apply S; left; reflexivity].
Qed.
Theorem string_built : exists la cells, build d u inp = Ok la /\ shows d u inp cells (0%Z, s2b "<nil>") (lattice_string addr la) /\
  forall p w c a, 0 < p <= n -> In (w, c, a) (cells p) -> c = 0%Z /\ a = s2b "<nil>".
Proof.
  destruct (@build_spec d u inp Hd Hu) as (la & E & B). exists la, (cells_of addr la). split; [exact E|]. split.
  - exact (texted_shows (built_texted E B) (b_eos B)).
  - intros p w c a Hp Hin. apply in_map_iff in Hin. destruct Hin as (nd & Eq & Hin). apply (b_mid B nd Hp) in Hin. destruct Hin as (w' & _ & _ & ->).
    injection Eq as _ <- <-. auto.
Qed.

(** ** After Forward *)
Section Fwd.
Variables (ideo : ideographic) (m : lmode) (la la' : table).
Hypothesis EB : build d u inp = Ok la.
Hypothesis Hb : built d u inp la.
Hypothesis Hw : forwarded d ideo m la la'.
Hypothesis Hlen : (Z.of_nat n <= limit m)%Z.
Hypothesis Hreach : (Z.of_nat (nreach la n) <= 32767)%Z.

Lemma relaxed_core t t' : relaxed d ideo m la' t t' -> core t' = core t.
Proof. intros [[_ ->]|(j & p & _ & _ & ->)]; reflexivity. Qed.
Lemma forwarded_texted : texted la'.
Proof.
  pose proof (built_texted EB Hb) as T.
  assert (F : forall p, 0 < p < n + 2 -> Forall2 (relaxed d ideo m la') (nth p la []) (nth p la' [])) by (intros p Hp; apply (fw_step Hw); rewrite (b_len Hb); exact Hp).
  constructor; [rewrite (fw_len Hw); exact (b_len Hb)|rewrite (fw_0 Hw); exact (b_bos Hb)| | | |].
  - specialize (F (S n) ltac:(lia)). rewrite (b_eos Hb) in F. inversion F as [|t t' l l' R F0 E1 E2]; subst. inversion F0; subst. exists t'. split; [reflexivity|]. rewrite (relaxed_core R). reflexivity.
  - intros p nd Hp Hin. apply In_nth_error in Hin. destruct Hin as (j & Hj). destruct (Forall2_nth (F p ltac:(lia)) Hj) as (t & Ht & R).
    apply nth_error_In in Ht. destruct (tx_mid T Hp Ht) as (w & Hc & Hs & E). exists w. rewrite (relaxed_core R). auto.
  - intros p w Hp Hc Hs. destruct (tx_all T Hp Hc Hs) as (t & Hin & E). apply In_nth_error in Hin. destruct Hin as (j & Hj).
    destruct (Forall2_nth_l (F p ltac:(lia)) Hj) as (t' & Ht & R). exists t'. split; [eapply nth_error_In; exact Ht|rewrite (relaxed_core R); exact E].
  - intros N1 N2 p Hp. pose proof (tx_order T N1 N2 Hp) as O. replace (map _ (nth p la' [])) with (map (fun nd => Word (n_class nd) (n_id nd) (n_start nd) p) (nth p la [])); [exact O|].
    specialize (F p ltac:(lia)). clear -F. induction F as [|t t' l l' R F IH]; [reflexivity|]. cbn [map]. f_equal; [|exact IH].
    destruct R as [[_ ->]|(j & q & _ & _ & ->)]; reflexivity.
Qed.
Lemma back_leads s t t' ws l (good : list word -> Prop) : n_start t = s -> s <= n -> relaxed d ideo m la' t t' -> n_prev t = None -> chain d u inp 0 ws s -> back la' t' (t' :: l) ->
  map core l = rev (map (node_of d inp) ws) ++ [bos_node] -> good ws -> leads addr d u inp (cells_of addr la') s (prev_text addr t') good.
Proof.
  intros Hs Hsn R Hpn C B E G. assert (Hnil : l <> []) by (intros ->; destruct (rev _); discriminate).
  inversion B as [t0 Hn0 Eq1 Eq2|t0 i0 j0 q l1 Hpr Hg Hbk Eq1 Eq2]; subst; [congruence|].
  assert (Hq : i0 = n_start t /\ nth_error (nth (n_start t) la' []) j0 = Some q).
  { destruct R as [[_ ->]|(j1 & p1 & Hp1 & _ & ->)]; cbn in Hpr; [congruence|]. injection Hpr as <- <-. split; [reflexivity|].
    rewrite (@get2_la' d u inp ideo m la la' Hb Hw (n_start t) j1 p1) in Hg; [|lia|exact Hp1]. injection Hg as <-. exact Hp1. }
  destruct Hq as [-> Hq]. exists ws, j0. split; [exact C|]. split; [exact G|]. split; [unfold prev_text; rewrite Hpr; reflexivity|].
  destruct l as [|q' l2]; [congruence|]. assert (q' = q) by (inversion Hbk; reflexivity). subst q'.
  rewrite <- map_rev in E. destruct (rev ws) as [|v r] eqn:Er.
  - assert (ws = []) by (rewrite <- (rev_involutive ws), Er; reflexivity). subst ws. assert (S0 : n_start t = 0) by (inversion C; reflexivity).
    rewrite S0, (fw_0 Hw), (b_bos Hb) in Hq. destruct j0 as [|j0]; [reflexivity|destruct j0; discriminate].
  - assert (Ew : ws = rev r ++ [v]) by (rewrite <- (rev_involutive ws), Er; reflexivity). rewrite Ew in C. apply chain_inv_snoc in C. destruct C as (_ & _ & Hst).
    cbn [map app] in E. assert (E1 : core q = node_of d inp v) by exact (f_equal (hd bos_node) E).
    exists (n_cost q), (prev_text addr q). unfold cells_of. rewrite nth_error_map, Hq. cbn [option_map]. unfold shown_of. rewrite (word_of E1 Hst). reflexivity.
Qed.
End Fwd.
Theorem string_forwarded ideo m : (Z.of_nat n <= cost_limit m)%Z -> exists la la' cells c a,
  build d u inp = Ok la /\ forward d ideo m la = Ok la' /\ shows d u inp cells (c, a) (lattice_string addr la') /\
  (leads addr d u inp cells n a (fun ws => c = seg_cost m ideo d inp ws) /\ forall ws, segmentation d u inp ws -> (c <= seg_cost m ideo d inp ws)%Z) /\
  forall p w c' a', 0 < p <= n -> In (w, c', a') (cells p) ->
    ((exists ws, chain d u inp 0 ws (w_start w)) ->
     leads addr d u inp cells (w_start w) a' (fun ws => c' = way_cost m ideo d inp ws w) /\
     forall ws, chain d u inp 0 ws (w_start w) -> (c' <= way_cost m ideo d inp ws w)%Z) /\
    (0 < w_start w -> (forall v, candidate d u inp v -> w_stop v <> w_start w) -> c' = 2147483647%Z /\ a' = s2b "<nil>").
Proof.
  intros Hlim. destruct (lattice_ok inp Hd Hu ideo m) as (la & la' & E1 & Hb & E2 & Hw).
  assert (NR : nreach la n <= n) by (eapply nreach_bound; eassumption).
  assert (Hlen : (Z.of_nat n <= limit m)%Z) by (unfold limit, cost_limit in *; destruct m; lia).
  assert (Hr : (Z.of_nat (nreach la n) <= 32767)%Z) by (unfold cost_limit in *; destruct m; lia).
  pose proof (forwarded_texted E1 Hb Hw) as T. destruct (eos_at Hb Hw) as (eos & He & Hre).
  assert (Ee : nth (S n) la' [] = [eos]).
  { destruct (tx_eos T) as (e & Ee & _). rewrite Ee in He |- *. injection He as ->. reflexivity. }
  exists la, la', (cells_of addr la'), (n_cost eos), (prev_text addr eos). split; [exact E1|]. split; [exact E2|]. split; [exact (texted_shows T Ee)|]. split.
  - destruct (@positions_good d u inp ideo m Hd la la' Hb Hw Hlen Hr n) as [G M]; [apply Nat.le_refl|].
    destruct (@target_cost d u inp ideo m Hd la la' Hb Hw Hlen Hr n (eos_node inp) eos) as (_ & RU & Min);
      [reflexivity|lia|unfold int16; cbn; lia|reflexivity|exact Hre|exact G|exact M|].
    assert (Hsc : forall ws, (sumc d inp ideo m ws + lastc d ws (n_class (eos_node inp)) (node_entry (eos_node inp)) + n_weight (eos_node inp))%Z = seg_cost m ideo d inp ws).
    { intros ws. unfold seg_cost. rewrite cost_from_sum. unfold sumc, sum, lastc, last_ce. cbn. change (node_entry (eos_node inp)) with zero_morph. lia. }
    split; [|intros ws Hs; rewrite <- Hsc; apply Min; exact Hs].
    destruct RU as [(ws & l & Hch & Hcost & Hbk & Hl)|[U _]].
    2:{ destruct U. destruct (@segmentation_from d u inp Hd Hu la Hb n 0 eq_refl) as (ws0 & Hws0). exists ws0. exact Hws0. }
    eapply back_leads with (t := eos_node inp); [exact Hb|exact Hw|reflexivity|apply Nat.le_refl|exact Hre|reflexivity|exact Hch|exact Hbk|exact Hl|]. rewrite <- Hsc. exact Hcost.
  - intros p w c a Hp Hin. apply in_map_iff in Hin. destruct Hin as (nd & Eq & Hin). apply In_nth_error in Hin. destruct Hin as (j & Hj).
    destruct (@fw_node d u inp ideo m la la' Hb Hw p j nd) as (t & Ht & Hpn & R); [lia|exact Hj|].
    destruct (proj1 (b_mid Hb t Hp) Ht) as (w' & Hc & Hs & ->). pose proof (candidate_range Hc) as Rg.
    assert (Ew : w' = w /\ n_cost nd = c /\ prev_text addr nd = a).
    { unfold shown_of in Eq. rewrite (@word_of p nd w') in Eq; [|rewrite (relaxed_core R); reflexivity|exact Hs]. injection Eq as <- <- <-. auto. }
    destruct Ew as (-> & <- & <-). clear Eq. split.
    + intros Hex. destruct (@positions_good d u inp ideo m Hd la la' Hb Hw Hlen Hr (w_start w)) as [G M]; [lia|].
      destruct (@target_cost d u inp ideo m Hd la la' Hb Hw Hlen Hr (w_start w) (node_of d inp w) nd) as (_ & RU & Min);
        [reflexivity|lia|apply (entry16 inp Hd); exact (candidate_id Hd Hc)|reflexivity|exact R|exact G|exact M|].
      split; [|intros ws Hws; rewrite <- way_target; apply Min; exact Hws].
      destruct RU as [(ws & l & Hch & Hcost & Hbk & Hl)|[U _]]; [|destruct U; exact Hex].
      eapply back_leads with (t := node_of d inp w); [exact Hb|exact Hw|reflexivity|lia|exact R|reflexivity|exact Hch|exact Hbk|exact Hl|]. rewrite <- way_target. exact Hcost.
    + intros H0 Hno. destruct R as [[_ ->]|(j1 & q & Hq & _)]; [split; reflexivity|]. exfalso. cbn [node_of n_start] in Hq. apply nth_error_In in Hq.
      destruct (tx_mid T (p := w_start w) (nd := q)) as (v & Hv & Hvs & _); [lia|exact Hq|]. exact (Hno v Hv Hvs).
Qed.
End Text.
