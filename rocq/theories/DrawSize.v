(** Proofs of C120: how large the drawn lattice is. *)
From Verif Require Import BuildFacts AnalyzeFacts PathFacts Utf8Facts SentenceFacts WorkFacts DotFacts PropertiesDot.
From Verif Require Import Dot SpecWork SpecDot.
From Coq Require Import Lia ZifyBool ZifyNat ZifyN.
Set Implicit Arguments.
Unset Strict Implicit.
Open Scope nat_scope.

Lemma enum_length {A} (l : list A) : forall k, length (enum k l) = length l.
Proof. induction l as [|x l IH]; intros k; cbn [enum length]; [|rewrite IH]; reflexivity. Qed.
Lemma cells_length la : length (cells la) = length (concat la).
Proof.
  unfold cells. generalize 0 as k. induction la as [|l la IH]; intros k; cbn [enum flat_map concat]; [reflexivity|].
  rewrite !app_length, IH. cbn [fst snd]. unfold cells_of. rewrite map_length, enum_length. reflexivity.
Qed.
Lemma concat_le {A} (l : list (list A)) c : (forall x, In x l -> length x <= c) -> length (concat l) <= length l * c.
Proof. induction l as [|x l IH]; intros H; cbn [concat length]; [lia|]. rewrite app_length. pose proof (H x (or_introl eq_refl)). specialize (IH (fun y Hy => H y (or_intror Hy))). lia. Qed.
Lemma filter_le {A} (f : A -> bool) l : length (filter f l) <= length l.
Proof. induction l as [|x l IH]; cbn [filter length]; [lia|]. destruct (f x); cbn [length]; lia. Qed.

Lemma mapM_all {A C} (f : A -> res C) l : forall r, mapM f l = Ok r -> length r = length l /\ forall y, In y r -> exists x, In x l /\ f x = Ok y.
Proof.
  induction l as [|x l IH]; intros r H; cbn [mapM] in H; [injection H as <-; split; [reflexivity|intros y []]|].
  destruct (f x) as [y| |] eqn:E; try discriminate. cbn [rbind] in H. destruct (mapM f l) as [ys| |]; try discriminate. cbn [rbind] in H.
  injection H as <-. destruct (IH _ eq_refl) as [H1 H2]. split; [cbn [length]; lia|]. intros z [<-|Hz]; [exists x; cbn; auto|].
  destruct (H2 _ Hz) as (x' & Hi & Hf). exists x'. cbn. auto.
Qed.
Lemma nodes_only l : (forall s, In s l -> exists c a p w b, s = SNode c a p w b) -> declared_list l = map (fun s => match s with SNode c _ _ _ _ => c | SEdge c _ _ _ => c end) l /\ edge_pairs l = [].
Proof.
  induction l as [|x l IH]; intros H; [split; reflexivity|]. destruct (IH (fun y Hy => H y (or_intror Hy))) as (A & B).
  destruct (H x (or_introl eq_refl)) as (c & a & p & w & b & ->). unfold declared_list, edge_pairs in *. cbn [flat_map map app]. rewrite A, B. split; reflexivity.
Qed.
Lemma edges_only l : (forall s, In s l -> exists a b c f, s = SEdge a b c f) -> declared_list l = [] /\ length (edge_pairs l) = length l.
Proof.
  induction l as [|x l IH]; intros H; [split; reflexivity|]. destruct (IH (fun y Hy => H y (or_intror Hy))) as (A & B).
  destruct (H x (or_introl eq_refl)) as (a & b & c & f & ->). unfold declared_list, edge_pairs in *. cbn [flat_map app length]. rewrite A, B. split; reflexivity.
Qed.

Lemma stmts_size d u la out ss M : (forall p, length (nth p la []) <= M) -> dot_stmts d u la out = Ok ss ->
  length ss = length (declared_list ss) + length (edge_pairs ss) /\ length (declared_list ss) <= length (concat la) /\ length (edge_pairs ss) <= length (concat la) * M.
Proof.
  intros Hm H. unfold dot_stmts in H. set (bs := best_set out) in H.
  destruct (edge_list bs la) as [es| |] eqn:Ee; try discriminate. cbn [rbind] in H.
  destruct (mapM (node_stmt d u bs) (cells la)) as [ns| |] eqn:En; try discriminate. cbn [rbind] in H.
  destruct (mapM (edge_stmt d bs) es) as [ts| |] eqn:Et; try discriminate. cbn [rbind] in H. injection H as <-.
  apply mapM_all in En. destruct En as (Ln & Hn). apply mapM_all in Et. destruct Et as (Lt & Ht).
  unfold edge_list in Ee. destruct (mapM _ _) as [el| |] eqn:El in Ee; try discriminate. cbn [rbind] in Ee. injection Ee as <-.
  apply mapM_all in El. destruct El as (Ll & Hl).
  assert (N1 : forall x, In x ns -> length x <= 1 /\ forall s, In s x -> exists c a p w b, s = SNode c a p w b).
  { intros x X. destruct (Hn _ X) as ([c nd] & _ & E). unfold node_stmt in E. destruct (skipped bs (c, nd)); [injection E as <-; split; [cbn; lia|intros s []]|].
    destruct (pos_feature d u nd) as [p| |]; try discriminate. cbn [rbind] in E.
    destruct (is_best bs c); [injection E as <-; split; [cbn; lia|intros s [<-|[]]; eauto 6]|].
    destruct (negb _); injection E as <-; (split; [cbn; lia|]); [intros s [<-|[]]; eauto 6|intros s []]. }
  assert (E1 : forall x, In x el -> length x <= M).
  { intros x X. destruct (Hl _ X) as (to & _ & E). unfold edges_to in E. destruct (skipped bs to); [injection E as <-; cbn; lia|].
    destruct (index la (n_start (snd to))) as [pr| |] eqn:I; try discriminate. cbn [rbind] in E. injection E as <-.
    rewrite map_length. refine (Nat.le_trans _ _ _ (filter_le _ _) _). unfold cells_of. rewrite map_length, enum_length. apply index_nth_ok in I. subst pr. apply Hm. }
  assert (NN : forall s, In s (concat ns) -> exists c a p w b, s = SNode c a p w b).
  { intros s S. apply in_concat in S. destruct S as (x & X & S). exact (proj2 (N1 _ X) _ S). }
  assert (EE : forall s, In s ts -> exists a b c f, s = SEdge a b c f).
  { intros s S. destruct (Ht _ S) as ([[cf from] [ct to]] & _ & E). unfold edge_stmt in E. match type of E with (let* _ := ?r in _) = _ => destruct r as [k| |]; try discriminate end. cbn [rbind] in E. injection E as <-. eauto 6. }
  destruct (nodes_only NN) as (D1 & P1). destruct (edges_only EE) as (D2 & P2).
  assert (DL : declared_list (concat ns ++ ts) = declared_list (concat ns) ++ declared_list ts) by apply flat_map_app.
  assert (PL : edge_pairs (concat ns ++ ts) = edge_pairs (concat ns) ++ edge_pairs ts) by apply flat_map_app.
  rewrite DL, PL, D1, D2, P1, !app_length, map_length, P2. cbn [length].
  pose proof (@concat_le _ ns 1 (fun x X => proj1 (N1 _ X))) as C1. pose proof (concat_le E1) as C2. rewrite Ln, cells_length in C1.
  rewrite Lt. pose proof (filter_le (fun cn : coord * node => 1 <=? fst (fst cn)) (cells la)) as C3. rewrite cells_length in C3. rewrite Ll in C2.
  split; [lia|]. split; [lia|]. refine (Nat.le_trans _ _ _ C2 _). apply Nat.mul_le_mono_r. exact C3.
Qed.

Theorem graph_size d u k v l ideo omit inp mode ss : wf_dict d -> wf_udict u -> words_bound d u k v -> length_bound d u l ->
  graph_stmts ideo (Tokenizer d u omit) inp mode = Ok ss ->
  length ss = length (declared_list ss) + length (edge_pairs ss) /\ length (declared_list ss) <= 2 + rcount inp * (k + 2 * v) /\
  length (edge_pairs ss) <= (2 + rcount inp * (k + 2 * v)) * (1 + l * (k + 2 * v)).
Proof.
  intros Hd Hu Hw Hl H. unfold graph_stmts in H. cbn [tk_dict tk_udict] in H.
  destruct (build_sized Hd Hu Hw Hl inp) as (la0 & E0 & S0 & _). rewrite E0 in H. cbn [rbind] in H.
  destruct (forward d ideo (to_lmode mode) la0) as [la1| |] eqn:E1; try discriminate. cbn [rbind] in H.
  destruct (forward_within d ideo (to_lmode mode) S0) as (_ & F). rewrite <- same_forward in E1. pose proof (F _ E1) as I1.
  destruct (backward_ptrs (to_lmode mode) la1) as [out| |]; try discriminate. cbn [rbind] in H.
  assert (Nodes : length (concat la1) <= 2 + rcount inp * (k + 2 * v)).
  { rewrite concat_length, (proj1 I1). rewrite <- (map_ext (fun p => length (nth p la0 []))); [|intros p; symmetry; apply (shape_length p I1)].
    rewrite <- concat_length. exact (s_all S0). }
  destruct (@stmts_size d u la1 out ss (1 + l * (k + 2 * v))) as (A & B & C).
  - intros p. rewrite (shape_length p I1). apply (s_list S0).
  - exact H.
  - split; [exact A|]. split; [lia|]. refine (Nat.le_trans _ _ _ C _). apply Nat.mul_le_mono_r. exact Nodes.
Qed.

(** ** The text *)
Lemma digits_length f : forall n acc, length (digits f n acc) <= f + length acc.
Proof. induction f as [|f IH]; intros n acc; cbn [digits]; [lia|]. destruct (n <? 10)%N; [cbn [length]; lia|]. etransitivity; [apply IH|]. cbn [length]. lia. Qed.
Lemma itoa_length z : int16 z -> length (itoa z) <= 20.
Proof.
  unfold int16. intros H. unfold itoa. rewrite app_length. pose proof (digits_length (S (N.to_nat (N.log2 (Z.abs_N z)))) (Z.abs_N z) []) as D. cbn [length] in D.
  assert (N.log2 (Z.abs_N z) <= 15)%N by (change 15%N with (N.log2 32768); apply N.log2_le_mono; lia).
  assert (length (if (z <? 0)%Z then s2b "-" else []) <= 1) by (destruct (z <? 0)%Z; cbn; lia). lia.
Qed.
Lemma bounded_nth {A} (l : list A) (x : A) (f : A -> nat) : exists P, forall k, f (nth k l x) <= P.
Proof.
  induction l as [|y l (P & IH)]; [exists (f x); intros [|k]; cbn; lia|]. exists (f y + P). intros [|k]; cbn [nth]; [lia|]. specialize (IH k). lia.
Qed.
Lemma bounded_nth_error {A} (l : list A) (f : option A -> nat) : exists P, forall k, f (nth_error l k) <= P.
Proof.
  destruct (bounded_nth (map Some l) None f) as (P & H). exists P. intros k. replace (nth_error l k) with (nth k (map Some l) None); [apply H|].
  revert k. induction l as [|y l IH]; intros [|k]; cbn; try reflexivity. destruct (bounded_nth (map Some l) None f) as (Q & HQ). clear -l. revert k. induction l as [|z l IH]; intros [|k]; cbn; auto.
Qed.
Lemma pos_bounded d u : exists P, forall g, length (g_pos d u g) <= P.
Proof.
  destruct (bounded_nth (d_pos_ids d) [] (fun row => length (pos_label (Some (map (fun k => nth (Z.to_nat k) (d_pos_names d) []) row))))) as (P1 & H1).
  set (s := match meta_get (d_unk_meta d) key_pos_start with Some v => v | None => 0%Z end).
  set (e := match meta_get (d_unk_meta d) key_pos_hierarchy with Some v => (s + v)%Z | None => 1%Z end).
  destruct (bounded_nth (d_unk_contents d) [] (fun fs => length (pos_label (if ((s <? e) && (e <=? Z.of_nat (length fs)))%Z then Some (firstn (Z.to_nat (e - s)) (skipn (Z.to_nat s) fs)) else None)))) as (P2 & H2).
  assert (exists P3, forall id, length (join (s2b "/") (strings_list (spec_pos d u USER id))) <= P3) as (P3 & H3).
  { destruct u as [ud|]; [|exists 0; intros id; cbn; lia].
    destruct (bounded_nth_error (u_contents ud) (fun o => length (join (s2b "/") (strings_list (match match o with Some e => Some [uc_pos e; join (s2b "/") (uc_tokens e); join (s2b "/") (uc_yomi e)] | None => None end with Some (p :: _) => Some [p] | _ => None end))))) as (P & H).
    exists P. intros id. exact (H (Z.to_nat id)). }
  exists (P1 + P2 + P3 + 3). intros g. unfold g_pos. destruct (g_class g).
  - change (pos_label (spec_pos d u DUMMY (g_id g))) with (s2b "---"). cbn. lia.
  - specialize (H1 (Z.to_nat (g_id g))). unfold spec_pos, spec_pos_names. lia.
  - specialize (H2 (Z.to_nat (g_id g))). unfold spec_pos. fold s e. cbv zeta. lia.
  - specialize (H3 (g_id g)). lia.
Qed.
Lemma entry_int16 d c id : wf_dict d -> int16 (m_weight (entry d c id)).
Proof.
  intros Hd. destruct (wf_conn Hd) as (rows & _ & _ & _ & Hk & Hu). assert (Z : int16 (m_weight zero_morph)) by (unfold int16; cbn; lia).
  destruct c; cbn [entry]; try exact Z.
  - destruct (nth_in_or_default (Z.to_nat id) (d_morphs d) zero_morph) as [I|E]; [exact (proj2 (proj2 (Hk _ I)))|rewrite E; exact Z].
  - destruct (nth_in_or_default (Z.to_nat id) (d_unk_morphs d) zero_morph) as [I|E]; [exact (proj2 (proj2 (Hu _ I)))|rewrite E; exact Z].
Qed.
Lemma bytes_runes s : length s <= 4 * rcount s.
Proof. pose proof (text_le_runes (segs_le4 s)) as T. rewrite segs_concat in T. exact T. Qed.

Theorem text_size d u : wf_dict d -> wf_udict u -> wf_data d -> forall A, exists a, forall addr ideo omit inp mode txt, (forall c, length (addr c) <= A) ->
  graph_text addr ideo (Tokenizer d u omit) inp mode = Ok txt -> length txt <= a * (rcount inp + 1).
Proof.
  intros Hd Hu Hda A. destruct (has_bounds u Hd) as (k & v & l & Hw & Hl). destruct (pos_bounded d u) as (P & HP).
  set (C := 2 * A + 4 * l + P + 150). set (B := k + 2 * v). set (M := 1 + l * B).
  exists (2 * length header + 2 + (2 + B) * (1 + M) * C). intros addr ideo omit inp mode txt Ha H.
  destruct (@C57_graph d u omit ideo inp mode Hd Hu Hda) as (ss & g & E & Hn & _ & _ & _ & _ & He).
  unfold graph_text in H. rewrite E in H. cbn [rbind] in H. injection H as <-.
  assert (R : forall s, In s ss -> length (render addr s) <= C).
  { intros [c s p w b|f t c b] I.
    - destruct (Hn _ _ _ _ _ I) as (Hc & Hs & -> & -> & _). cbn [render]. rewrite !app_length.
      pose proof (HP (g c)). pose proof (Ha c).
      assert (length (itoa (m_weight (g_entry d (g c)))) <= 20).
      { apply itoa_length. unfold g_entry. destruct (g c); first [apply entry_int16; exact Hd|unfold int16; cbn; lia]. }
      assert (length s <= 4 * l + 3).
      { unfold g_surf in Hs. destruct (g c) as [| |x]; [subst s; cbn; lia|subst s; cbn; lia|].
        pose proof (short_word k v Hl Hc) as S. pose proof (candidate_range Hc) as Rg.
        assert (length (word_text inp x) <= 4 * l) by (pose proof (bytes_runes (word_text inp x)) as T; unfold word_text in *; rewrite text_rcount in T by lia; lia).
        destruct Hs as [->|(_ & ->)]; [lia|]. rewrite firstn_length. lia. }
      assert (length (if b then s2b ",shape=ellipse, peripheries=2];" else s2b "];") <= 40) by (apply Nat.leb_le; destruct b; vm_compute; reflexivity).
      change (length tab) with 1. change (length quote) with 1. change (length esc_n) with 2. change (length nl) with 1. change (length (s2b " [label=")) with 8. unfold C. lia.
    - rewrite (He _ _ _ _ I). cbn [render]. rewrite !app_length. pose proof (Ha f). pose proof (Ha t).
      match goal with |- context [itoa ?z] => assert (length (itoa z) <= 20) by (apply itoa_length; exact (connection16 inp Hd _ _ _ _)) end.
      assert (length (if b then s2b ", style=bold, color=blue, fontcolor=blue];" else s2b "];") <= 60) by (apply Nat.leb_le; destruct b; vm_compute; reflexivity).
      change (length tab) with 1. change (length quote) with 1. change (length nl) with 1. change (length (s2b " [label=")) with 8. change (length (s2b " -- ")) with 4. unfold C. lia. }
  destruct (graph_size Hd Hu Hw Hl E) as (S1 & S2 & S3). fold B M in S2, S3.
  assert (X : length (concat (map (render addr) ss)) <= length ss * C).
  { rewrite <- (map_length (render addr) ss). apply concat_le. intros x Hx. apply in_map_iff in Hx. destruct Hx as (s & <- & I). apply R. exact I. }
  assert (Y : length ss <= (2 + rcount inp * B) * (1 + M)) by lia.
  unfold dot_text. rewrite !app_length. change (length (s2b "}")) with 1. change (length nl) with 1.
  assert (Z : (2 + rcount inp * B) <= (2 + B) * (rcount inp + 1)) by nia.
  apply (Nat.mul_le_mono_r _ _ (1 + M)) in Z. apply (Nat.mul_le_mono_r _ _ C) in Y. apply (Nat.mul_le_mono_r _ _ C) in Z.
  replace ((2 * length header + 2 + (2 + B) * (1 + M) * C) * (rcount inp + 1)) with ((2 * length header + 2) * (rcount inp + 1) + (2 + B) * (rcount inp + 1) * (1 + M) * C) by lia.
  generalize dependent (length header). intros h. nia.
Qed.
Theorem graph_linear d u : wf_dict d -> wf_udict u -> exists a, forall ideo omit inp mode ss,
  graph_stmts ideo (Tokenizer d u omit) inp mode = Ok ss -> length ss <= a * (rcount inp + 1).
Proof.
  intros Hd Hu. destruct (has_bounds u Hd) as (k & v & l & Hw & Hl). set (B := k + 2 * v). set (M := 1 + l * B).
  exists ((2 + B) * (1 + M)). intros ideo omit inp mode ss E. destruct (graph_size Hd Hu Hw Hl E) as (S1 & S2 & S3). fold B M in S2, S3.
  assert (Z : (2 + rcount inp * B) <= (2 + B) * (rcount inp + 1)) by nia. apply (Nat.mul_le_mono_r _ _ (1 + M)) in Z. lia.
Qed.
