(** Proofs about the lattice graph (C18). *)
From Verif Require Export AnalyzeFacts TokenFacts SpecDot.
From Coq Require Import ZifyBool ZifyNat ZifyN FinFun.
Set Implicit Arguments.
Unset Strict Implicit.
Open Scope nat_scope.

(** ** Coordinates *)
Lemma coord_eqb_ok a b : coord_eqb a b = true <-> a = b.
Proof. destruct a, b. unfold coord_eqb. cbn. rewrite andb_true_iff, !Nat.eqb_eq. split; [intros [-> ->]; reflexivity|intros [= -> ->]; auto]. Qed.

Lemma is_best_in bests c : is_best bests c = true <-> In c bests.
Proof.
  unfold is_best. rewrite existsb_exists. split.
  - intros (x & Hx & E). apply coord_eqb_ok in E. subst. assumption.
  - intros H. exists c. split; [assumption|]. apply coord_eqb_ok. reflexivity.
Qed.

Lemma enum_in {A} (l : list A) : forall k p x, In (p, x) (enum k l) <-> k <= p /\ nth_error l (p - k) = Some x.
Proof.
  induction l as [|y l IH]; intros k p x; cbn [enum].
  - split; [intros []|intros [_ H]; destruct (p - k); discriminate].
  - cbn [In]. rewrite IH. split.
    + intros [[= <- <-]|[H1 H2]].
      * rewrite Nat.sub_diag. auto.
      * split; [lia|]. replace (p - k) with (S (p - S k)) by lia. exact H2.
    + intros [H1 H2]. destruct (Nat.eq_dec p k) as [->|Hn].
      * rewrite Nat.sub_diag in H2. injection H2 as ->. auto.
      * right. split; [lia|]. replace (p - k) with (S (p - S k)) in H2 by lia. exact H2.
Qed.

Lemma cells_of_in i l c nd : In (c, nd) (cells_of i l) <-> fst c = i /\ nth_error l (snd c) = Some nd.
Proof.
  unfold cells_of. rewrite in_map_iff. split.
  - intros ((j & x) & [= <- <-] & H). apply enum_in in H. cbn [fst snd]. rewrite Nat.sub_0_r in H. tauto.
  - intros [<- H]. exists (snd c, nd). split; [destruct c; reflexivity|]. apply enum_in. rewrite Nat.sub_0_r. split; [lia|assumption].
Qed.

Lemma cells_in la c nd : In (c, nd) (cells la) <-> nth_error (nth (fst c) la []) (snd c) = Some nd.
Proof.
  unfold cells. rewrite in_flat_map. split.
  - intros ((i & l) & H1 & H2). apply cells_of_in in H2. cbn [fst snd] in H2. destruct H2 as [<- H2].
    apply enum_in in H1. rewrite Nat.sub_0_r in H1. rewrite (nth_error_nth _ _ [] (proj2 H1)). assumption.
  - intros H. exists (fst c, nth (fst c) la []). cbn [fst snd]. split.
    + apply enum_in. rewrite Nat.sub_0_r. split; [lia|]. apply nth_error_nth'.
      destruct (Nat.lt_ge_cases (fst c) (length la)); [assumption|]. rewrite nth_overflow in H by assumption. destruct (snd c); discriminate.
    + apply cells_of_in. auto.
Qed.

Lemma enum_nodup {A} (l : list A) : forall k, NoDup (map fst (enum k l)).
Proof.
  induction l as [|x l IH]; intros k; cbn [enum map]; constructor; [|apply IH].
  intros H. apply in_map_iff in H. destruct H as ((p & y) & E & H). apply enum_in in H. cbn in *. lia.
Qed.

Lemma cells_of_nodup i l : NoDup (map fst (cells_of i l)).
Proof.
  assert (E : map fst (cells_of i l) = map (fun j : nat => ((i, j) : coord)) (map fst (enum 0 l))).
  { unfold cells_of. rewrite !map_map. reflexivity. }
  rewrite E. apply FinFun.Injective_map_NoDup; [intros a b [= ->]; reflexivity|apply enum_nodup].
Qed.

Lemma nodup_app {A} (l1 l2 : list A) : NoDup l1 -> NoDup l2 -> (forall x, In x l1 -> ~ In x l2) -> NoDup (l1 ++ l2).
Proof.
  induction l1 as [|x l1 IH]; intros H1 H2 H; cbn [app]; [assumption|]. inversion H1 as [|? ? Hx Hl]; subst.
  constructor.
  - rewrite in_app_iff. intros [E|E]; [contradiction|]. apply (H x); [left; reflexivity|assumption].
  - apply IH; try assumption. intros y Hy. apply H. right. assumption.
Qed.

Lemma cells_nodup la : NoDup (map fst (cells la)).
Proof.
  unfold cells. generalize 0. induction la as [|l la IH]; intros k; cbn [enum flat_map]; [constructor|].
  rewrite map_app. apply nodup_app; [apply cells_of_nodup|apply IH|].
  intros c H1 H2. apply in_map_iff in H1, H2. destruct H1 as ((c1 & n1) & E1 & H1), H2 as ((c2 & n2) & E2 & H2). cbn [fst] in *. subst c1 c2.
  apply cells_of_in in H1. cbn [fst snd] in H1. apply in_flat_map in H2. destruct H2 as ((i & l') & H2 & H3).
  apply cells_of_in in H3. apply enum_in in H2. cbn [fst snd] in *. lia.
Qed.

(** ** Labels *)
Definition node_class_eq_dec_user (c : node_class) : {c = USER} + {c <> USER}.
Proof. destruct c; (left; reflexivity) || (right; discriminate). Defined.

Definition tok_of (d : dict) (u : option udict) (c : node_class) (id : Z) : token := Token 0 id c 0 0 0 [] d u.

Lemma pos_feature_tok d u nd : n_class nd <> USER ->
  pos_feature d u nd = let* ps := token_pos (tok_of d u (n_class nd) (n_id nd)) in Ok (pos_label ps).
Proof.
  intros Hc. unfold pos_feature, token_pos, tok_of. cbn [t_class t_id t_dict t_udict].
  assert (F : forall l : list bytes, (if (length l =? 0) then dashes else join (s2b "/") l) = match l with [] => s2b "---" | _ => join (s2b "/") l end)
    by (intros [|? ?]; reflexivity).
  destruct (n_class nd) eqn:E; [reflexivity| | |congruence].
  - unfold pos_names_of. cbn [t_dict t_id]. destruct (indexZ (d_pos_ids d) (n_id nd)) as [ids| |]; cbn [rbind]; [|reflexivity|reflexivity].
    destruct (mapM _ ids) as [vs| |]; cbn [rbind]; [|reflexivity|reflexivity]. rewrite F. unfold pos_label, star. cbn [strings_list]. destruct (filter _ vs); reflexivity.
  - destruct (indexZ (d_unk_contents d) (n_id nd)) as [f| |]; cbn [rbind]; [|reflexivity|reflexivity].
    unfold unk_pos_end, unk_pos_start. destruct (_ || _); [reflexivity|].
    destruct (mapM _ _) as [vs| |]; cbn [rbind]; [|reflexivity|reflexivity]. rewrite F. unfold pos_label, star. cbn [strings_list]. destruct (filter _ vs); reflexivity.
Qed.

Section Graph.
Variables (d : dict) (u : option udict) (inp : bytes) (ideo : ideographic) (m : lmode).
Hypothesis Hd : wf_dict d.
Hypothesis Hu : wf_udict u.
Hypothesis Hw : wf_data d.
Let n := rcount inp.
Variables la la' : table.
Hypothesis Hb : built d u inp la.
Hypothesis Hf : forwarded d ideo m la la'.

(** What the node at c stands for. *)
Definition gof (c : coord) : gnode :=
  if fst c =? 0 then GBos
  else if fst c =? S n then GEos
  else match nth_error (nth (fst c) la' []) (snd c) with
       | Some nd => GWord (Word (n_class nd) (n_id nd) (n_start nd) (fst c))
       | None => GBos
       end.

Definition good_gnode (g : gnode) : Prop := match g with GWord w => candidate d u inp w | _ => True end.

(** The node that stands for g. *)
Definition gcore (g : gnode) : node := match g with GBos => bos_node | GEos => eos_node inp | GWord w => node_of d inp w end.

Lemma node_view c nd : nth_error (nth (fst c) la' []) (snd c) = Some nd ->
  core nd = gcore (gof c) /\ good_gnode (gof c) /\
  (fst c = 0 /\ gof c = GBos /\ nd = bos_node /\ snd c = 0 \/
   fst c = S n /\ gof c = GEos /\ snd c = 0 \/
   0 < fst c <= n /\ exists w, gof c = GWord w /\ w_stop w = fst c) /\
  (0 < fst c -> n_start nd < fst c /\ g_start inp (gof c) = Some (n_start nd)).
Proof.
  intros H. unfold gof. destruct c as [i j]. cbn [fst snd] in *.
  destruct (Nat.eqb_spec i 0) as [->|H0].
  - rewrite (fw_0 Hf), (b_bos Hb) in H. destruct j as [|j]; [|destruct j; discriminate]. injection H as <-.
    repeat split; try lia. left. auto.
  - assert (Hi : i < n + 2).
    { destruct (Nat.lt_ge_cases i (n + 2)); [assumption|]. rewrite nth_overflow in H; [destruct j; discriminate|].
      rewrite (fw_len Hf), (b_len Hb). fold n. lia. }
    assert (Hi' : 0 < i < n + 2) by lia.
    pose proof (fw_step Hf (i := i)) as F. rewrite (b_len Hb) in F. specialize (F Hi').
    destruct (Forall2_nth F H) as (t & Ht & Hr).
    pose proof (nth_error_In _ _ Ht) as Hin.
    assert (Hcore : core nd = core t /\ n_start nd = n_start t /\ n_class nd = n_class t /\ n_id nd = n_id t).
    { destruct Hr as [[_ ->]|(j0 & q & _ & _ & ->)]; repeat split; reflexivity. }
    destruct Hcore as (C1 & C2 & C3 & C4).
    assert (H0' : 0 < i) by lia.
    destruct (built_start Hb H0' Hin) as [S1 S2].
    destruct (built_node Hb Hin) as [[? _]|[[Ei Et]|(Hr' & w & Hc & Hst & Et)]]; [lia| |].
    + fold n in Ei. subst i. rewrite Nat.eqb_refl. subst t. repeat split; try assumption.
      * right. left. repeat split. unfold n in Ht. rewrite (b_eos Hb) in Ht. destruct j as [|j]; [reflexivity|destruct j; discriminate].
      * rewrite C2. assumption.
      * rewrite C2. reflexivity.
    + fold n in Hr'. destruct (Nat.eqb_spec i (S n)); [lia|]. rewrite H.
      assert (Ew : Word (n_class nd) (n_id nd) (n_start nd) i = w).
      { rewrite C2, C3, C4, Et. cbn. rewrite <- Hst. destruct w; reflexivity. }
      rewrite Ew. repeat split; try assumption.
      * rewrite C1, Et. apply core_node_of.
      * right. right. split; [assumption|]. exists w. auto.
      * rewrite C2. assumption.
      * rewrite C2, Et. reflexivity.
Qed.

Lemma gcore_fields c nd : nth_error (nth (fst c) la' []) (snd c) = Some nd ->
  n_class nd = g_class (gof c) /\ n_id nd = g_id (gof c) /\ n_left nd = m_left (g_entry d (gof c)) /\
  n_right nd = m_right (g_entry d (gof c)) /\ n_weight nd = m_weight (g_entry d (gof c)).
Proof.
  intros H. destruct (node_view H) as (C & _).
  assert (E : forall g, core nd = gcore g -> n_class nd = g_class g /\ n_id nd = g_id g /\ n_left nd = m_left (g_entry d g) /\
      n_right nd = m_right (g_entry d g) /\ n_weight nd = m_weight (g_entry d g)).
  { intros g Hg. destruct nd as [a1 a2 a3 a4 a5 a6 a7 a8 a9 a10]. destruct g as [| |w]; cbn in Hg; injection Hg; intros; subst; auto. }
  apply E. assumption.
Qed.

Lemma good_pos g : good_gnode g -> good_token (tok_of d u (g_class g) (g_id g)).
Proof.
  destruct g as [| |w]; cbn [g_class g_id good_gnode]; intros Hc; [exact I|exact I|].
  unfold good_token, tok_of. cbn [t_class t_id t_dict t_udict]. pose proof (candidate_id Hd Hc) as Hid. unfold id_ok in Hid.
  destruct (w_class w) eqn:E; try assumption; try exact I.
  destruct Hc; cbn [w_class w_id] in *; try discriminate.
  exists ud. split; [assumption|]. destruct H0 as [_ Hk]. subst u. apply (Hu _ _ Hk).
Qed.

Lemma pos_feature_ok c nd : nth_error (nth (fst c) la' []) (snd c) = Some nd -> pos_feature d u nd = Ok (g_pos d u (gof c)).
Proof.
  intros H. destruct (node_view H) as (_ & G & _). destruct (gcore_fields H) as (E1 & E2 & _).
  pose proof (good_pos G) as Hg. unfold g_pos.
  destruct (node_class_eq_dec_user (n_class nd)) as [Hu'|Hu'].
  - unfold pos_feature. rewrite Hu'. rewrite Hu' in E1. rewrite <- E1.
    destruct (@user_ok (tok_of d u (g_class (gof c)) (g_id (gof c))) Hg) as (ud & e & Eu & Hr & He & Hc); [cbn; congruence|].
    cbn [tok_of t_udict t_id] in *. rewrite Eu. rewrite E2. rewrite indexZ_out by lia. rewrite He. cbn [rbind length Nat.eqb].
    unfold spec_pos, spec_features. rewrite He. reflexivity.
  - rewrite pos_feature_tok by assumption. rewrite E1, E2.
    rewrite (@token_pos_ok (tok_of d u (g_class (gof c)) (g_id (gof c))) Hw Hg). cbn [tok_of t_dict t_udict t_class t_id rbind].
    rewrite E1 in Hu'. destruct (g_class (gof c)); try reflexivity. congruence.
Qed.
(** ** The statements as a function *)
Definition node_label (cn : coord * node) : bytes :=
  if (n_id (snd cn) =? bos_eos_id)%Z then (if fst (fst cn) =? 0 then s2b "BOS" else s2b "EOS") else n_surface (snd cn).
Definition node_fun (bests : list coord) (cn : coord * node) : list stmt :=
  if skipped bests cn then []
  else [SNode (fst cn) (node_label cn) (g_pos d u (gof (fst cn))) (n_weight (snd cn)) (is_best bests (fst cn))].
Definition edges_fun (bests : list coord) (to : coord * node) : list ((coord * node) * (coord * node)) :=
  if skipped bests to then []
  else map (fun from => (from, to))
         (filter (fun from => negb (skipped bests from)) (cells_of (n_start (snd to)) (nth (n_start (snd to)) la' []))).
Definition all_edges (bests : list coord) : list ((coord * node) * (coord * node)) :=
  flat_map (edges_fun bests) (filter (fun cn => 1 <=? fst (fst cn)) (cells la')).
Definition edge_fun (bests : list coord) (e : (coord * node) * (coord * node)) : stmt :=
  let a := fst (fst e) in let b := fst (snd e) in
  SEdge a b (connection d (g_class (gof a)) (g_entry d (gof a)) (g_class (gof b)) (g_entry d (gof b)))
        (is_best bests a && is_best bests b).
Definition stmts_fun (bests : list coord) : list stmt :=
  flat_map (node_fun bests) (cells la') ++ map (edge_fun bests) (all_edges bests).

Lemma node_stmt_ok bests cn : In cn (cells la') -> node_stmt d u bests cn = Ok (node_fun bests cn).
Proof.
  destruct cn as [c nd]. intros H. apply cells_in in H. unfold node_stmt, node_fun, node_label. cbn [fst snd].
  destruct (skipped bests (c, nd)) eqn:Es; [reflexivity|]. rewrite (pos_feature_ok H). cbn [rbind].
  unfold skipped in Es. cbn [fst snd] in Es. destruct (is_best bests c); [reflexivity|].
  destruct (class_eqb (n_class nd) UNKNOWN); [discriminate|]. reflexivity.
Qed.

Lemma start_lt c nd : nth_error (nth (fst c) la' []) (snd c) = Some nd -> 1 <= fst c -> n_start nd < length la'.
Proof.
  intros H Hc. destruct (node_view H) as (_ & _ & _ & S). destruct (S Hc) as [S1 _].
  destruct (Nat.lt_ge_cases (fst c) (length la')); [lia|]. rewrite nth_overflow in H by assumption. destruct (snd c); discriminate.
Qed.

Lemma edges_to_ok bests cn : In cn (cells la') -> 1 <= fst (fst cn) -> edges_to bests la' cn = Ok (edges_fun bests cn).
Proof.
  destruct cn as [c nd]. intros H Hc. apply cells_in in H. unfold edges_to, edges_fun. cbn [fst snd].
  destruct (skipped bests (c, nd)); [reflexivity|]. rewrite (@index_nth _ la' (n_start nd) []) by (apply (start_lt H Hc)). reflexivity.
Qed.

Lemma edges_fun_in bests f cf t ct : In ((cf, f), (ct, t)) (all_edges bests) <->
  nth_error (nth (fst cf) la' []) (snd cf) = Some f /\ nth_error (nth (fst ct) la' []) (snd ct) = Some t /\
  1 <= fst ct /\ n_start t = fst cf /\ skipped bests (cf, f) = false /\ skipped bests (ct, t) = false.
Proof.
  unfold all_edges. rewrite in_flat_map. split.
  - intros (cn & H1 & H2). apply filter_In in H1. destruct H1 as [H1 Hc]. unfold edges_fun in H2.
    destruct (skipped bests cn) eqn:Es; [contradiction|]. apply in_map_iff in H2. destruct H2 as (cf' & E & H2).
    injection E as -> ->. apply filter_In in H2. destruct H2 as [H2 Hs]. cbn [fst snd] in *. apply cells_of_in in H2. destruct H2 as [H2 H3].
    apply cells_in in H1. rewrite H2. apply Nat.leb_le in Hc. apply negb_true_iff in Hs. auto 10.
  - intros (H1 & H2 & H3 & H4 & H5 & H6). exists (ct, t). split.
    + apply filter_In. split; [apply cells_in; assumption|]. apply Nat.leb_le. assumption.
    + unfold edges_fun. rewrite H6. apply in_map_iff. exists (cf, f). split; [reflexivity|]. cbn [snd]. apply filter_In. split.
      * apply cells_of_in. split; [auto|]. rewrite H4. assumption.
      * rewrite H5. reflexivity.
Qed.

Lemma g_entry_wf rows c : (forall k id, id_ok d k id -> wf_morph rows (d_conn_col d) (entry d k id)) -> (0 < rows)%Z -> (0 < d_conn_col d)%Z ->
  good_gnode (gof c) -> wf_morph rows (d_conn_col d) (g_entry d (gof c)).
Proof.
  intros H R C G. assert (Z0 : wf_morph rows (d_conn_col d) zero_morph) by (unfold wf_morph, int16; cbn; lia).
  destruct (gof c) as [| |w]; try exact Z0. apply H. apply (candidate_id Hd G).
Qed.

Lemma edge_stmt_ok bests e : In e (all_edges bests) -> edge_stmt d bests e = Ok (edge_fun bests e).
Proof.
  destruct e as [[cf f] [ct t]]. intros H. apply edges_fun_in in H. destruct H as (H1 & H2 & _).
  unfold edge_stmt, edge_fun. cbn [fst snd].
  destruct (gcore_fields H1) as (A1 & A2 & A3 & A4 & A5). destruct (gcore_fields H2) as (B1 & B2 & B3 & B4 & B5).
  destruct (node_view H1) as (_ & G1 & _). destruct (node_view H2) as (_ & G2 & _).
  destruct (@entry_wf d inp Hd) as (rows & (R1 & R2 & R3) & R4).
  pose proof (g_entry_wf R4 R1 R2 G1) as W1. pose proof (g_entry_wf R4 R1 R2 G2) as W2. unfold wf_morph in W1, W2.
  assert (I : conn_at d (n_right f) (n_left t) = Ok (nth (Z.to_nat (d_conn_col d * m_right (g_entry d (gof cf)) + m_left (g_entry d (gof ct)))) (d_conn_vec d) 0%Z)).
  { unfold conn_at. rewrite A4, B3. apply indexZ_nth. rewrite R3. nia. }
  rewrite I, A1, B1. unfold connection. destruct (g_class (gof cf)), (g_class (gof ct)); reflexivity.
Qed.

Lemma dot_stmts_ok out : dot_stmts d u la' out = Ok (stmts_fun (best_set out)).
Proof.
  unfold dot_stmts, edge_list.
  rewrite (mapM_ok (g := edges_fun (best_set out))).
  2:{ intros cn H. apply filter_In in H. destruct H as [H1 H2]. apply edges_to_ok; [assumption|]. apply Nat.leb_le. assumption. }
  cbn [rbind]. rewrite (mapM_ok (g := node_fun (best_set out))) by (intros cn H; apply node_stmt_ok; assumption).
  cbn [rbind]. rewrite <- flat_map_concat_map. fold (all_edges (best_set out)).
  rewrite (mapM_ok (g := edge_fun (best_set out))) by (intros e H; apply edge_stmt_ok; assumption).
  cbn [rbind]. rewrite <- flat_map_concat_map. reflexivity.
Qed.

Lemma in_node_stmt bests c s p w b : In (SNode c s p w b) (stmts_fun bests) <->
  exists nd, nth_error (nth (fst c) la' []) (snd c) = Some nd /\ skipped bests (c, nd) = false /\
    s = node_label (c, nd) /\ p = g_pos d u (gof c) /\ w = n_weight nd /\ b = is_best bests c.
Proof.
  unfold stmts_fun. rewrite in_app_iff, in_flat_map, in_map_iff. split.
  - intros [((c' & nd) & H1 & H2)|(e & H & _)]; [|unfold edge_fun in H; discriminate].
    unfold node_fun in H2. destruct (skipped bests (c', nd)) eqn:Es; [contradiction|]. destruct H2 as [[= -> <- <- <- <-]|[]].
    apply cells_in in H1. exists nd. auto 10.
  - intros (nd & H1 & H2 & -> & -> & -> & ->). left. exists (c, nd). split; [apply cells_in; assumption|].
    unfold node_fun. rewrite H2. left. reflexivity.
Qed.

Lemma declared_iff bests c : declared (stmts_fun bests) c <->
  exists nd, nth_error (nth (fst c) la' []) (snd c) = Some nd /\ skipped bests (c, nd) = false.
Proof.
  unfold declared. split.
  - intros (s & p & w & b & H). apply in_node_stmt in H. destruct H as (nd & H1 & H2 & _). eauto.
  - intros (nd & H1 & H2). do 4 eexists. apply in_node_stmt. exists nd. auto 10.
Qed.

Lemma in_edge_stmt bests a b k f : In (SEdge a b k f) (stmts_fun bests) <->
  (exists na nb, nth_error (nth (fst a) la' []) (snd a) = Some na /\ nth_error (nth (fst b) la' []) (snd b) = Some nb /\
     1 <= fst b /\ n_start nb = fst a /\ skipped bests (a, na) = false /\ skipped bests (b, nb) = false) /\
  k = connection d (g_class (gof a)) (g_entry d (gof a)) (g_class (gof b)) (g_entry d (gof b)) /\
  f = is_best bests a && is_best bests b.
Proof.
  unfold stmts_fun. rewrite in_app_iff, in_flat_map, in_map_iff. split.
  - intros [((c' & nd) & H1 & H2)|(e & H & H1)].
    + unfold node_fun in H2. destruct (skipped bests (c', nd)); [contradiction|]. destruct H2 as [H2|[]]. discriminate.
    + destruct e as [[a' na] [b' nb]]. unfold edge_fun in H. cbn [fst snd] in H. injection H as -> -> <- <-.
      apply edges_fun_in in H1. split; [|auto]. exists na, nb. assumption.
  - intros ((na & nb & H) & -> & ->). right. exists ((a, na), (b, nb)). split; [reflexivity|]. apply edges_fun_in. assumption.
Qed.

Lemma edges_closed bests a b k f : In (SEdge a b k f) (stmts_fun bests) ->
  declared (stmts_fun bests) a /\ declared (stmts_fun bests) b.
Proof.
  intros H. apply in_edge_stmt in H. destruct H as ((na & nb & H1 & H2 & _ & _ & H5 & H6) & _).
  rewrite !declared_iff. split; eauto.
Qed.

Lemma declared_once bests : NoDup (declared_list (stmts_fun bests)).
Proof.
  unfold declared_list, stmts_fun. rewrite flat_map_app.
  assert (E : flat_map (fun s => match s with SNode c _ _ _ _ => [c] | _ => [] end) (map (edge_fun bests) (all_edges bests)) = []).
  { induction (all_edges bests) as [|e l IH]; [reflexivity|exact IH]. }
  rewrite E, app_nil_r. pose proof (cells_nodup la') as N. revert N. generalize (cells la'). intros l.
  induction l as [|cn l IH]; cbn [flat_map map]; intros N; [constructor|]. inversion N as [|? ? Hx Hl]; subst.
  rewrite flat_map_app. unfold node_fun at 1. destruct (skipped bests cn); cbn [flat_map app]; [apply IH; assumption|].
  constructor; [|apply IH; assumption]. intros Hin. apply Hx. clear -Hin.
  apply in_flat_map in Hin. destruct Hin as (s & H1 & H2). apply in_flat_map in H1. destruct H1 as (cn' & H1 & H3).
  unfold node_fun in H3. destruct (skipped bests cn'); [contradiction|]. destruct H3 as [<-|[]]. destruct H2 as [<-|[]].
  apply in_map. assumption.
Qed.

(** ** The best path *)
(** Following predecessors from c. *)
Inductive cback (c : coord) : list (coord * node) -> Prop :=
| cb_end nd : nth_error (nth (fst c) la' []) (snd c) = Some nd -> n_prev nd = None -> cback c [(c, nd)]
| cb_step nd c' l : nth_error (nth (fst c) la' []) (snd c) = Some nd -> n_prev nd = Some c' -> cback c' l -> cback c ((c, nd) :: l).

Definition ptrs_fun (cn : coord * node) : list (option coord) :=
  match m, n_class (snd cn) with
  | LExtended, UNKNOWN => map (fun _ => None) (output_fun m (snd cn))
  | _, _ => [Some (fst cn)]
  end.

Lemma in_lattice c nd : nth_error (nth (fst c) la' []) (snd c) = Some nd -> fst c < n + 2.
Proof.
  intros H. destruct (Nat.lt_ge_cases (fst c) (n + 2)); [assumption|].
  rewrite nth_overflow in H; [destruct (snd c); discriminate|]. rewrite (fw_len Hf), (b_len Hb). assumption.
Qed.

Lemma get2_at c nd : nth_error (nth (fst c) la' []) (snd c) = Some nd -> get2 la' (fst c) (snd c) = Ok nd.
Proof. intros H. apply (get2_la' Hb Hf); [apply (in_lattice H)|assumption]. Qed.

Lemma walk_ptrs_ok c l : cback c l -> forall fuel out, length l <= fuel ->
  walk_ptrs fuel m la' c out = Ok (out ++ flat_map ptrs_fun l).
Proof.
  assert (P : forall c nd, output_ptrs m c nd = Ok (ptrs_fun (c, nd))).
  { intros c0 nd. unfold output_ptrs, ptrs_fun. cbn [fst snd]. rewrite output_of_ok. cbn [rbind]. destruct m, (n_class nd); reflexivity. }
  induction 1 as [c nd H Hp|c nd c' l H Hp Hl IH]; intros fuel out Hfu; destruct fuel as [|f]; cbn [length] in Hfu; try lia;
    cbn [walk_ptrs]; rewrite (get2_at H); cbn [rbind]; rewrite P; cbn [rbind]; rewrite Hp; cbn [flat_map].
  - rewrite app_nil_r. reflexivity.
  - rewrite IH by lia. rewrite app_assoc. reflexivity.
Qed.

Lemma cback_back c l : cback c l -> exists nd l', l = (c, nd) :: l' /\ back la' nd (map snd l).
Proof.
  induction 1 as [c nd H Hp|c nd c' l H Hp Hl IH].
  - exists nd, []. split; [reflexivity|]. cbn. apply back_end. assumption.
  - destruct IH as (nd' & l' & -> & B). exists nd, ((c', nd') :: l'). split; [reflexivity|]. cbn [map snd] in *.
    destruct c' as [i j]. eapply back_step; [exact Hp| |exact B]. inversion Hl; subst; apply (get2_at (c := (i, j))); assumption.
Qed.

(** The predecessor of a node ends where the node starts. *)
Lemma prev_start c nd c' : nth_error (nth (fst c) la' []) (snd c) = Some nd -> n_prev nd = Some c' ->
  0 < fst c /\ fst c' = n_start nd /\ exists nd', nth_error (nth (fst c') la' []) (snd c') = Some nd'.
Proof.
  intros H Hp. destruct c as [i j]. cbn [fst snd] in *. destruct (Nat.eq_dec i 0) as [->|Hi].
  - rewrite (fw_0 Hf), (b_bos Hb) in H. destruct j as [|j]; [|destruct j; discriminate]. injection H as <-. discriminate.
  - assert (Hi' : 0 < i < n + 2) by (pose proof (@in_lattice (i, j) nd H); cbn in *; lia).
    destruct (@fw_node d u inp ideo m la la' Hb Hf i j nd Hi' H) as (t & Ht & Hpn & [[_ ->]|(j0 & q & Hq & _ & ->)]).
    + cbn in Hp. congruence.
    + cbn in Hp. injection Hp as <-. cbn [fst snd n_start set_cost_prev]. split; [lia|]. split; [reflexivity|]. eauto.
Qed.

Lemma cback_exists i : forall j nd, nth_error (nth i la' []) j = Some nd -> exists l, cback (i, j) l /\ length l <= S i.
Proof.
  induction i as [i IH] using lt_wf_ind. intros j nd H. destruct (n_prev nd) as [[i' j']|] eqn:Hp.
  - destruct (@prev_start (i, j) nd (i', j') H Hp) as (H0 & E & nd' & Hn). cbn [fst snd] in *.
    destruct (@node_view (i, j) nd H) as (_ & _ & _ & Hs). cbn [fst] in Hs. destruct (Hs H0) as [Hs' _].
    destruct (IH i' ltac:(lia) j' nd' Hn) as (l & Hl & Hle). exists (((i, j), nd) :: l). split; [eapply cb_step; eauto|cbn; lia].
  - exists [((i, j), nd)]. split; [apply cb_end; assumption|cbn; lia].
Qed.

Lemma eos_here : exists eos, nth_error (nth (S n) la' []) 0 = Some eos /\ n_prev eos <> None.
Proof.
  destruct (eos_at Hb Hf) as (eos & He & Hr). exists eos. split; [assumption|].
  destruct Hr as [[Hem ->]|(j & p & Hp & _ & ->)]; [|discriminate]. exfalso. cbn [n_start eos_node] in Hem. fold n in Hem.
  destruct (Nat.eq_dec n 0) as [E0|E0].
  - rewrite E0, (fw_0 Hf), (b_bos Hb) in Hem. discriminate.
  - destruct (@segmentation_from d u inp Hd Hu la Hb n 0 eq_refl) as (ws & Hws).
    destruct ws as [|w ws _] using rev_ind.
    * assert (Hx : n = 0) by (inversion Hws; unfold n; congruence). lia.
    * apply chain_inv_snoc in Hws. destruct Hws as (_ & Hc & Hst). fold n in Hst.
      pose proof (candidate_range Hc) as R. fold n in R.
      assert (Hin : In (node_of d inp w) (nth n la [])).
      { apply (b_mid Hb); [fold n; lia|]. exists w. auto. }
      apply In_nth_error in Hin. destruct Hin as (j & Hj).
      assert (F := fw_step Hf (i := n)). rewrite (b_len Hb) in F. specialize (F ltac:(fold n; lia)).
      destruct (Forall2_nth_l F Hj) as (t' & Hj' & _). rewrite Hem in Hj'. destruct j; discriminate.
Qed.

(** The path from EOS. *)
Lemma path_exists : exists l, cback (S n, 0) l /\ 2 <= length l <= S (length la') /\ backward_ptrs m la' = Ok (flat_map ptrs_fun l) /\
  backward m la' = Ok (flat_map (output_fun m) (map snd l)).
Proof.
  destruct eos_here as (eos & He & Hp). destruct (cback_exists He) as (l & Hl & Hle).
  assert (L : length la' = S (S n)) by (rewrite (fw_len Hf), (b_len Hb); fold n; lia).
  exists l. split; [assumption|]. split; [|split].
  - split; [|lia]. inversion Hl as [nd H1 H2|nd c' l' H1 H2 H3]; subst; cbn [fst snd] in *.
    + rewrite He in H1. injection H1 as <-. contradiction.
    + inversion H3; subst; cbn; lia.
  - unfold backward_ptrs. rewrite L. cbv iota. rewrite (walk_ptrs_ok Hl) by lia. reflexivity.
  - destruct (cback_back Hl) as (nd & l' & El & B). subst l.
    assert (H : nth_error (nth (S n) la' []) 0 = Some nd) by (inversion Hl; subst; assumption).
    cbn [map snd] in B |- *. rewrite (@backward_ok d u inp ideo m m la la' nd _ Hb Hf H B). reflexivity.
Qed.

(** Along the path positions decrease and consecutive nodes are predecessors. *)
Lemma cback_nodes c l : cback c l -> forall cn, In cn l -> nth_error (nth (fst (fst cn)) la' []) (snd (fst cn)) = Some (snd cn) /\ fst (fst cn) <= fst c.
Proof.
  induction 1 as [c nd H Hp|c nd c' l H Hp Hl IH]; intros cn [<-|Hin]; cbn [fst snd]; auto.
  - destruct Hin.
  - destruct (IH cn Hin) as [A B]. split; [assumption|]. destruct (prev_start H Hp) as (H0 & E & _).
    destruct (node_view H) as (_ & _ & _ & S). destruct (S H0). lia.
Qed.

Lemma cback_decr c nd c' l : cback c ((c, nd) :: l) -> n_prev nd = Some c' -> forall cn, In cn l -> fst (fst cn) < fst c.
Proof.
  intros H Hp cn Hin. inversion H as [|? c1 ? H1 H2 H3]; subst; [destruct Hin|].
  destruct (cback_nodes H3 Hin) as [_ B]. destruct (prev_start H1 H2) as (H0 & E & _).
  destruct (node_view H1) as (_ & _ & _ & S). destruct (S H0). lia.
Qed.

Lemma cback_nodup c l : cback c l -> NoDup (map (fun cn => fst (fst cn)) l).
Proof.
  induction 1 as [c nd H Hp|c nd c' l H Hp Hl IH]; cbn [map]; constructor; auto; [constructor|].
  intros Hin. apply in_map_iff in Hin. destruct Hin as (cn & E & Hin).
  assert (X := @cback_decr c nd c' l (cb_step H Hp Hl) Hp cn Hin). cbn [fst] in *. unfold coord in *. lia.
Qed.

Lemma cback_consecutive c l : cback c l -> forall a b, consecutive (map fst l) a b ->
  exists na, In (a, na) l /\ n_prev na = Some b.
Proof.
  induction 1 as [c nd H Hp|c nd c' l H Hp Hl IH]; intros a b (l1 & l2 & E); cbn [map fst] in E.
  - destruct l1 as [|x l1]; [discriminate|]. destruct l1; discriminate.
  - destruct l1 as [|x l1]; cbn [app] in E.
    + injection E as -> E. exists nd. split; [left; reflexivity|]. rewrite Hp. f_equal.
      inversion Hl; subst; cbn [map fst] in E; unfold coord in *; congruence.
    + injection E as _ E. destruct (IH a b) as (na & H1 & H2); [exists l1, l2; assumption|].
      exists na. split; [right; assumption|assumption].
Qed.

Lemma cback_next c l : cback c l -> forall a na, In (a, na) l -> forall b, n_prev na = Some b -> consecutive (map fst l) a b.
Proof.
  induction 1 as [c nd H Hp|c nd c' l H Hp Hl IH]; intros a na Hin b Hb'.
  - destruct Hin as [[= -> ->]|[]]. congruence.
  - destruct Hin as [[= -> ->]|Hin].
    + rewrite Hp in Hb'. injection Hb' as ->. exists []. inversion Hl; subst; cbn [map fst]; eexists; reflexivity.
    + destruct (IH a na Hin b Hb') as (l1 & l2 & E). exists (c :: l1), l2. cbn [map fst]. rewrite E. reflexivity.
Qed.

End Graph.

Lemma cback_last la' c l : cback la' c l -> forall k cn, nth_error (rev l) k = Some cn -> (n_prev (snd cn) = None <-> k = 0).
Proof.
  induction 1 as [c nd H Hp|c nd c' l H Hp Hl IH]; intros k cn Hk; cbn [rev] in Hk.
  - destruct k as [|k]; [|destruct k; discriminate]. injection Hk as <-. tauto.
  - destruct (Nat.lt_ge_cases k (length (rev l))) as [Hlt|Hge].
    + rewrite nth_error_app1 in Hk by assumption. apply IH. assumption.
    + rewrite nth_error_app2 in Hk by assumption. destruct (k - length (rev l)) as [|x] eqn:Ex; [|destruct x; discriminate].
      injection Hk as <-. cbn [snd]. rewrite Hp. split; [discriminate|]. intros ->.
      rewrite rev_length in Hge. inversion Hl; subst; cbn in Hge; lia.
Qed.

Lemma consecutive_rev {A} (l : list A) a b : consecutive (rev l) a b <-> consecutive l b a.
Proof.
  assert (G : forall (l : list A) a b, consecutive l b a -> consecutive (rev l) a b).
  { intros l0 a0 b0 (l1 & l2 & ->). exists (rev l2), (rev l1). rewrite rev_app_distr. cbn [rev]. rewrite <- !app_assoc. reflexivity. }
  split; [|apply G]. intros H. apply G in H. rewrite rev_involutive in H. assumption.
Qed.

Lemma imap_Forall2 {A B C} (P : B -> C -> Prop) (f : nat -> A -> B) (g : A -> C) : forall l i,
  (forall k x, nth_error l k = Some x -> P (f (i + k) x) (g x)) -> Forall2 P (imap f i l) (map g l).
Proof.
  induction l as [|x l IH]; intros i H; cbn [imap map]; constructor.
  - specialize (H 0 x eq_refl). rewrite Nat.add_0_r in H. assumption.
  - apply IH. intros k y Hk. specialize (H (S k) y Hk). rewrite Nat.add_succ_r in H. assumption.
Qed.

Section More.
Variables (d : dict) (u : option udict) (inp : bytes) (ideo : ideographic) (m : lmode).
Hypothesis Hd : wf_dict d.
Hypothesis Hu : wf_udict u.
Let n := rcount inp.
Variables la la' : table.
Hypothesis Hb : built d u inp la.
Hypothesis Hf : forwarded d ideo m la la'.


Lemma prev_none c nd : nth_error (nth (fst c) la' []) (snd c) = Some nd -> 0 < fst c -> n_prev nd = None -> nth (n_start nd) la' [] = [].
Proof.
  intros H Hc Hp. destruct c as [i j]. cbn [fst snd] in *.
  assert (Hi' : 0 < i < n + 2) by (pose proof (@in_lattice d u inp ideo m la la' Hb Hf (i, j) nd H); cbn in *; unfold n; lia).
  destruct (@fw_node d u inp ideo m la la' Hb Hf i j nd Hi' H) as (t & Ht & Hpn & [[Hem ->]|(j0 & q & Hq & _ & ->)]).
  - exact Hem.
  - cbn in Hp. discriminate.
Qed.

Lemma in_path_eq c l : cback la' c l -> forall a na b nb, In (a, na) l -> In (b, nb) l -> fst a = fst b -> (a, na) = (b, nb).
Proof.
  intros Hl a na b nb Ha Hb' E. pose proof (@cback_nodup d u inp ideo m la la' Hb Hf c l Hl) as N.
  unfold coord in *. apply In_nth_error in Ha, Hb'. destruct Ha as (i & Hi), Hb' as (j & Hj).
  assert (Eij : i = j).
  { eapply NoDup_nth_error; [exact N| |].
    - rewrite map_length. apply nth_error_Some. unfold coord in *; congruence.
    - rewrite !nth_error_map, Hi, Hj. cbn. rewrite E. reflexivity. }
  subst j. congruence.
Qed.


End More.

Lemma ptrs_normal m l : m <> LExtended -> best_set (flat_map (ptrs_fun m) l) = map fst l.
Proof.
  intros Hm. induction l as [|cn l IH]; [reflexivity|]. cbn [flat_map map]. unfold best_set in *. rewrite flat_map_app, IH.
  unfold ptrs_fun. destruct m; [reflexivity|reflexivity|congruence].
Qed.

Lemma output_normal m l : m <> LExtended -> flat_map (output_fun m) l = l.
Proof. intros Hm. induction l as [|x l IH]; [reflexivity|]. cbn [flat_map]. rewrite IH. destruct m; [reflexivity|reflexivity|congruence]. Qed.

Theorem graph_ok d u omit ideo inp mode : wf_dict d -> wf_udict u -> wf_data d ->
  exists la la' l, built d u inp la /\ forwarded d ideo (to_lmode mode) la la' /\ cback la' (S (rcount inp), 0) l /\
    graph_stmts ideo (Tokenizer d u omit) inp mode = Ok (stmts_fun d u inp la' (best_set (flat_map (ptrs_fun (to_lmode mode)) l))) /\
    analyze_graph ideo (Tokenizer d u omit) inp mode =
      Ok (imap (make_graph_token (Tokenizer d u omit)) 0 (rev (flat_map (output_fun (to_lmode mode)) (map snd l)))).
Proof.
  intros Hd Hu Hw. destruct (lattice_ok inp Hd Hu ideo (to_lmode mode)) as (la & la' & E1 & Hb & E2 & Hf).
  destruct (path_exists Hd Hu Hb Hf) as (l & Hl & _ & E3 & E4). exists la, la', l. split; [assumption|]. split; [assumption|]. split; [assumption|]. split.
  - unfold graph_stmts. cbn [tk_dict tk_udict]. rewrite E1. cbn [rbind]. rewrite E2. cbn [rbind]. rewrite E3. cbn [rbind].
    apply (dot_stmts_ok Hd Hu Hw Hb Hf).
  - unfold analyze_graph, run_lattice. cbn [tk_dict tk_udict]. rewrite E1. cbn [rbind]. rewrite E2. cbn [rbind]. rewrite E4. cbn [rbind snd].
    apply graph_tokens_ok.
Qed.

Theorem c18_closed_lemma d u omit ideo inp mode : wf_dict d -> wf_udict u -> wf_data d ->
  exists ss, graph_stmts ideo (Tokenizer d u omit) inp mode = Ok ss /\
    (forall a b k f, In (SEdge a b k f) ss -> declared ss a /\ declared ss b) /\ NoDup (declared_list ss).
Proof.
  intros Hd Hu Hw. destruct (graph_ok omit ideo inp mode Hd Hu Hw) as (la & la' & l & Hb & Hf & Hl & E & _).
  eexists. split; [exact E|]. split.
  - intros a b k f H. apply (edges_closed H).
  - apply declared_once.
Qed.

Theorem c18_path_lemma d u omit ideo inp mode : wf_dict d -> wf_udict u -> wf_data d -> mode <> mode_extended ->
  exists ts ss cs, analyze_graph ideo (Tokenizer d u omit) inp mode = Ok ts /\
    graph_stmts ideo (Tokenizer d u omit) inp mode = Ok ss /\
    Forall2 (fun tk c => exists p w, In (SNode c (t_surface tk) p w true) ss) ts cs /\ NoDup cs /\
    (forall c s p w, In (SNode c s p w true) ss -> In c cs) /\
    (forall a b, (exists k, In (SEdge a b k true) ss) <-> consecutive cs a b).
Proof.
  intros Hd Hu Hw Hm. apply lmode_not_extended in Hm.
  destruct (graph_ok omit ideo inp mode Hd Hu Hw) as (la & la' & l & Hb & Hf & Hl & E1 & E2).
  rewrite (output_normal _ Hm) in E2. rewrite (ptrs_normal _ Hm) in E1.
  do 2 eexists. exists (rev (map fst l)). split; [exact E2|]. split; [exact E1|].
  assert (Hnode : forall c nd, In (c, nd) l -> nth_error (nth (fst c) la' []) (snd c) = Some nd).
  { intros c nd Hin. apply (cback_nodes Hb Hf Hl Hin). }
  assert (Hbest : forall c, is_best (map fst l) c = true <-> In c (map fst l)) by (intros c; apply is_best_in).
  assert (Hskip : forall c nd, In (c, nd) l -> skipped (map fst l) (c, nd) = false).
  { intros c nd Hin. unfold skipped. cbn [fst snd].
    assert (B : is_best (map fst l) c = true) by (apply Hbest; apply (in_map fst) in Hin; assumption).
    rewrite B. apply andb_false_r. }
  split; [|split; [|split]].
  - rewrite <- !map_rev.
    assert (X : imap (make_graph_token (Tokenizer d u omit)) 0 (map snd (rev l)) =
                imap (fun i (cn : coord * node) => make_graph_token (Tokenizer d u omit) i (snd cn)) 0 (rev l)).
    { generalize 0 (rev l). clear. intros k l. revert k. induction l as [|x l IH]; intros k; cbn [map imap]; [reflexivity|]. f_equal. apply IH. }
    rewrite X. apply imap_Forall2. intros k [c nd] Hk. cbn [fst snd Nat.add].
    pose proof (nth_error_In _ _ Hk) as Hin. apply in_rev in Hin. pose proof (Hnode _ _ Hin) as Hnd.
    exists (g_pos d u (gof inp la' c)), (n_weight nd). apply in_node_stmt. exists nd. repeat split; auto.
    + unfold make_graph_token, node_label. cbn [t_surface fst snd]. destruct (Z.eqb_spec (n_id nd) bos_eos_id) as [Eid|]; [|reflexivity].
      destruct (cback_last Hl Hk) as [L1 L2]. cbn [snd] in *.
      destruct (node_view Hb Hf Hnd) as (C & G & [(F0 & _ & Ebos & _)|[(F0 & _ & F2)|(F0 & w & Ew & _)]] & _).
      * rewrite F0, Nat.eqb_refl. rewrite L1; [reflexivity|]. rewrite Ebos. reflexivity.
      * destruct (Nat.eqb_spec k 0) as [->|]; [|rewrite F0; reflexivity]. exfalso.
        destruct (eos_here Hd Hu Hb Hf) as (eos & He & Hp). apply Hp. rewrite F0, F2 in Hnd. rewrite Hnd in He. injection He as <-. apply L2. reflexivity.
      * exfalso. destruct (gcore_fields Hb Hf Hnd) as (_ & I & _). rewrite Ew in I, G. cbn [g_id good_gnode] in *.
        pose proof (candidate_id_pos Hd Hu G). unfold bos_eos_id in Eid. lia.
    + symmetry. apply Hbest. apply (in_map fst) in Hin. assumption.
  - apply NoDup_rev. pose proof (cback_nodup Hb Hf Hl) as N. rewrite <- (map_map fst fst) in N. apply NoDup_map_inv in N. assumption.
  - intros c s p w H. apply in_node_stmt in H. destruct H as (nd & _ & _ & _ & _ & _ & B). apply in_rev. rewrite rev_involutive. apply Hbest. auto.
  - intros a b. rewrite consecutive_rev. split.
    + intros (k & H). apply in_edge_stmt in H. destruct H as ((na & nb & H1 & H2 & H3 & H4 & _) & _ & B).
      symmetry in B. apply andb_true_iff in B. rewrite !Hbest in B. destruct B as [Ba Bb].
      apply in_map_iff in Ba, Bb. destruct Ba as ((a' & na') & Ea & Ha), Bb as ((b' & nb') & Eb & Hb'). cbn [fst] in *. subst a' b'.
      pose proof (Hnode _ _ Ha) as Ha2. pose proof (Hnode _ _ Hb') as Hb2.
      assert (Ex : nb' = nb) by congruence. subst nb'.
      destruct (n_prev nb) as [c'|] eqn:Ep.
      * pose proof (cback_next Hl Hb' Ep) as Cn. destruct (prev_start Hb Hf Hb2 Ep) as (_ & P2 & _).
        assert (Hc' : exists nc, In (c', nc) l).
        { destruct Cn as (l1 & l2 & El). assert (Hin : In c' (map fst l)) by (rewrite El, in_app_iff; right; right; left; reflexivity).
          apply in_map_iff in Hin. destruct Hin as ((c1 & nc) & <- & Hin). eauto. }
        destruct Hc' as (nc & Hc'). assert (Eq : (c', nc) = (a, na')).
        { eapply (in_path_eq Hb Hf Hl); eauto. unfold coord in *. congruence. }
        injection Eq as -> _. assumption.
      * exfalso. pose proof (prev_none Hb Hf Hb2 ltac:(lia) Ep) as Hem. rewrite H4 in Hem. rewrite Hem in H1. destruct (snd a); discriminate.
    + intros Hc. destruct (cback_consecutive Hl Hc) as (nb & Hin & Hp). pose proof (Hnode _ _ Hin) as Hb2.
      destruct (prev_start Hb Hf Hb2 Hp) as (P1 & P2 & na & Hna).
      assert (Ha : In a (map fst l)) by (destruct Hc as (l1 & l2 & El); rewrite El, in_app_iff; right; right; left; reflexivity).
      apply in_map_iff in Ha. destruct Ha as ((a' & na') & Ea & Ha). cbn [fst] in Ea. subst a'.
      pose proof (Hnode _ _ Ha) as Ha2.
      eexists. apply in_edge_stmt. split; [|split; [reflexivity|]].
      * exists na', nb. repeat split; auto.
      * symmetry. apply andb_true_iff. rewrite !Hbest. split; [apply (in_map fst) in Ha|apply (in_map fst) in Hin]; assumption.
Qed.

Lemma surface_label d u inp ideo m la la' c nd w : built d u inp la -> forwarded d ideo m la la' ->
  nth_error (nth (fst c) la' []) (snd c) = Some nd -> gof inp la' c = GWord w -> candidate d u inp w ->
  n_surface nd = surface_of d inp w.
Proof.
  intros Hb Hf H Ew Hc. destruct (node_view Hb Hf H) as (C & _). rewrite Ew in C. cbn [gcore] in C.
  destruct nd. cbn in C |- *. injection C. intros. assumption.
Qed.

Lemma surface_cases d u inp w : candidate d u inp w ->
  surface_of d inp w = word_text inp w \/ odd_fffd d inp w /\ surface_of d inp w = firstn 1 (word_text inp w).
Proof.
  intros Hc. unfold surface_of. destruct (odd_b d inp w) eqn:E; [right|left; reflexivity].
  pose proof (odd_stop Hc E) as Es. pose proof (candidate_range Hc) as R. unfold odd_b in E. destruct (w_class w) eqn:Ec; try discriminate.
  apply andb_true_iff in E. destruct E as [E1 E2]. apply bytes_eqb_eq in E1. unfold word_text. rewrite Es, E1. split; [|reflexivity].
  unfold odd_fffd. split; [assumption|]. split; [apply literal_text; [lia|assumption]|]. destruct (groups _ _); [discriminate|reflexivity].
Qed.

Theorem c57_graph_lemma d u omit ideo inp mode : wf_dict d -> wf_udict u -> wf_data d ->
  exists ss g, graph_stmts ideo (Tokenizer d u omit) inp mode = Ok ss /\
    (forall c s p w b, In (SNode c s p w b) ss ->
       match g c with GWord x => candidate d u inp x | _ => True end /\
       g_surf d inp (g c) s /\ p = g_pos d u (g c) /\ w = m_weight (g_entry d (g c)) /\ (g_class (g c) = UNKNOWN -> b = true)) /\
    (exists a, declared ss a /\ forall c, declared ss c -> (g c = GBos <-> c = a)) /\
    (exists a, declared ss a /\ forall c, declared ss c -> (g c = GEos <-> c = a)) /\
    (forall x, candidate d u inp x -> w_class x <> UNKNOWN -> exists c, declared ss c /\ g c = GWord x) /\
    (forall a b, (exists k f, In (SEdge a b k f) ss) <-> declared ss a /\ declared ss b /\ adjacent inp (g a) (g b)) /\
    (forall a b k f, In (SEdge a b k f) ss -> k = connection d (g_class (g a)) (g_entry d (g a)) (g_class (g b)) (g_entry d (g b))).
Proof.
  intros Hd Hu Hw. destruct (graph_ok omit ideo inp mode Hd Hu Hw) as (la & la' & l & Hb & Hf & Hl & E & _).
  set (bests := best_set _) in E. exists (stmts_fun d u inp la' bests), (gof inp la'). split; [exact E|].
  assert (Hcl : forall g, good_gnode d u inp g -> g_class g = UNKNOWN -> exists w, g = GWord w /\ w_class w = UNKNOWN)
    by (intros [| |w] _ Hg; cbn in Hg; try discriminate; eauto).
  split; [|split; [|split; [|split; [|split]]]].
  - intros c s p w b H. apply in_node_stmt in H. destruct H as (nd & H1 & H2 & -> & -> & -> & ->).
    destruct (node_view Hb Hf H1) as (_ & G & V & _). destruct (gcore_fields Hb Hf H1) as (F1 & F2 & _ & _ & F5).
    split; [exact G|]. split; [|split; [reflexivity|split; [assumption|]]].
    + unfold node_label. cbn [fst snd]. rewrite F2. destruct V as [(V0 & V1 & _)|[(V0 & V1 & _)|(V0 & w & V1 & V2)]]; rewrite V1; cbn [g_id g_surf].
      * rewrite V0. reflexivity.
      * rewrite V0. reflexivity.
      * rewrite V1 in G. cbn [good_gnode] in G. pose proof (candidate_id_pos Hd Hu G).
        destruct (Z.eqb_spec (w_id w) bos_eos_id) as [Ei|_]; [unfold bos_eos_id in Ei; lia|].
        rewrite (surface_label Hb Hf H1 V1 G). apply (surface_cases G).
    + intros Hk. unfold skipped in H2. cbn [fst snd] in H2. rewrite F1, Hk in H2. cbn [class_eqb andb] in H2. destruct (is_best bests c); [reflexivity|discriminate].
  - exists (0, 0). split.
    + apply declared_iff. exists bos_node. cbn [fst snd]. split; [rewrite (fw_0 Hf), (b_bos Hb); reflexivity|reflexivity].
    + intros c Hc. apply declared_iff in Hc. destruct Hc as (nd & H1 & _).
      destruct (node_view Hb Hf H1) as (_ & _ & [(V0 & V1 & _ & V3)|[(V0 & V1 & V3)|(V0 & w & V1 & V2)]] & _); rewrite V1; split; try discriminate.
      * intros _. destruct c; cbn in *; congruence.
      * reflexivity.
      * intros ->. cbn in V0. discriminate.
      * intros ->. cbn in V0. lia.
  - destruct (eos_here Hd Hu Hb Hf) as (eos & He & _). exists (S (rcount inp), 0). split.
    + apply declared_iff. exists eos. cbn [fst snd]. split; [exact He|].
      assert (He' : nth_error (nth (fst (S (rcount inp), 0)) la' []) (snd (S (rcount inp), 0)) = Some eos) by exact He.
      destruct (gcore_fields Hb Hf He') as (F1 & _).
      assert (Ge : gof inp la' (S (rcount inp), 0) = GEos) by (unfold gof; cbn [fst snd]; rewrite (Nat.eqb_refl (S (rcount inp))); reflexivity).
      unfold skipped. cbn [fst snd]. rewrite F1, Ge. reflexivity.
    + intros c Hc. apply declared_iff in Hc. destruct Hc as (nd & H1 & _).
      destruct (node_view Hb Hf H1) as (_ & _ & [(V0 & V1 & _ & V3)|[(V0 & V1 & V3)|(V0 & w & V1 & V2)]] & _); rewrite V1; split; try discriminate.
      * intros ->. cbn in V0. discriminate.
      * intros _. destruct c; cbn in *; congruence.
      * reflexivity.
      * intros ->. cbn in V0. lia.
  - intros x Hx Hk. pose proof (candidate_range Hx) as R.
    assert (Hin : In (node_of d inp x) (nth (w_stop x) la [])) by (apply (b_mid Hb); [lia|]; exists x; auto).
    apply In_nth_error in Hin. destruct Hin as (j & Hj).
    assert (F := fw_step Hf (i := w_stop x)). rewrite (b_len Hb) in F. specialize (F ltac:(lia)).
    destruct (Forall2_nth_l F Hj) as (t' & Hj' & Hr).
    assert (Hj2 : nth_error (nth (fst (w_stop x, j)) la' []) (snd (w_stop x, j)) = Some t') by exact Hj'.
    assert (Hcore : n_class t' = w_class x /\ n_id t' = w_id x /\ n_start t' = w_start x).
    { destruct Hr as [[_ ->]|(j0 & q & _ & _ & ->)]; repeat split; reflexivity. }
    destruct Hcore as (C1 & C2 & C3). exists (w_stop x, j). split.
    + apply declared_iff. exists t'. split; [exact Hj2|]. unfold skipped. cbn [fst snd]. rewrite C1. destruct (w_class x); try reflexivity. congruence.
    + unfold gof. cbn [fst snd]. destruct (Nat.eqb_spec (w_stop x) 0); [lia|]. destruct (Nat.eqb_spec (w_stop x) (S (rcount inp))); [lia|].
      rewrite Hj', C1, C2, C3. destruct x; reflexivity.
  - intros a b. split.
    + intros (k & f & H). pose proof (edges_closed H) as [D1 D2]. split; [assumption|]. split; [assumption|].
      apply in_edge_stmt in H. destruct H as ((na & nb & H1 & H2 & H3 & H4 & _) & _).
      destruct (node_view Hb Hf H2) as (_ & _ & _ & S). destruct (S H3) as [S1 S2].
      exists (n_start nb). split; [|exact S2]. rewrite H4.
      assert (R : n_start nb < rcount inp + 1).
      { pose proof (in_lattice Hb Hf H2). lia. }
      destruct (node_view Hb Hf H1) as (_ & _ & [(V0 & V1 & _ & V3)|[(V0 & V1 & V3)|(V0 & w & V1 & V2)]] & _); rewrite V1; cbn [g_stop].
      * rewrite V0. reflexivity.
      * lia.
      * rewrite V2. reflexivity.
    + intros (D1 & D2 & k & A1 & A2). apply declared_iff in D1, D2. destruct D1 as (na & H1 & K1), D2 as (nb & H2 & K2).
      do 2 eexists. apply in_edge_stmt. split; [|split; reflexivity]. exists na, nb. split; [assumption|]. split; [assumption|].
      destruct (node_view Hb Hf H2) as (_ & _ & V & S).
      assert (H0 : 1 <= fst b).
      { destruct V as [(V0 & V1 & _)|[(V0 & _)|(V0 & _)]]; [|lia|lia]. rewrite V1 in A2. discriminate. }
      split; [assumption|]. destruct (S H0) as [_ S2]. rewrite S2 in A2. injection A2 as A2. split; [|auto]. rewrite A2.
      destruct (node_view Hb Hf H1) as (_ & _ & [(V0 & V1 & _ & V3)|[(V0 & V1 & V3)|(V0 & w & V1 & V2)]] & _); rewrite V1 in A1; cbn [g_stop] in A1;
        try discriminate; injection A1 as <-; congruence.
  - intros a b k f H. apply in_edge_stmt in H. tauto.
Qed.
