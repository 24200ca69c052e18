(** With any dictionaries at all the loops of an analysis end: it returns or it panics. *)
From Verif Require Import Utf8Facts BuildFacts TokFacts.
From Verif Require Export Server HeapFacts.
From Coq Require Import ZifyBool ZifyNat.
Set Implicit Arguments.
Unset Strict Implicit.
Open Scope nat_scope.

Definition ends {A} (r : res A) : Prop := r <> Diverge.
Lemma ends_ok A (a : A) : ends (Ok a).
Proof. discriminate. Qed.
Lemma ends_panic A : ends (@Panic A).
Proof. discriminate. Qed.
Lemma ends_bind A B (r : res A) (f : A -> res B) : ends r -> (forall a, r = Ok a -> ends (f a)) -> ends (rbind r f).
Proof. destruct r; cbn; intros H1 H2; [apply H2; reflexivity|discriminate|destruct (H1 eq_refl)]. Qed.
Lemma ends_index A (l : list A) i : ends (index l i).
Proof. unfold index. destruct (nth_error l i); discriminate. Qed.
Lemma ends_indexZ A (l : list A) i : ends (indexZ l i).
Proof. unfold indexZ. destruct (i <? 0)%Z; [discriminate|]. destruct (nth_error l (Z.to_nat i)); discriminate. Qed.
Lemma ends_slice A (l : list A) i j : ends (slice l i j).
Proof. unfold slice. destruct (_ && _); discriminate. Qed.
Lemma ends_update A (l : list A) i f : ends (update l i f).
Proof. unfold update. destruct (_ <? _); discriminate. Qed.
Lemma ends_mapM A B (f : A -> res B) l : (forall x, In x l -> ends (f x)) -> ends (mapM f l).
Proof.
  induction l as [|x l IH]; intros H; cbn [mapM]; [apply ends_ok|]. apply ends_bind; [apply H; left; reflexivity|]. intros y _.
  apply ends_bind; [apply IH; intros z Hz; apply H; right; exact Hz|]. intros. apply ends_ok.
Qed.
Lemma ends_foldM A B (f : A -> B -> res A) l : (forall a x, In x l -> ends (f a x)) -> forall a, ends (foldM f l a).
Proof.
  induction l as [|x l IH]; intros H a; cbn [foldM]; [apply ends_ok|]. apply ends_bind; [apply H; left; reflexivity|]. intros y _.
  apply IH. intros b z Hz. apply H. right. exact Hz.
Qed.
(** A property of the accumulator kept by every turn. *)
Lemma foldM_inv A B (f : A -> B -> res A) (P : A -> Prop) l : (forall a x a', In x l -> P a -> f a x = Ok a' -> P a') ->
  forall a a', P a -> foldM f l a = Ok a' -> P a'.
Proof.
  induction l as [|x l IH]; intros H a a' HP E; cbn [foldM] in E; [injection E as <-; exact HP|].
  apply ok_bind in E. destruct E as (b & Eb & E). apply (IH (fun c y c' Hy => H c y c' (or_intror Hy)) b a'); [|exact E].
  exact (H a x b (or_introl eq_refl) HP Eb).
Qed.
#[local] Hint Resolve ends_ok ends_panic ends_index ends_indexZ ends_slice ends_update : ends.
Ltac ends :=
  repeat first
    [ solve [auto with ends]
    | apply ends_bind; [|intros ? _]
    | apply ends_mapM; intros ? _
    | match goal with |- ends (match ?x with _ => _ end) => destruct x end
    | match goal with |- ends (let '(_, _) := ?x in _) => destruct x end ].

(** ** Build *)
Lemma ends_add_node d la pos id p s c sf : ends (add_node d la pos id p s c sf).
Proof. unfold add_node, node_morph. ends. Qed.
#[local] Hint Resolve ends_add_node : ends.
Lemma ends_add_matches d inp rp pos c ms la : ends (add_matches d inp rp pos c ms la).
Proof. unfold add_matches. apply ends_foldM. intros a [id l] _. ends. Qed.
#[local] Hint Resolve ends_add_matches : ends.

Lemma ends_group d inp class : forall fuel i e n, 1 <= fuel -> length inp < i + fuel -> ends (group_loop fuel d inp class i e n).
Proof.
  induction fuel as [|f IH]; intros i e n Hf H; cbn [group_loop].
  - lia.
  - destruct (Nat.ltb_spec i (length inp)) as [Hi|]; [|apply ends_ok]. unfold slice. destruct (_ && _); [|apply ends_panic]. cbn [rbind].
    set (rest := firstn _ _). assert (Hr : rest <> []).
    { intros E. apply (f_equal (@length _)) in E. unfold rest in E. rewrite firstn_length, skipn_length in E. cbn in E. lia. }
    pose proof (decode_width Hr) as W. destruct (decode_rune rest) as [c w]. cbn [snd] in W.
    destruct (negb _); [apply ends_ok|]. cbn zeta. destruct (_ <=? _)%N; [apply ends_ok|].
    assert (length rest <= length inp - i) by (unfold rest; rewrite firstn_length, skipn_length; lia). apply IH; lia.
Qed.
Lemma group_grows d inp class : forall fuel i e n e', group_loop fuel d inp class i e n = Ok e' -> e <= e'.
Proof.
  induction fuel as [|f IH]; intros i e n e' E; cbn [group_loop] in E; [discriminate|].
  destruct (i <? length inp); [|injection E as <-; lia]. apply ok_bind in E. destruct E as (rest & _ & E).
  destruct (decode_rune rest) as [c w]. destruct (negb _); [injection E as <-; lia|]. cbn zeta in E. destruct (_ <=? _)%N; [injection E as <-; lia|].
  apply IH in E. lia.
Qed.
Lemma rune_len_pos r : 1 <= rune_len r.
Proof. unfold rune_len. repeat destruct (_ <? _)%N; lia. Qed.
Lemma ends_unknown_end d inp pos ch class : ends (unknown_end d inp pos ch class).
Proof.
  unfold unknown_end. cbn zeta. apply ends_bind; [apply ends_index|]. intros g _. destruct g; [|apply ends_ok]. apply ends_group; [lia|].
  pose proof (rune_len_pos ch). destruct (negb _); lia.
Qed.
Lemma unknown_end_after d inp pos ch class e : unknown_end d inp pos ch class = Ok e -> pos < e.
Proof.
  unfold unknown_end. cbn zeta. intros E. apply ok_bind in E. destruct E as (g & _ & E). pose proof (rune_len_pos ch) as Hr.
  destruct g; [apply group_grows in E|injection E as <-]; destruct (negb _); lia.
Qed.
#[local] Hint Resolve ends_unknown_end : ends.
Lemma ends_unknowns d inp rp pos pv e id dup la : ends (add_unknowns d inp rp pos pv e id dup la).
Proof. unfold add_unknowns. apply ends_foldM. intros a x _. ends. Qed.
#[local] Hint Resolve ends_unknowns : ends.
Lemma ends_build_unknown d inp rp pos ch any la : ends (build_unknown d inp rp pos ch any la).
Proof. unfold build_unknown, unknown_prev. cbn zeta. apply ends_bind; [destruct any; cbn; ends|]. intros go _. destruct go; [|apply ends_ok]. ends. Qed.
#[local] Hint Resolve ends_build_unknown : ends.
Lemma ends_build_step d u inp la rp pos ch : ends (build_step d u inp la rp pos ch).
Proof. unfold build_step. cbn zeta. ends. Qed.
Lemma ends_build_loop d u inp l : forall rp la, ends (build_loop d u inp rp l la).
Proof. induction l as [|[pos ch] l IH]; intros rp la; cbn [build_loop]; [apply ends_ok|]. apply ends_bind; [apply ends_build_step|]. intros; apply IH. Qed.
Lemma ends_build d u inp : ends (build d u inp).
Proof. unfold build. cbn zeta. repeat (apply ends_bind; [auto with ends|intros ? _]). apply ends_build_loop. Qed.

(** ** Every prev pointer leads to an earlier row *)
Definition down (la : table) : Prop := forall i j n, nth2 la i j = Some n ->
  (1 <= i -> n_start n < i) /\ (forall i' j', n_prev n = Some (i', j') -> i' < i).

Lemma down_app la p x la' : down la -> (1 <= p -> n_start x < p) -> n_prev x = None -> update la p (fun l => l ++ [x]) = Ok la' -> down la'.
Proof.
  intros D H1 H2 E. unfold update in E. destruct (Nat.ltb_spec p (length la)) as [Hp|]; [|discriminate]. injection E as <-.
  destruct (nth_error la p) as [l|] eqn:El; [|apply nth_error_None in El; lia].
  intros i j n. unfold nth2. rewrite nth_error_update. destruct (Nat.eqb_spec i p) as [->|Ne].
  - rewrite El. cbn [option_map]. intros Hn. destruct (Nat.lt_ge_cases j (length l)) as [Hj|Hj].
    + rewrite nth_error_app1 in Hn by exact Hj. apply (D p j n). unfold nth2. rewrite El. exact Hn.
    + rewrite nth_error_app2 in Hn by exact Hj. destruct (j - length l) as [|k]; cbn in Hn.
      * injection Hn as <-. split; [exact H1|]. rewrite H2. discriminate.
      * destruct k; discriminate.
  - intros Hn. exact (D i j n Hn).
Qed.
Lemma down_add d la pos id p start c sf la' : down la -> (1 <= pos + rune_count sf -> start < pos + rune_count sf) ->
  add_node d la pos id p start c sf = Ok la' -> down la'.
Proof. intros D H E. unfold add_node in E. apply ok_bind in E. destruct E as (m & _ & E). cbn zeta in E. refine (down_app D _ _ E); [exact H|reflexivity]. Qed.
Lemma slice_count inp i j s : slice inp i j = Ok s -> i < j -> 1 <= rune_count s.
Proof.
  unfold slice. destruct ((i <=? j) && (j <=? length inp)) eqn:E; [|discriminate]. intros H. injection H as <-. intros Hij.
  apply rune_count_pos. intros F. apply (f_equal (@length _)) in F. rewrite firstn_length, skipn_length in F. cbn in F. lia.
Qed.
Lemma cps_pos idx rest id l : In (id, l) (common_prefix_search idx rest) -> 1 <= l.
Proof.
  intros H. apply (cps_spec [] idx) in H. lia.
Qed.
Lemma down_matches d inp rp pos c ms la la' : (forall id l, In (id, l) ms -> 1 <= l) -> down la -> add_matches d inp rp pos c ms la = Ok la' -> down la'.
Proof.
  intros Hl D E. unfold add_matches in E. revert D E. apply foldM_inv. intros a [id l] a' Hin D E. apply ok_bind in E. destruct E as (s & Es & E).
  refine (down_add D _ E). intros _. pose proof (slice_count Es) as H. specialize (Hl _ _ Hin). lia.
Qed.
Lemma down_unknowns d inp rp pos pv e id dup la la' : pos < e -> down la -> add_unknowns d inp rp pos pv e id dup la = Ok la' -> down la'.
Proof.
  intros He D E. unfold add_unknowns in E. revert D E. apply foldM_inv. intros a x a' _ D E. apply ok_bind in E. destruct E as (b & Eb & E).
  apply ok_bind in E. destruct E as (s & Es & E). refine (down_add _ _ E); [|intros _; pose proof (slice_count Es He); lia].
  destruct (Nat.ltb_spec pos pv); [|injection Eb as <-; exact D]. apply ok_bind in Eb. destruct Eb as (s' & Es' & Eb).
  refine (down_add D _ Eb). intros _. pose proof (slice_count Es' ltac:(assumption)). lia.
Qed.
Lemma down_step d u inp la rp pos ch la' : down la -> build_step d u inp la rp pos ch = Ok la' -> down la'.
Proof.
  intros D E. unfold build_step in E. apply ok_bind in E. destruct E as (rest & _ & E). cbn zeta in E. apply ok_bind in E. destruct E as (l1 & E1 & E).
  assert (D1 : down l1). { refine (down_matches _ D E1). intros id l. destruct u; [apply cps_pos|contradiction]. }
  destruct (negb _); [injection E as <-; exact D1|]. apply ok_bind in E. destruct E as (l2 & E2 & E).
  assert (D2 : down l2) by (refine (down_matches _ D1 E2); intros id l; apply cps_pos).
  unfold build_unknown in E. cbn zeta in E. apply ok_bind in E. destruct E as (go & _ & E). destruct go; [|injection E as <-; exact D2].
  apply ok_bind in E. destruct E as (e & Ee & E). apply ok_bind in E. destruct E as (pv & _ & E). exact (down_unknowns (unknown_end_after Ee) D2 E).
Qed.
Lemma down_build d u inp la : build d u inp = Ok la -> down la.
Proof.
  unfold build. cbn zeta. intros E. apply ok_bind in E. destruct E as (s0 & Es0 & E). apply ok_bind in E. destruct E as (l1 & E1 & E).
  apply ok_bind in E. destruct E as (s1 & Es1 & E). apply ok_bind in E. destruct E as (l2 & E2 & E).
  assert (D0 : down (repeat [] (rune_count inp + 2))) by (intros i j n; rewrite nth2_repeat; discriminate).
  assert (D1 : down l1) by (refine (down_add D0 _ E1); lia).
  assert (D2 : down l2) by (refine (down_add D1 _ E2); lia).
  clear D0 D1 E1 E2. revert D2 E. generalize 0 at 1. generalize (range_string inp). intros l. revert l2.
  induction l as [|[pos ch] l IH]; intros l2 k D E; cbn [build_loop] in E; [injection E as <-; exact D|].
  apply ok_bind in E. destruct E as (l3 & E3 & E). exact (IH l3 (S k) (down_step D E3) E).
Qed.

(** ** Forward *)
Lemma ends_upd2 la i j f : ends (upd2 la i j f).
Proof. apply ends_update. Qed.
Lemma ends_get2 la i j : ends (get2 la i j).
Proof. unfold get2. ends. Qed.
#[local] Hint Resolve ends_upd2 ends_get2 : ends.
Lemma ends_total d ideo m n t : ends (total_cost d ideo m n t).
Proof. unfold total_cost, conn_at. cbn zeta. ends. Qed.
#[local] Hint Resolve ends_total : ends.
Lemma ends_relax d ideo m i idx start k : forall j la, ends (relax_loop d ideo m i idx start j k la).
Proof.
  induction k as [|k IH]; intros j la; cbn [relax_loop]; [apply ends_ok|]. do 3 (apply ends_bind; [auto with ends|intros ? _]).
  apply ends_bind; [ends|]. intros; apply IH.
Qed.
Lemma ends_forward d ideo m la : ends (forward d ideo m la).
Proof.
  unfold forward. apply ends_foldM. intros a i _. unfold forward_pos. apply ends_bind; [apply ends_index|]. intros cur _. apply ends_foldM. intros b idx _.
  unfold forward_target. do 2 (apply ends_bind; [auto with ends|intros ? _]). destruct (_ =? _); [apply ends_upd2|apply ends_relax].
Qed.
Lemma down_upd2 la i j f la' : down la -> (forall n, nth2 la i j = Some n -> n_start (f n) = n_start n /\ forall i' j', n_prev (f n) = Some (i', j') -> i' < i) ->
  upd2 la i j f = Ok la' -> down la'.
Proof.
  intros D Hf E. apply upd2_ok in E. subst la'. intros i' j' n Hn. rewrite nth2_upd in Hn.
  destruct ((i' =? i) && (j' =? j)) eqn:B; [|exact (D _ _ _ Hn)].
  apply andb_prop in B. destruct B as [B1 B2]. apply Nat.eqb_eq in B1, B2. subst.
  destruct (nth2 la i j) as [x|] eqn:Ex; [|discriminate]. cbn in Hn. injection Hn as <-. destruct (Hf x eq_refl) as [H1 H2]. split; [|exact H2].
  intros Hi. rewrite H1. exact (proj1 (D _ _ _ Ex) Hi).
Qed.
Lemma down_relax d ideo m i idx start k : 1 <= i -> start < i -> forall j la la', down la -> relax_loop d ideo m i idx start j k la = Ok la' -> down la'.
Proof.
  intros Hi Hs. induction k as [|k IH]; intros j la la' D E; cbn [relax_loop] in E; [injection E as <-; exact D|].
  apply ok_bind in E. destruct E as (n & _ & E). apply ok_bind in E. destruct E as (t & _ & E). apply ok_bind in E. destruct E as (c & _ & E).
  apply ok_bind in E. destruct E as (l1 & E1 & E). refine (IH _ _ _ _ E). destruct (_ || _); [|injection E1 as <-; exact D].
  refine (down_upd2 D _ E1). intros x Hx. cbn. split; [reflexivity|]. intros i' j' H. injection H as <- <-. exact Hs.
Qed.
Lemma down_forward d ideo m la la' : down la -> forward d ideo m la = Ok la' -> down la'.
Proof.
  unfold forward. apply foldM_inv. intros a i a' Hi D E. apply in_seq in Hi. unfold forward_pos in E. apply ok_bind in E. destruct E as (cur & _ & E).
  revert D E. apply foldM_inv. intros b idx b' _ D E. unfold forward_target in E. apply ok_bind in E. destruct E as (t & Et & E).
  apply get2_nth2 in Et. assert (Hs : n_start t < i) by (apply (D _ _ _ Et); lia).
  apply ok_bind in E. destruct E as (pl & _ & E). destruct (_ =? 0).
  - refine (down_upd2 D _ E). intros x Hx. cbn. split; [reflexivity|]. intros i' j' Hp. exact (proj2 (D _ _ _ Hx) _ _ Hp).
  - refine (down_relax _ Hs D E). lia.
Qed.

(** ** Backward *)
Lemma ends_output_of m p : ends (output_of m p).
Proof. unfold output_of. destruct m, (n_class p); cbn zeta; ends. Qed.
#[local] Hint Resolve ends_output_of : ends.
Lemma ends_walk m la : down la -> forall fuel i j n out, nth2 la i j = Some n -> i < fuel -> ends (walk fuel m la n out).
Proof.
  intros D. induction fuel as [|f IH]; intros i j n out Hn Hi; [lia|]. cbn [walk]. apply ends_bind; [auto with ends|]. intros o _.
  destruct (n_prev n) as [[i' j']|] eqn:Ep; [|apply ends_ok]. apply ends_bind; [auto with ends|]. intros q Eq. apply get2_nth2 in Eq.
  apply (IH i' j' q _ Eq). pose proof (proj2 (D _ _ _ Hn) _ _ Ep). lia.
Qed.
Lemma ends_backward m la : down la -> ends (backward m la).
Proof.
  intros D. unfold backward. destruct (length la) as [|k] eqn:El; [apply ends_ok|]. apply ends_bind; [auto with ends|]. intros p Ep. apply get2_nth2 in Ep.
  refine (@ends_walk m la D _ k 0 p [] Ep _). lia.
Qed.
Lemma ends_walk_ptrs m la : down la -> forall fuel i j out, i < fuel -> ends (walk_ptrs fuel m la (i, j) out).
Proof.
  intros D. induction fuel as [|f IH]; intros i j out Hi; [lia|]. cbn [walk_ptrs fst snd]. apply ends_bind; [auto with ends|]. intros n En. apply get2_nth2 in En.
  apply ends_bind; [unfold output_ptrs; destruct m, (n_class n); ends|]. intros o _. destruct (n_prev n) as [[i' j']|] eqn:Ep; [|apply ends_ok].
  apply IH. pose proof (proj2 (D _ _ _ En) _ _ Ep). lia.
Qed.
Lemma ends_backward_ptrs m la : down la -> ends (backward_ptrs m la).
Proof. intros D. unfold backward_ptrs. destruct (length la) as [|k] eqn:El; [apply ends_ok|]. apply ends_walk_ptrs; [exact D|lia]. Qed.

(** ** Calls *)
Lemma ends_run ideo t inp mode : ends (run_lattice ideo t inp mode).
Proof.
  unfold run_lattice. cbn zeta. apply ends_bind; [apply ends_build|]. intros la E. apply down_build in E. apply ends_bind; [apply ends_forward|].
  intros la' E'. apply ends_bind; [|intros; apply ends_ok]. apply ends_backward. exact (down_forward E E').
Qed.
Theorem ends_analyze ideo t inp mode : ends (analyze ideo t inp mode).
Proof. unfold analyze. apply ends_bind; [apply ends_run|]. intros lo _. rewrite analyze_tokens_ok. apply ends_ok. Qed.
Theorem ends_wakati ideo t inp : ends (wakati ideo t inp).
Proof. unfold wakati. apply ends_bind; [apply ends_analyze|]. intros; apply ends_ok. Qed.
Theorem ends_graph ideo t inp mode : ends (analyze_graph ideo t inp mode).
Proof. unfold analyze_graph. apply ends_bind; [apply ends_run|]. intros lo _. cbn zeta. apply ends_foldM. intros a i _. ends. Qed.
Lemma ends_pos_feature d u n : ends (pos_feature d u n).
Proof. unfold pos_feature. cbn zeta. ends. Qed.
#[local] Hint Resolve ends_pos_feature : ends.
Theorem ends_graph_stmts ideo t inp mode : ends (graph_stmts ideo t inp mode).
Proof.
  unfold graph_stmts. cbn zeta. apply ends_bind; [apply ends_build|]. intros la E. apply down_build in E. apply ends_bind; [apply ends_forward|].
  intros la' E'. apply ends_bind; [apply ends_backward_ptrs; exact (down_forward E E')|]. intros out _. unfold dot_stmts. cbn zeta.
  apply ends_bind; [unfold edge_list; apply ends_bind; [|intros; apply ends_ok]; apply ends_mapM; intros cn _; unfold edges_to; ends|]. intros es _.
  apply ends_bind; [apply ends_mapM; intros [c n] _; unfold node_stmt; ends|]. intros ns _.
  apply ends_bind; [apply ends_mapM; intros [[cf f] [ct x]] _; unfold edge_stmt, conn_at; ends|]. intros; apply ends_ok.
Qed.

Lemma ends_pos_names t : ends (pos_names_of t).
Proof. unfold pos_names_of. ends. Qed.
Lemma ends_user_content t : ends (user_content_of t).
Proof. unfold user_content_of. ends. Qed.
#[local] Hint Resolve ends_pos_names ends_user_content : ends.
Lemma ends_features t : ends (features t).
Proof. unfold features. ends. Qed.
Lemma ends_feature_at t i : ends (feature_at t i).
Proof. unfold feature_at. cbn zeta. ends. Qed.
Lemma ends_token_pos t : ends (token_pos t).
Proof. unfold token_pos. cbn zeta. ends. Qed.
#[local] Hint Resolve ends_features ends_feature_at ends_token_pos : ends.
Lemma ends_pickup t k : ends (pickup t k).
Proof. unfold pickup. cbn zeta. destruct (meta_get _ k); ends. Qed.
Lemma ends_data t : ends (new_token_data t).
Proof. unfold new_token_data, base_form, reading, pronunciation. cbn zeta. repeat (apply ends_bind; [first [apply ends_pickup|auto with ends]|intros ? _]). apply ends_ok. Qed.
Lemma ends_record t : ends (new_record t).
Proof. unfold new_record, base_form, reading, pronunciation. cbn zeta. repeat (apply ends_bind; [first [apply ends_pickup|auto with ends]|intros ? _]). apply ends_ok. Qed.
Lemma ends_collect ts : forall acc, ends (collect ts acc).
Proof. induction ts as [|t ts IH]; intros acc; cbn [collect]; [apply ends_ok|]. destruct (_ =? _)%Z; [apply IH|]. apply ends_bind; [apply ends_data|]. intros; apply IH. Qed.
Lemma ends_records ts : ends (to_records ts).
Proof.
  induction ts as [|t ts IH]; cbn [to_records]; [apply ends_ok|]. destruct (_ =? _)%Z; [apply IH|]. apply ends_bind; [apply ends_record|]. intros r _.
  apply ends_bind; [exact IH|]. intros; apply ends_ok.
Qed.
Theorem ends_tokenize decode newer ideo t body : ends (serve_tokenize decode newer ideo t body).
Proof.
  unfold serve_tokenize. destruct (decode body) as [req|e]; [|apply ends_ok]. destruct (bytes_eqb _ _); [apply ends_ok|].
  apply ends_bind; [apply ends_analyze|]. intros ts _. apply ends_bind; [apply ends_collect|]. intros; apply ends_ok.
Qed.
Theorem ends_demo dot name ideo t sen mode : ends (serve_demo dot name ideo t sen mode).
Proof.
  unfold serve_demo, demo_graph, graph_text. apply ends_bind; [apply ends_bind; [apply ends_graph_stmts|intros; apply ends_ok]|]. intros g _.
  apply ends_bind; [apply ends_graph|]. intros ts _. apply ends_bind; [apply ends_records|]. intros; apply ends_ok.
Qed.
