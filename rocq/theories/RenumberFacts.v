(** Proofs of C121: both dictionaries go through the same lattice, node by node. *)
From Verif Require Import BuildFacts AnalyzeFacts Utf8Facts.
From Verif Require Import SpecRenumber.
From Coq Require Import Lia ZifyBool ZifyNat ZifyN.
Set Implicit Arguments.
Unset Strict Implicit.
Open Scope Z_scope.

(** ** Two runs side by side *)
Definition rr {A B} (Q : A -> B -> Prop) (x : res A) (y : res B) : Prop :=
  match x, y with Ok a, Ok b => Q a b | Panic, Panic | Diverge, Diverge => True | _, _ => False end.
Lemma rr_bind {A B C D} (Q : A -> B -> Prop) (P : C -> D -> Prop) x y f g : rr Q x y -> (forall a b, Q a b -> rr P (f a) (g b)) -> rr P (rbind x f) (rbind y g).
Proof. destruct x, y; cbn; intros H K; try contradiction; auto. Qed.
Lemma rr_same {A} (x : res A) : rr eq x x.
Proof. destruct x; cbn; auto. Qed.
Lemma rr_eq {A} (x y : res A) : x = y -> rr eq x y.
Proof. intros ->. apply rr_same. Qed.
Lemma rr_weaken {A B} (Q P : A -> B -> Prop) x y : (forall a b, Q a b -> P a b) -> rr Q x y -> rr P x y.
Proof. destruct x, y; cbn; auto. Qed.
Lemma rr_fold {A B X Y} (Q : A -> B -> Prop) (f : A -> X -> res A) (g : B -> Y -> res B) (h : X -> Y) l : forall a b,
  (forall a b x, Q a b -> In x l -> rr Q (f a x) (g b (h x))) -> Q a b -> rr Q (foldM f l a) (foldM g (map h l) b).
Proof.
  induction l as [|x l IH]; intros a b H Hq; cbn [foldM map]; [exact Hq|]. eapply rr_bind; [apply H; [exact Hq|left; reflexivity]|].
  intros a' b' Q'. apply IH; [|exact Q']. intros; apply H; [assumption|right; assumption].
Qed.
Lemma rr_fold_same {A B X} (Q : A -> B -> Prop) (f : A -> X -> res A) (g : B -> X -> res B) l a b :
  (forall a b x, Q a b -> In x l -> rr Q (f a x) (g b x)) -> Q a b -> rr Q (foldM f l a) (foldM g l b).
Proof. intros H Hq. pose proof (@rr_fold A B X X Q f g (fun x => x) l a b H Hq) as E. rewrite map_id in E. exact E. Qed.
Lemma rr_map {A B X} (Q : A -> B -> Prop) (f : X -> res A) (g : X -> res B) l :
  (forall x, In x l -> rr Q (f x) (g x)) -> rr (Forall2 Q) (mapM f l) (mapM g l).
Proof.
  induction l as [|x l IH]; intros H; cbn [mapM]; [constructor|]. eapply rr_bind; [apply H; left; reflexivity|]. intros a b Hab.
  eapply rr_bind; [apply IH; intros; apply H; right; assumption|]. intros la lb Hl. constructor; assumption.
Qed.
Lemma rr_index {A B} (Q : A -> B -> Prop) l l' i : Forall2 Q l l' -> rr Q (index l i) (index l' i).
Proof.
  intros H. unfold index. revert i. induction H as [|x y l l' Hxy H IH]; intros [|i]; cbn [nth_error]; cbn; auto; try exact Hxy; try apply IH.
Qed.
Lemma length2 {A B} (Q : A -> B -> Prop) l l' : Forall2 Q l l' -> length l' = length l.
Proof. induction 1; cbn; congruence. Qed.
Lemma rr_update {A B} (Q : A -> B -> Prop) l l' i f g : Forall2 Q l l' -> (forall x y, Q x y -> Q (f x) (g y)) -> rr (Forall2 Q) (update l i f) (update l' i g).
Proof.
  intros H Hf. unfold update. rewrite (length2 H). destruct (i <? length l)%nat; [|exact I]. cbn [rr].
  revert i. induction H as [|x y l l' Hxy H IH]; intros [|i]; cbn [update_nth]; constructor; auto.
Qed.
Lemma indexZ_row {A} (l : list A) i : indexZ l i = match row l i with Some x => Ok x | None => Panic end.
Proof. unfold indexZ, row. destruct (i <? 0); reflexivity. Qed.
Lemma row_in {A} (l : list A) i x : row l i = Some x -> In x l.
Proof. unfold row. destruct (i <? 0); [discriminate|]. apply nth_error_In. Qed.

Section Sim.
Variables (r : renumbering) (d d' : dict) (u u' : option udict).
Hypothesis Hd : wf_dict d.
Hypothesis Hu : wf_udict u.
Hypothesis H : renumbered r d d' u u'.

Definition listed (c : node_class) (id : Z) : Prop :=
  match c with
  | DUMMY => id = -1
  | KNOWN => known_id d id
  | UNKNOWN => unknown_id d id
  | USER => match u with Some ud => user_id ud id | None => False end
  end.
(** The same for the nodes of Output. *)
Definition listed_out (c : node_class) (id : Z) : Prop := listed c id \/ (c = DUMMY /\ unknown_id d id).
Lemma known_pos id : known_id d id -> 0 <= id.
Proof. intros (key & I). destruct (wf_idx Hd _ _ I) as (_ & _ & R). lia. Qed.
Lemma unknown_pos id : unknown_id d id -> 0 <= id.
Proof. intros (ch & k & K & ->). destruct (wf_unk Hd ch) as (A & _). unfold first_unknown. lia. Qed.
Lemma user_pos ud id : u = Some ud -> user_id ud id -> 0 <= id.
Proof. intros E (key & I). unfold wf_udict in Hu. rewrite E in Hu. destruct (Hu _ _ I) as (_ & _ & R). lia. Qed.
Lemma new_known id : known_id d id -> new_id r KNOWN id = rn_known r id /\ 0 <= rn_known r id.
Proof. intros K. pose proof (known_pos K). unfold new_id. replace (id =? -1) with false by lia. split; [reflexivity|exact (proj1 (rn_entries H _ K))]. Qed.
Lemma new_unknown id : unknown_id d id -> new_id r UNKNOWN id = rn_unknown r id /\ 0 <= rn_unknown r id.
Proof. intros K. pose proof (unknown_pos K). unfold new_id. replace (id =? -1) with false by lia. split; [reflexivity|exact (proj1 (rn_unknown_entries H _ K))]. Qed.
Lemma new_user ud id : u = Some ud -> user_id ud id -> new_id r USER id = rn_user r id /\ 0 <= rn_user r id.
Proof.
  intros E K. pose proof (user_pos E K). unfold new_id. replace (id =? -1) with false by lia. split; [reflexivity|].
  pose proof (rn_users H) as X. rewrite E in X. destruct u' as [ud'|]; [|destruct X]. exact (proj2 X _ K).
Qed.
Lemma listed_user id : listed USER id -> exists ud, u = Some ud /\ user_id ud id.
Proof. cbn [listed]. clear. destruct u as [ud|]; [|intros []]. intros L. exists ud. auto. Qed.
Lemma bos_same c id : listed_out c id -> (new_id r c id =? bos_eos_id) = (id =? bos_eos_id).
Proof.
  unfold bos_eos_id.
  intros [L|(-> & L)].
  - destruct c; cbn [listed] in L.
    + subst id. reflexivity.
    + destruct (new_known L) as (-> & P). pose proof (known_pos L). lia.
    + destruct (new_unknown L) as (-> & P). pose proof (unknown_pos L). lia.
    + destruct (listed_user L) as (ud & E & L'). destruct (new_user E L') as (-> & P). pose proof (user_pos E L'). lia.
  - change (new_id r DUMMY id) with (new_id r UNKNOWN id). destruct (new_unknown L) as (-> & P). pose proof (unknown_pos L). lia.
Qed.

Lemma zero_moved : moved r zero_morph = zero_morph.
Proof. destruct (rn_zero H) as (A & B). unfold moved, zero_morph. cbn [m_left m_right m_weight]. rewrite A, B. reflexivity. Qed.
Lemma morph_sim c id : listed c id -> rr (fun m m' => m' = moved r m /\ in_use d m) (node_morph d id c) (node_morph d' (new_id r c id) c).
Proof.
  intros L. destruct c; cbn [node_morph listed] in *.
  - cbn [rr]. split; [symmetry; exact zero_moved|left; reflexivity].
  - destruct (new_known L) as (-> & _). rewrite !indexZ_row, (proj2 (rn_entries H _ L)). destruct (row (d_morphs d) id) as [m|] eqn:E; cbn; [|exact I].
    split; [reflexivity|]. right. left. exact (row_in E).
  - destruct (new_unknown L) as (-> & _). rewrite !indexZ_row, (proj2 (rn_unknown_entries H _ L)). destruct (row (d_unk_morphs d) id) as [m|] eqn:E; cbn; [|exact I].
    split; [reflexivity|]. right. right. exact (row_in E).
  - cbn [rr]. split; [symmetry; exact zero_moved|left; reflexivity].
Qed.

Definition moved_node (n : node) : node :=
  Node (new_id r (n_class n) (n_id n)) (n_position n) (n_start n) (n_class n) (n_cost n) (rn_left r (n_left n)) (rn_right r (n_right n)) (n_weight n) (n_surface n) (n_prev n).
Definition R (n n' : node) : Prop := n' = moved_node n /\ listed (n_class n) (n_id n) /\ exists m, in_use d m /\ n_left n = m_left m /\ n_right n = m_right m.
Definition TR : table -> table -> Prop := Forall2 (Forall2 R).

Lemma add_sim la la' pos id position start c s : TR la la' -> listed c id ->
  rr TR (add_node d la pos id position start c s) (add_node d' la' pos (new_id r c id) position start c s).
Proof.
  intros T L. unfold add_node. eapply rr_bind; [apply morph_sim; exact L|]. intros m m' (-> & U). apply rr_update; [exact T|].
  intros x y Hxy. apply Forall2_app; [exact Hxy|]. constructor; [|constructor]. split; [reflexivity|]. cbn [n_class n_id n_left n_right]. split; [exact L|]. exists m. auto.
Qed.
Lemma search_sim idx idx' f s : (forall key, ids_of idx' key = map f (ids_of idx key)) ->
  common_prefix_search idx' s = map (fun e => (f (fst e), snd e)) (common_prefix_search idx s).
Proof.
  intros E. unfold common_prefix_search. generalize (seq 1 (length s)) as ls. induction ls as [|l ls IH]; cbn [flat_map map]; [reflexivity|].
  rewrite map_app, <- IH. f_equal. specialize (E (firstn l s)). unfold ids_of in E.
  rewrite <- (map_map snd (fun id => (id, l))), E, !map_map. reflexivity.
Qed.
Lemma search_in idx s id l : In (id, l) (common_prefix_search idx s) -> exists key, In (key, id) idx.
Proof.
  unfold common_prefix_search. intros I. apply in_flat_map in I. destruct I as (k & _ & I). apply in_map_iff in I. destruct I as ([key x] & E & I).
  cbn [snd] in E. injection E as -> _. apply filter_In in I. exists key. exact (proj1 I).
Qed.
Lemma matches_sim inp i pos c ms f la la' : TR la la' -> (forall id l, In (id, l) ms -> listed c id /\ new_id r c id = f id) ->
  rr TR (add_matches d inp i pos c ms la) (add_matches d' inp i pos c (map (fun e => (f (fst e), snd e)) ms) la').
Proof.
  intros T L. unfold add_matches. apply rr_fold; [|exact T]. intros a b [id l] T' I. cbn [fst snd]. eapply rr_bind; [apply rr_same|]. intros s ? <-.
  destruct (L _ _ I) as (L1 & L2). rewrite <- L2. apply add_sim; assumption.
Qed.
Lemma group_sim inp ch f : forall i e ul, group_loop f d' inp (d_category d' ch) i e ul = group_loop f d inp (d_category d ch) i e ul.
Proof.
  induction f as [|f IH]; intros i e ul; cbn [group_loop]; [reflexivity|]. destruct (i <? length inp)%nat; [|reflexivity].
  destruct (slice inp i (length inp)) as [rest| |]; cbn [rbind]; try reflexivity. destruct (decode_rune rest) as [c w].
  replace (d_category d' c =? d_category d' ch)%nat with (d_category d c =? d_category d ch)%nat.
  - rewrite IH. reflexivity.
  - rewrite !(rn_categories H). destruct (Nat.eqb_spec (d_category d c) (d_category d ch)) as [->|N]; symmetry; [apply Nat.eqb_refl|].
    apply Nat.eqb_neq. intros E. apply N. exact (rn_distinct H _ _ E).
Qed.
Lemma end_sim inp pos ch : unknown_end d' inp pos ch (d_category d' ch) = unknown_end d inp pos ch (d_category d ch).
Proof.
  unfold unknown_end. assert (E : index (d_group d') (d_category d' ch) = index (d_group d) (d_category d ch)).
  { unfold index. rewrite (rn_categories H), (proj2 (rn_lists H ch)). reflexivity. }
  rewrite E. destruct (index (d_group d) (d_category d ch)) as [[|]| |]; cbn [rbind]; try reflexivity. apply group_sim.
Qed.
Lemma unknown_sim inp i pos ch any la la' : TR la la' -> rr TR (build_unknown d inp i pos ch any la) (build_unknown d' inp i pos ch any la').
Proof.
  intros T. unfold build_unknown. eapply rr_bind; [apply rr_eq; destruct any; [|reflexivity]; cbn [negb]; unfold index; rewrite (rn_categories H), (proj1 (rn_lists H ch)); reflexivity|].
  intros go ? <-. destruct go; [|exact T]. eapply rr_bind; [apply rr_eq; symmetry; apply end_sim|]. intros e ? <-. eapply rr_bind; [apply rr_same|]. intros p ? <-.
  unfold add_unknowns. destruct (rn_unknowns H ch) as (M & F). fold (more_unknown d' (d_category d' ch)) (more_unknown d (d_category d ch)) (first_unknown d' (d_category d' ch)) (first_unknown d (d_category d ch)).
  rewrite (rn_categories H), M. set (c := d_category d ch) in *. apply rr_fold_same; [|exact T]. intros a b x T' I. apply in_seq in I.
  assert (Lx : listed UNKNOWN (first_unknown d c + Z.of_nat x)) by (exists ch, (Z.of_nat x); fold c; split; [lia|reflexivity]).
  assert (Nx : first_unknown d' (rn_category r c) + Z.of_nat x = new_id r UNKNOWN (first_unknown d c + Z.of_nat x)) by (rewrite (proj1 (new_unknown Lx)); symmetry; apply F; lia).
  rewrite Nx. eapply rr_bind with (Q := TR).
  - destruct (pos <? p)%nat; [|exact T']. eapply rr_bind; [apply rr_same|]. intros s ? <-. apply add_sim; assumption.
  - intros a' b' T2. eapply rr_bind; [apply rr_same|]. intros s ? <-. apply add_sim; assumption.
Qed.
Lemma step_sim inp la la' i pos ch : TR la la' -> rr TR (build_step d u inp la i pos ch) (build_step d' u' inp la' i pos ch).
Proof.
  intros T. unfold build_step. eapply rr_bind; [apply rr_same|]. intros rest ? <-.
  set (us := match u with Some ud => common_prefix_search (u_index ud) rest | None => [] end).
  assert (E : match u' with Some ud => common_prefix_search (u_index ud) rest | None => [] end = map (fun e => (rn_user r (fst e), snd e)) us).
  { pose proof (rn_users H) as X. unfold us. clear -X. destruct u as [ud|], u' as [ud'|]; try contradiction; [|reflexivity]. apply search_sim. exact (proj1 X). }
  rewrite E, map_length. eapply rr_bind.
  - apply matches_sim; [exact T|]. intros id l I. assert (L : listed USER id) by (unfold us in I; cbn [listed]; clear -I; destruct u as [ud|]; [|destruct I]; exact (search_in I)).
    split; [exact L|]. destruct (listed_user L) as (ud & Eu & L'). exact (proj1 (new_user Eu L')).
  - intros a b T'. destruct (negb (length us =? 0)%nat); [exact T'|]. rewrite (search_sim rest (rn_words H)), map_length. eapply rr_bind.
    + apply matches_sim; [exact T'|]. intros id l I. apply search_in in I. split; [exact I|]. exact (proj1 (new_known I)).
    + intros a2 b2 T2. apply unknown_sim. exact T2.
Qed.
Lemma loop_sim inp l : forall i la la', TR la la' -> rr TR (build_loop d u inp i l la) (build_loop d' u' inp i l la').
Proof.
  induction l as [|[pos ch] l IH]; intros i la la' T; cbn [build_loop]; [exact T|]. eapply rr_bind; [apply step_sim; exact T|]. intros a b T'. apply IH. exact T'.
Qed.
Lemma build_sim inp : rr TR (build d u inp) (build d' u' inp).
Proof.
  unfold build. eapply rr_bind; [apply rr_same|]. intros s ? <-.
  assert (L : listed DUMMY bos_eos_id) by reflexivity. assert (N : new_id r DUMMY bos_eos_id = bos_eos_id) by reflexivity.
  eapply rr_bind. { rewrite <- N at 2. apply add_sim; [|exact L]. generalize (rune_count inp + 2)%nat as k. induction k as [|k IH]; cbn [repeat]; constructor; auto. }
  intros a b T. eapply rr_bind; [apply rr_same|]. intros s1 ? <-. eapply rr_bind. { rewrite <- N at 2. apply add_sim; [exact T|exact L]. }
  intros a2 b2 T2. apply loop_sim. exact T2.
Qed.

(** ** Forward *)
Variables (ideo : ideographic) (m : lmode).
Lemma get_sim la la' i j : TR la la' -> rr R (get2 la i j) (get2 la' i j).
Proof. intros T. unfold get2. eapply rr_bind; [apply rr_index; exact T|]. intros a b Hab. apply rr_index. exact Hab. Qed.
Lemma upd_sim la la' i j f : TR la la' -> (forall x y, R x y -> R (f x) (f y)) -> rr TR (upd2 la i j f) (upd2 la' i j f).
Proof.
  intros T F. unfold upd2. apply rr_update; [exact T|]. intros x y Hxy. revert j. induction Hxy as [|a b x y Hab Hxy IH]; intros [|j]; cbn [update_nth]; constructor; auto.
Qed.
Lemma set_sim c p x y : R x y -> R (set_cost_prev c p x) (set_cost_prev c p y).
Proof. intros (-> & L & M). split; [reflexivity|]. split; [exact L|exact M]. Qed.
Lemma cost_sim n n' t t' : R n n' -> R t t' -> total_cost d' ideo m n' t' = total_cost d ideo m n t.
Proof.
  intros (-> & _ & a & Ua & La & Ra) (-> & _ & b & Ub & Lb & Rb). unfold total_cost. cbn [moved_node n_class n_right n_left n_weight n_cost n_surface].
  unfold conn_at. rewrite !indexZ_row, Ra, Lb. rewrite (rn_connections H _ _ Ua Ub). reflexivity.
Qed.
Lemma relax_sim i idx start k : forall j la la', TR la la' -> rr TR (relax_loop d ideo m i idx start j k la) (relax_loop d' ideo m i idx start j k la').
Proof.
  induction k as [|k IH]; intros j la la' T; cbn [relax_loop]; [exact T|]. eapply rr_bind; [apply get_sim; exact T|]. intros n n' Rn.
  eapply rr_bind; [apply get_sim; exact T|]. intros t t' Rt. eapply rr_bind; [apply rr_eq; symmetry; apply cost_sim; eassumption|]. intros c ? <-.
  eapply rr_bind with (Q := TR); [|intros a b T'; apply IH; exact T'].
  replace (n_cost t') with (n_cost t) by (destruct Rt as (-> & _); reflexivity).
  destruct (_ || _); [|exact T]. apply upd_sim; [exact T|]. intros x y. apply set_sim.
Qed.
Lemma target_sim i la la' idx : TR la la' -> rr TR (forward_target d ideo m i la idx) (forward_target d' ideo m i la' idx).
Proof.
  intros T. unfold forward_target. eapply rr_bind; [apply get_sim; exact T|]. intros t t' Rt. replace (n_start t') with (n_start t) by (destruct Rt as (-> & _); reflexivity).
  eapply rr_bind; [apply rr_index; exact T|]. intros p p' Rp. rewrite (length2 Rp). destruct (length p =? 0)%nat.
  - apply upd_sim; [exact T|]. intros x y Hxy. unfold set_cost. replace (n_prev y) with (n_prev x) by (destruct Hxy as (-> & _); reflexivity). apply set_sim. exact Hxy.
  - apply relax_sim. exact T.
Qed.
Lemma forward_sim la la' : TR la la' -> rr TR (forward d ideo m la) (forward d' ideo m la').
Proof.
  intros T. unfold forward. rewrite (length2 T). apply rr_fold_same; [|exact T]. intros a b i T' _. unfold forward_pos.
  eapply rr_bind; [apply rr_index; exact T'|]. intros c c' Rc. rewrite (length2 Rc). apply rr_fold_same; [|exact T']. intros x y j T2 _. apply target_sim. exact T2.
Qed.

(** ** Backward *)
Definition RO (n n' : node) : Prop := n' = moved_node n /\ listed_out (n_class n) (n_id n).
Lemma split_sim p l : unknown_id d (n_id p) -> n_class p = UNKNOWN -> forall i, Forall2 RO (split_from p i l) (split_from (moved_node p) i l).
Proof.
  intros U C. induction l as [|[k c] l IH]; intros i; cbn [split_from]; constructor; [|apply IH]. split.
  - unfold moved_node. cbn [n_class n_id n_position n_start n_cost n_left n_right n_weight n_surface n_prev]. rewrite C.
    destruct (rn_zero H) as (-> & ->). reflexivity.
  - cbn [n_class n_id]. right. auto.
Qed.
Lemma output_sim p p' : R p p' -> rr (Forall2 RO) (output_of m p) (output_of m p').
Proof.
  intros (-> & L & _). assert (One : rr (Forall2 RO) (Ok [p]) (Ok [moved_node p])) by (constructor; [split; [reflexivity|left; exact L]|constructor]).
  unfold output_of. cbn [moved_node n_class n_surface]. fold (moved_node p). destruct m; try exact One. destruct (n_class p) eqn:C; try exact One.
  pose proof (split_sim (range_string (n_surface p)) L C 0) as S. rewrite (length2 S). apply rr_map. intros j _. apply rr_index. exact S.
Qed.
Lemma walk_sim la la' f : TR la la' -> forall p p' out out', R p p' -> Forall2 RO out out' -> rr (Forall2 RO) (walk f m la p out) (walk f m la' p' out').
Proof.
  intros T. induction f as [|f IH]; intros p p' out out' Rp Ro; cbn [walk]; [exact I|]. eapply rr_bind; [apply output_sim; exact Rp|]. intros o o' Oo.
  replace (n_prev p') with (n_prev p) by (destruct Rp as (-> & _); reflexivity). destruct (n_prev p) as [[i j]|].
  - eapply rr_bind; [apply get_sim; exact T|]. intros q q' Rq. apply IH; [exact Rq|]. apply Forall2_app; assumption.
  - apply Forall2_app; assumption.
Qed.
Lemma backward_sim la la' : TR la la' -> rr (Forall2 RO) (backward m la) (backward m la').
Proof.
  intros T. unfold backward. rewrite (length2 T). destruct (length la) as [|k]; [constructor|]. eapply rr_bind; [apply get_sim; exact T|].
  intros p p' Rp. apply walk_sim; [exact T|exact Rp|constructor].
Qed.
Definition QT (ts ts' : list token) : Prop := ts' = map (renumber r d' u') ts /\ Forall (fun t => listed_out (t_class t) (t_id t) /\ t_dict t = d /\ t_udict t = u) ts.
Lemma tokens_sim omit out out' : Forall2 RO out out' -> rr QT (analyze_tokens (Tokenizer d u omit) out) (analyze_tokens (Tokenizer d' u' omit) out').
Proof.
  intros O. unfold analyze_tokens. rewrite (length2 O). apply rr_fold_same; [|split; [reflexivity|constructor]]. intros ts ts' i (-> & F) _.
  eapply rr_bind; [apply rr_index; exact O|]. intros n n' (-> & L). cbn [tk_omit moved_node n_id]. rewrite (bos_same L).
  destruct (omit && (n_id n =? bos_eos_id)); [split; [reflexivity|exact F]|]. split.
  - rewrite map_app, map_length. f_equal. cbn [map]. f_equal. unfold make_token, renumber. cbn [n_id n_class n_position n_start n_surface t_index t_id t_class t_position t_start t_end t_surface tk_dict tk_udict moved_node]. rewrite (bos_same L). reflexivity.
  - apply Forall_app. split; [exact F|]. constructor; [|constructor]. split; [exact L|]. split; reflexivity.
Qed.
End Sim.

Section Whole.
Variables (r : renumbering) (d d' : dict) (u u' : option udict).
Hypothesis Hd : wf_dict d.
Hypothesis Hu : wf_udict u.
Hypothesis H : renumbered r d d' u u'.
Lemma analyze_sim ideo omit inp mode : rr (@QT r d d' u u') (analyze ideo (Tokenizer d u omit) inp mode) (analyze ideo (Tokenizer d' u' omit) inp mode).
Proof.
  unfold analyze, run_lattice. cbn [tk_dict tk_udict].
  eapply rr_bind with (Q := fun x y => Forall2 (@RO r d u) (snd x) (snd y)).
  - eapply rr_bind; [apply (build_sim Hd Hu H)|]. intros la la' T. eapply rr_bind; [apply (forward_sim H); exact T|]. intros la1 la1' T1.
    eapply rr_bind; [apply (backward_sim H); exact T1|]. intros out out' O. exact O.
  - intros x y O. apply (tokens_sim Hd Hu H). exact O.
Qed.
Theorem renumber_same ideo omit inp mode : exists ts, analyze ideo (Tokenizer d u omit) inp mode = Ok ts /\ analyze ideo (Tokenizer d' u' omit) inp mode = Ok (map (renumber r d' u') ts).
Proof.
  destruct (@analyze_total d u Hd Hu ideo omit inp mode) as (ts & E). exists ts. split; [exact E|]. pose proof (analyze_sim ideo omit inp mode) as S. rewrite E in S.
  destruct (analyze ideo (Tokenizer d' u' omit) inp mode) as [ts'| |]; cbn [rr] in S; try contradiction. f_equal. exact (proj1 S).
Qed.

(** ** What the tokens tell *)
Hypothesis C : same_contents r d d' u u'.
Lemma mapM_ext {A B X} (f : A -> res X) (g : B -> res X) l l' : map f l = map g l' -> mapM f l = mapM g l'.
Proof.
  revert l'. induction l as [|a l IH]; intros [|b l'] E; cbn [map mapM] in *; try discriminate; [reflexivity|]. injection E as -> E. rewrite (IH _ E). reflexivity.
Qed.
Lemma names_same t : known_id d (t_id t) -> t_class t = KNOWN -> t_dict t = d -> pos_names_of (renumber r d' u' t) = pos_names_of t.
Proof.
  intros K Ec Ed. unfold pos_names_of, renumber. cbn [t_dict t_id]. rewrite Ec, Ed, (proj1 (new_known Hd H K)), !indexZ_row.
  pose proof (sc_names C _ K) as N. unfold names_of in N. destruct (row (d_pos_ids d) (t_id t)) as [ids|], (row (d_pos_ids d') (rn_known r (t_id t))) as [ids'|]; cbn [option_map] in N; try discriminate; [|reflexivity].
  cbn [rbind]. injection N as N. apply mapM_ext.
  rewrite (map_ext _ _ (indexZ_row (d_pos_names d'))), (map_ext _ _ (indexZ_row (d_pos_names d))).
  rewrite <- (map_map (row (d_pos_names d')) (fun o => match o with Some x => Ok x | None => Panic end)), <- (map_map (row (d_pos_names d)) (fun o => match o with Some x => Ok x | None => Panic end)).
  rewrite N. reflexivity.
Qed.
Lemma content_same t : listed d u USER (t_id t) -> t_class t = USER -> t_udict t = u -> user_content_of (renumber r d' u' t) = user_content_of t.
Proof.
  intros L Ec Eu. destruct (listed_user L) as (ud & E & K). unfold user_content_of, renumber. cbn [t_udict t_id]. rewrite Ec, Eu, (proj1 (new_user Hu H E K)), E.
  pose proof (sc_user C) as S. pose proof (rn_users H) as X. rewrite E in S, X. destruct u' as [ud'|]; [|destruct X]. rewrite !indexZ_row, (S _ K). reflexivity.
Qed.
Theorem told_same ideo omit inp mode ts t : analyze ideo (Tokenizer d u omit) inp mode = Ok ts -> In t ts ->
  features (renumber r d' u' t) = features t /\ token_pos (renumber r d' u' t) = token_pos t /\ user_extra (renumber r d' u' t) = user_extra t.
Proof.
  intros E I. pose proof (analyze_sim ideo omit inp mode) as S. rewrite E in S. destruct (analyze ideo (Tokenizer d' u' omit) inp mode) as [ts'| |]; cbn [rr] in S; try contradiction.
  destruct S as (_ & F). rewrite Forall_forall in F. destruct (F _ I) as (L & Ed & Eu). clear F E I ts'.
  unfold features, token_pos, user_extra. change (t_class (renumber r d' u' t)) with (t_class t). destruct (t_class t) eqn:Ec.
  - auto.
  - destruct L as [L|(X & _)]; [|discriminate]. cbn [listed] in L. rewrite (names_same L Ec Ed). split; [|auto].
    change (t_dict (renumber r d' u' t)) with d'. change (t_id (renumber r d' u' t)) with (new_id r (t_class t) (t_id t)). rewrite Ec, Ed, (proj1 (new_known Hd H L)).
    pose proof (sc_contents C) as S. destruct (d_contents d) as [cs|], (d_contents d') as [cs'|]; try contradiction; [|reflexivity]. rewrite !indexZ_row, (S _ L). reflexivity.
  - destruct L as [L|(X & _)]; [|discriminate]. cbn [listed] in L. change (t_dict (renumber r d' u' t)) with d'. change (t_id (renumber r d' u' t)) with (new_id r (t_class t) (t_id t)).
    rewrite Ec, Ed, (proj1 (new_unknown Hd H L)), !indexZ_row, (sc_unknown C _ L). unfold unk_pos_end, unk_pos_start. rewrite (sc_meta C). auto.
  - destruct L as [L|(X & _)]; [|discriminate]. rewrite (content_same L Ec Eu). auto.
Qed.
End Whole.

(** ** The order of the user dictionary *)
Lemma ids_relabel idx f key : ids_of (map (fun e => (fst e, f (snd e))) idx) key = map f (ids_of idx key).
Proof.
  unfold ids_of. induction idx as [|[k id] idx IH]; cbn [map filter fst snd]; [reflexivity|]. destruct (bytes_eqb k key); cbn [map snd]; rewrite IH; reflexivity.
Qed.
Lemma perm_filter {A} (p : A -> bool) l l' : Permutation l l' -> Permutation (filter p l) (filter p l').
Proof.
  induction 1 as [|x l l' P IH|x y l|l1 l2 l3 P1 IH1 P2 IH2]; cbn [filter]; [constructor| | |].
  - destruct (p x); [constructor|]; exact IH.
  - destruct (p x), (p y); try apply Permutation_refl. apply perm_swap.
  - exact (Permutation_trans IH1 IH2).
Qed.
Lemma once_short idx key : NoDup (map fst idx) -> (length (filter (fun e : bytes * Z => bytes_eqb (fst e) key) idx) <= 1)%nat.
Proof.
  induction idx as [|[k id] idx IH]; cbn [map filter fst]; intros N; [cbn; lia|]. inversion N as [|? ? N1 N2]; subst. destruct (bytes_eqb k key) eqn:E; [|exact (IH N2)].
  apply bytes_eqb_eq in E. subst k. cbn [length]. replace (filter (fun e : bytes * Z => bytes_eqb (fst e) key) idx) with (@nil (bytes * Z)); [cbn; lia|].
  clear -N1. induction idx as [|[k i] idx IH]; cbn [filter fst map In] in *; [reflexivity|]. destruct (bytes_eqb k key) eqn:E; [|apply IH; tauto].
  apply bytes_eqb_eq in E. tauto.
Qed.
Lemma perm_one {A} (l l' : list A) : Permutation l l' -> (length l <= 1)%nat -> l' = l.
Proof.
  intros P L. destruct l as [|x [|y l]]; [apply Permutation_nil; exact P| |cbn in L; lia]. symmetry. apply Permutation_length_1_inv in P. congruence.
Qed.
Lemma ids_perm f ud ud' key : reordered f ud ud' -> ids_of (u_index ud') key = map f (ids_of (u_index ud) key).
Proof.
  intros Ro. rewrite <- ids_relabel. unfold ids_of. f_equal. apply perm_one; [apply perm_filter; exact (ro_words Ro)|].
  apply once_short. rewrite map_map. cbn [fst]. exact (ro_once Ro).
Qed.
Lemma moved_id f m : moved (user_order f) m = m.
Proof. destruct m; reflexivity. Qed.
Lemma order_renumbered d f ud ud' : wf_dict d -> reordered f ud ud' -> renumbered (user_order f) d d (Some ud) (Some ud') /\ same_contents (user_order f) d d (Some ud) (Some ud').
Proof.
  intros Hd Ro. split; constructor; cbn [user_order rn_known rn_unknown rn_user rn_left rn_right rn_category]; try reflexivity; auto.
  - intros key. rewrite map_id. reflexivity.
  - intros id (key & I). destruct (wf_idx Hd _ _ I) as (_ & _ & R). split; [lia|]. destruct (row (d_morphs d) id); cbn; rewrite ?moved_id; reflexivity.
  - split; [intros key; apply ids_perm; exact Ro|]. intros id K. exact (proj1 (ro_places Ro _ K)).
  - intros id (ch & k & K & ->). destruct (wf_unk Hd ch) as (A & _). split; [unfold first_unknown; lia|]. destruct (row _ _); cbn; rewrite ?moved_id; reflexivity.
  - destruct (d_contents d); [reflexivity|exact I].
  - intros id K. exact (proj2 (ro_places Ro _ K)).
Qed.
Theorem order_same d f ud ud' ideo omit inp mode : wf_dict d -> wf_udict (Some ud) -> reordered f ud ud' ->
  exists ts, analyze ideo (Tokenizer d (Some ud) omit) inp mode = Ok ts /\ analyze ideo (Tokenizer d (Some ud') omit) inp mode = Ok (map (renumber (user_order f) d (Some ud')) ts) /\
    forall t, In t ts -> features (renumber (user_order f) d (Some ud') t) = features t.
Proof.
  intros Hd Hu Ro. destruct (order_renumbered Hd Ro) as (H & C). destruct (renumber_same Hd Hu H ideo omit inp mode) as (ts & E & E'). exists ts. split; [exact E|]. split; [exact E'|].
  intros t I. exact (proj1 (told_same Hd Hu H C E I)).
Qed.
