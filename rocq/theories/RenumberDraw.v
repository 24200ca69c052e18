(** More about C121: the drawn lattice and the named accessors. *)
From Verif Require Import BuildFacts AnalyzeFacts Utf8Facts TokenFacts RenumberFacts.
From Verif Require Import Dot SpecFeat SpecRenumber.
From Coq Require Import Lia ZifyBool ZifyNat ZifyN.
Set Implicit Arguments.
Unset Strict Implicit.
Open Scope Z_scope.

Lemma rr_map2 {A B X Y} (P : X -> Y -> Prop) (Q : A -> B -> Prop) (f : X -> res A) (g : Y -> res B) l l' :
  Forall2 P l l' -> (forall x y, P x y -> rr Q (f x) (g y)) -> rr (Forall2 Q) (mapM f l) (mapM g l').
Proof.
  intros F H. induction F as [|x y l l' Hxy F IH]; cbn [mapM]; [constructor|]. eapply rr_bind; [apply H, Hxy|]. intros a b Hab.
  eapply rr_bind; [apply IH|]. intros la lb Hl. constructor; assumption.
Qed.
Lemma enum2 {A B} (Q : A -> B -> Prop) l l' : Forall2 Q l l' -> forall k, Forall2 (fun a b => fst a = fst b /\ Q (snd a) (snd b)) (enum k l) (enum k l').
Proof. induction 1 as [|x y l l' Hxy F IH]; intros k; cbn [enum]; constructor; auto. Qed.
Lemma map2 {A B X Y} (P : A -> B -> Prop) (Q : X -> Y -> Prop) (f : A -> X) (g : B -> Y) l l' :
  Forall2 P l l' -> (forall a b, P a b -> Q (f a) (g b)) -> Forall2 Q (map f l) (map g l').
Proof. intros F H. induction F; cbn [map]; constructor; auto. Qed.
Lemma flat2 {A B X Y} (P : A -> B -> Prop) (Q : X -> Y -> Prop) (f : A -> list X) (g : B -> list Y) l l' :
  Forall2 P l l' -> (forall a b, P a b -> Forall2 Q (f a) (g b)) -> Forall2 Q (flat_map f l) (flat_map g l').
Proof. intros F H. induction F; cbn [flat_map]; [constructor|]. apply Forall2_app; auto. Qed.
Lemma filter2 {A B} (P : A -> B -> Prop) (f : A -> bool) (g : B -> bool) l l' :
  Forall2 P l l' -> (forall a b, P a b -> g b = f a) -> Forall2 P (filter f l) (filter g l').
Proof. intros F H. induction F as [|x y l l' Hxy F IH]; cbn [filter]; [constructor|]. rewrite (H _ _ Hxy). destruct (f x); [constructor|]; auto. Qed.
Lemma concat2 {A B} (P : A -> B -> Prop) l l' : Forall2 (Forall2 P) l l' -> Forall2 P (concat l) (concat l').
Proof. induction 1; cbn [concat]; [constructor|]. apply Forall2_app; auto. Qed.
Lemma forall2_eq {A} (l l' : list A) : Forall2 eq l l' -> l' = l.
Proof. induction 1; congruence. Qed.

Section Draw.
Variables (r : renumbering) (d d' : dict) (u u' : option udict).
Hypothesis Hd : wf_dict d.
Hypothesis Hu : wf_udict u.
Hypothesis H : renumbered r d d' u u'.
Hypothesis C : same_contents r d d' u u'.
Notation Rn := (@R r d u).
Notation TRn := (@TR r d u).

Lemma same_names id : known_id d id ->
  (let* ids := indexZ (d_pos_ids d') (rn_known r id) in mapM (fun k => indexZ (d_pos_names d') k) ids) =
  (let* ids := indexZ (d_pos_ids d) id in mapM (fun k => indexZ (d_pos_names d) k) ids).
Proof.
  intros K. rewrite !indexZ_row. pose proof (sc_names C _ K) as N. unfold names_of in N.
  destruct (row (d_pos_ids d) id) as [ids|], (row (d_pos_ids d') (rn_known r id)) as [ids'|]; cbn [option_map] in N; try discriminate; [|reflexivity].
  cbn [rbind]. injection N as N. apply mapM_ext.
  rewrite (map_ext _ _ (indexZ_row (d_pos_names d'))), (map_ext _ _ (indexZ_row (d_pos_names d))).
  rewrite <- (map_map (row (d_pos_names d')) (fun o => match o with Some x => Ok x | None => Panic end)), <- (map_map (row (d_pos_names d)) (fun o => match o with Some x => Ok x | None => Panic end)).
  rewrite N. reflexivity.
Qed.
Lemma pos_sim n n' : Rn n n' -> pos_feature d' u' n' = pos_feature d u n.
Proof.
  intros (-> & L & _). unfold pos_feature. cbn [moved_node n_class n_id]. destruct (n_class n); cbn [listed] in L.
  - reflexivity.
  - rewrite (proj1 (new_known Hd H L)). pose proof (same_names L) as N. revert N.
    destruct (indexZ (d_pos_ids d') _) as [x'| |], (indexZ (d_pos_ids d) _) as [x| |]; cbn [rbind]; intros N; first [reflexivity | discriminate | rewrite N; reflexivity | rewrite <- N; reflexivity].
  - rewrite (proj1 (new_unknown Hd H L)), (sc_meta C), !indexZ_row, (sc_unknown C _ L). reflexivity.
  - destruct (@listed_user d u _ L) as (ud & E & K). rewrite (proj1 (new_user Hu H E K)).
    pose proof (sc_user C) as S. pose proof (rn_users H) as X. rewrite E in *. destruct u' as [ud'|]; [|destruct X]. rewrite !indexZ_row, (S _ K). reflexivity.
Qed.

Definition RC (a b : coord * node) : Prop := fst a = fst b /\ Rn (snd a) (snd b).
Lemma cells_of_sim i l l' : Forall2 Rn l l' -> Forall2 RC (cells_of i l) (cells_of i l').
Proof.
  intros F. unfold cells_of. eapply map2; [apply (enum2 F)|]. intros [j n] [j' n'] (E & Rx). cbn [fst snd] in *. subst j'. split; [reflexivity|exact Rx].
Qed.
Lemma cells_sim la la' : TRn la la' -> Forall2 RC (cells la) (cells la').
Proof.
  intros T. unfold cells. eapply flat2; [apply (enum2 T)|]. intros [i l] [i' l'] (E & F). cbn [fst snd] in *. subst i'. apply cells_of_sim. exact F.
Qed.
Lemma class_sim n n' : Rn n n' -> n_class n' = n_class n.
Proof. intros (-> & _). reflexivity. Qed.
Lemma start_sim n n' : Rn n n' -> n_start n' = n_start n.
Proof. intros (-> & _). reflexivity. Qed.
Lemma skipped_sim bests a b : RC a b -> skipped bests b = skipped bests a.
Proof. intros (E & Rx). unfold skipped. rewrite (class_sim Rx), E. reflexivity. Qed.

Variable m : lmode.
Lemma ptrs_sim la la' f : TRn la la' -> forall c out, rr eq (walk_ptrs f m la c out) (walk_ptrs f m la' c out).
Proof.
  intros T. induction f as [|f IH]; intros c out; cbn [walk_ptrs]; [exact I|]. eapply rr_bind; [apply (get_sim (fst c) (snd c) T)|]. intros p p' Rp.
  eapply rr_bind with (Q := eq).
  - unfold output_ptrs. rewrite (class_sim Rp). destruct m; try reflexivity. destruct (n_class p) eqn:Ec; try reflexivity.
    eapply rr_bind; [apply (output_sim H LExtended Rp)|]. intros o o' F. cbn [rr]. clear -F. induction F; cbn [map]; congruence.
  - intros o ? <-. replace (n_prev p') with (n_prev p) by (destruct Rp as (-> & _); reflexivity). destruct (n_prev p); [apply IH|reflexivity].
Qed.
Lemma backward_ptrs_sim la la' : TRn la la' -> rr eq (backward_ptrs m la) (backward_ptrs m la').
Proof. intros T. unfold backward_ptrs. rewrite (length2 T). destruct (length la); [reflexivity|]. apply ptrs_sim. exact T. Qed.

Definition RE (a b : (coord * node) * (coord * node)) : Prop := RC (fst a) (fst b) /\ RC (snd a) (snd b).
Lemma edges_to_sim bests la la' a b : TRn la la' -> RC a b -> rr (Forall2 RE) (edges_to bests la a) (edges_to bests la' b).
Proof.
  intros T Rab. unfold edges_to. rewrite (skipped_sim bests Rab). destruct (skipped bests a); [constructor|].
  rewrite (start_sim (proj2 Rab)). eapply rr_bind; [apply rr_index; exact T|]. intros p p' F. cbn [rr].
  eapply map2 with (P := RC); [|intros x y Rxy; split; [exact Rxy|exact Rab]].
  apply filter2; [apply cells_of_sim; exact F|]. intros x y Rxy. rewrite (skipped_sim bests Rxy). reflexivity.
Qed.
Lemma edge_list_sim bests la la' : TRn la la' -> rr (Forall2 RE) (edge_list bests la) (edge_list bests la').
Proof.
  intros T. unfold edge_list. eapply rr_bind with (Q := Forall2 (Forall2 RE)).
  - eapply rr_map2; [apply filter2; [apply (cells_sim T)|]|].
    + intros a b (E & _). exact (f_equal (fun c : coord => (1 <=? fst c)%nat) (eq_sym E)).
    + intros a b Rab. apply edges_to_sim; assumption.
  - intros l l' F. cbn [rr]. apply concat2. exact F.
Qed.
Lemma node_stmt_sim bests a b : RC a b -> rr eq (node_stmt d u bests a) (node_stmt d' u' bests b).
Proof.
  intros Rab. unfold node_stmt. rewrite (skipped_sim bests Rab). destruct (skipped bests a); [reflexivity|].
  destruct a as [c n], b as [c' n'], Rab as (E & Rn). cbn [fst snd] in E, Rn. subst c'. rewrite (pos_sim Rn), (class_sim Rn).
  destruct Rn as (-> & L & _). cbn [moved_node n_id n_surface n_weight]. rewrite (bos_same Hd Hu H (or_introl L)). apply rr_same.
Qed.
Lemma edge_stmt_sim bests a b : RE a b -> rr eq (edge_stmt d bests a) (edge_stmt d' bests b).
Proof.
  intros (Rf & Rt). destruct a as [[cf f] [ct t]], b as [[cf' f'] [ct' t']], Rf as (E & Rf), Rt as (E' & Rt). cbn [fst snd] in *. subst cf' ct'.
  unfold edge_stmt. rewrite (class_sim Rf), (class_sim Rt). destruct Rf as (-> & _ & x & Ux & _ & Rx), Rt as (-> & _ & y & Uy & Ly & _).
  cbn [moved_node n_right n_left]. unfold conn_at. rewrite !indexZ_row, Rx, Ly, (rn_connections H _ _ Ux Uy). apply rr_same.
Qed.
Lemma dot_sim la la' out : TRn la la' -> rr eq (dot_stmts d u la out) (dot_stmts d' u' la' out).
Proof.
  intros T. unfold dot_stmts. eapply rr_bind; [apply edge_list_sim; exact T|]. intros es es' Fe.
  eapply rr_bind with (Q := eq).
  - eapply rr_weaken; [|eapply rr_map2; [apply (cells_sim T)|intros a b; apply node_stmt_sim]]. intros x y F. symmetry. apply forall2_eq. exact F.
  - intros ns ? <-. eapply rr_bind with (Q := eq).
    + eapply rr_weaken; [|eapply rr_map2; [exact Fe|intros a b; apply edge_stmt_sim]]. intros x y F. symmetry. apply forall2_eq. exact F.
    + intros ss ? <-. reflexivity.
Qed.
End Draw.

Theorem graph_same r d d' u u' addr ideo omit inp mode : wf_dict d -> wf_udict u -> renumbered r d d' u u' -> same_contents r d d' u u' ->
  graph_text addr ideo (Tokenizer d' u' omit) inp mode = graph_text addr ideo (Tokenizer d u omit) inp mode.
Proof.
  intros Hd Hu H C. unfold graph_text. assert (E : rr eq (graph_stmts ideo (Tokenizer d u omit) inp mode) (graph_stmts ideo (Tokenizer d' u' omit) inp mode)).
  { unfold graph_stmts. cbn [tk_dict tk_udict]. eapply rr_bind; [apply (build_sim Hd Hu H)|]. intros la la' T.
    eapply rr_bind; [apply (forward_sim H); exact T|]. intros la1 la1' T1. eapply rr_bind; [apply (backward_ptrs_sim H); exact T1|].
    intros out ? <-. apply (dot_sim Hd Hu H C). exact T1. }
  destruct (graph_stmts ideo (Tokenizer d u omit) inp mode), (graph_stmts ideo (Tokenizer d' u' omit) inp mode); cbn [rr] in E; try contradiction; subst; reflexivity.
Qed.

(** ** FeatureAt and the named accessors *)
Theorem accessors_same r d d' u u' ideo omit inp mode ts t : wf_dict d -> wf_udict u -> wf_data d -> wf_dict d' -> wf_udict u' -> wf_data d' ->
  renumbered r d d' u u' -> same_contents r d d' u u' -> analyze ideo (Tokenizer d u omit) inp mode = Ok ts -> In t ts ->
  (forall i, feature_at (renumber r d' u' t) i = feature_at t i) /\
  (d_meta d' = d_meta d -> forall key, pickup (renumber r d' u' t) key = pickup t key).
Proof.
  intros Hd Hu Hw Hd' Hu' Hw' H C E Hin.
  assert (Fa : from_analyze d u t) by (exists ideo, omit, inp, mode, ts; auto).
  assert (Fb : from_analyze d' u' (renumber r d' u' t)).
  { destruct (@renumber_same r d d' u u' Hd Hu H ideo omit inp mode) as (ts0 & E0 & E'). rewrite E in E0. injection E0 as <-.
    exists ideo, omit, inp, mode, (map (renumber r d' u') ts). split; [exact E'|]. apply in_map. exact Hin. }
  destruct (@told_same r d d' u u' Hd Hu H C ideo omit inp mode ts t E Hin) as (Ef & _ & _).
  destruct (c20_feature_at_lemma Hd Hu Hw Fa) as (fs & E1 & F1). destruct (c20_feature_at_lemma Hd' Hu' Hw' Fb) as (fs' & E2 & F2).
  rewrite Ef, E1 in E2. injection E2 as <-.
  assert (A : forall i, feature_at (renumber r d' u' t) i = feature_at t i) by (intros i; rewrite F1, F2; reflexivity).
  split; [exact A|]. intros Em key. unfold pickup. change (t_class (renumber r d' u' t)) with (t_class t). change (t_dict (renumber r d' u' t)) with d'.
  assert (Ed : t_dict t = d).
  { pose proof (@analyze_sim r d d' u u' Hd Hu H ideo omit inp mode) as S. rewrite E in S. destruct (analyze ideo (Tokenizer d' u' omit) inp mode); cbn [rr] in S; try contradiction.
    destruct S as (_ & F). rewrite Forall_forall in F. apply (F _ Hin). }
  rewrite Ed, Em, (sc_meta C). destruct (meta_get _ key); [apply A|reflexivity].
Qed.
Theorem named_same r d d' u u' ideo omit inp mode ts t : wf_dict d -> wf_udict u -> wf_data d -> wf_dict d' -> wf_udict u' -> wf_data d' ->
  renumbered r d d' u u' -> same_contents r d d' u u' -> analyze ideo (Tokenizer d u omit) inp mode = Ok ts -> In t ts ->
  (forall i, feature_at (renumber r d' u' t) i = feature_at t i) /\
  (d_meta d' = d_meta d -> forall f, In f [base_form; reading; pronunciation; inflectional_type; inflectional_form] -> f (renumber r d' u' t) = f t).
Proof.
  intros Hd Hu Hw Hd' Hu' Hw' H C E I. destruct (accessors_same Hd Hu Hw Hd' Hu' Hw' H C E I) as (A & B). split; [exact A|].
  intros Em f Hf. cbn [In] in Hf. repeat destruct Hf as [<-|Hf]; [apply (B Em)..|destruct Hf].
Qed.
