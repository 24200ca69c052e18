(** Proofs of C88 and C89. *)
From Verif Require Import SpecLocal FilterFacts TieFacts AnalyzeFacts TokFacts Utf8Facts BuildFacts.
From Coq Require Import Lia ZifyBool ZifyNat ZifyN.
Set Implicit Arguments.
Unset Strict Implicit.
Open Scope nat_scope.

(** ** The table of keywords is read by Build only, and only where a keyword can be *)
Section Index.
Variables (d : dict) (idx : index_table).
Notation d' := (with_index idx d).
Lemma wi_group_loop f inp c : forall i e k, group_loop f d' inp c i e k = group_loop f d inp c i e k.
Proof.
  induction f as [|f IH]; intros i e k; cbn [group_loop]; [reflexivity|]. destruct (i <? length inp); [|reflexivity].
  destruct (slice inp i (length inp)); cbn [rbind]; try reflexivity. destruct (decode_rune a) as [r w]. cbn [d_category with_index].
  destruct (negb (d_category d r =? c)); [reflexivity|]. destruct (max_unk_len <=? N.succ k)%N; [reflexivity|apply IH].
Qed.
Lemma wi_add_node la pos id position start c s : add_node d' la pos id position start c s = add_node d la pos id position start c s.
Proof. reflexivity. Qed.
Lemma wi_matches inp i pos c ms : forall la, add_matches d' inp i pos c ms la = add_matches d inp i pos c ms la.
Proof. intros la. apply foldM_ext. intros a [id l]. reflexivity. Qed.
Lemma wi_unknowns inp i pos prev e id dup la : add_unknowns d' inp i pos prev e id dup la = add_unknowns d inp i pos prev e id dup la.
Proof. apply foldM_ext. intros a x. reflexivity. Qed.
Lemma wi_end inp pos ch c : unknown_end d' inp pos ch c = unknown_end d inp pos ch c.
Proof. unfold unknown_end. cbn [d_group with_index]. destruct (index (d_group d) c) as [[]| |]; cbn [rbind]; try reflexivity. apply wi_group_loop. Qed.
Lemma wi_unknown inp i pos ch b la : build_unknown d' inp i pos ch b la = build_unknown d inp i pos ch b la.
Proof.
  unfold build_unknown. cbn [d_category d_invoke with_index]. rewrite wi_end.
  destruct (if negb b then Ok true else index (d_invoke d) (d_category d ch)) as [[]| |]; cbn [rbind]; try reflexivity.
Qed.
Lemma wi_relax ideo m i x st k : forall j la, relax_loop d' ideo m i x st j k la = relax_loop d ideo m i x st j k la.
Proof.
  induction k as [|k IH]; intros j la; cbn [relax_loop]; [reflexivity|].
  destruct (get2 la st j) as [p| |]; cbn [rbind]; try reflexivity. destruct (get2 la i x) as [t| |]; cbn [rbind]; try reflexivity.
  change (total_cost d' ideo m p t) with (total_cost d ideo m p t). destruct (total_cost d ideo m p t) as [c| |]; cbn [rbind]; try reflexivity.
  match goal with |- rbind ?r _ = _ => destruct r end; cbn [rbind]; try reflexivity. apply IH.
Qed.
Lemma wi_forward ideo m la : forward d' ideo m la = forward d ideo m la.
Proof.
  apply foldM_ext. intros a i. unfold forward_pos. destruct (index a i) as [cur| |]; cbn [rbind]; try reflexivity.
  apply foldM_ext. intros a' x. unfold forward_target. destruct (get2 a' i x) as [t| |]; cbn [rbind]; try reflexivity.
  destruct (index a' (n_start t)); cbn [rbind]; try reflexivity. destruct (length a0 =? 0); [reflexivity|apply wi_relax].
Qed.
End Index.

Lemma picked_filtered {A} (P : A -> Prop) (f : A -> bool) l out : picked P l out -> (forall a, f a = true -> P a) -> filter f out = filter f l.
Proof.
  intros H Hf. induction H as [|a l out Ha H IH|a l out Ha H IH]; [reflexivity| |]; cbn [filter].
  - rewrite IH. reflexivity.
  - destruct (f a) eqn:E; [contradiction (Ha (Hf _ E))|exact IH].
Qed.
Lemma flat_map_eq {A B} (f g : A -> list B) l : (forall a, f a = g a) -> flat_map f l = flat_map g l.
Proof. intros H. induction l; cbn; [reflexivity|]. rewrite H, IHl. reflexivity. Qed.
Lemma search_same s a b pos rest : same_entries s a b -> slice s pos (length s) = Ok rest -> common_prefix_search a rest = common_prefix_search b rest.
Proof.
  intros (l & Ha & Hb) E. unfold common_prefix_search. apply flat_map_eq. intros k. f_equal.
  assert (H : forall e : bytes * Z, bytes_eqb (fst e) (firstn k rest) = true -> inside (fst e) s).
  { intros [w id] He. apply bytes_eqb_eq in He. cbn [fst] in *. subst w. unfold slice in E.
    destruct ((pos <=? length s) && (length s <=? length s)); [|discriminate]. injection E as <-.
    exists (firstn pos s), (skipn k (firstn (length s - pos) (skipn pos s))). rewrite firstn_skipn.
    rewrite (@firstn_all2 _ (length s - pos)) by (rewrite skipn_length; lia). rewrite firstn_skipn. reflexivity. }
  rewrite <- (picked_filtered Ha H). apply (picked_filtered Hb H).
Qed.
Lemma build_same d idx u u' s : same_entries s (d_index d) idx -> same_entries s (user_index u) (user_index u') ->
  build (with_index idx d) u' s = build d u s.
Proof.
  intros Hi Hu. unfold build. destruct (slice s 0 0); cbn [rbind]; try reflexivity.
  change (add_node (with_index idx d)) with (add_node d).
  destruct (add_node d _ 0 _ _ _ _ _); cbn [rbind]; try reflexivity. destruct (slice s _ _); cbn [rbind]; try reflexivity.
  destruct (add_node d _ _ _ _ _ _ _) as [la| |]; cbn [rbind]; try reflexivity.
  generalize (range_string s) la. generalize 0 at 1 2. intros i l. revert i. clear -Hi Hu.
  induction l as [|[pos ch] l IH]; intros i la; cbn [build_loop]; [reflexivity|].
  assert (E : build_step (with_index idx d) u' s la i pos ch = build_step d u s la i pos ch).
  { unfold build_step. destruct (slice s pos (length s)) as [rest| |] eqn:Es; cbn [rbind]; try reflexivity.
    assert (Eu : match u' with Some ud => common_prefix_search (u_index ud) rest | None => [] end =
                 match u with Some ud => common_prefix_search (u_index ud) rest | None => [] end).
    { pose proof (search_same Hu Es) as E. unfold user_index in E.
      assert (E0 : common_prefix_search [] rest = []) by (unfold common_prefix_search; induction (seq 1 (length rest)); cbn; [reflexivity|assumption]).
      destruct u, u'; rewrite ?E0 in E; try congruence; symmetry; exact E. }
    rewrite Eu. destruct (u) as [ud|]; cbv zeta; rewrite wi_matches.
    all: match goal with |- rbind ?r _ = _ => destruct r as [la1| |] end; cbn [rbind]; try reflexivity.
    all: match goal with |- (if ?b then _ else _) = _ => destruct b end; try reflexivity.
    all: cbn [d_index with_index]; rewrite <- (search_same Hi Es), wi_matches.
    all: match goal with |- rbind ?r _ = _ => destruct r as [la2| |] end; cbn [rbind]; try reflexivity; apply wi_unknown. }
  rewrite E. destruct (build_step d u s la i pos ch); cbn [rbind]; try reflexivity. apply IH.
Qed.
Lemma run_same ideo d idx u u' omit omit' s mode : same_entries s (d_index d) idx -> same_entries s (user_index u) (user_index u') ->
  run_lattice ideo (Tokenizer (with_index idx d) u' omit) s mode = run_lattice ideo (Tokenizer d u omit') s mode.
Proof.
  intros Hi Hu. unfold run_lattice. cbn [tk_dict tk_udict]. rewrite (build_same Hi Hu). destruct (build d u s); cbn [rbind]; try reflexivity. rewrite wi_forward. reflexivity.
Qed.
Lemma tokens_visible d u d' u' omit out :
  same_tokens (analyze_tokens (Tokenizer d u omit) out) (analyze_tokens (Tokenizer d' u' omit) out).
Proof.
  unfold analyze_tokens. cbn [tk_omit]. assert (G : forall l a a', map visible a = map visible a' ->
    same_tokens (foldM (fun tokens i => let* n := index out (length out - 1 - i) in
           if omit && (n_id n =? bos_eos_id)%Z then Ok tokens else Ok (tokens ++ [make_token (Tokenizer d u omit) i (length tokens) n])) l a)
      (foldM (fun tokens i => let* n := index out (length out - 1 - i) in
           if omit && (n_id n =? bos_eos_id)%Z then Ok tokens else Ok (tokens ++ [make_token (Tokenizer d' u' omit) i (length tokens) n])) l a')).
  { induction l as [|i l IH]; intros a a' E; cbn [foldM]; [exact E|].
    destruct (index out (length out - 1 - i)) as [n| |]; cbn [rbind]; try exact I.
    destruct (omit && (n_id n =? bos_eos_id)%Z); cbn [rbind]; [exact (IH _ _ E)|]. apply IH. rewrite !map_app, E. cbn [map].
    assert (L : length a = length a') by (rewrite <- (map_length visible a), E, map_length; reflexivity). rewrite L. reflexivity. }
  apply G. reflexivity.
Qed.
Theorem analyze_same ideo d idx u u' omit s mode : same_entries s (d_index d) idx -> same_entries s (user_index u) (user_index u') ->
  same_tokens (analyze ideo (Tokenizer d u omit) s mode) (analyze ideo (Tokenizer (with_index idx d) u' omit) s mode).
Proof.
  intros Hi Hu. unfold analyze. rewrite (@run_same ideo d idx u u' omit omit s mode Hi Hu).
  destruct (run_lattice ideo (Tokenizer d u omit) s mode) as [[la out]| |]; cbn [rbind snd]; try exact I. apply tokens_visible.
Qed.
Theorem wakati_same ideo d idx u u' omit s : same_entries s (d_index d) idx -> same_entries s (user_index u) (user_index u') ->
  wakati ideo (Tokenizer (with_index idx d) u' omit) s = wakati ideo (Tokenizer d u omit) s.
Proof.
  intros Hi Hu. unfold wakati. pose proof (@analyze_same ideo d idx u u' omit s mode_normal Hi Hu) as H.
  destruct (analyze ideo (Tokenizer d u omit) s mode_normal) as [ts| |], (analyze ideo (Tokenizer (with_index idx d) u' omit) s mode_normal) as [ts'| |];
    cbn [same_tokens] in H; try contradiction; cbn [rbind]; try reflexivity. f_equal.
  revert ts' H. induction ts as [|t ts IH]; intros [|t' ts'] H; try discriminate; [reflexivity|]. cbn [map] in H. injection H as H1 H2 H3 H4 H5 H6 H7 H.
  cbn [filter]. rewrite H3, H7. destruct (_ && _); cbn [map]; rewrite ?H7, (IH _ H); reflexivity.
Qed.

(** ** Features *)
Definition from_tokenizer (d : dict) (u : option udict) (t : token) : Prop := t_dict t = d /\ t_udict t = u.
Lemma tokens_from d u omit out ts : analyze_tokens (Tokenizer d u omit) out = Ok ts -> Forall (from_tokenizer d u) ts.
Proof.
  unfold analyze_tokens. assert (G : forall l a ts, Forall (from_tokenizer d u) a ->
    foldM (fun tokens i => let* n := index out (length out - 1 - i) in
           if tk_omit (Tokenizer d u omit) && (n_id n =? bos_eos_id)%Z then Ok tokens else Ok (tokens ++ [make_token (Tokenizer d u omit) i (length tokens) n])) l a = Ok ts ->
    Forall (from_tokenizer d u) ts).
  { induction l as [|i l IH]; intros a ts0 F E; cbn [foldM] in E; [injection E as <-; exact F|].
    destruct (index out (length out - 1 - i)) as [n| |]; cbn [rbind] in E; try discriminate.
    destruct (_ && _); cbn [rbind] in E; (eapply IH; [|exact E]); [exact F|]. apply Forall_app. split; [exact F|]. constructor; [split; reflexivity|constructor]. }
  intros E. eapply G; [constructor|exact E].
Qed.
Lemma features_same idx d u u' a b : from_tokenizer d u a -> from_tokenizer (with_index idx d) u' b -> user_contents u = user_contents u' ->
  visible a = visible b -> features a = features b.
Proof.
  destruct a as [i1 id1 c1 p1 s1 e1 f1 d1 u1], b as [i2 id2 c2 p2 s2 e2 f2 d2 u2]. intros [E1 E2] [E3 E4] Hc V. cbn in E1, E2, E3, E4. subst.
  injection V as -> -> -> -> -> -> ->. destruct c2; try reflexivity.
  cbn [features t_class]. f_equal. unfold user_content_of. cbn [t_udict t_id]. unfold user_contents in Hc.
  destruct u as [[i c]|], u' as [[i' c']|]; cbn in Hc; subst; try reflexivity; cbn [u_contents]; unfold indexZ; destruct (_ <? 0)%Z, (Z.to_nat id2); reflexivity.
Qed.
Theorem analyze_same_features ideo d idx u u' omit s mode ts ts' : same_entries s (d_index d) idx -> same_entries s (user_index u) (user_index u') ->
  user_contents u = user_contents u' -> analyze ideo (Tokenizer d u omit) s mode = Ok ts -> analyze ideo (Tokenizer (with_index idx d) u' omit) s mode = Ok ts' ->
  map features ts = map features ts'.
Proof.
  intros Hi Hu Hc E E'. pose proof (@analyze_same ideo d idx u u' omit s mode Hi Hu) as H. rewrite E, E' in H. cbn [same_tokens] in H.
  assert (F : Forall (from_tokenizer d u) ts). { unfold analyze in E. destruct (run_lattice _ _ _ _) as [[la out]| |]; try discriminate. exact (tokens_from E). }
  assert (F' : Forall (from_tokenizer (with_index idx d) u') ts'). { unfold analyze in E'. destruct (run_lattice _ _ _ _) as [[la out]| |]; try discriminate. exact (tokens_from E'). }
  clear E E'. revert ts' H F'. induction F as [|a l Fa F IH]; intros [|b l'] H F'; try discriminate; [reflexivity|].
  cbn [map] in H |- *. inversion F' as [|? ? Fb F'']; subst. f_equal.
  - eapply features_same; [exact Fa|exact Fb|exact Hc|]. congruence.
  - apply IH; [congruence|exact F''].
Qed.

(** ** Alternatives that are not taken *)
Lemma picked_split {A} (P : A -> Prop) l1 x l2 : P x -> forall out, picked P (l1 ++ x :: l2) out ->
  exists o1 o2, out = o1 ++ x :: o2 /\ picked P l1 o1.
Proof.
  intros Hx. induction l1 as [|a l1 IH]; cbn [app]; intros out H.
  - inversion H; subst; [|contradiction]. eexists [], _. split; [reflexivity|constructor].
  - inversion H as [|? ? ? Ha H'|? ? ? Ha H']; subst; destruct (IH _ H') as (o1 & o2 & -> & K).
    + exists (a :: o1), o2. split; [reflexivity|constructor; assumption].
    + exists o1, o2. split; [reflexivity|constructor 3; assumption].
Qed.
Lemma listed_picked P l out k i j : picked P l out -> In (k, i) out -> listed_before l k i j -> listed_before out k i j.
Proof.
  intros H Hin (Hn & l1 & l2 & -> & N). split; [exact Hn|]. destruct (picked_sub H Hin) as [_ Hp].
  destruct (picked_split Hp H) as (o1 & o2 & -> & K). exists o1, o2. split; [reflexivity|]. intros Hj. apply N. apply (picked_sub K Hj).
Qed.
Lemma wi_cost m ideo idx d inp ws : forall c e, cost_from m ideo (with_index idx d) inp c e ws = cost_from m ideo d inp c e ws.
Proof. induction ws as [|w ws IH]; intros c e; cbn [cost_from]; [reflexivity|]. rewrite IH. reflexivity. Qed.
Lemma chain_mono d u d' u' inp i ws j : (forall w, candidate d' u' inp w -> candidate d u inp w) -> chain d' u' inp i ws j -> chain d u inp i ws j.
Proof. intros H. induction 1; constructor; auto. Qed.
Lemma chain_all d u inp i ws j : chain d u inp i ws j -> forall w, In w ws -> candidate d u inp w.
Proof. induction 1; intros x Hx; [contradiction|]. destruct Hx as [<-|Hx]; auto. Qed.
Lemma chain_again d u d' u' inp i ws j : chain d u inp i ws j -> (forall w, In w ws -> candidate d' u' inp w) -> chain d' u' inp i ws j.
Proof. induction 1; intros Hw; constructor; [apply Hw; left; reflexivity|apply IHchain; intros x Hx; apply Hw; right; exact Hx]. Qed.

Section Fewer.
Variables (d : dict) (u u' : option udict) (idx : index_table) (P Q : bytes * Z -> Prop) (inp : bytes).
Hypothesis HP : picked P (d_index d) idx.
Hypothesis HQ : picked Q (user_index u) (user_index u').
Notation d' := (with_index idx d).
Hypothesis Hsub : forall w, candidate d' u' inp w -> candidate d u inp w.
Lemma preferred_kept w w' : candidate d' u' inp w -> preferred d u inp w w' -> preferred d' u' inp w w'.
Proof.
  intros Hc [H|[E H]]; [left; exact H|right; split; [exact E|]].
  destruct (w_class w) eqn:Ec, (w_class w') eqn:Ec'; try exact H.
  - cbn [d_index with_index]. eapply listed_picked; [exact HP| |exact H]. inversion Hc; subst; cbn in Ec; try discriminate. cbn. destruct H1 as [_ K]. exact K.
  - destruct H as (ud & -> & H). inversion Hc; subst; cbn in Ec; try discriminate. exists ud0. split; [reflexivity|].
    eapply listed_picked; [exact HQ| |exact H]. cbn. destruct H1 as [_ K]. exact K.
Qed.
Lemma chosen_kept m ideo ws : chosen m ideo d u inp ws -> (forall w, In w ws -> candidate d' u' inp w) -> chosen m ideo d' u' inp ws.
Proof.
  intros [S H] Hw. split; [exact (chain_again S Hw)|]. intros ws' S'. unfold seg_cost. rewrite !wi_cost.
  destruct (H ws' (chain_mono Hsub S')) as [H1 H2]. split; [exact H1|]. intros E. destruct (H2 E) as [K|(a & a' & w & w' & b & -> & -> & K)]; [left; exact K|right].
  exists a, a', w, w', b. split; [reflexivity|]. split; [reflexivity|]. apply preferred_kept; [|exact K]. apply Hw. apply in_or_app. right. left. reflexivity.
Qed.
Lemma wf_kept : wf_dict d -> wf_dict d'.
Proof. intros [H1 H2 H3 H4 H5]. constructor; try assumption. intros k id Hin. apply H1. apply (picked_sub HP Hin). Qed.
Lemma visible_final omit m ws : map visible (final_tokens (Tokenizer d u omit) inp m 0 ws) = map visible (final_tokens (Tokenizer d' u' omit) inp m 0 ws).
Proof.
  unfold final_tokens. cbn [tk_omit]. set (R := fun a b => visible a = visible b).
  assert (F : Forall2 R (raw_tokens (Tokenizer d u omit) inp m 0 ws) (raw_tokens (Tokenizer d' u' omit) inp m 0 ws)).
  { unfold raw_tokens. cbn [Nat.eqb app]. constructor; [reflexivity|]. apply Forall2_app; [|constructor; [reflexivity|constructor]].
    induction ws as [|w ws IH]; cbn [flat_map]; [constructor|]. apply Forall2_app; [|exact IH]. unfold word_tokens.
    destruct m; try (constructor; [reflexivity|constructor]). destruct (w_class w); try (constructor; [reflexivity|constructor]).
    induction (seq _ _); cbn [map]; constructor; [reflexivity|assumption]. }
  generalize 0 at 1 3. revert F. generalize (raw_tokens (Tokenizer d u omit) inp m 0 ws) (raw_tokens (Tokenizer d' u' omit) inp m 0 ws).
  induction 1 as [|a b l l' Hab F IH]; intros k; [reflexivity|]. cbn [filter]. injection Hab as E1 E2 E3 E4 E5 E6 E7.
  unfold is_marker. rewrite E2. destruct (negb (omit && (t_id b =? -1)%Z)); [|apply IH]. cbn [renumber map]. fold is_marker. 
  f_equal; [|apply IH]. unfold visible, set_index. cbn. congruence.
Qed.
End Fewer.

Theorem alternatives ideo d u d' u' omit s mode ts : wf_dict d -> wf_udict u -> wf_udict u' -> fewer d u d' u' -> mode <> mode_extended ->
  (Z.of_nat (rcount s) <= optimal_limit mode)%Z -> (forall w, candidate d' u' s w -> candidate d u s w) ->
  analyze ideo (Tokenizer d u omit) s mode = Ok ts -> (forall w, In w (words_of ts) -> candidate d' u' s w) ->
  same_tokens (Ok ts) (analyze ideo (Tokenizer d' u' omit) s mode) /\
  (mode = mode_search -> same_tokens (analyze ideo (Tokenizer d u omit) s mode_extended) (analyze ideo (Tokenizer d' u' omit) s mode_extended)).
Proof.
  intros Hd Hu Hu' (P & Q & idx & HP & -> & HQ) Hm Hlen Hsub E Hw. destruct (limits mode) as (L1 & L2 & L3).
  pose proof (wf_kept HP Hd) as Hd'.
  destruct (@run_chosen d u s ideo (to_lmode mode) Hd Hu ltac:(lia) ltac:(lia)) as (la & la' & l & ws & E1 & E2 & E3 & C & T).
  destruct (@run_chosen (with_index idx d) u' s ideo (to_lmode mode) Hd' Hu' ltac:(lia) ltac:(lia)) as (lb & lb' & k & ws' & F1 & F2 & F3 & C' & T').
  assert (A : forall md, forward d ideo (to_lmode md) la = Ok la' -> analyze ideo (Tokenizer d u omit) s md = Ok (final_tokens (Tokenizer d u omit) s (to_lmode md) 0 ws)).
  { intros md Em. unfold analyze, run_lattice. cbn [tk_dict tk_udict]. rewrite E1. cbn [rbind]. rewrite Em. cbn [rbind]. rewrite E3. cbn [rbind snd]. apply T. }
  assert (A' : forall md, forward (with_index idx d) ideo (to_lmode md) lb = Ok lb' -> analyze ideo (Tokenizer (with_index idx d) u' omit) s md = Ok (final_tokens (Tokenizer (with_index idx d) u' omit) s (to_lmode md) 0 ws')).
  { intros md Em. unfold analyze, run_lattice. cbn [tk_dict tk_udict]. rewrite F1. cbn [rbind]. rewrite Em. cbn [rbind]. rewrite F3. cbn [rbind snd]. apply T'. }
  rewrite (A mode E2) in E. injection E as <-.
  assert (W : words_of (final_tokens (Tokenizer d u omit) s (to_lmode mode) 0 ws) = ws).
  { unfold words_of. rewrite (map_final Hd Hu omit (to_lmode mode) word_of_free (proj1 C)).
    clear -Hm. induction ws as [|w ws IH]; cbn [flat_map map]; [reflexivity|]. rewrite map_app, IH.
    unfold word_tokens. pose proof (lmode_not_extended Hm). destruct (to_lmode mode); [| |congruence]; destruct w; reflexivity. }
  rewrite W in Hw. pose proof (chosen_kept HP HQ Hsub C Hw) as K. pose proof (chosen_unique K C') as ->.
  split.
  - rewrite (A' mode F2). cbn [same_tokens]. apply visible_final.
  - intros ->. rewrite (A mode_extended), (A' mode_extended); [cbn [same_tokens]; apply visible_final| |].
    + rewrite <- F2. apply forward_extended.
    + rewrite <- E2. apply forward_extended.
Qed.
