(** What Analyze, Tokenize, Wakati and AnalyzeGraph return. *)
From Verif Require Export TokFacts.
From Coq Require Import ZifyBool ZifyNat ZifyN.
Set Implicit Arguments.
Unset Strict Implicit.
Open Scope nat_scope.

(** ** Renumbering *)
Definition index_free {A} (f : token -> A) : Prop := forall k t, f (set_index k t) = f t.

Lemma map_renumber {A} (f : token -> A) : index_free f -> forall ts k, map f (renumber k ts) = map f ts.
Proof. intros H. induction ts as [|t ts IH]; intros k; cbn [renumber map]; [reflexivity|]. rewrite H, IH. reflexivity. Qed.

Lemma filter_renumber {A} (f : token -> A) p : index_free f -> index_free p ->
  forall ts k, map f (filter p (renumber k ts)) = map f (filter p ts).
Proof.
  intros Hf Hp. induction ts as [|t ts IH]; intros k; cbn [renumber filter]; [reflexivity|].
  rewrite Hp. destruct (p t); cbn [map]; rewrite ?Hf, IH; reflexivity.
Qed.

Lemma renumber_filter p : index_free p -> forall ts j k, renumber k (filter p (renumber j ts)) = renumber k (filter p ts).
Proof.
  intros Hp. induction ts as [|t ts IH]; intros j k; cbn [renumber filter]; [reflexivity|].
  rewrite Hp. destruct (p t); cbn [renumber]; rewrite IH; reflexivity.
Qed.

Lemma renumber_flat_map (g : token -> list token) : forall ts j k,
  (forall i t, renumber 0 (g (set_index i t)) = renumber 0 (g t)) ->
  renumber k (flat_map g (renumber j ts)) = renumber k (flat_map g ts).
Proof.
  assert (R : forall a b, renumber 0 a = renumber 0 b -> forall k, renumber k a = renumber k b).
  { induction a as [|x a IH]; intros [|y b] H k; try discriminate; [reflexivity|].
    cbn [renumber] in *. injection H as H1 H2 H3 H4 H5 H6 H7 H8 H9. unfold set_index. rewrite H1, H2, H3, H4, H5, H6, H7, H8. f_equal.
    apply IH. clear -H9. revert b H9. induction a as [|x a IH]; intros [|y b] H; try discriminate; [reflexivity|].
    assert (G : forall a b j i, renumber j a = renumber j b -> renumber i a = renumber i b).
    { clear. induction a as [|x a IH]; intros [|y b] j i H; try discriminate; [reflexivity|].
      cbn [renumber] in *. injection H as H1 H2 H3 H4 H5 H6 H7 H8 H9. unfold set_index. rewrite H1, H2, H3, H4, H5, H6, H7, H8. f_equal.
      eapply IH. eassumption. }
    eapply G. eassumption. }
  induction ts as [|t ts IH]; intros j k H; cbn [renumber flat_map]; [reflexivity|].
  rewrite !renumber_app. rewrite (R _ _ (H j t) k). f_equal.
  assert (L : length (g (set_index j t)) = length (g t)).
  { rewrite <- (renumber_length (g (set_index j t)) 0), H. apply renumber_length. }
  rewrite L. apply IH. assumption.
Qed.

Lemma nth_renumber ts : forall k j t, nth_error (renumber k ts) j = Some t -> t_index t = k + j /\ exists t0, nth_error ts j = Some t0 /\ t = set_index (k + j) t0.
Proof.
  induction ts as [|x ts IH]; intros k [|j] t H; cbn [renumber nth_error] in H; try discriminate.
  - injection H as <-. rewrite Nat.add_0_r. cbn. eauto.
  - destruct (IH _ _ _ H) as (H1 & t0 & H2 & H3). rewrite <- Nat.add_succ_comm. eauto.
Qed.

Lemma in_renumber ts k t : In t (renumber k ts) -> exists j t0, In t0 ts /\ t = set_index j t0.
Proof.
  intros H. apply In_nth_error in H. destruct H as (j & H). destruct (nth_renumber H) as (_ & t0 & H2 & H3).
  apply nth_error_In in H2. eauto.
Qed.

(** ** Tiling *)
Fixpoint tiles (i : nat) (ts : list token) (j : nat) : Prop :=
  match ts with
  | [] => i = j
  | t :: r => t_start t = i /\ tiles (t_end t) r j
  end.

Lemma tiles_app a b : forall i j k, tiles i a j -> tiles j b k -> tiles i (a ++ b) k.
Proof.
  induction a as [|x a IH]; intros i j k Ha Hb; cbn [tiles app] in *; [subst; assumption|].
  destruct Ha as [H1 H2]. eauto.
Qed.

Lemma tiles_contiguous ts : forall i j, tiles i ts j -> contiguous ts.
Proof.
  induction ts as [|a ts IH]; intros i j H; cbn [contiguous]; [trivial|].
  destruct ts as [|b ts]; [trivial|]. cbn [tiles] in H. split; [tauto|]. eapply IH. cbn [tiles]. split; [reflexivity|]. apply H.
Qed.

Lemma tiles_renumber ts : forall k i j, tiles i ts j -> tiles i (renumber k ts) j.
Proof. induction ts as [|a ts IH]; intros k i j H; cbn [renumber tiles] in *; [assumption|]. cbn. split; [tauto|]. apply IH. tauto. Qed.

Lemma tiles_filter p ts : (forall t, In t ts -> p t = false -> t_end t = t_start t) ->
  forall i j, tiles i ts j -> tiles i (filter p ts) j.
Proof.
  induction ts as [|a ts IH]; intros Hp i j H; cbn [filter tiles] in *; [assumption|].
  destruct H as [<- H]. destruct (p a) eqn:E.
  - cbn [tiles]. split; [reflexivity|]. apply IH; [intros x Hx; apply Hp; right; exact Hx|assumption].
  - rewrite <- (Hp a (or_introl eq_refl) E). apply IH; [intros x Hx; apply Hp; right; exact Hx|assumption].
Qed.

Section Final.
Variables (d : dict) (u : option udict) (inp : bytes).
Hypothesis Hd : wf_dict d.
Hypothesis Hu : wf_udict u.
Variable omit : bool.
Let t := Tokenizer d u omit.
Let n := rcount inp.

Lemma word_tokens_id m w tk : In tk (word_tokens t inp m w) -> t_id tk = w_id w.
Proof.
  unfold word_tokens. destruct m; try (intros [<-|[]]; reflexivity).
  destruct (w_class w); try (intros [<-|[]]; reflexivity).
  intros H. apply in_map_iff in H. destruct H as (k & <- & _). reflexivity.
Qed.

Lemma chain_candidate i ws j w : chain d u inp i ws j -> In w ws -> candidate d u inp w.
Proof. induction 1 as [|w0 ws j Hc Hch IH]; intros Hin; [destruct Hin|destruct Hin as [<-|Hin]; auto]. Qed.

Lemma no_markers_words m i ws : chain d u inp i ws n -> no_markers (flat_map (word_tokens t inp m) ws) = flat_map (word_tokens t inp m) ws.
Proof.
  intros Hch. unfold no_markers. rewrite <- (map_id (filter _ _)).
  assert (G : forall l, (forall x, In x l -> t_id x <> (-1)%Z) -> filter (fun x => negb (is_marker x)) l = l).
  { induction l as [|x l IH]; intros H; cbn; [reflexivity|]. unfold is_marker at 1.
    assert (Hx : t_id x <> (-1)%Z) by (apply H; left; reflexivity).
    destruct (Z.eqb_spec (t_id x) (-1)); [contradiction|]. cbn. f_equal. apply IH. intros; apply H; right; assumption. }
  rewrite map_id. apply G. intros x Hx. apply in_flat_map in Hx. destruct Hx as (w & Hw & Hx).
  rewrite (word_tokens_id Hx). pose proof (candidate_id_pos Hd Hu (chain_candidate Hch Hw)). lia.
Qed.

Lemma no_markers_raw m i ws : chain d u inp i ws n -> no_markers (raw_tokens t inp m i ws) = flat_map (word_tokens t inp m) ws.
Proof.
  intros Hch. unfold raw_tokens, no_markers. rewrite !filter_app. fold (no_markers (flat_map (word_tokens t inp m) ws)).
  rewrite (no_markers_words m Hch). cbn. destruct (i =? 0); cbn; apply app_nil_r.
Qed.

Lemma filter_keep_no_markers l : no_markers (filter (keep t) l) = no_markers l.
Proof.
  unfold no_markers. induction l as [|x l IH]; cbn [filter]; [reflexivity|].
  unfold keep at 1. destruct (is_marker x) eqn:E; [|rewrite andb_false_r; cbn [negb filter]; rewrite E, IH; reflexivity].
  rewrite andb_true_r. destruct (negb (tk_omit t)); cbn [filter negb]; rewrite ?E, IH; reflexivity.
Qed.

Lemma map_final {A} (f : token -> A) m i ws : index_free f -> chain d u inp i ws n ->
  map f (no_markers (final_tokens t inp m i ws)) = map f (flat_map (word_tokens t inp m) ws).
Proof.
  intros Hf Hch. unfold final_tokens. fold (keep t). unfold no_markers at 1. rewrite (@filter_renumber A f); [|assumption|intros k x; reflexivity].
  fold (no_markers (filter (keep t) (raw_tokens t inp m i ws))). rewrite filter_keep_no_markers, no_markers_raw by assumption. reflexivity.
Qed.

Lemma in_final m i ws tk : chain d u inp i ws n -> In tk (final_tokens t inp m i ws) ->
  exists k, tk = set_index k (bos_token t) /\ i = 0 \/ tk = set_index k (eos_token t inp) \/
    exists w t0, In w ws /\ candidate d u inp w /\ In t0 (word_tokens t inp m w) /\ tk = set_index k t0.
Proof.
  intros Hch H. unfold final_tokens in H. apply in_renumber in H. destruct H as (k & t0 & H & ->). exists k.
  apply filter_In in H. destruct H as [H _]. unfold raw_tokens in H. rewrite !in_app_iff in H.
  destruct H as [H|[H|[<-|[]]]].
  - destruct (Nat.eqb_spec i 0); [|contradiction]. destruct H as [<-|[]]. auto.
  - right. right. apply in_flat_map in H. destruct H as (w & Hw & H). exists w, t0. repeat split; auto.
    eapply chain_candidate; eassumption.
  - right. left. reflexivity.
Qed.

(** *** Text *)
Lemma words_text i ws j : chain d u inp i ws j -> i <= n -> concat (map (word_text inp) ws) = text inp i j.
Proof.
  induction 1 as [i|w ws j Hc Hch IH]; intros Hi; cbn [map concat].
  - unfold text. rewrite Nat.sub_diag. reflexivity.
  - pose proof (candidate_range Hc) as R. fold n in R. rewrite IH by lia. unfold word_text. symmetry. apply text_app.
    pose proof (chain_le Hch). fold n in H. lia.
Qed.

Lemma word_surface_ok w : candidate d u inp w -> fffd_ok d inp -> word_surface t inp w = word_text inp w.
Proof.
  intros Hc Hf. pose proof (candidate_range Hc) as R. unfold word_surface. destruct (w_class w); try reflexivity.
  destruct (bytes_eqb _ _) eqn:E; cbn [andb]; [|reflexivity].
  apply bytes_eqb_eq in E. apply literal_text in E; [|lia]. destruct Hf as [Hf|Hf].
  - destruct (Hf _ E).
  - cbn [tk_dict t]. unfold cat. assert (Er : rune_at inp (w_start w) = rune_error).
    { unfold literal_fffd in E. unfold rune_at. rewrite (nth_error_nth _ _ _ E). reflexivity. }
    rewrite Er, Hf. reflexivity.
Qed.

Lemma word_surface_prefix w : candidate d u inp w -> exists r, word_text inp w = word_surface t inp w ++ r.
Proof.
  intros Hc. pose proof (candidate_range Hc) as R. unfold word_surface. destruct (w_class w); try (exists []; rewrite app_nil_r; reflexivity).
  destruct (bytes_eqb _ _) eqn:E; cbn [andb]; [|exists []; rewrite app_nil_r; reflexivity].
  destruct (negb _); [|exists []; rewrite app_nil_r; reflexivity].
  apply bytes_eqb_eq in E. unfold word_text. rewrite (@text_app inp (w_start w) (S (w_start w)) (w_stop w)) by lia.
  rewrite E. eexists. reflexivity.
Qed.

Lemma words_surfaces m i ws j : m <> LExtended -> chain d u inp i ws j -> fffd_ok d inp ->
  concat (map t_surface (flat_map (word_tokens t inp m) ws)) = concat (map (word_text inp) ws).
Proof.
  intros Hm Hch Hf. induction Hch as [i|w ws j Hc Hch IH]; cbn [flat_map map concat]; [reflexivity|].
  rewrite map_app, concat_app, IH. f_equal. unfold word_tokens.
  destruct m; [| |congruence]; cbn; rewrite app_nil_r; apply word_surface_ok; assumption.
Qed.

(** In valid UTF-8, runes are re-encoded as they were. *)
Lemma runes_text s k : valid_utf8 inp = true -> s + k <= n ->
  concat (map (fun x => encode_rune (rune_at inp x)) (seq s k)) = text inp s (s + k).
Proof.
  intros Hv. revert s; induction k as [|k IH]; intros s Hk; cbn [seq map concat].
  - unfold text. replace (s + 0 - s) with 0 by lia. reflexivity.
  - rewrite IH by lia. assert (Hs : s < n) by lia. destruct (encode_rune_at Hs) as [_ E]. rewrite E.
    + replace (s + S k) with (S s + k) by lia. symmetry. apply text_app. lia.
    + unfold valid_utf8 in Hv. rewrite forallb_forall in Hv.
      destruct (seg_at Hs) as (b & E1 & E2). apply Hv. rewrite E2. apply nth_error_In in E1. exact E1.
Qed.

Lemma words_surfaces_extended i ws j : valid_utf8 inp = true -> chain d u inp i ws j ->
  concat (map t_surface (flat_map (word_tokens t inp LExtended) ws)) = concat (map (word_text inp) ws).
Proof.
  intros Hv. induction 1 as [|w ws0 j Hc Hch IH]; cbn [flat_map map concat]; [reflexivity|].
  rewrite map_app, concat_app, IH. f_equal. pose proof (candidate_range Hc) as R.
  unfold word_tokens.
  destruct (w_class w) eqn:Ec; try (cbn [map concat t_surface word_token]; rewrite app_nil_r; unfold word_surface; rewrite Ec; reflexivity).
  rewrite map_map. cbn [rune_token t_surface]. rewrite (runes_text Hv) by lia. unfold word_text. f_equal. lia.
Qed.
End Final.

(** ** Analyze *)
Lemma limits mode : limit (to_lmode mode) = lossless_limit mode /\ (optimal_limit mode <= lossless_limit mode)%Z /\ (optimal_limit mode <= 32767)%Z.
Proof.
  unfold limit, to_lmode, lossless_limit, optimal_limit, mode_normal, mode_search, mode_extended.
  destruct (Z.eqb_spec mode 1) as [->|]; [cbn; lia|]. destruct (Z.eqb_spec mode 2) as [->|]; [cbn; lia|].
  destruct (Z.eqb_spec mode 3) as [->|]; cbn; lia.
Qed.

Theorem analyze_final d u inp ideo mode : wf_dict d -> wf_udict u -> exists i ws,
  (forall omit, analyze ideo (Tokenizer d u omit) inp mode = Ok (final_tokens (Tokenizer d u omit) inp (to_lmode mode) i ws)) /\
  chain d u inp i ws (rcount inp) /\ (i = 0 \/ 0 < i /\ ws <> [] /\ forall w, candidate d u inp w -> w_stop w <> i) /\
  ((Z.of_nat (rcount inp) <= lossless_limit mode)%Z -> i = 0) /\
  ((Z.of_nat (rcount inp) <= optimal_limit mode)%Z ->
    forall ws', segmentation d u inp ws' ->
      (seg_cost (to_lmode mode) ideo d inp ws <= seg_cost (to_lmode mode) ideo d inp ws')%Z).
Proof.
  intros Hd Hu. destruct (run_path inp ideo (to_lmode mode) Hd Hu) as (la & la' & l & i & ws & E1 & E2 & E3 & C & I & T & O1 & O2).
  destruct (limits mode) as (L1 & L2 & L3).
  exists i, ws. split; [|split; [assumption|]; split; [assumption|]; split; [intros; apply O1; lia|intros; apply O2; try lia; assumption]]. intros omit. unfold analyze, run_lattice. cbn [tk_dict tk_udict].
  rewrite E1. cbn [rbind]. rewrite E2. cbn [rbind]. rewrite E3. cbn [rbind snd]. apply T.
Qed.

Lemma no_loss_start d u inp mode i ws : no_loss d u inp mode -> chain d u inp i ws (rcount inp) ->
  (i = 0 \/ 0 < i /\ ws <> [] /\ forall w, candidate d u inp w -> w_stop w <> i) ->
  ((Z.of_nat (rcount inp) <= lossless_limit mode)%Z -> i = 0) -> i = 0.
Proof.
  intros [H|H] Hch Hi Hs; [apply Hs; assumption|]. destruct Hi as [Hi|(Hi & Hw & Hg)]; [assumption|].
  destruct Hch as [i|w ws j Hc Hch]; [congruence|]. pose proof (candidate_range Hc) as R.
  destruct (H (w_start w)) as (w' & Hc' & E); [lia|]. destruct (Hg _ Hc' E).
Qed.

Lemma lmode_not_extended mode : mode <> mode_extended -> to_lmode mode <> LExtended.
Proof.
  intros H. unfold to_lmode. destruct (Z.eqb_spec mode mode_normal); [discriminate|].
  destruct (Z.eqb_spec mode mode_search); [discriminate|]. destruct (Z.eqb_spec mode mode_extended); [contradiction|discriminate].
Qed.

Lemma surface_free : index_free t_surface. Proof. intros k x. reflexivity. Qed.
Lemma word_of_free : index_free word_of. Proof. intros k x. reflexivity. Qed.

Section Api.
Variables (d : dict) (u : option udict).
Hypothesis Hd : wf_dict d.
Hypothesis Hu : wf_udict u.
Variables (ideo : ideographic) (omit : bool) (inp : bytes) (mode : Z).
Let t := Tokenizer d u omit.

(** C05 *)
Theorem analyze_total : exists ts, analyze ideo t inp mode = Ok ts.
Proof. destruct (analyze_final inp ideo mode Hd Hu) as (i & ws & E & _). eexists. apply E. Qed.

(** C01 *)
Theorem analyze_lossless : mode <> mode_extended -> no_loss d u inp mode -> fffd_ok d inp ->
  exists ts, analyze ideo t inp mode = Ok ts /\ surfaces ts = inp.
Proof.
  intros Hm Hlen Hf. destruct (analyze_final inp ideo mode Hd Hu) as (i & ws & E & C & I & O).
  eexists. split; [apply E|]. assert (i = 0) as -> by (eapply no_loss_start; eauto; tauto). unfold surfaces.
  rewrite (map_final Hd Hu omit (to_lmode mode) surface_free C).
  rewrite (words_surfaces omit (lmode_not_extended Hm) C Hf), (words_text C) by lia. apply text_all.
Qed.

(** Any length: the surfaces are the input from some position on; if it is not the beginning,
    it is a gap. *)
Theorem analyze_suffix : mode <> mode_extended -> fffd_ok d inp ->
  exists ts i, analyze ideo t inp mode = Ok ts /\ surfaces ts = text inp i (rcount inp) /\
    (i = 0 \/ 0 < i < rcount inp /\ forall w, candidate d u inp w -> w_stop w <> i).
Proof.
  intros Hm Hf. destruct (analyze_final inp ideo mode Hd Hu) as (i & ws & E & C & I & O).
  eexists _, i. split; [apply E|].
  assert (Hle : i <= rcount inp).
  { destruct I as [->|(_ & Hw & _)]; [lia|]. inversion C as [|w ws' j Hc Hch]; subst; [lia|]. pose proof (candidate_range Hc). lia. }
  split.
  - unfold surfaces. rewrite (map_final Hd Hu omit (to_lmode mode) surface_free C).
    rewrite (words_surfaces omit (lmode_not_extended Hm) C Hf), (words_text C) by lia. reflexivity.
  - destruct I as [I|(I1 & I2 & I3)]; [left; assumption|right]. split; [|assumption]. split; [assumption|].
    inversion C as [|w ws' j Hc Hch]; subst; [congruence|]. pose proof (candidate_range Hc) as R. lia.
Qed.

(** C48 for valid UTF-8 *)
Theorem analyze_extended_lossless : valid_utf8 inp = true -> no_loss d u inp mode_extended ->
  exists ts, analyze ideo t inp mode_extended = Ok ts /\ surfaces ts = inp.
Proof.
  intros Hv Hlen. destruct (analyze_final inp ideo mode_extended Hd Hu) as (i & ws & E & C & I & O).
  eexists. split; [apply E|]. assert (i = 0) as -> by (eapply no_loss_start; eauto; tauto). unfold surfaces.
  rewrite (map_final Hd Hu omit (to_lmode mode_extended) surface_free C).
  change (to_lmode mode_extended) with LExtended.
  rewrite (words_surfaces_extended omit Hv C), (words_text C) by lia. apply text_all.
Qed.

(** C02 *)
Theorem analyze_offsets : exists ts, analyze ideo t inp mode = Ok ts /\ contiguous ts /\
  forall tk, In tk ts -> t_start tk <= t_end tk <= rcount inp /\ t_position tk = offset inp (t_start tk) /\
    (is_marker tk = false -> t_start tk < t_end tk) /\
    (is_marker tk = false -> mode <> mode_extended \/ valid_utf8 inp = true ->
      slice inp (t_position tk) (t_position tk + length (t_surface tk)) = Ok (t_surface tk) /\
      (fffd_ok d inp \/ mode = mode_extended -> t_position tk + length (t_surface tk) = offset inp (t_end tk) )).
Proof.
  destruct (analyze_final inp ideo mode Hd Hu) as (i & ws & E & C & I & _).
  eexists. split; [apply E|]. split.
  - (* contiguous *)
    eapply (@tiles_contiguous _ i (rcount inp)). unfold final_tokens. apply tiles_renumber. apply tiles_filter.
    + intros tk Hin Hk. apply negb_false_iff, andb_true_iff in Hk. destruct Hk as [_ Hk]. unfold raw_tokens in Hin.
      rewrite !in_app_iff in Hin. destruct Hin as [H|[H|[<-|[]]]].
      * destruct (i =? 0); [|contradiction]. destruct H as [<-|[]]. reflexivity.
      * exfalso. assert (H1 : In tk (no_markers (flat_map (word_tokens t inp (to_lmode mode)) ws))).
        { unfold t. rewrite (no_markers_words Hd Hu omit _ C). exact H. }
        apply filter_In in H1. rewrite Hk in H1. destruct H1. discriminate.
      * reflexivity.
    + assert (Tw : forall i ws j, chain d u inp i ws j -> tiles i (flat_map (word_tokens t inp (to_lmode mode)) ws) j).
      { induction 1 as [|w ws0 j Hc Hch IH]; cbn [flat_map tiles]; [reflexivity|].
        eapply tiles_app; [|exact IH]. pose proof (candidate_range Hc) as R. unfold word_tokens.
        destruct (to_lmode mode); try (cbn; auto; fail). destruct (w_class w); try (cbn; auto; fail).
        assert (G : forall k s, tiles s (map (rune_token t inp w) (seq s k)) (s + k)).
        { induction k as [|k IHk]; intros s; cbn [seq map tiles]; [lia|]. split; [reflexivity|]. cbn [rune_token t_end].
          replace (s + S k) with (S s + k) by lia. apply IHk. }
        specialize (G (w_stop w - w_start w) (w_start w)). replace (w_start w + (w_stop w - w_start w)) with (w_stop w) in G by lia. exact G. }
      unfold raw_tokens. destruct (Nat.eqb_spec i 0) as [->|Hi].
      * apply (@tiles_app _ _ 0 0); [cbn; auto|]. eapply tiles_app; [apply (Tw _ _ _ C)|cbn; auto].
      * cbn [app]. eapply tiles_app; [apply (Tw _ _ _ C)|cbn; auto].
  - intros tk Hin. destruct (in_final C Hin) as (k & [[-> _]|[->|(w & t0 & Hw & Hc & Ht0 & ->)]]).
    + cbn [set_index bos_token t_start t_end t_position]. split; [lia|]. split; [rewrite offset_0; reflexivity|]. split; intros H; cbn in H; discriminate.
    + cbn [set_index eos_token t_start t_end t_position]. split; [lia|]. split; [rewrite offset_n; reflexivity|]. split; intros H; cbn in H; discriminate.
    + pose proof (candidate_range Hc) as R. cbn [set_index t_start t_end t_position t_surface].
      assert (Hcase : (t0 = word_token t inp w /\ (to_lmode mode <> LExtended \/ w_class w <> UNKNOWN)) \/ (to_lmode mode = LExtended /\ exists y, t0 = rune_token t inp w y /\ w_start w <= y < w_stop w)).
      { unfold word_tokens in Ht0. destruct (to_lmode mode); try (destruct Ht0 as [<-|[]]; left; split; [reflexivity|left; discriminate]).
        destruct (w_class w) eqn:Ec; try (destruct Ht0 as [<-|[]]; left; split; [reflexivity|right; congruence]).
        apply in_map_iff in Ht0. destruct Ht0 as (y & <- & Hy). apply in_seq in Hy. right. split; [reflexivity|]. exists y. split; [reflexivity|lia]. }
      destruct Hcase as [[-> Hcl]|(Hm & y & -> & Hy)].
      * cbn [word_token t_start t_end t_position t_surface]. split; [lia|]. split; [reflexivity|]. split; [lia|].
        intros _ _. destruct (word_surface_prefix omit Hc) as (r & Hr). fold t in Hr.
        assert (Hs : slice inp (offset inp (w_start w)) (offset inp (w_stop w)) = Ok (word_text inp w)) by (apply slice_text; lia).
        assert (Ho : offset inp (w_stop w) = offset inp (w_start w) + length (word_text inp w)) by (apply offset_text; lia).
        split.
        -- rewrite Ho, Hr, app_length in Hs. unfold slice in *.
           destruct (_ && _) eqn:E1 in Hs; [|discriminate]. apply andb_true_iff in E1. destruct E1 as [E1 E2].
           apply Nat.leb_le in E1, E2.
           destruct (Nat.leb_spec (offset inp (w_start w)) (offset inp (w_start w) + length (word_surface t inp w))); [|lia].
           destruct (Nat.leb_spec (offset inp (w_start w) + length (word_surface t inp w)) (length inp)); [|lia]. cbn [andb]. f_equal.
           injection Hs as Hs.
           replace (offset inp (w_start w) + length (word_surface t inp w) - offset inp (w_start w)) with (length (word_surface t inp w)) by lia.
           replace (offset inp (w_start w) + (length (word_surface t inp w) + length r) - offset inp (w_start w)) with (length (word_surface t inp w) + length r) in Hs by lia.
           apply (f_equal (firstn (length (word_surface t inp w)))) in Hs. rewrite firstn_firstn, Nat.min_l in Hs by lia.
           rewrite Hs, firstn_app, firstn_all, Nat.sub_diag. cbn. apply app_nil_r.
        -- intros [Hf|Hx].
           ++ rewrite Ho. f_equal. f_equal. apply (word_surface_ok omit Hc Hf).
           ++ destruct Hcl as [Hcl|Hcl]; [subst mode; exfalso; apply Hcl; reflexivity|].
              rewrite Ho. unfold word_surface. destruct (w_class w); congruence.
      * cbn [rune_token t_start t_end t_position t_surface]. split; [lia|]. split; [reflexivity|]. split; [lia|].
        intros _ Hv.
        assert (Hme : mode = mode_extended).
        { unfold to_lmode in Hm. destruct (Z.eqb_spec mode mode_normal); [discriminate|].
          destruct (Z.eqb_spec mode mode_search); [discriminate|]. destruct (Z.eqb_spec mode mode_extended); [assumption|discriminate]. }
        destruct Hv as [Hv|Hv]; [contradiction|].
        assert (Hyn : y < rcount inp) by lia. pose proof (@runes_text inp y 1 Hv ltac:(lia)) as Hr.
        cbn [seq map concat] in Hr. rewrite app_nil_r in Hr. replace (y + 1) with (S y) in Hr by lia. rewrite Hr.
        rewrite <- (@offset_text inp y (S y)) by lia. split; [apply slice_text; lia|reflexivity].
Qed.

(** C03 *)
Theorem analyze_framing : no_loss d u inp mode ->
  exists bos mid eos, analyze ideo (Tokenizer d u false) inp mode = Ok (bos :: mid ++ [eos]) /\
    (t_id bos = (-1)%Z /\ t_class bos = DUMMY /\ t_surface bos = s2b "BOS" /\ t_position bos = 0 /\ t_start bos = 0 /\ t_end bos = 0) /\
    (t_id eos = (-1)%Z /\ t_class eos = DUMMY /\ t_surface eos = s2b "EOS" /\
       t_position eos = length inp /\ t_start eos = rcount inp /\ t_end eos = rcount inp) /\
    (forall tk, In tk mid -> t_id tk <> (-1)%Z).
Proof.
  intros Hlen. destruct (analyze_final inp ideo mode Hd Hu) as (i & ws & E & C & I & O).
  assert (i = 0) as -> by (eapply no_loss_start; eauto; tauto). specialize (E false). unfold final_tokens, raw_tokens in E.
  assert (F : forall l, filter (fun tk => negb (tk_omit (Tokenizer d u false) && is_marker tk)) l = l).
  { induction l as [|x l IHl]; cbn; [reflexivity|]. f_equal. exact IHl. }
  rewrite F in E. cbn [Nat.eqb app renumber] in E. rewrite renumber_app in E. cbn [renumber] in E.
  eexists _, _, _. split; [exact E|]. split; [cbn; auto 10|]. split; [cbn; auto 10|].
  intros tk Hin. apply in_renumber in Hin. destruct Hin as (j & t0 & Hin & ->).
  assert (H1 : In t0 (no_markers (flat_map (word_tokens (Tokenizer d u false) inp (to_lmode mode)) ws))).
  { rewrite (no_markers_words Hd Hu false _ C). exact Hin. }
  apply filter_In in H1. destruct H1 as [_ H1]. unfold is_marker in H1. cbn. lia.
Qed.

Theorem analyze_indexes ts : analyze ideo t inp mode = Ok ts ->
  forall k tk, nth_error ts k = Some tk -> t_index tk = k.
Proof.
  intros E k tk Hk. destruct (analyze_final inp ideo mode Hd Hu) as (i & ws & E' & _).
  specialize (E' omit). unfold t in E. rewrite E in E'. injection E' as ->. unfold final_tokens in Hk.
  destruct (nth_renumber Hk) as (H & _). exact H.
Qed.

(** C06, C07 *)
Theorem analyze_optimal : mode <> mode_extended -> (Z.of_nat (rcount inp) <= optimal_limit mode)%Z ->
  exists ts, analyze ideo t inp mode = Ok ts /\ segmentation d u inp (words_of ts) /\
    forall ws', segmentation d u inp ws' ->
      (seg_cost (to_lmode mode) ideo d inp (words_of ts) <= seg_cost (to_lmode mode) ideo d inp ws')%Z.
Proof.
  intros Hm Hlen. destruct (analyze_final inp ideo mode Hd Hu) as (i & ws & E & C & I & O).
  eexists. split; [apply E|]. assert (i = 0) as -> by (apply (proj1 O); destruct (limits mode) as (_ & L2 & _); lia). pose proof (proj2 O Hlen) as Hopt.
  assert (W : words_of (final_tokens (Tokenizer d u omit) inp (to_lmode mode) 0 ws) = ws).
  { unfold words_of. rewrite (map_final Hd Hu omit (to_lmode mode) word_of_free C).
    clear -Hm. induction ws as [|w ws IH]; cbn [flat_map map]; [reflexivity|]. rewrite map_app, IH.
    unfold word_tokens. pose proof (lmode_not_extended Hm). destruct (to_lmode mode); [| |congruence]; destruct w; reflexivity. }
  rewrite W. split; assumption.
Qed.

(** Any length *)
Theorem analyze_chain : mode <> mode_extended -> exists ts i, analyze ideo t inp mode = Ok ts /\ chain d u inp i (words_of ts) (rcount inp).
Proof.
  intros Hm. destruct (analyze_final inp ideo mode Hd Hu) as (i & ws & E & C & I & O).
  eexists _, i. split; [apply E|].
  assert (W : words_of (final_tokens (Tokenizer d u omit) inp (to_lmode mode) i ws) = ws).
  { unfold words_of. rewrite (map_final Hd Hu omit (to_lmode mode) word_of_free C).
    clear -Hm. induction ws as [|w ws IH]; cbn [flat_map map]; [reflexivity|]. rewrite map_app, IH.
    unfold word_tokens. pose proof (lmode_not_extended Hm). destruct (to_lmode mode); [| |congruence]; destruct w; reflexivity. }
  rewrite W. assumption.
Qed.

(** Any token of a dictionary class stands for a candidate word, in every mode. *)
Theorem analyze_candidate ts tk : analyze ideo t inp mode = Ok ts -> In tk ts -> t_class tk <> DUMMY ->
  candidate d u inp (word_of tk) /\ t_surface tk = word_surface t inp (word_of tk).
Proof.
  intros E Hin Hcl. destruct (analyze_final inp ideo mode Hd Hu) as (i & ws & E' & C & _).
  specialize (E' omit). unfold t in E. rewrite E in E'. injection E' as ->.
  destruct (in_final C Hin) as (k & [[-> _]|[->|(w & t0 & Hw & Hc & Ht0 & ->)]]); [contradiction Hcl; reflexivity|contradiction Hcl; reflexivity|].
  unfold word_tokens in Ht0.
  assert (t0 = word_token t inp w) as ->.
  { destruct (to_lmode mode); try (destruct Ht0 as [<-|[]]; reflexivity).
    destruct (w_class w); try (destruct Ht0 as [<-|[]]; reflexivity).
    apply in_map_iff in Ht0. destruct Ht0 as (y & <- & _). contradiction Hcl; reflexivity. }
  destruct w. split; [exact Hc|reflexivity].
Qed.

(** C11 *)
Theorem analyze_provenance ts tk : analyze ideo t inp mode = Ok ts -> In tk ts ->
  match t_class tk with
  | KNOWN => In (t_surface tk, t_id tk) (d_index d)
  | USER => exists ud, u = Some ud /\ In (t_surface tk, t_id tk) (u_index ud)
  | UNKNOWN => let c := Z.of_nat (d_category d (rune_at inp (t_start tk))) in
               (map_get (d_unk_index d) c <= t_id tk <= map_get (d_unk_index d) c + map_get (d_unk_dup d) c)%Z
  | DUMMY => True
  end.
Proof.
  intros E Hin. destruct (t_class tk) eqn:Ec; [trivial| | |];
    destruct (analyze_candidate E Hin) as [Hc Hs]; try congruence;
    unfold word_surface in Hs; cbn [word_of w_class] in Hs; rewrite Ec in Hs;
    unfold word_of in Hc; rewrite Ec in Hc; inversion Hc; subst; cbn [word_of w_start w_stop word_text] in *.
  - rewrite Hs. match goal with H : keyword_at _ _ _ _ _ |- _ => destruct H; assumption end.
  - cbv zeta. unfold cat in *. assumption.
  - exists ud. split; [reflexivity|]. rewrite Hs. match goal with H : keyword_at _ _ _ _ _ |- _ => destruct H; assumption end.
Qed.

(** C12 *)
Theorem analyze_user_priority ud ts tk id j : u = Some ud -> analyze ideo t inp mode = Ok ts -> In tk ts ->
  t_class tk <> DUMMY -> keyword_at (u_index ud) inp id (t_start tk) j -> t_class tk = USER.
Proof.
  intros Eu E Hin Hcl Hk. destruct (analyze_candidate E Hin Hcl) as [Hc _]. unfold word_of in Hc.
  destruct (t_class tk) eqn:Ec; [congruence| | |reflexivity]; inversion Hc; subst;
  (exfalso; match goal with H : no_user_keyword _ _ _ |- _ => cbn in H; exact (H _ _ Hk) end).
Qed.

(** C13 *)
Theorem analyze_unknown ts tk : analyze ideo t inp mode = Ok ts -> In tk ts -> t_class tk = UNKNOWN ->
  let c := d_category d (rune_at inp (t_start tk)) in
  t_start tk < t_end tk /\ (Z.of_nat (t_end tk - t_start tk) <= 1024)%Z /\
  (forall k, t_start tk <= k < t_end tk -> d_category d (rune_at inp k) = c) /\
  (nth c (d_group d) false = false -> t_end tk = S (t_start tk)) /\
  (forall id j, keyword_at (d_index d) inp id (t_start tk) j -> nth c (d_invoke d) false = true).
Proof.
  intros E Hin Ec c. destruct (analyze_candidate E Hin) as [Hc _]; [congruence|].
  pose proof (candidate_range Hc) as R. unfold word_of in *. rewrite Ec in Hc. cbn [w_start w_stop] in R. inversion Hc; subst.
  match goal with H : unknown_stop _ _ _ _ |- _ => destruct H as [Hr Hg] end.
  split; [lia|]. unfold groups, invokes, cat in *. fold c in Hg. destruct (nth c (d_group d) false) eqn:Eg.
  - destruct Hg as [Hg1 (l & Hl & Hl2 & _)].
    assert ((l <= 1024)%N) by (destruct Hl as [[_ ->]|[_ ->]]; lia).
    split; [lia|]. split; [intros k Hk; apply Hg1; lia|]. split; [discriminate|].
    intros id' j' Hk. match goal with H : _ \/ _ = true |- _ => destruct H as [H|H]; [destruct (H _ _ Hk)|exact H] end.
  - subst e. assert (t_end tk = S (t_start tk)) by lia. split; [lia|]. split; [|split; [auto|]].
    + intros k Hk. replace k with (t_start tk) by lia. reflexivity.
    + intros id' j' Hk. match goal with H : _ \/ _ = true |- _ => destruct H as [H|H]; [destruct (H _ _ Hk)|exact H] end.
Qed.
End Api.

(** ** Relations between calls *)
(** C04: no condition at all. *)
Theorem analyze_omit d u ideo inp mode :
  analyze ideo (Tokenizer d u true) inp mode =
  match analyze ideo (Tokenizer d u false) inp mode with
  | Ok ts => Ok (renumber 0 (no_markers ts))
  | Panic => Panic
  | Diverge => Diverge
  end.
Proof.
  unfold analyze. change (run_lattice ideo (Tokenizer d u true) inp mode) with (run_lattice ideo (Tokenizer d u false) inp mode).
  destruct (run_lattice ideo (Tokenizer d u false) inp mode) as [[la out]| |]; cbn [rbind snd]; [|reflexivity|reflexivity].
  rewrite !analyze_tokens_ok. f_equal. unfold no_markers. rewrite renumber_filter by (intros k x; reflexivity).
  f_equal.
  assert (F : forall l, filter (keep (Tokenizer d u false)) l = l).
  { induction l as [|x l IHl]; cbn; [reflexivity|]. f_equal. exact IHl. }
  rewrite F. reflexivity.
Qed.

(** C09 *)
Theorem analyze_other_mode ideo t inp mode : mode <> mode_search -> mode <> mode_extended ->
  analyze ideo t inp mode = analyze ideo t inp mode_normal.
Proof.
  intros H1 H2. unfold analyze, run_lattice.
  assert (E : to_lmode mode = to_lmode mode_normal).
  { unfold to_lmode at 1. destruct (Z.eqb_spec mode mode_normal); [reflexivity|].
    destruct (Z.eqb_spec mode mode_search); [contradiction|]. destruct (Z.eqb_spec mode mode_extended); [contradiction|reflexivity]. }
  rewrite E. reflexivity.
Qed.

(** C08 *)
Lemma foldM_ext {A B} (f g : A -> B -> res A) l : (forall a b, f a b = g a b) -> forall a, foldM f l a = foldM g l a.
Proof.
  intros H. induction l as [|x l IH]; intros a; cbn [foldM]; [reflexivity|]. rewrite H. destruct (g a x); cbn [rbind]; auto.
Qed.

Lemma forward_extended d ideo la : forward d ideo LExtended la = forward d ideo LSearch la.
Proof.
  unfold forward. apply foldM_ext. intros la1 i. unfold forward_pos.
  destruct (index la1 i); cbn [rbind]; [|reflexivity|reflexivity]. apply foldM_ext. intros la2 idx. unfold forward_target.
  destruct (get2 la2 i idx) as [n0| |]; cbn [rbind]; [|reflexivity|reflexivity].
  destruct (index la2 (n_start n0)) as [pl| |]; cbn [rbind]; [|reflexivity|reflexivity].
  destruct (length pl =? 0); [reflexivity|].
  generalize 0 as j. generalize (length pl) as k. intros k. revert la2.
  induction k as [|k IH]; intros la2 j; cbn [relax_loop]; [reflexivity|].
  destruct (get2 la2 (n_start n0) j) as [p0| |]; cbn [rbind]; [|reflexivity|reflexivity].
  destruct (get2 la2 i idx) as [t0| |]; cbn [rbind]; [|reflexivity|reflexivity].
  change (total_cost d ideo LExtended p0 t0) with (total_cost d ideo LSearch p0 t0).
  destruct (total_cost d ideo LSearch p0 t0); cbn [rbind]; [|reflexivity|reflexivity].
  destruct (_ || _); [|cbn [rbind]; apply IH]. destruct (upd2 _ _ _ _); cbn [rbind]; [apply IH|reflexivity|reflexivity].
Qed.

Theorem analyze_extended d u omit ideo inp : wf_dict d -> wf_udict u ->
  exists ts, analyze ideo (Tokenizer d u omit) inp mode_search = Ok ts /\
    analyze ideo (Tokenizer d u omit) inp mode_extended = Ok (renumber 0 (flat_map (expand inp) ts)).
Proof.
  intros Hd Hu. set (t := Tokenizer d u omit).
  destruct (run_path inp ideo LSearch Hd Hu) as (la & la' & l & i & ws & E1 & E2 & E3 & C & I & T & _).
  exists (final_tokens t inp LSearch i ws). unfold analyze, run_lattice. cbn [tk_dict tk_udict t].
  change (to_lmode mode_search) with LSearch. change (to_lmode mode_extended) with LExtended.
  rewrite E1. cbn [rbind]. rewrite forward_extended. rewrite E2. cbn [rbind]. rewrite !E3. cbn [rbind snd].
  pose proof (T LSearch omit) as T1. pose proof (T LExtended omit) as T2. fold t in T1, T2. rewrite T1, T2.
  split; [reflexivity|]. f_equal. unfold final_tokens.
  assert (Hset : forall k x, renumber 0 (expand inp (set_index k x)) = renumber 0 (expand inp x)).
  { intros k x. unfold expand. cbn [set_index t_class]. destruct (t_class x); reflexivity. }
  rewrite renumber_flat_map by exact Hset. f_equal.
  (* filtering commutes *)
  assert (Fl : forall l, (forall x, In x l -> forall y, In y (expand inp x) -> t_id y = t_id x) ->
     filter (fun tk => negb (tk_omit t && is_marker tk)) (flat_map (expand inp) l) =
     flat_map (expand inp) (filter (fun tk => negb (tk_omit t && is_marker tk)) l)).
  { induction l0 as [|x l0 IH]; intros H; cbn [flat_map filter]; [reflexivity|]. rewrite filter_app, IH by (intros; apply H; [right|]; assumption).
    assert (Hx : forall y, In y (expand inp x) -> t_id y = t_id x) by (apply H; left; reflexivity).
    assert (Hfl : filter (fun tk => negb (tk_omit t && is_marker tk)) (expand inp x) =
                  if negb (tk_omit t && is_marker x) then expand inp x else []).
    { clear -Hx. induction (expand inp x) as [|y r IHr]; cbn [filter]; [destruct (negb _); reflexivity|].
      assert (Ey : is_marker y = is_marker x) by (unfold is_marker; rewrite Hx by (left; reflexivity); reflexivity).
      rewrite Ey, IHr by (intros; apply Hx; right; assumption). destruct (negb _); reflexivity. }
    rewrite Hfl. destruct (negb _); reflexivity. }
  rewrite <- Fl.
  - f_equal. unfold raw_tokens. rewrite !flat_map_app. f_equal; [destruct (i =? 0); reflexivity|]. f_equal.
    clear -C. induction ws as [|w ws IH]; cbn [flat_map]; [reflexivity|]. rewrite flat_map_app.
    inversion C as [|w0 ws0 j0 Hc Hch]; subst.
    assert (IH' : flat_map (word_tokens t inp LExtended) ws = flat_map (expand inp) (flat_map (word_tokens t inp LSearch) ws)).
    { clear -Hch. revert Hch. generalize (w_stop w). induction ws as [|w1 ws IH]; intros s Hch; cbn [flat_map]; [reflexivity|].
      inversion Hch; subst. rewrite flat_map_app. f_equal; [|eapply IH; eassumption].
      cbn. unfold word_tokens, expand. cbn [word_token t_class]. destruct (w_class w1); cbn; rewrite ?app_nil_r; reflexivity. }
    rewrite IH'. f_equal. unfold word_tokens. cbn [flat_map]. rewrite app_nil_r. unfold expand, per_rune. cbn [word_token t_class].
    destruct (w_class w); reflexivity.
  - intros x _ y Hy. unfold expand in Hy. destruct (t_class x); try (destruct Hy as [<-|[]]; reflexivity).
    apply in_map_iff in Hy. destruct Hy as (k & <- & _). reflexivity.
Qed.

(** C17 *)
Definition without_index_position (t : token) : token :=
  Token 0 (t_id t) (t_class t) 0 (t_start t) (t_end t) (t_surface t) (t_dict t) (t_udict t).

Theorem analyze_graph_tokens d u omit ideo inp mode :
  analyze_graph ideo (Tokenizer d u omit) inp mode =
  match analyze ideo (Tokenizer d u false) inp mode with
  | Ok ts => Ok (map without_index_position ts)
  | Panic => Panic
  | Diverge => Diverge
  end.
Proof.
  unfold analyze, analyze_graph. change (run_lattice ideo (Tokenizer d u omit) inp mode) with (run_lattice ideo (Tokenizer d u false) inp mode).
  destruct (run_lattice ideo (Tokenizer d u false) inp mode) as [[la out]| |]; cbn [rbind snd]; [|reflexivity|reflexivity].
  rewrite graph_tokens_ok, analyze_tokens_ok. f_equal.
  rewrite map_renumber by (intros k x; reflexivity).
  assert (F : forall l, filter (keep (Tokenizer d u false)) l = l).
  { induction l as [|x l IHl]; cbn; [reflexivity|]. f_equal. exact IHl. }
  rewrite F. generalize (rev out). intros l.
  assert (G : forall l k, imap (make_graph_token (Tokenizer d u omit)) k l =
      map without_index_position (imap (fun i n => make_token (Tokenizer d u false) i 0 n) k l)).
  { clear. induction l as [|x l IH]; intros k; cbn [imap map]; [reflexivity|]. rewrite IH. reflexivity. }
  apply G.
Qed.

(** C10 *)
Theorem wakati_ok d u omit ideo inp : wf_dict d -> wf_udict u ->
  exists ts, tokenize ideo (Tokenizer d u omit) inp = Ok ts /\
    wakati ideo (Tokenizer d u omit) inp = Ok (map t_surface (no_markers ts)) /\
    (forall s, In s (map t_surface (no_markers ts)) -> s <> []) /\
    (no_loss d u inp mode_normal -> fffd_ok d inp -> concat (map t_surface (no_markers ts)) = inp).
Proof.
  intros Hd Hu. set (t := Tokenizer d u omit). unfold tokenize, wakati.
  destruct (analyze_final inp ideo mode_normal Hd Hu) as (i & ws & E & C & I & O). specialize (E omit). fold t in E.
  change (to_lmode mode_normal) with LNormal in *.
  exists (final_tokens t inp LNormal i ws). rewrite E. cbn [rbind]. split; [reflexivity|].
  assert (Hne : forall w, In w ws -> word_surface t inp w <> [] /\ w_class w <> DUMMY).
  { intros w Hw. pose proof (chain_candidate C Hw) as Hc. pose proof (candidate_range Hc) as R. split.
    - unfold word_surface. assert (Hn : word_text inp w <> []) by (apply text_pos; lia).
      destruct (w_class w); try exact Hn. destruct (_ && _); [discriminate|exact Hn].
    - destruct Hc; discriminate. }
  assert (M := map_final Hd Hu omit LNormal surface_free C). fold t in M.
  split.
  { f_equal. rewrite M. unfold final_tokens.
    rewrite (@filter_renumber _ t_surface _ surface_free) by (intros k x; reflexivity).
    unfold raw_tokens. rewrite !filter_app, !map_app.
    assert (G : forall ws, (forall w, In w ws -> word_surface t inp w <> [] /\ w_class w <> DUMMY) -> chain d u inp (match ws with [] => rcount inp | w :: _ => w_start w end) ws (rcount inp) ->
       map t_surface (filter (fun v => negb (class_eqb (t_class v) DUMMY) && negb (length (t_surface v) =? 0))
          (filter (fun tk => negb (tk_omit t && is_marker tk)) (flat_map (word_tokens t inp LNormal) ws))) =
       map t_surface (flat_map (word_tokens t inp LNormal) ws)).
    { clear -Hd Hu. induction ws as [|w ws IH]; intros Hne C; cbn [flat_map]; [reflexivity|].
      inversion C as [|w0 ws0 j0 Hc Hch]; subst. rewrite !filter_app, !map_app. f_equal.
      - cbn [word_tokens filter]. unfold is_marker. cbn [word_token t_id].
        pose proof (candidate_id_pos Hd Hu Hc). destruct (Z.eqb_spec (w_id w) (-1)); [lia|]. rewrite andb_false_r. cbn [negb filter word_token t_class t_surface].
        destruct (Hne w) as [H1 H2]; [left; reflexivity|].
        destruct (Nat.eqb_spec (length (word_surface t inp w)) 0) as [Hz|_]; [apply length_zero_iff_nil in Hz; contradiction|].
        destruct (w_class w); try congruence; reflexivity.
      - apply IH; [intros; apply Hne; right; assumption|]. destruct ws as [|w1 ws]; [constructor|]. inversion Hch; subst. constructor; assumption. }
    rewrite G.
    - assert (H1 : forall l, (forall x, In x l -> t_class x = DUMMY) -> filter (fun v => negb (class_eqb (t_class v) DUMMY) && negb (length (t_surface v) =? 0)) (filter (fun tk => negb (tk_omit t && is_marker tk)) l) = []).
      { induction l as [|x l IH]; intros H; cbn [filter]; [reflexivity|].
        assert (Hx : t_class x = DUMMY) by (apply H; left; reflexivity).
        destruct (negb (tk_omit t && is_marker x)); cbn [filter]; rewrite ?Hx; cbn; apply IH; intros; apply H; right; assumption. }
      rewrite H1 by (destruct (i =? 0); intros x Hx; [destruct Hx as [<-|[]]; reflexivity|destruct Hx]).
      rewrite H1 by (intros x [<-|[]]; reflexivity). cbn. apply app_nil_r.
    - exact Hne.
    - destruct ws as [|w ws]; [constructor|]. inversion C; subst. constructor; assumption. }
  split.
  { intros s Hs. rewrite M in Hs. apply in_map_iff in Hs. destruct Hs as (tk & <- & Hs). apply in_flat_map in Hs.
    destruct Hs as (w & Hw & [<-|[]]). cbn. apply Hne. assumption. }
  intros Hlen Hf. assert (i = 0) as -> by (eapply no_loss_start; eauto; tauto). rewrite M.
  unfold t. rewrite (words_surfaces omit (m := LNormal) ltac:(discriminate) C Hf), (words_text C) by lia. apply text_all.
Qed.

Theorem wakati_omit d u ideo inp : wf_dict d -> wf_udict u ->
  wakati ideo (Tokenizer d u true) inp = wakati ideo (Tokenizer d u false) inp.
Proof.
  intros Hd Hu. destruct (wakati_ok true ideo inp Hd Hu) as (ts & E1 & -> & _).
  destruct (wakati_ok false ideo inp Hd Hu) as (ts' & E2 & -> & _). f_equal.
  unfold tokenize in *. rewrite analyze_omit, E2 in E1. injection E1 as <-. unfold no_markers.
  rewrite filter_renumber by (intros k x; reflexivity).
  assert (I : forall l, filter (fun x => negb (is_marker x)) (filter (fun x => negb (is_marker x)) l) = filter (fun x => negb (is_marker x)) l).
  { induction l as [|x l IH]; cbn; [reflexivity|]. destruct (negb (is_marker x)) eqn:Ex; cbn; rewrite ?Ex, IH; reflexivity. }
  rewrite I. reflexivity.
Qed.

(** C12: markers aside, DUMMY tokens occur in Extended mode only. *)
Theorem dummy_extended d u ideo omit inp mode ts tk : wf_dict d -> wf_udict u ->
  analyze ideo (Tokenizer d u omit) inp mode = Ok ts -> In tk ts -> t_id tk <> (-1)%Z -> mode <> mode_extended -> t_class tk <> DUMMY.
Proof.
  intros Hd Hu E Hin Hid Hm. destruct (analyze_final inp ideo mode Hd Hu) as (i & ws & E' & C & _).
  rewrite E' in E. injection E as <-.
  destruct (in_final C Hin) as (k & [[-> _]|[->|(w & t0 & Hw & Hc & Ht0 & ->)]]); [exfalso; apply Hid; reflexivity|exfalso; apply Hid; reflexivity|].
  pose proof (lmode_not_extended Hm) as Hx. unfold word_tokens in Ht0. destruct (to_lmode mode); [| |congruence];
  destruct Ht0 as [<-|[]]; cbn [set_index word_token t_class]; destruct Hc; discriminate.
Qed.

Theorem user_priority d ud ideo omit inp mode ts tk id j : wf_dict d -> wf_udict (Some ud) ->
  mode <> mode_extended \/ t_class tk <> DUMMY ->
  analyze ideo (Tokenizer d (Some ud) omit) inp mode = Ok ts -> In tk ts -> t_id tk <> (-1)%Z ->
  keyword_at (u_index ud) inp id (t_start tk) j -> t_class tk = USER.
Proof.
  intros Hd Hu Hm E Hin Hid Hk. eapply (@analyze_user_priority d (Some ud) Hd Hu ideo omit inp mode ud); eauto.
  destruct Hm as [Hm|Hm]; [|assumption]. eapply dummy_extended; eauto.
Qed.
