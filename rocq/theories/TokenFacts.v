(** Proofs about the token accessors. *)
From Verif Require Export SpecFeat AnalyzeFacts.
From Coq Require Import ZifyBool ZifyNat ZifyN.
Set Implicit Arguments.
Unset Strict Implicit.
Open Scope Z_scope.

Lemma indexZ_out {A} (l : list A) i : 0 <= i -> (indexZ l i = match nth_error l (Z.to_nat i) with Some x => Ok x | None => Panic end).
Proof. intros H. unfold indexZ. destruct (Z.ltb_spec i 0); [lia|reflexivity]. Qed.

Lemma nth_error_lt {A} (l : list A) i : (i < length l)%nat -> exists x, nth_error l i = Some x /\ forall x0, nth i l x0 = x.
Proof.
  intros H. destruct (nth_error l i) as [x|] eqn:E; [|apply nth_error_None in E; lia].
  exists x. split; [reflexivity|]. intros x0. apply nth_error_nth. assumption.
Qed.

Lemma mapM_ok {A B} (f : A -> res B) (g : A -> B) l : (forall x, In x l -> f x = Ok (g x)) -> mapM f l = Ok (map g l).
Proof.
  induction l as [|x l IH]; intros H; cbn [mapM map]; [reflexivity|].
  rewrite H by (left; reflexivity). cbn [rbind]. rewrite IH by (intros; apply H; right; assumption). reflexivity.
Qed.

Section Good.
Variable t : token.
Let d := t_dict t.
Hypothesis Hw : wf_data d.
Hypothesis Hg : good_token t.

Lemma pos_ids_ok : t_class t = KNOWN -> indexZ (d_pos_ids d) (t_id t) = Ok (nth (Z.to_nat (t_id t)) (d_pos_ids d) []).
Proof.
  intros E. pose proof Hg as Hg'. unfold good_token in Hg'. rewrite E in Hg'. fold d in Hg'. pose proof (wd_pos Hw). apply indexZ_nth. lia.
Qed.

Lemma pos_id_range k : t_class t = KNOWN -> In k (nth (Z.to_nat (t_id t)) (d_pos_ids d) []) -> 0 <= k < Z.of_nat (length (d_pos_names d)).
Proof.
  intros E Hk. pose proof Hg as Hg'. unfold good_token in Hg'. rewrite E in Hg'. fold d in Hg'. pose proof (wd_pos Hw).
  eapply (wd_names Hw); [|exact Hk]. apply nth_In. lia.
Qed.

Lemma pos_names_ok : t_class t = KNOWN -> pos_names_of t = Ok (spec_pos_names d (t_id t)).
Proof.
  intros E. unfold pos_names_of. fold d. rewrite (pos_ids_ok E). cbn [rbind]. apply mapM_ok.
  intros k Hk. apply indexZ_nth. apply (pos_id_range E Hk).
Qed.

Lemma user_ok : t_class t = USER -> exists ud e, t_udict t = Some ud /\ 0 <= t_id t < Z.of_nat (length (u_contents ud)) /\
  nth_error (u_contents ud) (Z.to_nat (t_id t)) = Some e /\ user_content_of t = Ok e.
Proof.
  intros E. pose proof Hg as Hg'. unfold good_token in Hg'. rewrite E in Hg'. destruct Hg' as (ud & Eu & Hr).
  destruct (@nth_error_lt _ (u_contents ud) (Z.to_nat (t_id t))) as (e & He & _); [lia|].
  exists ud, e. split; [assumption|]. split; [assumption|]. split; [assumption|].
  unfold user_content_of. rewrite Eu, indexZ_out by lia. rewrite He. reflexivity.
Qed.

Theorem features_ok : features t = Ok (spec_features d (t_udict t) (t_class t) (t_id t)).
Proof.
  unfold features, spec_features. fold d. destruct (t_class t) eqn:E.
  - reflexivity.
  - pose proof Hg as Hg'. unfold good_token in Hg'. rewrite E in Hg'. fold d in Hg'. rewrite (pos_names_ok E).
    pose proof (wd_contents Hw) as Hc. destruct (d_contents d) as [cs|]; cbn [rbind]; [|reflexivity].
    rewrite (@indexZ_nth _ cs (t_id t) []) by lia. reflexivity.
  - pose proof Hg as Hg'. unfold good_token in Hg'. rewrite E in Hg'. fold d in Hg'. pose proof (wd_unk Hw).
    rewrite (@indexZ_nth _ (d_unk_contents d) (t_id t) []) by lia. reflexivity.
  - destruct (user_ok E) as (ud & e & -> & _ & -> & ->). reflexivity.
Qed.

Lemma guard_lookup (l : list bytes) i : 0 <= i ->
  (if Z.of_nat (length l) <=? i then Ok ([], false) else let* s := indexZ l i in Ok (s, true)) = Ok (lookup (Some l) i).
Proof.
  intros Hi. unfold lookup. destruct (Z.ltb_spec i 0); [lia|]. destruct (Z.leb_spec (Z.of_nat (length l)) i).
  - destruct (nth_error l (Z.to_nat i)) eqn:E; [|reflexivity]. assert (Z.to_nat i < length l)%nat by (apply nth_error_Some; congruence). lia.
  - destruct (@nth_error_lt _ l (Z.to_nat i)) as (x & Hx & _); [lia|]. rewrite indexZ_out by lia. rewrite Hx. reflexivity.
Qed.

Theorem feature_at_ok i : feature_at t i = Ok (lookup (spec_features d (t_udict t) (t_class t) (t_id t)) i).
Proof.
  unfold feature_at. destruct (Z.ltb_spec i 0) as [Hi|Hi].
  { unfold lookup. destruct (Z.ltb_spec i 0); [reflexivity|lia]. }
  fold d. unfold spec_features. destruct (t_class t) eqn:E.
  - unfold lookup. destruct (Z.ltb_spec i 0); reflexivity.
  - pose proof Hg as Hg'. unfold good_token in Hg'. rewrite E in Hg'. fold d in Hg'.
    rewrite (pos_ids_ok E). cbn [rbind]. set (ids := nth (Z.to_nat (t_id t)) (d_pos_ids d) []).
    unfold lookup. destruct (Z.ltb_spec i 0); [lia|]. unfold spec_pos_names. fold ids.
    destruct (Z.ltb_spec i (Z.of_nat (length ids))) as [Hl|Hl].
    + destruct (@nth_error_lt _ ids (Z.to_nat i)) as (k & Hk & _); [lia|]. rewrite indexZ_out, Hk by lia. cbn [rbind].
      pose proof (pos_id_range E (nth_error_In _ _ Hk)) as Hr.
      destruct (Z.ltb_spec (Z.of_nat (length (d_pos_names d))) k); [lia|].
      rewrite (@indexZ_nth _ (d_pos_names d) k []) by lia. cbn [rbind].
      rewrite nth_error_app1 by (rewrite map_length; lia). rewrite nth_error_map, Hk. reflexivity.
    + rewrite nth_error_app2 by (rewrite map_length; lia). rewrite map_length.
      replace (Z.to_nat i - length ids)%nat with (Z.to_nat (i - Z.of_nat (length ids))) by lia.
      pose proof (wd_contents Hw) as Hc. destruct (d_contents d) as [cs|].
      * destruct (Z.leb_spec (Z.of_nat (length cs)) (t_id t)); [lia|].
        rewrite (@indexZ_nth _ cs (t_id t) []) by lia. cbn [rbind]. rewrite guard_lookup by lia. unfold lookup.
        destruct (Z.ltb_spec (i - Z.of_nat (length ids)) 0); [lia|]. reflexivity.
      * cbn [length]. destruct (Z.leb_spec (Z.of_nat 0) (t_id t)); [|lia]. generalize (Z.to_nat (i - Z.of_nat (length ids))). intros [|?]; reflexivity.
  - pose proof Hg as Hg'. unfold good_token in Hg'. rewrite E in Hg'. fold d in Hg'. pose proof (wd_unk Hw).
    destruct (Z.leb_spec (Z.of_nat (length (d_unk_contents d))) (t_id t)); [lia|].
    rewrite (@indexZ_nth _ (d_unk_contents d) (t_id t) []) by lia. cbn [rbind]. apply guard_lookup. assumption.
  - destruct (user_ok E) as (ud & e & -> & Hr & He & _). rewrite He.
    destruct (Z.leb_spec (Z.of_nat (length (u_contents ud))) (t_id t)); [lia|].
    rewrite indexZ_out, He by lia. cbn [rbind]. unfold lookup. destruct (Z.ltb_spec i 0); [lia|].
    destruct (Z.eqb_spec i 0) as [->|]; [reflexivity|]. destruct (Z.eqb_spec i 1) as [->|]; [reflexivity|].
    destruct (Z.eqb_spec i 2) as [->|]; [reflexivity|].
    destruct (nth_error _ (Z.to_nat i)) eqn:En; [|reflexivity].
    match type of En with nth_error ?l _ = _ => assert (Z.to_nat i < length l)%nat by (apply nth_error_Some; congruence) end.
    cbn [length] in *. lia.
Qed.

Theorem token_pos_ok : token_pos t = Ok (spec_pos d (t_udict t) (t_class t) (t_id t)).
Proof.
  unfold token_pos, spec_pos. fold d. destruct (t_class t) eqn:E.
  - reflexivity.
  - rewrite (pos_names_ok E). reflexivity.
  - pose proof Hg as Hg'. unfold good_token in Hg'. rewrite E in Hg'. fold d in Hg'. pose proof (wd_unk Hw).
    rewrite (@indexZ_nth _ (d_unk_contents d) (t_id t) []) by lia. cbn [rbind].
    set (fs := nth (Z.to_nat (t_id t)) (d_unk_contents d) []). unfold unk_pos_end, unk_pos_start.
    set (s := match meta_get (d_unk_meta d) key_pos_start with Some v => v | None => 0 end).
    set (e := match meta_get (d_unk_meta d) key_pos_hierarchy with Some v => s + v | None => 1 end).
    assert (Hs : 0 <= s).
    { unfold s. destruct (meta_get (d_unk_meta d) key_pos_start) as [v|] eqn:Ev; [apply (wd_start Hw _ Ev)|lia]. }
    destruct (Z.leb_spec e s), (Z.ltb_spec s e); try lia; cbn [orb andb]; [reflexivity|].
    destruct (Z.ltb_spec (Z.of_nat (length fs)) e), (Z.leb_spec e (Z.of_nat (length fs))); try lia; [reflexivity|].
    rewrite (mapM_ok (g := fun k => nth (Z.to_nat s + k)%nat fs [])).
    + cbn [rbind]. do 2 f_equal. clearbody s e. clear -Hs H0 H1 H3.
      assert (G : forall k m, (m + k <= length fs)%nat -> map (fun j => nth (m + j)%nat fs []) (seq 0 k) = firstn k (skipn m fs)).
      { clear. induction k as [|k IH]; intros m Hm; [reflexivity|]. cbn [seq map].
        rewrite <- seq_shift, map_map. destruct (@nth_error_lt _ fs m) as (x & Hx & Hx'); [lia|].
        rewrite Nat.add_0_r. rewrite (Hx' []).
        assert (Hsk : skipn m fs = x :: skipn (S m) fs).
        { clear -Hx. revert m Hx. induction fs as [|y l IH]; intros [|m] Hx; try discriminate; cbn in *; [congruence|]. apply IH. assumption. }
        rewrite Hsk. cbn [firstn]. f_equal. rewrite <- IH by lia. apply map_ext. intros j. f_equal. lia. }
      apply G. lia.
    + intros k Hk. apply in_seq in Hk. rewrite (@indexZ_nth _ fs (s + Z.of_nat k) []) by lia. do 2 f_equal. lia.
  - unfold spec_features. destruct (user_ok E) as (ud & e & -> & Hr & -> & ->). reflexivity.
Qed.

Theorem pickup_ok key : pickup t key = Ok (named d (t_udict t) (t_class t) (t_id t) key).
Proof.
  unfold pickup, named, meta_of. fold d.
  destruct (t_class t) eqn:E; try reflexivity; (destruct (meta_get _ key) as [i|]; [|reflexivity]; rewrite feature_at_ok, E; reflexivity).
Qed.

Theorem user_extra_ok : exists x, user_extra t = Ok x /\
  match t_class t, t_udict t with
  | USER, Some ud => exists e, nth_error (u_contents ud) (Z.to_nat (t_id t)) = Some e /\ x = Some (uc_tokens e, uc_yomi e)
  | USER, None => False
  | _, _ => x = None
  end.
Proof.
  unfold user_extra. destruct (t_class t) eqn:E; try (eexists; split; reflexivity).
  destruct (user_ok E) as (ud & e & -> & Hr & He & ->). eexists. split; [reflexivity|]. exists e. auto.
Qed.

Definition nonnil (s : strings) : strings := match s with None => Some [] | x => x end.

Theorem token_data_ok :
  new_token_data t = Ok (TokenData (t_id t) (t_start t) (t_end t) (t_surface t) (class_string (t_class t))
    (nonnil (spec_pos d (t_udict t) (t_class t) (t_id t)))
    (fst (named d (t_udict t) (t_class t) (t_id t) key_base))
    (fst (named d (t_udict t) (t_class t) (t_id t) key_reading))
    (fst (named d (t_udict t) (t_class t) (t_id t) key_pronunciation))
    (nonnil (spec_features d (t_udict t) (t_class t) (t_id t)))).
Proof.
  unfold new_token_data, base_form, reading, pronunciation. rewrite token_pos_ok. cbn [rbind]. rewrite features_ok. cbn [rbind].
  rewrite !pickup_ok. cbn [rbind]. unfold nonnil. destruct (spec_pos _ _ _ _), (spec_features _ _ _ _); reflexivity.
Qed.

(** An empty string stands for an absent feature or for an empty one. *)
Theorem named_absent key : snd (named d (t_udict t) (t_class t) (t_id t) key) = false -> fst (named d (t_udict t) (t_class t) (t_id t) key) = [].
Proof.
  unfold named. destruct (meta_get _ key) as [i|]; [|reflexivity]. unfold lookup. destruct (i <? 0); [reflexivity|].
  destruct (spec_features _ _ _ _) as [l|]; [|reflexivity]. destruct (nth_error l _); [discriminate|reflexivity].
Qed.
End Good.

(** ** Tokens returned by Analyze are good *)
Theorem analyze_good d u ideo omit inp mode ts tk : wf_dict d -> wf_udict u ->
  analyze ideo (Tokenizer d u omit) inp mode = Ok ts -> In tk ts ->
  good_token tk /\ t_dict tk = d /\ t_udict tk = u.
Proof.
  intros Hd Hu E Hin.
  assert (Hdu : t_dict tk = d /\ t_udict tk = u).
  { destruct (analyze_final inp ideo mode Hd Hu) as (i & ws & E' & C & _). rewrite E' in E. injection E as <-.
    destruct (in_final C Hin) as (k & [[-> _]|[->|(w & t0 & Hw & Hc & Ht0 & ->)]]); [split; reflexivity|split; reflexivity|].
    unfold word_tokens in Ht0. destruct (to_lmode mode); try (destruct Ht0 as [<-|[]]; split; reflexivity).
    destruct (w_class w); try (destruct Ht0 as [<-|[]]; split; reflexivity).
    apply in_map_iff in Ht0. destruct Ht0 as (y & <- & _). split; reflexivity. }
  split; [|assumption]. destruct Hdu as [Ed Eu].
  pose proof (@analyze_provenance d u Hd Hu ideo omit inp mode ts tk E Hin) as P.
  unfold good_token. rewrite Ed, Eu. destruct (t_class tk).
  - trivial.
  - destruct (wf_idx Hd _ _ P) as (_ & _ & H). exact H.
  - destruct (wf_unk Hd (rune_at inp (t_start tk))) as (H1 & H2 & H3). cbv zeta in P. lia.
  - destruct P as (ud & -> & P). exists ud. split; [reflexivity|]. destruct (Hu _ _ P) as (_ & _ & H). exact H.
Qed.

(** ** Equality *)
Lemma equal_loop a : forall b k i, length a = length b -> (i + k = length a)%nat ->
  equal_features_loop i k a b = Ok true /\ skipn i a = skipn i b \/
  equal_features_loop i k a b = Ok false /\ skipn i a <> skipn i b.
Proof.
  intros b. induction k as [|k IH]; intros i Hl Hk; cbn [equal_features_loop].
  - left. rewrite !skipn_all2 by lia. auto.
  - destruct (@nth_error_lt _ a i) as (x & Hx & _); [lia|]. destruct (@nth_error_lt _ b i) as (y & Hy & _); [lia|].
    unfold index. rewrite Hx, Hy. cbn [rbind].
    assert (Sk : forall (l : list bytes) j z, nth_error l j = Some z -> skipn j l = z :: skipn (S j) l).
    { clear. induction l as [|h l IH]; intros [|j] z H; try discriminate; cbn in *; [congruence|]. apply IH. assumption. }
    rewrite (Sk _ _ _ Hx), (Sk _ _ _ Hy).
    destruct (bytes_eqb x y) eqn:E; cbn [negb].
    + apply bytes_eqb_eq in E. subst y. destruct (IH (S i) Hl ltac:(lia)) as [[-> ->]|[-> H]]; [left; auto|right; split; [reflexivity|congruence]].
    + right. split; [reflexivity|]. apply bytes_eqb_neq in E. congruence.
Qed.

Theorem equal_features_ok a b : exists r, equal_features a b = Ok r /\ (r = true <-> a = b).
Proof.
  unfold equal_features. destruct (Nat.eqb_spec (length a) (length b)) as [E|E]; cbn [negb].
  - destruct (@equal_loop a b (length a) 0 E ltac:(lia)) as [[-> H]|[-> H]]; cbn [skipn] in H; eexists; (split; [reflexivity|]); split; congruence.
  - exists false. split; [reflexivity|]. split; [discriminate|]. intros ->. congruence.
Qed.

Theorem token_equal_ok a b : token_equal a b = true <-> t_id a = t_id b /\ t_class a = t_class b /\ t_surface a = t_surface b.
Proof.
  unfold token_equal. rewrite !andb_true_iff, Z.eqb_eq, bytes_eqb_eq.
  assert (H : class_eqb (t_class a) (t_class b) = true <-> t_class a = t_class b) by (destruct (t_class a), (t_class b); cbn; split; congruence).
  rewrite H. tauto.
Qed.

Theorem token_equal_features_ok a b : wf_data (t_dict a) -> good_token a -> wf_data (t_dict b) -> good_token b ->
  exists fa fb r, features a = Ok fa /\ features b = Ok fb /\ token_equal_features a b = Ok r /\
    (r = true <-> strings_list fa = strings_list fb).
Proof.
  intros H1 H2 H3 H4. unfold token_equal_features. rewrite (features_ok H1 H2), (features_ok H3 H4). cbn [rbind].
  destruct (equal_features_ok (strings_list (spec_features (t_dict a) (t_udict a) (t_class a) (t_id a)))
             (strings_list (spec_features (t_dict b) (t_udict b) (t_class b) (t_id b)))) as (r & E & Hr).
  do 3 eexists. split; [reflexivity|]. split; [reflexivity|]. split; [exact E|exact Hr].
Qed.

Theorem token_equal_pos_ok a b : wf_data (t_dict a) -> good_token a -> wf_data (t_dict b) -> good_token b ->
  exists fa fb r, token_pos a = Ok fa /\ token_pos b = Ok fb /\ token_equal_pos a b = Ok r /\
    (r = true <-> strings_list fa = strings_list fb).
Proof.
  intros H1 H2 H3 H4. unfold token_equal_pos. rewrite (token_pos_ok H1 H2), (token_pos_ok H3 H4). cbn [rbind].
  destruct (equal_features_ok (strings_list (spec_pos (t_dict a) (t_udict a) (t_class a) (t_id a)))
             (strings_list (spec_pos (t_dict b) (t_udict b) (t_class b) (t_id b)))) as (r & E & Hr).
  do 3 eexists. split; [reflexivity|]. split; [reflexivity|]. split; [exact E|exact Hr].
Qed.

(** ** Construction *)
Lemma apply_options_ok opts : forall t,
  match apply_options opts t with
  | inl t' => ~ In (OptUserDict None) opts /\ tk_dict t' = tk_dict t /\
      tk_udict t' = fold_left (fun acc o => match o with OptUserDict (Some u) => Some u | _ => acc end) opts (tk_udict t) /\
      (tk_omit t' = true <-> tk_omit t = true \/ In OptOmitBosEos opts)
  | inr e => In (OptUserDict None) opts /\ e = EmptyUserDictionary
  end.
Proof.
  induction opts as [|o opts IH]; intros t; cbn [apply_options].
  - cbn. repeat split; try tauto.
  - destruct o as [|[u|]|]; cbn [apply_option].
    + specialize (IH t). destruct (apply_options opts t) as [t'|e]; cbn [In fold_left].
      * destruct IH as (A & B & C & D). repeat split; try assumption; intuition (try discriminate).
      * destruct IH as [A B]. split; [right; exact A|exact B].
    + specialize (IH (Tokenizer (tk_dict t) (Some u) (tk_omit t))). destruct (apply_options opts _) as [t'|e]; cbn [In fold_left].
      * cbn [tk_dict tk_udict tk_omit] in IH. destruct IH as (A & B & C & D). repeat split; try assumption; intuition (try discriminate).
      * destruct IH as [A B]. split; [right; exact A|exact B].
    + cbn [In]. auto.
    + specialize (IH (Tokenizer (tk_dict t) (tk_udict t) true)). destruct (apply_options opts _) as [t'|e]; cbn [In fold_left].
      * cbn [tk_dict tk_udict tk_omit] in IH. destruct IH as (A & B & C & D). repeat split; try assumption; intuition (try discriminate).
      * destruct IH as [A B]. split; [right; exact A|exact B].
Qed.

Lemma last_user opts : forall acc ud,
  fold_left (fun acc o => match o with OptUserDict (Some u) => Some u | _ => acc end) opts acc = Some ud -> ~ In (OptUserDict None) opts ->
  (acc = Some ud /\ forall o, ~ In (OptUserDict o) opts) \/
  exists l1 l2, opts = l1 ++ OptUserDict (Some ud) :: l2 /\ forall o, ~ In (OptUserDict o) l2.
Proof.
  induction opts as [|o opts IH]; intros acc ud; cbn [fold_left].
  - intros ->. left. split; [reflexivity|auto].
  - intros E Hn. destruct (IH _ _ E) as [[Ea Ho]|(l1 & l2 & -> & Ho)].
    + intros H; apply Hn; right; exact H.
    + destruct o as [|[u|]|].
      * left. split; [exact Ea|]. intros o [C|C]; [discriminate|exact (Ho _ C)].
      * injection Ea as ->. right. exists [], opts. split; [reflexivity|exact Ho].
      * destruct Hn. left. reflexivity.
      * left. split; [exact Ea|]. intros o [C|C]; [discriminate|exact (Ho _ C)].
    + right. exists (o :: l1), l2. split; [reflexivity|exact Ho].
Qed.

Lemma last_user_conv l1 : forall l2 acc ud, (forall o, ~ In (OptUserDict o) l2) ->
  fold_left (fun acc o => match o with OptUserDict (Some u) => Some u | _ => acc end) (l1 ++ OptUserDict (Some ud) :: l2) acc = Some ud.
Proof.
  induction l1 as [|o l1 IH]; intros l2 acc ud H; cbn [app fold_left]; [|apply IH; assumption].
  clear -H. revert H. generalize (Some ud) as a. induction l2 as [|o l2 IH]; intros a H; cbn [fold_left]; [reflexivity|].
  rewrite IH by (intros o' C; apply (H o'); right; assumption). destruct o as [|u|]; try reflexivity. destruct (H u). left. reflexivity.
Qed.

Theorem new_ok d opts :
  match new_tokenizer d opts with
  | inl t => d = Some (tk_dict t) /\ ~ In (OptUserDict None) opts /\
      (forall ud, tk_udict t = Some ud <-> exists l1 l2, opts = l1 ++ OptUserDict (Some ud) :: l2 /\ forall o, ~ In (OptUserDict o) l2) /\
      (tk_omit t = true <-> In OptOmitBosEos opts)
  | inr EmptyDictionary => d = None
  | inr EmptyUserDictionary => d <> None /\ In (OptUserDict None) opts
  end.
Proof.
  unfold new_tokenizer. destruct d as [d|]; [|reflexivity].
  pose proof (apply_options_ok opts (Tokenizer d None false)) as H. destruct (apply_options opts _) as [t|e].
  - cbn [tk_dict tk_udict tk_omit] in H. destruct H as (A & B & C & D). split; [congruence|]. split; [exact A|]. split.
    + intros ud. rewrite C. split.
      * intros E. destruct (last_user E A) as [[H _]|H]; [discriminate|exact H].
      * intros (l1 & l2 & -> & H). apply last_user_conv. exact H.
    + rewrite D. intuition discriminate.
  - destruct H as [H ->]. split; [discriminate|exact H].
Qed.

Theorem pos_id_large tk i ids k : t_class tk = KNOWN ->
  0 <= i -> 0 <= t_id tk -> nth_error (d_pos_ids (t_dict tk)) (Z.to_nat (t_id tk)) = Some ids -> nth_error ids (Z.to_nat i) = Some k ->
  Z.of_nat (length (d_pos_names (t_dict tk))) < k -> feature_at tk i = Ok ([], false).
Proof.
  intros E Hi Hid H1 H2 Hk. unfold feature_at. destruct (Z.ltb_spec i 0); [lia|]. rewrite E.
  rewrite indexZ_out, H1 by lia. cbn [rbind].
  assert (Z.to_nat i < length ids)%nat by (apply nth_error_Some; congruence).
  destruct (Z.ltb_spec i (Z.of_nat (length ids))); [|lia]. rewrite indexZ_out, H2 by lia. cbn [rbind].
  destruct (Z.ltb_spec (Z.of_nat (length (d_pos_names (t_dict tk)))) k); [reflexivity|lia].
Qed.

Lemma from_good d u tk : wf_dict d -> wf_udict u -> wf_data d -> from_analyze d u tk ->
  wf_data (t_dict tk) /\ good_token tk /\ t_dict tk = d /\ t_udict tk = u.
Proof.
  intros Hd Hu Hw (ideo & omit & inp & mode & ts & E & Hin). destruct (analyze_good Hd Hu E Hin) as (G & -> & ->). auto.
Qed.

Theorem c20_feature_at_lemma : forall d u tk, wf_dict d -> wf_udict u -> wf_data d -> from_analyze d u tk ->
  exists fs, features tk = Ok fs /\ forall i,
    feature_at tk i = Ok (if i <? 0 then ([], false)
                          else match nth_error (strings_list fs) (Z.to_nat i) with
                               | Some s => (s, true)
                               | None => ([], false)
                               end).
Proof.
  intros d u tk Hd Hu Hw F. destruct (from_good Hd Hu Hw F) as (W & G & _ & _).
  eexists. split; [exact (features_ok W G)|]. intros i. rewrite (feature_at_ok W G i). unfold lookup. do 2 f_equal.
  destruct (spec_features _ _ _ _); cbn; [reflexivity|]. destruct (i <? 0); [reflexivity|]. destruct (Z.to_nat i); reflexivity.
Qed.

Theorem c21_pos_lemma : forall d u tk, wf_dict d -> wf_udict u -> wf_data d -> from_analyze d u tk ->
  exists fs ps, features tk = Ok fs /\ token_pos tk = Ok ps /\
  match t_class tk with
  | KNOWN => exists p c, ps = Some p /\ fs = Some (p ++ c) /\
      p = map (fun k => nth (Z.to_nat k) (d_pos_names d) []) (nth (Z.to_nat (t_id tk)) (d_pos_ids d) [])
  | USER => exists p a b, ps = Some [p] /\ fs = Some [p; a; b]
  | UNKNOWN => exists l, fs = Some l /\
      let s := match meta_get (d_unk_meta d) key_pos_start with Some v => v | None => 0 end in
      let e := match meta_get (d_unk_meta d) key_pos_hierarchy with Some v => s + v | None => 1 end in
      ps = if (s <? e) && (e <=? Z.of_nat (length l)) then Some (firstn (Z.to_nat (e - s)) (skipn (Z.to_nat s) l)) else None
  | DUMMY => fs = None /\ ps = None
  end.
Proof.
  intros d u tk Hd Hu Hw F. destruct (from_good Hd Hu Hw F) as (W & G & Ed & Eu).
  do 2 eexists. split; [exact (features_ok W G)|]. split; [exact (token_pos_ok W G)|]. rewrite Ed, Eu in *.
  unfold spec_features, spec_pos. unfold good_token in G. destruct (t_class tk).
  - auto.
  - do 2 eexists. split; [reflexivity|]. split; reflexivity.
  - eexists. split; reflexivity.
  - destruct G as (ud & E & Hr). rewrite Eu in E. subst u. destruct (@nth_error_lt _ (u_contents ud) (Z.to_nat (t_id tk))) as (e & He & _); [lia|].
    unfold spec_features. rewrite He. do 3 eexists. split; reflexivity.
Qed.

Theorem c22_named_lemma : forall d u tk, wf_dict d -> wf_udict u -> wf_data d -> from_analyze d u tk ->
  exists fs, features tk = Ok fs /\ forall f key,
    In (f, key) [(base_form, key_base); (reading, key_reading); (pronunciation, key_pronunciation);
                 (inflectional_type, key_inflectional_type); (inflectional_form, key_inflectional_form)] ->
    f tk = Ok (match t_class tk with
               | KNOWN => match meta_get (d_meta d) key with Some i => lookup fs i | None => ([], false) end
               | UNKNOWN => match meta_get (d_unk_meta d) key with Some i => lookup fs i | None => ([], false) end
               | _ => ([], false)
               end).
Proof.
  intros d u tk Hd Hu Hw F. destruct (from_good Hd Hu Hw F) as (W & G & Ed & Eu).
  eexists. split; [exact (features_ok W G)|]. intros f key Hf. rewrite Ed, Eu.
  assert (Hp : f tk = pickup tk key) by (cbn in Hf; destruct Hf as [[= <- <-]|[[= <- <-]|[[= <- <-]|[[= <- <-]|[[= <- <-]|[]]]]]]; reflexivity).
  rewrite Hp, (pickup_ok W G). rewrite Ed, Eu. unfold named, meta_of. destruct (t_class tk); reflexivity.
Qed.

Theorem c23_token_features_pos_lemma : forall d u d' u' a b, wf_dict d -> wf_udict u -> wf_data d -> from_analyze d u a ->
  wf_dict d' -> wf_udict u' -> wf_data d' -> from_analyze d' u' b ->
  exists fa fb pa pb r s, features a = Ok fa /\ features b = Ok fb /\ token_pos a = Ok pa /\ token_pos b = Ok pb /\
    token_equal_features a b = Ok r /\ (r = true <-> strings_list fa = strings_list fb) /\
    token_equal_pos a b = Ok s /\ (s = true <-> strings_list pa = strings_list pb).
Proof.
  intros d u d' u' a b H1 H2 H3 H4 H5 H6 H7 H8.
  destruct (from_good H1 H2 H3 H4) as (W & G & _ & _). destruct (from_good H5 H6 H7 H8) as (W' & G' & _ & _).
  destruct (token_equal_features_ok W G W' G') as (fa & fb & r & A & B & C & D).
  destruct (token_equal_pos_ok W G W' G') as (pa & pb & s & A' & B' & C' & D').
  exists fa, fb, pa, pb, r, s. auto 10.
Qed.

Theorem c24_token_data_lemma : forall d u tk, wf_dict d -> wf_udict u -> wf_data d -> from_analyze d u tk ->
  exists td fs ps b r p, new_token_data tk = Ok td /\
    features tk = Ok fs /\ token_pos tk = Ok ps /\ base_form tk = Ok b /\ reading tk = Ok r /\ pronunciation tk = Ok p /\
    td_id td = t_id tk /\ td_start td = t_start tk /\ td_end td = t_end tk /\ td_surface td = t_surface tk /\
    td_class td = match t_class tk with DUMMY => s2b "DUMMY" | KNOWN => s2b "KNOWN" | UNKNOWN => s2b "UNKNOWN" | USER => s2b "USER" end /\
    td_pos td = Some (strings_list ps) /\ td_features td = Some (strings_list fs) /\
    td_base_form td = (if snd b then fst b else []) /\ td_reading td = (if snd r then fst r else []) /\
    td_pronunciation td = (if snd p then fst p else []).
Proof.
  intros d u tk Hd Hu Hw F. destruct (from_good Hd Hu Hw F) as (W & G & Ed & Eu).
  do 6 eexists. split; [exact (token_data_ok W G)|]. split; [exact (features_ok W G)|]. split; [exact (token_pos_ok W G)|].
  split; [exact (pickup_ok W G _)|]. split; [exact (pickup_ok W G _)|]. split; [exact (pickup_ok W G _)|].
  cbn [td_id td_start td_end td_surface td_class td_pos td_features td_base_form td_reading td_pronunciation].
  do 4 (split; [reflexivity|]). split; [destruct (t_class tk); reflexivity|].
  split; [destruct (spec_pos _ _ _ _); reflexivity|]. split; [destruct (spec_features _ _ _ _); reflexivity|].
  assert (N : forall key, fst (named (t_dict tk) (t_udict tk) (t_class tk) (t_id tk) key) =
      if snd (named (t_dict tk) (t_udict tk) (t_class tk) (t_id tk) key) then fst (named (t_dict tk) (t_udict tk) (t_class tk) (t_id tk) key) else []).
  { intros key. destruct (snd _) eqn:E; [reflexivity|]. exact (named_absent E). }
  auto.
Qed.

Theorem c50_no_panic_lemma : forall d u tk, wf_dict d -> wf_udict u -> wf_data d -> from_analyze d u tk ->
  (exists x, features tk = Ok x) /\ (forall i, exists x, feature_at tk i = Ok x) /\ (exists x, token_pos tk = Ok x) /\
  (exists x, user_extra tk = Ok x /\ (x <> None <-> t_class tk = USER)) /\ (forall key, exists x, pickup tk key = Ok x) /\
  (exists x, new_token_data tk = Ok x).
Proof.
  intros d u tk Hd Hu Hw F. destruct (from_good Hd Hu Hw F) as (W & G & Ed & Eu).
  split; [eexists; exact (features_ok W G)|]. split; [intros i; eexists; exact (feature_at_ok W G i)|].
  split; [eexists; exact (token_pos_ok W G)|]. split.
  - destruct (user_extra_ok G) as (x & E & H). exists x. split; [exact E|].
    destruct (t_class tk); try (subst x; split; [intros C; destruct C; reflexivity|discriminate]).
    destruct (t_udict tk); [|contradiction]. destruct H as (e & _ & ->). split; [reflexivity|discriminate].
  - split; [intros key; eexists; exact (pickup_ok W G key)|eexists; exact (token_data_ok W G)].
Qed.

Theorem c52_pos_id_refuted_lemma : exists tk i, t_class tk = KNOWN /\ 0 <= t_id tk < Z.of_nat (length (d_pos_ids (t_dict tk))) /\
  (exists ids, nth_error (d_pos_ids (t_dict tk)) (Z.to_nat (t_id tk)) = Some ids /\
     nth_error ids (Z.to_nat i) = Some (Z.of_nat (length (d_pos_names (t_dict tk))))) /\
  feature_at tk i = Panic.
Proof.
  exists (Token 0 0 KNOWN 0 0 1 [] (Dict [] [] 0 [] (fun _ => 0%nat) [] [] [] [] [] [[1]] [s2b "x"] None [] [] []) None), 0.
  repeat split; cbn; try lia. exists [1]. split; reflexivity.
Qed.

Theorem c56_features_lemma : forall d u tk, wf_dict d -> wf_udict u -> wf_data d -> from_analyze d u tk ->
  exists fs x, features tk = Ok fs /\ user_extra tk = Ok x /\
  match t_class tk with
  | DUMMY => fs = None /\ x = None
  | KNOWN => exists ids, nth_error (d_pos_ids d) (Z.to_nat (t_id tk)) = Some ids /\ x = None /\
      exists names, Forall2 (fun k n => 0 <= k /\ nth_error (d_pos_names d) (Z.to_nat k) = Some n) ids names /\
        match d_contents d with
        | Some cs => exists c, nth_error cs (Z.to_nat (t_id tk)) = Some c /\ fs = Some (names ++ c)
        | None => fs = Some names
        end
  | UNKNOWN => exists c, nth_error (d_unk_contents d) (Z.to_nat (t_id tk)) = Some c /\ fs = Some c /\ x = None
  | USER => exists ud e, u = Some ud /\ nth_error (u_contents ud) (Z.to_nat (t_id tk)) = Some e /\
      fs = Some [uc_pos e; join (s2b "/") (uc_tokens e); join (s2b "/") (uc_yomi e)] /\ x = Some (uc_tokens e, uc_yomi e)
  end.
Proof.
  intros d u tk Hd Hu Hw F. destruct (from_good Hd Hu Hw F) as (W & G & Ed & Eu).
  destruct (user_extra_ok G) as (x & Ex & Hx). exists (spec_features d u (t_class tk) (t_id tk)), x.
  split; [rewrite (features_ok W G), Ed, Eu; reflexivity|]. split; [exact Ex|].
  rewrite Eu in Hx. unfold spec_features. pose proof G as G'. unfold good_token in G'. rewrite Ed, Eu in G'.
  destruct (t_class tk) eqn:E.
  - auto.
  - pose proof (wd_pos Hw). exists (nth (Z.to_nat (t_id tk)) (d_pos_ids d) []).
    assert (Hn : nth_error (d_pos_ids d) (Z.to_nat (t_id tk)) = Some (nth (Z.to_nat (t_id tk)) (d_pos_ids d) [])) by (apply nth_error_nth'; lia).
    split; [exact Hn|]. split; [exact Hx|]. exists (spec_pos_names d (t_id tk)). split.
    + unfold spec_pos_names. apply nth_error_In in Hn. pose proof (wd_names Hw) as Hnm.
      set (l := nth _ _ _) in *. clearbody l. assert (A : forall k, In k l -> 0 <= k < Z.of_nat (length (d_pos_names d))) by (intros k Hk; exact (Hnm _ _ Hn Hk)).
      clear Hn. induction l as [|k l IH]; cbn [map]; constructor.
      * specialize (A k (or_introl eq_refl)). split; [lia|]. apply nth_error_nth'. lia.
      * apply IH. intros y Hy. apply A. right. exact Hy.
    + pose proof (wd_contents Hw) as Hc. destruct (d_contents d) as [cs|]; [|rewrite app_nil_r; reflexivity].
      eexists. split; [apply nth_error_nth'; lia|reflexivity].
  - pose proof (wd_unk Hw). eexists. split; [apply nth_error_nth'; lia|]. auto.
  - destruct G' as (ud & -> & Hr). destruct Hx as (e & He & ->). exists ud, e. rewrite He. auto.
Qed.

(** Any token at all: ID and Class are exported fields, so a caller can put anything in them. *)
Lemma indexZ_inv {A} (l : list A) i x : indexZ l i = Ok x -> 0 <= i < Z.of_nat (length l) /\ nth_error l (Z.to_nat i) = Some x.
Proof.
  unfold indexZ. destruct (Z.ltb_spec i 0); [discriminate|]. destruct (nth_error l (Z.to_nat i)) as [y|] eqn:E; [|discriminate].
  intros [= ->]. assert (Z.to_nat i < length l)%nat by (apply nth_error_Some; congruence). split; [lia|reflexivity].
Qed.

Lemma mapM_nth {A B} (f : A -> res B) l : forall r, mapM f l = Ok r -> length r = length l /\ forall i x, nth_error l i = Some x -> exists y, f x = Ok y /\ nth_error r i = Some y.
Proof.
  induction l as [|a l IH]; intros r; cbn [mapM].
  - intros [= <-]. split; [reflexivity|]. intros [|i] x; discriminate.
  - destruct (f a) as [y| |] eqn:E; cbn [rbind]; try discriminate. destruct (mapM f l) as [ys| |]; cbn [rbind]; try discriminate.
    intros [= <-]. destruct (IH ys eq_refl) as [L H]. split; [cbn [length]; congruence|].
    intros [|i] x; cbn [nth_error]; [intros [= <-]; eauto|apply H].
Qed.

Lemma pair_lookup (l : list bytes) i s b : 0 <= i ->
  (if Z.of_nat (length l) <=? i then Ok ([], false) else let* s := indexZ l i in Ok (s, true)) = Ok (s, b) -> (s, b) = lookup (Some l) i.
Proof. intros Hi. rewrite guard_lookup by assumption. congruence. Qed.

Lemma lookup_false fs i s : (s, false) = lookup fs i -> s = [].
Proof.
  unfold lookup. destruct (i <? 0); [congruence|]. destruct fs as [l|]; [|congruence]. destruct (nth_error l (Z.to_nat i)); congruence.
Qed.

Theorem feature_at_any tk i s b : feature_at tk i = Ok (s, b) ->
  (b = false -> s = []) /\
  (b = true -> 0 <= i /\ 0 <= t_id tk < Z.of_nat (entry_count tk)) /\
  (forall fs, features tk = Ok fs -> (s, b) = lookup fs i).
Proof.
  unfold feature_at, features, entry_count. destruct (Z.ltb_spec i 0) as [Hi|Hi].
  { intros [= <- <-]. split; [reflexivity|]. split; [discriminate|]. intros fs _. unfold lookup. destruct (Z.ltb_spec i 0); [reflexivity|lia]. }
  destruct (t_class tk) eqn:Ec.
  - intros [= <- <-]. split; [reflexivity|]. split; [discriminate|]. intros fs [= <-]. unfold lookup. destruct (i <? 0); reflexivity.
  - destruct (indexZ (d_pos_ids (t_dict tk)) (t_id tk)) as [ids| |] eqn:Ei; cbn [rbind]; try discriminate.
    destruct (indexZ_inv Ei) as [Hr _]. unfold pos_names_of. rewrite Ei. cbn [rbind].
    destruct (Z.ltb_spec i (Z.of_nat (length ids))) as [Hl|Hl].
    + destruct (indexZ ids i) as [k| |] eqn:Ek; cbn [rbind]; try discriminate. destruct (indexZ_inv Ek) as [_ Hk].
      assert (P : forall r, mapM (fun id => indexZ (d_pos_names (t_dict tk)) id) ids = Ok r ->
                  exists y, indexZ (d_pos_names (t_dict tk)) k = Ok y /\ nth_error r (Z.to_nat i) = Some y).
      { intros r Er. destruct (mapM_nth Er) as [_ N]. exact (N _ _ Hk). }
      destruct (Z.ltb_spec (Z.of_nat (length (d_pos_names (t_dict tk)))) k) as [Hb|Hb].
      * intros [= <- <-]. split; [reflexivity|]. split; [discriminate|]. intros fs.
        destruct (match d_contents (t_dict tk) with Some cs => _ | None => _ end) as [c| |]; cbn [rbind]; try discriminate.
        destruct (mapM _ ids) as [r| |] eqn:Er; cbn [rbind]; try discriminate.
        destruct (P r eq_refl) as (y & Ey & _). destruct (indexZ_inv Ey). lia.
      * destruct (indexZ (d_pos_names (t_dict tk)) k) as [y| |] eqn:Ey; cbn [rbind]; try discriminate.
        intros [= <- <-]. split; [discriminate|]. split; [intros _; split; lia|]. intros fs.
        destruct (match d_contents (t_dict tk) with Some cs => _ | None => _ end) as [c| |]; cbn [rbind]; try discriminate.
        destruct (mapM _ ids) as [r| |] eqn:Er; cbn [rbind]; try discriminate. intros [= <-].
        destruct (P r eq_refl) as (y' & [= <-] & Hn). unfold lookup. destruct (Z.ltb_spec i 0); [lia|].
        rewrite nth_error_app1 by (apply nth_error_Some; congruence). rewrite Hn. reflexivity.
    + assert (Q : forall fs c, (let* ns := mapM (fun id => indexZ (d_pos_names (t_dict tk)) id) ids in Ok (Some (ns ++ c))) = Ok fs ->
                  lookup fs i = lookup (Some c) (i - Z.of_nat (length ids))).
      { intros fs c. destruct (mapM _ ids) as [r| |] eqn:Er; cbn [rbind]; try discriminate. intros [= <-].
        destruct (mapM_nth Er) as [Lr _]. unfold lookup. destruct (Z.ltb_spec i 0); [lia|].
        destruct (Z.ltb_spec (i - Z.of_nat (length ids)) 0); [lia|]. rewrite nth_error_app2 by lia.
        replace (Z.to_nat i - length r)%nat with (Z.to_nat (i - Z.of_nat (length ids))) by lia. reflexivity. }
      destruct (d_contents (t_dict tk)) as [cs|].
      * destruct (Z.leb_spec (Z.of_nat (length cs)) (t_id tk)) as [Hb|Hb].
        { intros [= <- <-]. split; [reflexivity|]. split; [discriminate|]. intros fs. destruct (indexZ cs (t_id tk)) as [c| |] eqn:E; cbn [rbind]; try discriminate.
          destruct (indexZ_inv E). lia. }
        destruct (indexZ cs (t_id tk)) as [c| |]; cbn [rbind]; try discriminate. intros H. apply pair_lookup in H; [|lia].
        split; [intros ->; exact (lookup_false H)|]. split; [intros _; split; lia|]. intros fs E. rewrite (Q _ _ E). exact H.
      * cbn [length]. destruct (Z.leb_spec (Z.of_nat 0) (t_id tk)); [|lia].
        intros [= <- <-]. split; [reflexivity|]. split; [discriminate|]. intros fs. cbn [rbind]. intros E. rewrite (Q _ _ E).
        unfold lookup. destruct (_ <? 0); [reflexivity|]. destruct (Z.to_nat _); reflexivity.
  - destruct (Z.leb_spec (Z.of_nat (length (d_unk_contents (t_dict tk)))) (t_id tk)) as [Hb|Hb].
    { intros [= <- <-]. split; [reflexivity|]. split; [discriminate|]. intros fs. destruct (indexZ _ (t_id tk)) as [c| |] eqn:E; cbn [rbind]; try discriminate.
      destruct (indexZ_inv E). lia. }
    destruct (indexZ _ (t_id tk)) as [c| |] eqn:E; cbn [rbind]; try discriminate. destruct (indexZ_inv E) as [Hr _].
    intros H. apply pair_lookup in H; [|assumption].
    split; [intros ->; exact (lookup_false H)|]. split; [intros _; split; lia|]. intros fs [= <-]. exact H.
  - unfold user_content_of. destruct (t_udict tk) as [u|]; [|discriminate].
    destruct (Z.leb_spec (Z.of_nat (length (u_contents u))) (t_id tk)) as [Hb|Hb].
    { intros [= <- <-]. split; [reflexivity|]. split; [discriminate|]. intros fs. destruct (indexZ _ (t_id tk)) as [c| |] eqn:E; cbn [rbind]; try discriminate.
      destruct (indexZ_inv E). lia. }
    destruct (indexZ _ (t_id tk)) as [c| |] eqn:E; cbn [rbind].
    2-3: destruct (i =? 0); [discriminate|]; destruct (i =? 1); [discriminate|]; destruct (i =? 2); [discriminate|]; intros [= <- <-]; split; [reflexivity|]; split; discriminate.
    destruct (indexZ_inv E) as [Hr _].
    assert (L : forall fs, Ok (Some [uc_pos c; join (s2b "/") (uc_tokens c); join (s2b "/") (uc_yomi c)]) = Ok fs ->
      lookup fs i = if i =? 0 then (uc_pos c, true) else if i =? 1 then (join (s2b "/") (uc_tokens c), true)
                    else if i =? 2 then (join (s2b "/") (uc_yomi c), true) else ([], false)).
    { intros fs [= <-]. unfold lookup. destruct (Z.ltb_spec i 0); [lia|].
      destruct (Z.eqb_spec i 0) as [->|]; [reflexivity|]. destruct (Z.eqb_spec i 1) as [->|]; [reflexivity|].
      destruct (Z.eqb_spec i 2) as [->|]; [reflexivity|].
      destruct (Z.to_nat i) as [|[|[|[|k]]]] eqn:Ez; try lia; reflexivity. }
    destruct (i =? 0); [|destruct (i =? 1); [|destruct (i =? 2)]]; intros [= <- <-].
    all: split; [first [discriminate|reflexivity]|]; split; [first [discriminate|intros _; split; lia]|]; intros fs F; rewrite (L fs F); reflexivity.
Qed.
