(** C128: how long the answers of the tokenize endpoint are. *)
From Verif Require Import Utf8Facts OptFacts TokFacts AnalyzeFacts TokenFacts CmdFacts CmdRuns CmdMore DrawSize SpecCmd SpecOut SpecFeat BuildFacts Json JsonFacts CmdWork CmdJsonWork Server ServerFacts.
From Coq Require Import List Arith Lia ZifyBool ZifyNat ZifyN NArith Nnat.
Import ListNotations.
Local Open Scope nat_scope.
Set Implicit Arguments.
Unset Strict Implicit.

Lemma log2_nat n : N.to_nat (N.log2 (N.of_nat n)) = Nat.log2 n.
Proof.
  destruct n as [|k]; [reflexivity|]. symmetry. apply Nat.log2_unique; [lia|]. pose proof (N.log2_spec (N.of_nat (S k)) ltac:(lia)) as (H1 & H2).
  set (l := N.log2 (N.of_nat (S k))) in *. change (2 ^ N.to_nat l) with (N.to_nat 2 ^ N.to_nat l). change (2 ^ S (N.to_nat l)) with (N.to_nat 2 ^ S (N.to_nat l)).
  rewrite <- N2Nat.inj_succ, <- !N2Nat.inj_pow. lia.
Qed.
Section Api.
Variables (d : dict) (u : option udict).
Hypotheses (Hd : wf_dict d) (Hu : wf_udict u) (Hw : wf_data d).
Let m := N.of_nat (length (d_morphs d) + length (d_unk_morphs d) + length (match u with Some ud => u_contents ud | None => [] end)).
Lemma plain_id tk : from_analyze d u tk -> t_class tk <> DUMMY -> (0 <= t_id tk <= Z.of_N m)%Z.
Proof.
  intros Hf Hc. destruct (from_good Hd Hu Hw Hf) as (W & G & Ed & Eu). unfold good_token in G. rewrite Ed, Eu in G. unfold m. destruct (t_class tk); [congruence|lia|lia|]. destruct G as (ud & -> & G). lia.
Qed.
(** The runes of an unknown word have its number. *)
Lemma id_small tk : from_analyze d u tk -> is_marker tk = false -> (0 <= t_id tk <= Z.of_N m)%Z.
Proof.
  intros Hf Hm. destruct (class_eqb (t_class tk) DUMMY) eqn:Hc; [|apply plain_id; [exact Hf|]; intros E; rewrite E in Hc; discriminate].
  assert (Ec : t_class tk = DUMMY) by (destruct (t_class tk); try discriminate; reflexivity). unfold is_marker in Hm.
  destruct Hf as (ideo & omit & inp & mode & ts & E & Hin). destruct (Z.eq_dec mode mode_extended) as [->|Nm]; [|exfalso; exact (@dummy_extended d u ideo omit inp mode ts tk Hd Hu E Hin ltac:(lia) Nm Ec)].
  destruct (@analyze_extended d u omit ideo inp Hd Hu) as (ts0 & E0 & E1). rewrite E in E1. injection E1 as ->.
  destruct (in_renumber Hin) as (j & t0 & H0 & ->). apply in_flat_map in H0. destruct H0 as (t1 & H1 & H0). cbn [set_index t_id t_class] in *.
  assert (Ei : t_id t0 = t_id t1).
  { unfold expand in H0. destruct (t_class t1); try (destruct H0 as [->|[]]; reflexivity). unfold per_rune in H0. apply in_map_iff in H0. destruct H0 as (k & <- & _). reflexivity. }
  rewrite Ei in *. apply plain_id; [exists ideo, omit, inp, mode_search, ts0; auto|]. apply (@dummy_extended d u ideo omit inp mode_search ts0 t1 Hd Hu E0 H1); [lia|discriminate].
Qed.
Lemma rune_id tk : from_analyze d u tk -> is_marker tk = false -> t_class tk = DUMMY -> (0 <= t_id tk < Z.of_nat (length (d_unk_morphs d)))%Z.
Proof.
  intros (ideo & omit & inp & mode & ts & E & Hin) Hm Ec. unfold is_marker in Hm.
  destruct (Z.eq_dec mode mode_extended) as [->|Nm]; [|exfalso; exact (@dummy_extended d u ideo omit inp mode ts tk Hd Hu E Hin ltac:(lia) Nm Ec)].
  destruct (@analyze_extended d u omit ideo inp Hd Hu) as (ts0 & E0 & E1). rewrite E in E1. injection E1 as ->.
  destruct (in_renumber Hin) as (j & t0 & H0 & ->). apply in_flat_map in H0. destruct H0 as (t1 & H1 & H0). cbn [set_index t_id t_class] in *.
  assert (Hf : from_analyze d u t1) by (exists ideo, omit, inp, mode_search, ts0; auto).
  unfold expand in H0. destruct (t_class t1) eqn:E1; try (destruct H0 as [->|[]]; exfalso).
  - exact (@dummy_extended d u ideo omit inp mode_search ts0 t0 Hd Hu E0 H1 ltac:(lia) ltac:(discriminate) E1).
  - congruence.
  - unfold per_rune in H0. apply in_map_iff in H0. destruct H0 as (k & <- & _). cbn [t_id].
    destruct (from_good Hd Hu Hw Hf) as (W & G & Ed & Eu). unfold good_token in G. rewrite E1, Ed in G. exact G.
  - congruence.
Qed.
Lemma token_size : exists K, forall nw tk td n, from_analyze d u tk -> is_marker tk = false -> t_start tk <= n -> t_end tk <= n -> new_token_data tk = Ok td ->
  length (marshal_token nw td) <= K + 2 * Nat.log2 n + 6 * length (t_surface tk).
Proof.
  set (g := fun nw c (x : strings * strings) =>
    let pick key := fst (match meta_get (meta_of d c) key with Some i => lookup (fst x) i | None => ([], false) end) in
    length (marshal_token nw (TokenData 0 0 0 [] (class_string c) (nonnil (snd x)) (pick key_base) (pick key_reading) (pick key_pronunciation) (nonnil (fst x))))).
  destruct (told_bounded d u (g true)) as (P1 & H1). destruct (told_bounded d u (g false)) as (P2 & H2).
  exists (N.to_nat (N.log2 m) + 8 + P1 + P2). intros nw tk td n Hf Hm Hs He E.
  destruct (from_good Hd Hu Hw Hf) as (W & G & Ed & Eu). rewrite (token_data_ok W G), Ed, Eu in E. injection E as <-.
  pose proof (id_small Hf Hm) as I.
  etransitivity; [apply object_size|]. cbn [td_id td_start td_end td_surface td_class td_pos td_base_form td_reading td_pronunciation td_features].
  pose proof (@itoa_size (t_id tk) m ltac:(lia)) as L1. pose proof (@itoa_size (Z.of_nat (t_start tk)) (N.of_nat n) ltac:(lia)) as L2. pose proof (@itoa_size (Z.of_nat (t_end tk)) (N.of_nat n) ltac:(lia)) as L3.
  rewrite log2_nat in L2, L3. pose proof (json_string_size nw (t_surface tk)) as L4.
  match goal with |- _ + length (marshal_token nw ?x) <= _ => assert (length (marshal_token nw x) <= P1 + P2) end; [|lia].
  destruct nw; [specialize (H1 (t_class tk) (t_id tk)); unfold g in H1; cbn [told fst snd] in H1; unfold named|specialize (H2 (t_class tk) (t_id tk)); unfold g in H2; cbn [told fst snd] in H2; unfold named].
  - etransitivity; [exact H1|]. lia.
  - etransitivity; [exact H2|]. lia.
Qed.

Theorem answer_size : exists a, forall omit ideo nw decode body req r, decode body = inl req -> serve_tokenize decode nw ideo (Tokenizer d u omit) body = Ok r ->
  let n := length (rq_input req) in length (rs_body r) <= a * (n * (Nat.log2 n + 1) + 1).
Proof.
  destruct token_size as (K & HK). exists (K + 200). intros omit ideo nw decode body req r Er E n. unfold serve_tokenize in E. rewrite Er in E.
  destruct (bytes_eqb (rq_input req) []) eqn:Eb; [injection E as <-; cbn [rs_body]; change (length (s2b "{""status"":true,""tokens"":[]}")) with 27; lia|].
  destruct (analyze ideo (Tokenizer d u omit) (rq_input req) (api_mode (rq_mode req))) as [ts| |] eqn:Ea; cbn [rbind] in E; try discriminate.
  destruct (@mapM_forall2 _ _ new_token_data (no_markers ts)) as (tds & _ & Htds).
  { intros tk Hin. apply filter_In in Hin. destruct Hin as [Hin _]. apply (@c50_no_panic_lemma d u tk Hd Hu Hw). exists ideo, omit, (rq_input req), (api_mode (rq_mode req)), ts. auto. }
  rewrite (@collect_ok ts tds None Htds) in E. cbn [rbind] in E. apply (f_equal (fun x => match x with Ok y => rs_body y | _ => [] end)) in E. cbn [rs_body] in E.
  destruct (@analyze_offsets d u Hd Hu ideo omit (rq_input req) (api_mode (rq_mode req))) as (ts' & E' & C & R). rewrite Ea in E'. injection E' as <-.
  pose proof (rcount_le (rq_input req)) as Rc. fold n in Rc.
  assert (Wd : list_sum (map width (no_markers ts)) <= n).
  { etransitivity; [apply filter_sum|]. pose proof (@contiguous_width (rcount (rq_input req)) ts C (fun tk H => proj1 (R tk H))) as W. destruct ts; [cbn; lia|lia]. }
  set (L := Nat.log2 n) in *.
  assert (J : length (join (s2b ",") (map (marshal_token nw) tds)) <= (K + 2 * L + 26) * list_sum (map width (no_markers ts))).
  { etransitivity; [apply join_size|]. rewrite map_map. change (length (s2b ",")) with 1.
    assert (N : forall tk, In tk (no_markers ts) -> In tk ts /\ is_marker tk = false) by (intros tk H; apply filter_In in H; destruct H as (H & Q); split; [exact H|]; destruct (is_marker tk); [discriminate|reflexivity]).
    clear E Wd. revert N. induction Htds as [|tk td q tds Et Htds IH]; intros N; [cbn; lia|].
    specialize (IH (fun x H => N x (or_intror H))). destruct (N tk (or_introl eq_refl)) as (I & Mk). destruct (R tk I) as (R1 & _ & R2 & _).
    pose proof (HK nw tk td n ltac:(exists ideo, omit, (rq_input req), (api_mode (rq_mode req)), ts; split; assumption) Mk ltac:(lia) ltac:(lia) Et) as B. fold L in B.
    pose proof (surface_size Hd Hu Ea I Mk) as Q. specialize (R2 Mk). cbn [map list_sum fold_right]. unfold list_sum in *. assert (length (marshal_token nw td) + 1 <= (K + 2 * L + 26) * width tk) by (unfold width; nia). lia. }
  assert (J2 : (K + 2 * L + 26) * list_sum (map width (no_markers ts)) <= (K + 2 * L + 26) * n) by (apply Nat.mul_le_mono_l; exact Wd).
  rewrite <- E. destruct tds as [|td0 tds].
  - assert (length (marshal_response nw true None) <= 50) by (destruct nw; vm_compute; lia). lia.
  - remember (td0 :: tds) as l. unfold marshal_response, json_object, json_array. cbn [map join fst snd]. rewrite !app_length.
    assert (Q : length (json_string nw (s2b "status")) <= 50 /\ length (json_string nw (s2b "tokens")) <= 50).
    { split; (etransitivity; [apply json_string_size|]); vm_compute; lia. }
    destruct Q as (Q1 & Q2). assert (S1 : length (s2b "{") + length (s2b ":") + length (s2b "true") + length (s2b ",") + length (s2b ":") + length (s2b "[") + length (s2b "]") + length (s2b "}") <= 12) by (vm_compute; lia).
    assert (Z : (K + 2 * L + 26) * n <= (K + 200) * (n * (L + 1))) by nia. nia.
Qed.
End Api.
