(** C126: the JSON that tokenize writes is linear in the input too. *)
From Verif Require Import LongFacts SpecLong Utf8Facts ScannerFacts SentenceFacts OptFacts TokFacts AnalyzeFacts TokenFacts CmdFacts CmdRuns CmdMore DrawSize SpecCmd SpecSent SpecOut SpecFeat BuildFacts Json JsonFacts CmdWork.
From Coq Require Import List Arith Lia ZifyBool ZifyNat ZifyN NArith.
Import ListNotations.
Local Open Scope nat_scope.
Set Implicit Arguments.
Unset Strict Implicit.

(** ** What the tables say of a class and an ID is one of finitely many things *)
Section Tables.
Variables (d : dict) (u : option udict).
Definition told (c : node_class) (id : Z) : strings * strings := (spec_features d u c id, spec_pos d u c id).
Definition rows : nat :=
  length (d_pos_ids d) + length (match d_contents d with Some cs => cs | None => [] end) + length (d_unk_contents d) + length (match u with Some ud => u_contents ud | None => [] end).
Lemma told_row c id : told c id = told c (Z.of_nat (Nat.min (Z.to_nat id) rows)).
Proof.
  set (k := Nat.min (Z.to_nat id) rows). assert (K : forall A (l : list A) x, length l <= rows -> nth (Z.to_nat id) l x = nth (Z.to_nat (Z.of_nat k)) l x).
  { intros A l x H. rewrite Nat2Z.id. unfold k. destruct (Nat.le_gt_cases (Z.to_nat id) rows); [rewrite Nat.min_l by assumption; reflexivity|]. rewrite !nth_overflow; [reflexivity| |]; lia. }
  assert (K' : forall A (l : list A), length l <= rows -> nth_error l (Z.to_nat id) = nth_error l (Z.to_nat (Z.of_nat k))).
  { intros A l H. rewrite Nat2Z.id. unfold k. destruct (Nat.le_gt_cases (Z.to_nat id) rows); [rewrite Nat.min_l by assumption; reflexivity|].
    rewrite (proj2 (nth_error_None l (Z.to_nat id))) by lia. symmetry. apply nth_error_None. lia. }
  unfold told, spec_pos, spec_features, spec_pos_names, rows in *. destruct c; [reflexivity| | |].
  - rewrite (K _ (d_pos_ids d)) by lia. destruct (d_contents d) as [cs|]; [rewrite (K _ cs) by lia|]; reflexivity.
  - rewrite (K _ (d_unk_contents d)) by lia. reflexivity.
  - destruct u as [ud|]; [|reflexivity]. rewrite (K' _ (u_contents ud)) by lia. reflexivity.
Qed.
Lemma told_bounded (g : node_class -> strings * strings -> nat) : exists P, forall c id, g c (told c id) <= P.
Proof.
  assert (B : forall (h : nat -> nat) n, exists P, forall k, k <= n -> h k <= P).
  { intros h n. induction n as [|n (P & IH)]; [exists (h 0); intros k Hk; replace k with 0 by lia; lia|]. exists (P + h (S n)). intros k Hk. destruct (Nat.eq_dec k (S n)) as [->|]; [lia|]. specialize (IH k ltac:(lia)). lia. }
  assert (C : forall c, exists P, forall id, g c (told c id) <= P).
  { intros c. destruct (B (fun k => g c (told c (Z.of_nat k))) rows) as (P & H). exists P. intros id. rewrite told_row. apply H. apply Nat.le_min_r. }
  destruct (C DUMMY) as (P1 & H1), (C KNOWN) as (P2 & H2), (C UNKNOWN) as (P3 & H3), (C USER) as (P4 & H4). exists (P1 + P2 + P3 + P4).
  intros [| | |] id; [specialize (H1 id)|specialize (H2 id)|specialize (H3 id)|specialize (H4 id)]; lia.
Qed.
End Tables.

(** ** Strings and numbers *)
Lemma json_string_size nw s : length (json_string nw s) <= 6 * length s + 2.
Proof.
  unfold json_string. rewrite !app_length. change (length quote) with 1. assert (length (concat (map (json_rune nw) (segs s))) <= 6 * length (segs_text (segs s))); [|rewrite segs_concat in *; lia].
  assert (N : forall g, In g (segs s) -> 1 <= length (snd g)) by (intros g H; pose proof (segs_nonempty_seg H); lia). revert N. generalize (segs s). unfold segs_text. induction l as [|(c & raw) l IH]; intros N; [cbn; lia|].
  cbn [map concat]. rewrite !app_length. specialize (IH (fun g H => N g (or_intror H))). pose proof (N _ (or_introl eq_refl)) as R. cbn [snd] in *. assert (length (json_rune nw (c, raw)) <= 6 * length raw); [|unfold bytes in *; lia].
  unfold json_rune. repeat match goal with |- context [if ?b then _ else _] => destruct b end; cbn [length s2b app]; try (change (length (s2b "\b")) with 2); unfold bytes in *; try lia;
    repeat rewrite app_length; match goal with |- context [length (s2b ?x)] => let n := eval vm_compute in (length (s2b x)) in change (length (s2b x)) with n end; cbn [length]; lia.
Qed.
Lemma itoa_size z m : (Z.abs z <= Z.of_N m)%Z -> length (itoa z) <= N.to_nat (N.log2 m) + 2.
Proof.
  intros H. unfold itoa. rewrite app_length. pose proof (digits_length (S (N.to_nat (N.log2 (Z.abs_N z)))) (Z.abs_N z) []) as D. cbn [length] in D.
  assert (N.log2 (Z.abs_N z) <= N.log2 m)%N by (apply N.log2_le_mono; lia).
  assert (length (if (z <? 0)%Z then s2b "-" else []) <= 1) by (destruct (z <? 0)%Z; cbn; lia). lia.
Qed.
Lemma join_size sep l : length (join sep l) <= list_sum (map (fun x => length x + length sep) l).
Proof.
  induction l as [|a l IH]; [reflexivity|]. cbn [join map list_sum fold_right]. destruct l as [|b l]; [cbn; lia|]. rewrite !app_length. unfold list_sum in *. cbn [map fold_right] in *. lia.
Qed.
Lemma object_size nw td : length (marshal_token nw td) <= length (itoa (td_id td)) + length (itoa (Z.of_nat (td_start td))) + length (itoa (Z.of_nat (td_end td))) + length (json_string nw (td_surface td)) +
  length (marshal_token nw (TokenData 0 0 0 [] (td_class td) (td_pos td) (td_base_form td) (td_reading td) (td_pronunciation td) (td_features td))).
Proof.
  unfold marshal_token, json_object. cbn [map join td_id td_start td_end td_surface td_class td_pos td_base_form td_reading td_pronunciation td_features fst snd]. rewrite !app_length. lia.
Qed.

Section Json.
Variables (d : dict) (u : option udict).
Hypotheses (Hd : wf_dict d) (Hu : wf_udict u) (Hw : wf_data d).
Lemma token_json : exists K, forall nw tk td, from_analyze d u tk -> t_class tk <> DUMMY -> t_start tk <= N.to_nat 65536 -> t_end tk <= N.to_nat 65536 -> new_token_data tk = Ok td ->
  length (marshal_token nw td) <= K + 6 * length (t_surface tk) /\ is_marker tk = false.
Proof.
  set (g := fun nw c (x : strings * strings) =>
    let pick key := fst (match meta_get (meta_of d c) key with Some i => lookup (fst x) i | None => ([], false) end) in
    length (marshal_token nw (TokenData 0 0 0 [] (class_string c) (nonnil (snd x)) (pick key_base) (pick key_reading) (pick key_pronunciation) (nonnil (fst x))))).
  destruct (told_bounded d u (g true)) as (P1 & H1). destruct (told_bounded d u (g false)) as (P2 & H2).
  set (m := N.of_nat (length (d_morphs d) + length (d_unk_morphs d) + length (match u with Some ud => u_contents ud | None => [] end))).
  exists (N.to_nat (N.log2 m) + 2 + (18 + 18 + 2) + P1 + P2). intros nw tk td Hf Hc Hs He E.
  destruct (from_good Hd Hu Hw Hf) as (W & G & Ed & Eu). rewrite (token_data_ok W G), Ed, Eu in E. injection E as <-.
  assert (I : (0 <= t_id tk <= Z.of_N m)%Z).
  { unfold good_token in G. rewrite Ed, Eu in G. unfold m. destruct (t_class tk); [congruence|lia|lia|]. destruct G as (ud & -> & G). lia. }
  split; [|unfold is_marker; lia].
  etransitivity; [apply object_size|]. cbn [td_id td_start td_end td_surface td_class td_pos td_base_form td_reading td_pronunciation td_features].
  pose proof (@itoa_size (t_id tk) m ltac:(lia)) as L1. pose proof (@itoa_size (Z.of_nat (t_start tk)) 65536 ltac:(lia)) as L2. pose proof (@itoa_size (Z.of_nat (t_end tk)) 65536 ltac:(lia)) as L3.
  change (N.to_nat (N.log2 65536)) with 16 in L2, L3. pose proof (json_string_size nw (t_surface tk)) as L4.
  match goal with |- _ + length (marshal_token nw ?x) <= _ => assert (length (marshal_token nw x) <= P1 + P2) end; [|lia].
  destruct nw; [specialize (H1 (t_class tk) (t_id tk)); unfold g in H1; cbn [told fst snd] in H1; unfold named|specialize (H2 (t_class tk) (t_id tk)); unfold g in H2; cbn [told fst snd] in H2; unfold named].
  - etransitivity; [exact H1|]. lia.
  - etransitivity; [exact H2|]. lia.
Qed.

Theorem json_linear : exists k, forall nw ideo inp mode ts b, analyze ideo (Tokenizer d u false) inp mode = Ok ts -> rcount inp <= N.to_nat 65536 ->
  print_tokens_json nw ts = (b, Ok tt) -> length b <= k * rcount inp + 5.
Proof.
  destruct token_json as (K & HK). exists (K + 26). intros nw ideo inp mode ts b E Hn Hp.
  unfold print_tokens_json in Hp. fold (not_dummy ts) in Hp. destruct (mapM new_token_data (not_dummy ts)) as [l| |] eqn:M; try discriminate. apply (f_equal fst) in Hp. cbn [fst] in Hp. subst b.
  destruct (@analyze_offsets d u Hd Hu ideo false inp mode) as (ts' & E' & C & R). rewrite E in E'. injection E' as <-.
  assert (Wd : list_sum (map width (not_dummy ts)) <= rcount inp).
  { etransitivity; [apply filter_sum|]. pose proof (@contiguous_width (rcount inp) ts C (fun tk H => proj1 (R tk H))) as W. destruct ts; [cbn; lia|lia]. }
  assert (J : length (join (s2b "," ++ nl) (map (marshal_token nw) l)) <= (K + 26) * list_sum (map width (not_dummy ts))).
  { etransitivity; [apply join_size|]. rewrite map_map. change (length (s2b "," ++ nl)) with 2.
    assert (N : forall tk, In tk (not_dummy ts) -> In tk ts /\ t_class tk <> DUMMY) by (intros tk H; apply filter_In in H; destruct H as (H & Q); split; [exact H|intros D; rewrite D in Q; discriminate Q]).
    revert l M N. generalize (not_dummy ts). intros q. induction q as [|tk q IH]; intros l M N; cbn [mapM] in M; [injection M as <-; cbn; lia|].
    destruct (new_token_data tk) as [td| |] eqn:Et; cbn [rbind] in M; try discriminate. destruct (mapM new_token_data q) as [l0| |] eqn:M0; cbn [rbind] in M; try discriminate. injection M as <-.
    specialize (IH l0 eq_refl (fun x H => N x (or_intror H))). destruct (N tk (or_introl eq_refl)) as (I & D). destruct (R tk I) as (R1 & _ & R2 & _).
    destruct (HK nw tk td) as (B & Mk); [exists ideo, false, inp, mode, ts; split; assumption|exact D|lia|lia|exact Et|].
    pose proof (surface_size Hd Hu E I Mk) as Q. specialize (R2 Mk). cbn [map list_sum fold_right]. unfold list_sum in *. assert (length (marshal_token nw td) + 2 <= (K + 26) * width tk) by (unfold width; nia). lia. }
  rewrite !app_length. assert (length (if 0 <? length ts then s2b "[" ++ nl else []) <= 2) by (destruct (0 <? length ts); cbn; lia).
  assert (length (if 0 <? length ts then nl ++ s2b "]" ++ nl else []) <= 3) by (destruct (0 <? length ts); cbn; lia).
  assert ((K + 26) * list_sum (map width (not_dummy ts)) <= (K + 26) * rcount inp) by (apply Nat.mul_le_mono_l; exact Wd). lia.
Qed.
End Json.

(** ** The command *)
Theorem tok_written d u : wf_dict d -> wf_udict u -> wf_data d -> exists a, forall w args o mode r t1 t2 t3,
  tok_args args o -> tok_uses w o d t1 -> user_uses w (to_udict o) u t2 -> input_uses w (to_file o) r t3 -> mode_of (to_mode o) mode ->
  length (outs (fst (tok_run w args))) <= a * length (rd_rest r).
Proof.
  intros Hd Hu Hw. destruct (tok_output Hd Hu Hw) as (a1 & A1). destruct (json_linear Hd Hu Hw) as (k & K). exists (a1 + 2 * (k + 5)). intros w args o mode r t1 t2 t3 Ha H1 H2 H3 Hm.
  destruct (to_json o) eqn:Hj; [|specialize (A1 w args o mode r t1 t2 t3 Ha H1 H2 H3 Hm Hj); nia].
  destruct (@scan_file_ok (tok_split o) (tok_split_contract o) (fun _ _ _ _ => True) ltac:(auto) ltac:(auto) ltac:(auto)
              (out_of w d u mode (to_json o)) _ (out_line w Hd Hu Hw mode (to_json o)) r Logic.I) as (tr & texts & err & r' & E1 & E2 & E3 & _).
  rewrite (tok_run_ok Ha H1 H2 H3 Hm), E1. cbn [fst].
  rewrite outs_app, E3, (quiet_outs (tr := t1 ++ t2 ++ t3)); [|apply quiet_app; [eapply tok_uses_quiet; eassumption|]; apply quiet_app; [eapply user_uses_quiet|eapply input_uses_quiet]; eassumption].
  pose proof (scan_spent (tok_split_contract o) (@tok_fair o) E2) as S. pose proof (texts_short (tok_split_contract o) (@tok_modest o) E2) as Sh. cbn [app].
  enough (length (concat (map (out_of w d u mode (to_json o)) texts)) <= (k + 5) * spent texts) by nia. rewrite Hj. clear -Sh K Hd Hu Hw.
  induction Sh as [|t texts Ht _ IH]; [cbn; lia|]. unfold spent in *. cbn [map list_sum fold_right concat]. rewrite app_length.
  assert (Q : length (out_of w d u mode true t) <= k * rcount t + 5).
  { unfold out_of. destruct (analyze_total Hd Hu (w_ideo w) false t mode) as (ts & Ea). unfold tok_line. rewrite Ea, cbind_lift. destruct (print_tokens_json (w_newer w) ts) as (b & x) eqn:Ep.
    assert (Hx : x <> Ok tt -> length b <= 2).
    { intros Nx. unfold print_tokens_json in Ep. destruct (mapM new_token_data _) as [l| |]; apply pair_equal_spec in Ep; destruct Ep as (Eb & Er); [congruence| |]; subst b; destruct (0 <? length ts); cbn; lia. }
    destruct x as [[]| |]; cbn -[Nat.mul Nat.add]; rewrite ?app_nil_r; [|specialize (Hx ltac:(discriminate)); lia..]. apply (K (w_newer w) (w_ideo w) t mode ts b Ea); [|exact Ep]. pose proof (rcount_le t). unfold short in Ht. lia. }
  pose proof (rcount_le t). unfold list_sum in *. nia.
Qed.
