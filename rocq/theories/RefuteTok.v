(** Witnesses for statements about Analyze that the code does not satisfy. *)
From Verif Require Export Example AnalyzeFacts SaturationFacts.
Set Implicit Arguments.
Unset Strict Implicit.

(** A literal U+FFFD of a category that is not grouped loses two of its three bytes. *)
Theorem lossless_fffd_refuted : exists d ideo inp ts, wf_dict d /\ (Z.of_nat (rcount inp) <= 10)%Z /\ valid_utf8 inp = true /\
  analyze ideo (Tokenizer d None false) inp mode_normal = Ok ts /\ surfaces ts <> inp.
Proof.
  destruct (@run_ex _ _ _ (analyze ex_ideo (Tokenizer ex_dict_ungrouped None false) [xef; xbf; xbd] mode_normal) surfaces [xef])
    as (ts & E & Hs); [vm_compute; reflexivity|].
  exists ex_dict_ungrouped, ex_ideo, [xef; xbf; xbd], ts. split; [apply wf_ex_ungrouped|].
  split; [vm_compute; discriminate|]. split; [reflexivity|]. split; [exact E|]. rewrite Hs. discriminate.
Qed.

(** C16: any long enough input of this shape loses everything but its last rune. *)
Theorem long_input_refuted : exists d, wf_dict d /\ forall N ideo omit, (33000 <= Z.of_nat N)%Z ->
  (forall i, ~ literal_fffd (sat_input N) i) /\ rcount (sat_input N) = N + 2 /\
  exists ts, analyze ideo (Tokenizer d None omit) (sat_input N) mode_normal = Ok ts /\ surfaces ts = s2b "c" /\
    (forall tk, In tk ts -> t_surface tk <> s2b "BOS").
Proof.
  exists sat_dict. split; [apply wf_sat|]. intros N ideo omit HN. split.
  - intros i Hi. unfold literal_fffd in Hi. rewrite sat_segs in Hi. apply nth_error_In in Hi.
    apply in_app_iff in Hi. destruct Hi as [Hi|[Hi|[Hi|[]]]]; [|discriminate|discriminate].
    apply repeat_spec in Hi. discriminate.
  - split; [apply sat_rcount|]. apply sat_lost. assumption.
Qed.

(** C48: invalid bytes come back as U+FFFD in Extended mode. *)
Theorem extended_lossless_refuted : exists d ideo inp ts, wf_dict d /\ (forall i, ~ literal_fffd inp i) /\
  (Z.of_nat (rcount inp) <= 10)%Z /\
  analyze ideo (Tokenizer d None false) inp mode_extended = Ok ts /\ surfaces ts <> inp.
Proof.
  destruct (@run_ex _ _ _ (analyze ex_ideo (Tokenizer ex_dict None false) [xff] mode_extended) surfaces [xef; xbf; xbd])
    as (ts & E & Hs); [vm_compute; reflexivity|].
  exists ex_dict, ex_ideo, [xff], ts. split; [apply wf_ex|]. split.
  - intros [|[|i]]; vm_compute; discriminate.
  - split; [vm_compute; discriminate|]. split; [exact E|]. rewrite Hs. discriminate.
Qed.

(** C49: a user keyword that ends inside a rune makes Analyze panic. *)
Theorem user_keyword_refuted : exists d ud ideo inp, wf_dict d /\ valid_utf8 inp = true /\
  analyze ideo (Tokenizer d (Some ud) false) inp mode_normal = Panic.
Proof.
  exists ex_dict, (UDict [([xf0; x9f; x8d], 0%Z)] [UserContent [] [] []]), ex_ideo, (s2b "🍣").
  split; [apply wf_ex|]. split; [vm_compute; reflexivity|].
  destruct (analyze _ _ _ _) eqn:E; [|reflexivity|]; exfalso;
  (assert (Ex : (match analyze ex_ideo (Tokenizer ex_dict (Some (UDict [([xf0; x9f; x8d], 0%Z)] [UserContent [] [] []])) false)
                    (s2b "🍣") mode_normal with Panic => true | _ => false end) = true) by (vm_compute; reflexivity);
   rewrite E in Ex; discriminate).
Qed.

(** C12 in Extended mode: the runes of an unknown word may begin where a user keyword matches. *)
Theorem user_priority_extended_refuted : exists d ud ideo inp ts tk id j, wf_dict d /\ wf_udict (Some ud) /\
  analyze ideo (Tokenizer d (Some ud) true) inp mode_extended = Ok ts /\ In tk ts /\
  keyword_at (u_index ud) inp id (t_start tk) j /\ t_class tk <> USER.
Proof.
  destruct (@run_ex _ _ _ (analyze ex_ideo (Tokenizer ex_dict (Some ex_udict) true) (s2b "xkagome") mode_extended)
              (fun ts => map (fun t => (t_start t, t_class t)) (firstn 1 (skipn 1 ts))) [(1, DUMMY)])
    as (ts & E & Hs); [vm_compute; reflexivity|].
  destruct ts as [|t0 [|t1 ts]]; try discriminate. cbn in Hs. injection Hs as Hs1 Hs2.
  exists ex_dict, ex_udict, ex_ideo, (s2b "xkagome"), (t0 :: t1 :: ts), t1, 1%Z, 7.
  split; [apply wf_ex|]. split; [apply wf_ex_udict|]. split; [exact E|].
  split; [right; left; reflexivity|]. split; [|congruence]. rewrite Hs1.
  split; [vm_compute; split; repeat constructor|]. right. left. vm_compute. reflexivity.
Qed.

(** C17: Index and Position are 0 in the tokens of AnalyzeGraph, and BOS/EOS are never omitted. *)
Theorem graph_tokens_refuted : exists d ideo inp ts ts', wf_dict d /\
  analyze ideo (Tokenizer d None true) inp mode_normal = Ok ts /\
  analyze_graph ideo (Tokenizer d None true) inp mode_normal = Ok ts' /\
  length ts <> length ts' /\
  exists us, analyze ideo (Tokenizer d None false) inp mode_normal = Ok us /\
    map t_position us <> map t_position ts' /\ map t_index us <> map t_index ts'.
Proof.
  destruct (@run_ex _ _ _ (analyze ex_ideo (Tokenizer ex_dict None true) (s2b "東に") mode_normal) (@length _) 2)
    as (ts & E & Hs); [vm_compute; reflexivity|].
  destruct (@run_ex _ _ _ (analyze_graph ex_ideo (Tokenizer ex_dict None true) (s2b "東に") mode_normal)
     (map (fun t => (t_index t, t_position t))) [(0, 0); (0, 0); (0, 0); (0, 0)])
    as (ts' & E' & Hs'); [vm_compute; reflexivity|].
  destruct (@run_ex _ _ _ (analyze ex_ideo (Tokenizer ex_dict None false) (s2b "東に") mode_normal)
     (map (fun t => (t_index t, t_position t))) [(0, 0); (1, 0); (2, 3); (3, 6)])
    as (us & E'' & Hs''); [vm_compute; reflexivity|].
  exists ex_dict, ex_ideo, (s2b "東に"), ts, ts'. split; [apply wf_ex|]. split; [exact E|]. split; [exact E'|]. split.
  - apply (f_equal (@length _)) in Hs'. rewrite map_length in Hs'. rewrite Hs, Hs'. discriminate.
  - exists us. split; [exact E''|]. split; intros Hc.
    + apply (f_equal (map snd)) in Hs', Hs''. rewrite map_map in Hs', Hs''. cbn [snd] in Hs', Hs''.
      change (map t_position ts' = [0; 0; 0; 0]) in Hs'. change (map t_position us = [0; 0; 3; 6]) in Hs''. congruence.
    + apply (f_equal (map fst)) in Hs', Hs''. rewrite map_map in Hs', Hs''. cbn [fst] in Hs', Hs''.
      change (map t_index ts' = [0; 0; 0; 0]) in Hs'. change (map t_index us = [0; 1; 2; 3]) in Hs''. congruence.
Qed.
