(** Property theorems: Analyze, Tokenize, Wakati, AnalyzeGraph (tokenizer/tokenizer.go).
    [ideo] stands for unicode.Is(unicode.Ideographic, _) and is arbitrary. *)
From Verif Require Import Example AnalyzeFacts SaturationFacts LimitFacts RefuteTok ExtendedAny.
Open Scope Z_scope.

(** ** C01 *)
Theorem C01_lossless : forall d u ideo omit inp mode,
  wf_dict d -> wf_udict u -> mode <> mode_extended ->
  Z.of_nat (rcount inp) <= lossless_limit mode -> fffd_ok d inp ->
  exists ts, analyze ideo (Tokenizer d u omit) inp mode = Ok ts /\
             concat (map t_surface (filter (fun t => negb (t_id t =? -1)) ts)) = inp.
Proof. exact (fun d u ideo omit inp mode Hd Hu Hm Hl => @analyze_lossless d u Hd Hu ideo omit inp mode Hm (or_introl Hl)). Qed.
Print Assumptions C01_lossless.
Example C01_example : wf_dict ex_dict /\ wf_udict (Some ex_udict) /\ fffd_ok ex_dict (s2b "東京都にkagome" ++ [xff]) /\
  view (analyze ex_ideo (Tokenizer ex_dict (Some ex_udict) true) (s2b "東京都にkagome" ++ [xff]) mode_search) =
  Ok [(0%nat, s2b "東京", KNOWN, 3, 0%nat, 0%nat, 2%nat); (1%nat, s2b "都", KNOWN, 2, 6%nat, 2%nat, 3%nat);
      (2%nat, s2b "に", KNOWN, 6, 9%nat, 3%nat, 4%nat); (3%nat, s2b "kagome", USER, 1, 12%nat, 4%nat, 10%nat);
      (4%nat, [xff], UNKNOWN, 0, 18%nat, 10%nat, 11%nat)].
Proof. split; [exact wf_ex|]. split; [exact wf_ex_udict|]. split; [right; reflexivity|by_eval]. Qed.
(** Without the condition on U+FFFD the statement is false. *)
Theorem C01_fffd_refuted : exists d ideo inp ts, wf_dict d /\ (Z.of_nat (rcount inp) <= 10)%Z /\ valid_utf8 inp = true /\
  analyze ideo (Tokenizer d None false) inp mode_normal = Ok ts /\ surfaces ts <> inp.
Proof. exact lossless_fffd_refuted. Qed.
Print Assumptions C01_fffd_refuted.

(** ** C02 *)
Theorem C02_offsets : forall d u ideo omit inp mode, wf_dict d -> wf_udict u ->
  exists ts, analyze ideo (Tokenizer d u omit) inp mode = Ok ts /\ contiguous ts /\
  forall tk, In tk ts ->
    (t_start tk <= t_end tk <= rcount inp)%nat /\ t_position tk = length (text inp 0 (t_start tk)) /\
    (t_id tk =? -1 = false -> (t_start tk < t_end tk)%nat) /\
    (t_id tk =? -1 = false -> mode <> mode_extended \/ valid_utf8 inp = true ->
      slice inp (t_position tk) (t_position tk + length (t_surface tk)) = Ok (t_surface tk) /\
      (fffd_ok d inp \/ mode = mode_extended ->
        (t_position tk + length (t_surface tk))%nat = length (text inp 0 (t_end tk)))).
Proof. exact (fun d u ideo omit inp mode Hd Hu => @analyze_offsets d u Hd Hu ideo omit inp mode). Qed.
Print Assumptions C02_offsets.
Example C02_example : exists ts, analyze ex_ideo (Tokenizer ex_dict None true) (s2b "東京に行くab") mode_extended = Ok ts /\
  map (fun t => (t_position t, t_start t, t_end t)) ts =
  [(0, 0, 2); (6, 2, 3); (9, 3, 5); (15, 5, 6); (16, 6, 7)]%nat.
Proof. apply run_ex. vm_compute. reflexivity. Qed.

(** ** C03 *)
Theorem C03_framing : forall d u ideo inp mode, wf_dict d -> wf_udict u -> Z.of_nat (rcount inp) <= lossless_limit mode ->
  exists bos mid eos, analyze ideo (Tokenizer d u false) inp mode = Ok (bos :: mid ++ [eos]) /\
    (t_id bos = -1 /\ t_class bos = DUMMY /\ t_surface bos = s2b "BOS" /\
       t_position bos = 0%nat /\ t_start bos = 0%nat /\ t_end bos = 0%nat) /\
    (t_id eos = -1 /\ t_class eos = DUMMY /\ t_surface eos = s2b "EOS" /\
       t_position eos = length inp /\ t_start eos = rcount inp /\ t_end eos = rcount inp) /\
    (forall tk, In tk mid -> t_id tk <> -1).
Proof. exact (fun d u ideo inp mode Hd Hu Hl => @analyze_framing d u Hd Hu ideo inp mode (or_introl Hl)). Qed.
Print Assumptions C03_framing.
Theorem C03_indexes : forall d u ideo omit inp mode ts, wf_dict d -> wf_udict u ->
  analyze ideo (Tokenizer d u omit) inp mode = Ok ts ->
  forall k tk, nth_error ts k = Some tk -> t_index tk = k.
Proof. exact (fun d u ideo omit inp mode ts Hd Hu => @analyze_indexes d u Hd Hu ideo omit inp mode ts). Qed.
Print Assumptions C03_indexes.
Example C03_example :
  view (analyze ex_ideo (Tokenizer ex_dict None false) (s2b "東京") mode_normal) =
  Ok [(0%nat, s2b "BOS", DUMMY, -1, 0%nat, 0%nat, 0%nat); (1%nat, s2b "東京", KNOWN, 3, 0%nat, 0%nat, 2%nat);
      (2%nat, s2b "EOS", DUMMY, -1, 6%nat, 2%nat, 2%nat)] /\
  view (analyze ex_ideo (Tokenizer ex_dict None false) [] mode_search) =
  Ok [(0%nat, s2b "BOS", DUMMY, -1, 0%nat, 0%nat, 0%nat); (1%nat, s2b "EOS", DUMMY, -1, 0%nat, 0%nat, 0%nat)].
Proof. split; by_eval. Qed.

(** ** C04: for every dictionary, well formed or not. *)
Theorem C04_omit : forall d u ideo inp mode,
  analyze ideo (Tokenizer d u true) inp mode =
  match analyze ideo (Tokenizer d u false) inp mode with
  | Ok ts => Ok (renumber 0 (no_markers ts))
  | Panic => Panic
  | Diverge => Diverge
  end.
Proof. exact analyze_omit. Qed.
Print Assumptions C04_omit.
Example C04_example :
  view (analyze ex_ideo (Tokenizer ex_dict None true) (s2b "東京ab") mode_extended) =
  Ok [(0%nat, s2b "東京", KNOWN, 3, 0%nat, 0%nat, 2%nat); (1%nat, s2b "a", DUMMY, 4, 6%nat, 2%nat, 3%nat);
      (2%nat, s2b "b", DUMMY, 4, 7%nat, 3%nat, 4%nat)].
Proof. by_eval. Qed.

(** ** C05 *)
Theorem C05_total : forall d u ideo omit inp mode, wf_dict d -> wf_udict u ->
  exists ts, analyze ideo (Tokenizer d u omit) inp mode = Ok ts.
Proof. exact (fun d u ideo omit inp mode Hd Hu => @analyze_total d u Hd Hu ideo omit inp mode). Qed.
Print Assumptions C05_total.
Example C05_example : exists ts, analyze ex_ideo (Tokenizer ex_dict (Some ex_udict) false)
  ([xe6; x9d; xff; xf0; x9f; x8d] ++ s2b "京都" ++ [xef; xbf; xbd]) mode_normal = Ok ts /\ length ts = 5%nat.
Proof. apply run_ex. vm_compute. reflexivity. Qed.

(** ** C06, C07 *)
Theorem C06_normal_optimal : forall d u ideo omit inp, wf_dict d -> wf_udict u -> Z.of_nat (rcount inp) <= 32767 ->
  exists ts, analyze ideo (Tokenizer d u omit) inp mode_normal = Ok ts /\
    segmentation d u inp (words_of ts) /\
    forall ws', segmentation d u inp ws' ->
      seg_cost LNormal ideo d inp (words_of ts) <= seg_cost LNormal ideo d inp ws'.
Proof. exact (fun d u ideo omit inp Hd Hu => @analyze_optimal d u Hd Hu ideo omit inp mode_normal ltac:(discriminate)). Qed.
Print Assumptions C06_normal_optimal.
Theorem C07_search_optimal : forall d u ideo omit inp, wf_dict d -> wf_udict u -> Z.of_nat (rcount inp) <= 31333 ->
  exists ts, analyze ideo (Tokenizer d u omit) inp mode_search = Ok ts /\
    segmentation d u inp (words_of ts) /\
    forall ws', segmentation d u inp ws' ->
      seg_cost LSearch ideo d inp (words_of ts) <= seg_cost LSearch ideo d inp ws'.
Proof. exact (fun d u ideo omit inp Hd Hu => @analyze_optimal d u Hd Hu ideo omit inp mode_search ltac:(discriminate)). Qed.
Print Assumptions C07_search_optimal.
(** The limit of C06 is exact: costs below -2^31 wrap around. (That of C07 is exact by C16_limit_refuted.) *)
Theorem C06_limit_refuted : exists d, wf_dict d /\ forall ideo omit, exists inp ts, Z.of_nat (rcount inp) = 32768 /\
  analyze ideo (Tokenizer d None omit) inp mode_normal = Ok ts /\ surfaces ts = inp /\ segmentation d None inp (words_of ts) /\
  exists ws', segmentation d None inp ws' /\ seg_cost LNormal ideo d inp ws' < seg_cost LNormal ideo d inp (words_of ts).
Proof. exact optimal_limit_exact. Qed.
Print Assumptions C06_limit_refuted.
(** The two modes disagree on this input, each being right by its own cost. *)
Example C06_C07_example : let inp := s2b "東京都" in let c m ts := seg_cost m ex_ideo ex_dict inp (words_of ts) in
  (exists ts, analyze ex_ideo (Tokenizer ex_dict None true) inp mode_normal = Ok ts /\
     (map t_surface ts, c LNormal ts, c LSearch ts) = ([s2b "東京都"], -980, 2020)) /\
  (exists ts, analyze ex_ideo (Tokenizer ex_dict None true) inp mode_search = Ok ts /\
     (map t_surface ts, c LNormal ts, c LSearch ts) = ([s2b "東京"; s2b "都"], 500, 500)).
Proof. split; apply run_ex; vm_compute; reflexivity. Qed.

(** ** C08: any length *)
Theorem C08_extended : forall d u ideo omit inp, wf_dict d -> wf_udict u ->
  exists ts, analyze ideo (Tokenizer d u omit) inp mode_search = Ok ts /\
    analyze ideo (Tokenizer d u omit) inp mode_extended = Ok (renumber 0 (flat_map (expand inp) ts)).
Proof. exact (fun d u ideo omit inp => @analyze_extended d u omit ideo inp). Qed.
Print Assumptions C08_extended.
Example C08_example :
  view (analyze ex_ideo (Tokenizer ex_dict None false) (s2b "東京都ab") mode_extended) =
  Ok [(0%nat, s2b "BOS", DUMMY, -1, 0%nat, 0%nat, 0%nat); (1%nat, s2b "東京", KNOWN, 3, 0%nat, 0%nat, 2%nat);
      (2%nat, s2b "都", KNOWN, 2, 6%nat, 2%nat, 3%nat); (3%nat, s2b "a", DUMMY, 4, 9%nat, 3%nat, 4%nat);
      (4%nat, s2b "b", DUMMY, 4, 10%nat, 4%nat, 5%nat); (5%nat, s2b "EOS", DUMMY, -1, 11%nat, 5%nat, 5%nat)].
Proof. by_eval. Qed.

(** ** C09 *)
Theorem C09_other_modes : forall ideo t inp mode, mode <> 2 -> mode <> 3 ->
  analyze ideo t inp mode = analyze ideo t inp 1 /\ tokenize ideo t inp = analyze ideo t inp 1.
Proof. exact (fun ideo t inp mode H2 H3 => conj (@analyze_other_mode ideo t inp mode H2 H3) eq_refl). Qed.
Print Assumptions C09_other_modes.
Example C09_example : exists ts, analyze ex_ideo (Tokenizer ex_dict None true) (s2b "東京都") (-7) = Ok ts /\
  map t_surface ts = [s2b "東京都"].
Proof. apply run_ex. vm_compute. reflexivity. Qed.

(** ** C10 *)
Theorem C10_wakati : forall d u ideo omit inp, wf_dict d -> wf_udict u ->
  exists ts, tokenize ideo (Tokenizer d u omit) inp = Ok ts /\
    wakati ideo (Tokenizer d u omit) inp = Ok (map t_surface (no_markers ts)) /\
    (forall s, In s (map t_surface (no_markers ts)) -> s <> []) /\
    (no_loss d u inp mode_normal -> fffd_ok d inp -> concat (map t_surface (no_markers ts)) = inp).
Proof. exact (fun d u ideo omit inp => @wakati_ok d u omit ideo inp). Qed.
Print Assumptions C10_wakati.
Theorem C10_wakati_omit : forall d u ideo inp, wf_dict d -> wf_udict u ->
  wakati ideo (Tokenizer d u true) inp = wakati ideo (Tokenizer d u false) inp.
Proof. exact wakati_omit. Qed.
Print Assumptions C10_wakati_omit.
Example C10_example : wakati ex_ideo (Tokenizer ex_dict None false) (s2b "東京都に行く") =
  Ok [s2b "東京都"; s2b "に"; s2b "行く"] /\ Z.of_nat (rcount (s2b "東京都に行く")) <= lossless_limit mode_normal.
Proof. split; [by_eval|vm_compute; discriminate]. Qed.

(** ** C11 *)
Theorem C11_provenance : forall d u ideo omit inp mode ts tk, wf_dict d -> wf_udict u ->
  analyze ideo (Tokenizer d u omit) inp mode = Ok ts -> In tk ts ->
  match t_class tk with
  | KNOWN => In (t_surface tk, t_id tk) (d_index d)
  | USER => exists ud, u = Some ud /\ In (t_surface tk, t_id tk) (u_index ud)
  | UNKNOWN => let c := Z.of_nat (d_category d (rune_at inp (t_start tk))) in
               map_get (d_unk_index d) c <= t_id tk <= map_get (d_unk_index d) c + map_get (d_unk_dup d) c
  | DUMMY => True
  end.
Proof. exact (fun d u ideo omit inp mode ts tk Hd Hu => @analyze_provenance d u Hd Hu ideo omit inp mode ts tk). Qed.
Print Assumptions C11_provenance.
Example C11_example : exists ts, analyze ex_ideo (Tokenizer ex_dict (Some ex_udict) true) (s2b "東x京都川") mode_normal = Ok ts /\
  map (fun t => (t_surface t, t_class t, t_id t)) ts =
  [(s2b "東", KNOWN, 0); (s2b "x", UNKNOWN, 4); (s2b "京都", USER, 0); (s2b "川", UNKNOWN, 2)].
Proof. apply run_ex. vm_compute. reflexivity. Qed.

(** ** C12 *)
Theorem C12_user_priority : forall d ud ideo omit inp mode ts tk id j, wf_dict d -> wf_udict (Some ud) ->
  mode <> mode_extended \/ t_class tk <> DUMMY ->
  analyze ideo (Tokenizer d (Some ud) omit) inp mode = Ok ts -> In tk ts -> t_id tk <> -1 ->
  keyword_at (u_index ud) inp id (t_start tk) j -> t_class tk = USER.
Proof. exact user_priority. Qed.
Print Assumptions C12_user_priority.
Example C12_example : exists ts, analyze ex_ideo (Tokenizer ex_dict (Some ex_udict) true) (s2b "x京都に") mode_normal = Ok ts /\
  map (fun t => (t_surface t, t_class t, t_start t)) ts = [(s2b "x", UNKNOWN, 0); (s2b "京都", USER, 1); (s2b "に", KNOWN, 3)]%nat /\
  keyword_at (u_index ex_udict) (s2b "x京都に") 0 1 3.
Proof.
  apply run_ex_and; [vm_compute; reflexivity|].
  split; [vm_compute; split; repeat constructor|left; vm_compute; reflexivity].
Qed.
Theorem C12_extended_refuted : exists d ud ideo inp ts tk id j, wf_dict d /\ wf_udict (Some ud) /\
  analyze ideo (Tokenizer d (Some ud) true) inp mode_extended = Ok ts /\ In tk ts /\
  keyword_at (u_index ud) inp id (t_start tk) j /\ t_class tk <> USER.
Proof. exact user_priority_extended_refuted. Qed.
Print Assumptions C12_extended_refuted.

(** ** C13 *)
Theorem C13_unknown : forall d u ideo omit inp mode ts tk, wf_dict d -> wf_udict u ->
  analyze ideo (Tokenizer d u omit) inp mode = Ok ts -> In tk ts -> t_class tk = UNKNOWN ->
  let c := d_category d (rune_at inp (t_start tk)) in
  (t_start tk < t_end tk)%nat /\ Z.of_nat (t_end tk - t_start tk) <= 1024 /\
  (forall k, (t_start tk <= k < t_end tk)%nat -> d_category d (rune_at inp k) = c) /\
  (nth c (d_group d) false = false -> t_end tk = S (t_start tk)) /\
  (forall id j, keyword_at (d_index d) inp id (t_start tk) j -> nth c (d_invoke d) false = true).
Proof. exact (fun d u ideo omit inp mode ts tk Hd Hu => @analyze_unknown d u Hd Hu ideo omit inp mode ts tk). Qed.
Print Assumptions C13_unknown.
Example C13_example : exists ts, analyze ex_ideo (Tokenizer ex_dict None true) (s2b "abc川川") mode_normal = Ok ts /\
  map (fun t => (t_surface t, t_class t)) ts = [(s2b "abc", UNKNOWN); (s2b "川", UNKNOWN); (s2b "川", UNKNOWN)].
Proof. apply run_ex. vm_compute. reflexivity. Qed.

(** ** C16: false for long inputs; true for inputs without gaps. *)
Theorem C16_refuted : exists d, wf_dict d /\ forall N ideo omit, (33000 <= Z.of_nat N)%Z ->
  (forall i, ~ literal_fffd (sat_input N) i) /\ rcount (sat_input N) = (N + 2)%nat /\
  exists ts, analyze ideo (Tokenizer d None omit) (sat_input N) mode_normal = Ok ts /\ surfaces ts = s2b "c" /\
    (forall tk, In tk ts -> t_surface tk <> s2b "BOS").
Proof. exact long_input_refuted. Qed.
Print Assumptions C16_refuted.
(** In every mode the limit of C01, C03 and C48 is exact (U+5DDD is an ideograph). *)
Theorem C16_limit_refuted : forall n ideo omit mode, ideo 24029%N = true -> lossless_limit mode < Z.of_nat n <= 65000 ->
  exists d inp, wf_dict d /\ rcount inp = n /\ valid_utf8 inp = true /\ (forall i, ~ literal_fffd inp i) /\
    exists ts, analyze ideo (Tokenizer d None omit) inp mode = Ok ts /\ surfaces ts <> inp.
Proof. exact lossless_limit_exact. Qed.
Print Assumptions C16_limit_refuted.
Theorem C16_lossless_partial : forall d u ideo omit inp mode, wf_dict d -> wf_udict u -> mode <> mode_extended ->
  no_gaps d u inp -> fffd_ok d inp ->
  exists ts, analyze ideo (Tokenizer d u omit) inp mode = Ok ts /\ surfaces ts = inp.
Proof. exact (fun d u ideo omit inp mode Hd Hu Hm Hg => @analyze_lossless d u Hd Hu ideo omit inp mode Hm (or_intror Hg)). Qed.
Print Assumptions C16_lossless_partial.
Theorem C16_framing_partial : forall d u ideo inp mode, wf_dict d -> wf_udict u -> no_gaps d u inp ->
  exists bos mid eos, analyze ideo (Tokenizer d u false) inp mode = Ok (bos :: mid ++ [eos]) /\
    (t_id bos = -1 /\ t_class bos = DUMMY /\ t_surface bos = s2b "BOS" /\
       t_position bos = 0%nat /\ t_start bos = 0%nat /\ t_end bos = 0%nat) /\
    (t_id eos = -1 /\ t_class eos = DUMMY /\ t_surface eos = s2b "EOS" /\
       t_position eos = length inp /\ t_start eos = rcount inp /\ t_end eos = rcount inp) /\
    (forall tk, In tk mid -> t_id tk <> -1).
Proof. exact (fun d u ideo inp mode Hd Hu Hg => @analyze_framing d u Hd Hu ideo inp mode (or_intror Hg)). Qed.
Print Assumptions C16_framing_partial.
Theorem C16_suffix_partial : forall d u ideo omit inp mode, wf_dict d -> wf_udict u -> mode <> mode_extended -> fffd_ok d inp ->
  exists ts i, analyze ideo (Tokenizer d u omit) inp mode = Ok ts /\ surfaces ts = text inp i (rcount inp) /\
    (i = 0%nat \/ (0 < i < rcount inp)%nat /\ forall w, candidate d u inp w -> w_stop w <> i).
Proof. exact (fun d u ideo omit inp mode Hd Hu => @analyze_suffix d u Hd Hu ideo omit inp mode). Qed.
Print Assumptions C16_suffix_partial.
Example C16_example : forall N, wf_dict sat_dict /\ no_gaps sat_dict None (repeat x61 N) /\ rcount (repeat x61 N) = N /\
  fffd_ok sat_dict (repeat x61 N).
Proof. exact (fun N => conj wf_sat (repeat_no_gaps N)). Qed.

(** ** C17: false as stated; the tokens agree except for Index, Position and OmitBosEos. *)
Theorem C17_graph_refuted : exists d ideo inp ts ts', wf_dict d /\
  analyze ideo (Tokenizer d None true) inp mode_normal = Ok ts /\
  analyze_graph ideo (Tokenizer d None true) inp mode_normal = Ok ts' /\
  length ts <> length ts' /\
  exists us, analyze ideo (Tokenizer d None false) inp mode_normal = Ok us /\
    map t_position us <> map t_position ts' /\ map t_index us <> map t_index ts'.
Proof. exact graph_tokens_refuted. Qed.
Print Assumptions C17_graph_refuted.
Theorem C17_graph_partial : forall d u omit ideo inp mode,
  analyze_graph ideo (Tokenizer d u omit) inp mode =
  match analyze ideo (Tokenizer d u false) inp mode with
  | Ok ts => Ok (map without_index_position ts)
  | Panic => Panic
  | Diverge => Diverge
  end.
Proof. exact analyze_graph_tokens. Qed.
Print Assumptions C17_graph_partial.
Example C17_example : view (analyze_graph ex_ideo (Tokenizer ex_dict None true) (s2b "東に") mode_normal) =
  Ok [(0%nat, s2b "BOS", DUMMY, -1, 0%nat, 0%nat, 0%nat); (0%nat, s2b "東", KNOWN, 0, 0%nat, 0%nat, 1%nat);
      (0%nat, s2b "に", KNOWN, 6, 0%nat, 1%nat, 2%nat); (0%nat, s2b "EOS", DUMMY, -1, 0%nat, 2%nat, 2%nat)].
Proof. by_eval. Qed.

(** ** C48: false for invalid UTF-8. *)
Theorem C48_extended_refuted : exists d ideo inp ts, wf_dict d /\ (forall i, ~ literal_fffd inp i) /\
  (Z.of_nat (rcount inp) <= 10)%Z /\
  analyze ideo (Tokenizer d None false) inp mode_extended = Ok ts /\ surfaces ts <> inp.
Proof. exact extended_lossless_refuted. Qed.
Print Assumptions C48_extended_refuted.
Theorem C48_extended_partial : forall d u ideo omit inp, wf_dict d -> wf_udict u ->
  valid_utf8 inp = true -> no_loss d u inp mode_extended ->
  exists ts, analyze ideo (Tokenizer d u omit) inp mode_extended = Ok ts /\ surfaces ts = inp.
Proof. exact (fun d u ideo omit inp Hd Hu => @analyze_extended_lossless d u Hd Hu ideo omit inp). Qed.
Print Assumptions C48_extended_partial.
(** Of any bytes the runes come back: what is not UTF-8 as U+FFFD, everything else as it was. *)
Theorem C48_runes_partial : forall d u ideo omit inp, wf_dict d -> wf_udict u -> no_loss d u inp mode_extended ->
  exists ts, analyze ideo (Tokenizer d u omit) inp mode_extended = Ok ts /\ surfaces ts = concat (map (fun g => encode_rune (fst g)) (segs inp)).
Proof. exact (fun d u ideo omit inp Hd Hu => @analyze_extended_any d u ideo omit inp Hd Hu). Qed.
Print Assumptions C48_runes_partial.
Example C48_runes_example : Z.of_nat (rcount (s2b "東" ++ [xe4; xba] ++ s2b "a" ++ [xff])) <= lossless_limit mode_extended /\ exists ts,
  analyze ex_ideo (Tokenizer ex_dict None true) (s2b "東" ++ [xe4; xba] ++ s2b "a" ++ [xff]) mode_extended = Ok ts /\
  map t_surface ts = [s2b "東"; s2b "�"; s2b "�"; s2b "a"; s2b "�"].
Proof. split; [vm_compute; discriminate|]. apply run_ex. vm_compute. reflexivity. Qed.
Example C48_example : valid_utf8 (s2b "東京都ab🍣") = true /\ exists ts,
  analyze ex_ideo (Tokenizer ex_dict None true) (s2b "東京都ab🍣") mode_extended = Ok ts /\
  map t_surface ts = [s2b "東京"; s2b "都"; s2b "a"; s2b "b"; s2b "🍣"].
Proof. split; [vm_compute; reflexivity|]. apply run_ex. vm_compute. reflexivity. Qed.

(** ** C49: false; the positive part is C05 (keywords that are valid UTF-8). *)
Theorem C49_user_keyword_refuted : exists d ud ideo inp, wf_dict d /\ valid_utf8 inp = true /\
  analyze ideo (Tokenizer d (Some ud) false) inp mode_normal = Panic.
Proof. exact user_keyword_refuted. Qed.
Print Assumptions C49_user_keyword_refuted.
Theorem C49_user_keyword_partial : forall d ud ideo omit inp mode, wf_dict d -> wf_index (u_index ud) (length (u_contents ud)) ->
  exists ts, analyze ideo (Tokenizer d (Some ud) omit) inp mode = Ok ts.
Proof. exact (fun d ud ideo omit inp mode Hd Hu => @analyze_total d (Some ud) Hd Hu ideo omit inp mode). Qed.
Print Assumptions C49_user_keyword_partial.
Example C49_example : wf_index (u_index (UDict [(s2b "「a", 0)] [UserContent [s2b "「a"] [s2b "x"] (s2b "p")])) 1 /\ exists ts,
  analyze ex_ideo (Tokenizer ex_dict (Some (UDict [(s2b "「a", 0)] [UserContent [s2b "「a"] [s2b "x"] (s2b "p")])) true) (s2b "東「ab") mode_normal = Ok ts /\
  map (fun t => (t_surface t, t_class t)) ts = [(s2b "東", KNOWN); (s2b "「a", USER); (s2b "b", UNKNOWN)].
Proof. split; [apply check_index_ok; reflexivity|]. apply run_ex. vm_compute. reflexivity. Qed.
