(** How the modes differ. *)
From Verif Require Import SpecMode SpecOut FilterFacts TieFacts AnalyzeFacts TokFacts LocalFacts.
From Coq Require Import Lia ZifyBool ZifyNat ZifyN.
Set Implicit Arguments.
Unset Strict Implicit.
Open Scope Z_scope.

Lemma penalty_nonneg ideo inp w : 0 <= length_penalty ideo inp w.
Proof.
  unfold length_penalty. cbv zeta. set (l := Z.of_nat _). destruct (2 <? l) eqn:A; destruct (7 <? l) eqn:B; destruct (forallb _ _); cbn [andb]; lia.
Qed.
Lemma excess_nonneg ideo inp ws : 0 <= excess ideo inp ws.
Proof. unfold excess. induction ws as [|w ws IH]; cbn [fold_right]; [lia|]. pose proof (@penalty_nonneg ideo inp w). lia. Qed.
Lemma cost_excess m ideo d inp ws : m <> LNormal -> forall c e, cost_from m ideo d inp c e ws = cost_from LNormal ideo d inp c e ws + excess ideo inp ws.
Proof.
  intros N. induction ws as [|w ws IH]; intros c e; cbn [cost_from excess fold_right]; [lia|]. rewrite IH. fold (excess ideo inp ws). unfold penalty. destruct m; [congruence| |]; lia.
Qed.
Lemma seg_excess m ideo d inp ws : m <> LNormal -> seg_cost m ideo d inp ws = seg_cost LNormal ideo d inp ws + excess ideo inp ws.
Proof. intros N. apply cost_excess. exact N. Qed.
Lemma chosen_short m ideo d u inp ws : m <> LNormal -> chosen LNormal ideo d u inp ws -> excess ideo inp ws = 0 -> chosen m ideo d u inp ws.
Proof.
  intros N (S & C) E. split; [exact S|]. intros ws' S'. destruct (C ws' S') as (L & T). rewrite !(fun x => @seg_excess m ideo d inp x N), E. pose proof (@excess_nonneg ideo inp ws'). split; [lia|]. intros Z. apply T. lia.
Qed.
Lemma run_final ideo d u omit inp mode : wf_dict d -> wf_udict u -> Z.of_nat (rcount inp) <= optimal_limit mode ->
  exists ws, chosen (to_lmode mode) ideo d u inp ws /\ analyze ideo (Tokenizer d u omit) inp mode = Ok (final_tokens (Tokenizer d u omit) inp (to_lmode mode) 0 ws).
Proof.
  intros Hd Hu H. destruct (limits mode) as (L1 & L2 & L3).
  destruct (@run_chosen d u inp ideo (to_lmode mode) Hd Hu ltac:(lia) ltac:(lia)) as (la & la' & l & ws & E1 & E2 & E3 & C & T).
  exists ws. split; [exact C|]. unfold analyze, run_lattice. cbn [tk_dict tk_udict]. rewrite E1. cbn [rbind]. rewrite E2. cbn [rbind]. rewrite E3. cbn [rbind snd]. apply T.
Qed.

Lemma words_final ideo d u omit inp mode ws : wf_dict d -> wf_udict u -> mode <> mode_extended -> chosen (to_lmode mode) ideo d u inp ws ->
  words_of (final_tokens (Tokenizer d u omit) inp (to_lmode mode) 0 ws) = ws.
Proof.
  intros Hd Hu Hm C. unfold words_of. rewrite (map_final Hd Hu omit (to_lmode mode) word_of_free (proj1 C)).
  clear -Hm. induction ws as [|w ws IH]; cbn [flat_map map]; [reflexivity|]. rewrite map_app, IH.
  unfold word_tokens. pose proof (lmode_not_extended Hm). destruct (to_lmode mode); [| |congruence]; destruct w; reflexivity.
Qed.
Lemma final_search t inp i ws : final_tokens t inp LSearch i ws = final_tokens t inp LNormal i ws.
Proof. reflexivity. Qed.
Lemma final_extended t inp i ws : (forall w, In w ws -> w_class w <> UNKNOWN) -> final_tokens t inp LExtended i ws = final_tokens t inp LNormal i ws.
Proof.
  intros H. unfold final_tokens, raw_tokens. do 3 f_equal. f_equal. induction ws as [|w ws IH]; [reflexivity|]. cbn [flat_map]. rewrite IH by (intros; apply H; right; assumption). f_equal.
  pose proof (H w (or_introl eq_refl)). unfold word_tokens. destruct (w_class w); congruence.
Qed.
Lemma segs_part (l : list (N * bytes)) f i n : (i + n <= length l)%nat ->
  (forallb (fun g => f (fst g)) (firstn n (skipn i l)) = false <-> exists k, (i <= k < i + n)%nat /\ f (fst (nth k l (0%N, []))) = false).
Proof.
  revert i. induction n as [|n IH]; intros i L; [cbn; split; [discriminate|intros (k & K & _); lia]|].
  destruct (skipn i l) as [|x r] eqn:E; [apply (f_equal (@length _)) in E; rewrite skipn_length in E; cbn in E; lia|].
  assert (X : nth i l (0%N, []) = x) by (rewrite <- (firstn_skipn i l), E, app_nth2; rewrite firstn_length_le by lia; [rewrite Nat.sub_diag; reflexivity|lia]).
  assert (R : skipn (S i) l = r) by (change (S i) with (1 + i)%nat; rewrite <- skipn_skipn, E; reflexivity).
  cbn [firstn forallb]. rewrite andb_false_iff, <- R, IH by lia. split.
  - intros [A|(k & K & A)]; [exists i; rewrite X; split; [lia|exact A]|exists k; split; [lia|exact A]].
  - intros (k & K & A). destruct (Nat.eq_dec k i) as [->|Z]; [left; rewrite X in A; exact A|right; exists k; split; [lia|exact A]].
Qed.
Lemma short_penalty ideo inp w : (w_start w <= w_stop w <= rcount inp)%nat -> (length_penalty ideo inp w = 0 <-> short ideo inp w).
Proof.
  intros L. unfold length_penalty, short, rune_at. set (n := (w_stop w - w_start w)%nat) in *. pose proof (@segs_part (segs inp) ideo (w_start w) n) as P. unfold rcount in L.
  replace (w_start w + n)%nat with (w_stop w) in P by lia. specialize (P ltac:(lia)). destruct (forallb _ _).
  - assert (Q : ~ exists k, (w_start w <= k < w_stop w)%nat /\ ideo (fst (nth k (segs inp) (0%N, []))) = false) by (intros Z; apply P in Z; discriminate).
    destruct (2 <? Z.of_nat n) eqn:A; cbn [andb]; [split; [lia|intros [Z|(_ & Z)]; [lia|tauto]]|]. split; [intros _; left; lia|]. intros _. replace (7 <? _) with false by lia. reflexivity.
  - rewrite andb_false_r. destruct (7 <? Z.of_nat n) eqn:B; [split; [lia|intros [Z|(Z & _)]; lia]|]. split; [|reflexivity]. intros _. right. split; [lia|]. apply P. reflexivity.
Qed.
Lemma excess_short ideo inp ws : (forall w, In w ws -> (w_start w <= w_stop w <= rcount inp)%nat) -> (excess ideo inp ws = 0 <-> forall w, In w ws -> short ideo inp w).
Proof.
  induction ws as [|w ws IH]; intros B; cbn [excess fold_right]; [split; [intros _ w []|reflexivity]|]. fold (excess ideo inp ws).
  pose proof (@penalty_nonneg ideo inp w). pose proof (@excess_nonneg ideo inp ws). pose proof (short_penalty ideo (B w (or_introl eq_refl))) as S.
  specialize (IH (fun w' I => B w' (or_intror I))). split.
  - intros Z w' [<-|I]; [apply S; lia|apply IH; [lia|exact I]].
  - intros A. assert (length_penalty ideo inp w = 0) by (apply S; apply A; left; reflexivity). assert (excess ideo inp ws = 0) by (apply IH; intros; apply A; right; assumption). lia.
Qed.

Lemma chain_ranges d u inp i ws j : chain d u inp i ws j -> forall w, In w ws -> (w_start w <= w_stop w <= rcount inp)%nat.
Proof.
  intros C. induction C as [|w ws j Cw C IH]; intros w' I; [destruct I|]. destruct I as [<-|I]; [|auto].
  pose proof (candidate_range Cw). lia.
Qed.
Lemma segmentation_ranges d u inp ws : segmentation d u inp ws -> forall w, In w ws -> (w_start w <= w_stop w <= rcount inp)%nat.
Proof. intros C. exact (chain_ranges C). Qed.
Section Modes.
Variables (ideo : ideographic) (d : dict) (u : option udict) (omit : bool) (inp : bytes).
Hypothesis Hd : wf_dict d.
Hypothesis Hu : wf_udict u.
Hypothesis Hn : Z.of_nat (rcount inp) <= 31333.
Notation run mode := (analyze ideo (Tokenizer d u omit) inp mode).

Theorem modes_differ tn ts : run mode_normal = Ok tn -> run mode_search = Ok ts ->
  excess ideo inp (words_of ts) <= excess ideo inp (words_of tn) /\
  (excess ideo inp (words_of ts) = excess ideo inp (words_of tn) -> ts = tn) /\
  seg_cost LNormal ideo d inp (words_of ts) - seg_cost LNormal ideo d inp (words_of tn) <= excess ideo inp (words_of tn) - excess ideo inp (words_of ts).
Proof.
  intros En Es. destruct (@run_final ideo d u omit inp mode_normal Hd Hu) as (wn & Cn & Fn); [unfold optimal_limit; cbn; lia|].
  destruct (@run_final ideo d u omit inp mode_search Hd Hu) as (ws & Cs & Fs); [unfold optimal_limit; cbn; lia|].
  rewrite Fn in En. injection En as <-. rewrite Fs in Es. injection Es as <-. rewrite !(@words_final ideo d u omit inp mode_normal wn Hd Hu ltac:(discriminate) Cn), (@words_final ideo d u omit inp mode_search ws Hd Hu ltac:(discriminate) Cs).
  change (to_lmode mode_normal) with LNormal in *. change (to_lmode mode_search) with LSearch in *. rewrite final_search.
  pose proof Cn as (Sn & Mn). pose proof Cs as (Ss & Ms). destruct (Mn ws Ss) as (Ln & Tn). destruct (Ms wn Sn) as (Ls & Ts). rewrite !(@seg_excess LSearch) in Ls, Ts by discriminate.
  split; [lia|]. split; [|lia]. intros E. destruct (Tn ltac:(lia)) as [->|R]; [reflexivity|]. destruct (Ts ltac:(lia)) as [->|R']; [reflexivity|].
  exfalso. exact (right_before_asym Sn Ss R R').
Qed.
Theorem modes_same tn : run mode_normal = Ok tn -> (forall w, In w (words_of tn) -> short ideo inp w) ->
  run mode_search = Ok tn /\ ((forall w, In w (words_of tn) -> w_class w <> UNKNOWN) -> run mode_extended = Ok tn).
Proof.
  intros En Sh. destruct (@run_final ideo d u omit inp mode_normal Hd Hu) as (wn & Cn & Fn); [unfold optimal_limit; cbn; lia|].
  rewrite Fn in En. injection En as <-. rewrite (@words_final ideo d u omit inp mode_normal wn Hd Hu ltac:(discriminate) Cn) in Sh |- *. change (to_lmode mode_normal) with LNormal in *.
  assert (E : excess ideo inp wn = 0) by (apply excess_short; [exact (segmentation_ranges (proj1 Cn))|exact Sh]).
  destruct (@run_final ideo d u omit inp mode_search Hd Hu) as (ws & Cs & Fs); [unfold optimal_limit; cbn; lia|].
  destruct (@run_final ideo d u omit inp mode_extended Hd Hu) as (we & Ce & Fe); [unfold optimal_limit; cbn; lia|].
  change (to_lmode mode_search) with LSearch in *. change (to_lmode mode_extended) with LExtended in *.
  rewrite (chosen_unique (@chosen_short LSearch ideo d u inp wn ltac:(discriminate) Cn E) Cs) in Fs. rewrite (chosen_unique (@chosen_short LExtended ideo d u inp wn ltac:(discriminate) Cn E) Ce) in Fe.
  split; [rewrite Fs, final_search; reflexivity|]. intros K. rewrite Fe, final_extended by exact K. reflexivity.
Qed.
End Modes.
Lemma long_penalty ideo inp w : (w_start w <= w_stop w <= rcount inp)%nat -> (0 < length_penalty ideo inp w <-> ~ short ideo inp w).
Proof. intros H. rewrite <- (short_penalty ideo H). pose proof (@penalty_nonneg ideo inp w). lia. Qed.
