(** Proofs of C118: the counted program gives the same results, and the counts are bounded. *)
From Verif Require Import SplitWork WorkFacts ScannerFacts SplitterFacts SentenceFacts.
From Coq Require Import Lia ZifyBool ZifyNat ZifyN.
Set Implicit Arguments.
Unset Strict Implicit.
Open Scope nat_scope.

(** ** The same results *)
Lemma same_copy data e p n : result (t_copy data e p n) = if negb (e =? p) then copy_rune data e p n else Ok data.
Proof. unfold t_copy. destruct (negb (e =? p)); reflexivity. Qed.
Lemma same_tail s f : forall data p e nn, result (t_split_tail s f data p e nn) = split_tail s f data p e nn.
Proof.
  induction f as [|f IH]; intros; [reflexivity|]. cbn [t_split_tail split_tail]. destruct (p <? length data); [|reflexivity]. rewrite result_charge.
  destruct (decode_rune (from data p)) as [r n]. destruct (sp_skip s && is_space r).
  { destruct (sp_dlf s && (r =? line_feed)%N); [destruct nn; [reflexivity|]|]; apply IH. }
  unfold t_delim, tbind at 1. cbn [result snd steps fst]. rewrite result_charge. destruct (is_delim s r); cbn [orb].
  - unfold tbind at 1. cbn [result snd steps fst]. rewrite result_charge. apply result_bind; [apply same_copy|]. intros a. apply IH.
  - unfold t_follower, tbind at 1. cbn [result snd steps fst]. rewrite result_charge. destruct (is_follower s r); [|reflexivity]. apply result_bind; [apply same_copy|]. intros a. apply IH.
Qed.
Lemma same_loop s f : forall data p st e rc h nn, result (t_split_loop s f data p st e rc h nn) = split_loop s f data p st e rc h nn.
Proof.
  induction f as [|f IH]; intros; [reflexivity|]. cbn [t_split_loop split_loop]. destruct (p <? length data); [|reflexivity]. rewrite result_charge.
  destruct (decode_rune (from data p)) as [r n]. destruct (sp_skip s && is_space r).
  { destruct h; [apply IH|]. unfold t_delim, tbind at 1. cbn [result snd steps fst]. rewrite result_charge. destruct (is_delim s r); [reflexivity|].
    destruct (sp_dlf s && (r =? line_feed)%N); destruct nn; try reflexivity; apply IH. }
  apply result_bind; [apply same_copy|]. intros a. destruct (sp_dlf s && (r =? line_feed)%N && nn); [reflexivity|].
  unfold t_delim, tbind at 1. cbn [result snd steps fst]. rewrite result_charge. destruct (negb (is_delim s r) && (rc + 1 <? sp_max s)%Z); [apply IH|].
  apply result_bind; [apply same_tail|]. intros [[d q] z]. reflexivity.
Qed.
Lemma same_sentences s data eof : result (t_scan_sentences s data eof) = scan_sentences s data eof.
Proof.
  unfold t_scan_sentences, scan_sentences. destruct (eof && (length data =? 0)); [reflexivity|]. apply result_bind; [apply same_loop|]. intros [d p st e|d st e].
  - apply result_bind; reflexivity.
  - destruct (negb eof); apply result_bind; reflexivity.
Qed.
Lemma step_ext f g s r : (forall d e, f d e = g d e) -> scan_step f s r = scan_step g s r.
Proof. intros H. unfold scan_step. rewrite H. reflexivity. Qed.
Lemma same_all s f : forall sc r acc, result (t_scan_all f (t_scan_sentences s) sc r acc) = scan_all f (scan_sentences s) sc r acc.
Proof.
  induction f as [|f IH]; intros; [reflexivity|]. cbn [t_scan_all scan_all]. apply result_bind.
  - unfold t_scan_step. cbn [result snd]. apply step_ext. apply same_sentences.
  - intros [t s'|s' r'|e]; [apply IH|apply IH|reflexivity].
Qed.
Theorem same_texts s r : result (t_scan_texts (t_scan_sentences s) r) = scan_texts (scan_sentences s) r.
Proof. apply same_all. Qed.

(** ** The counts of one call *)
Lemma compared_le l r : compared l r <= length l.
Proof. induction l as [|d l IH]; cbn; [lia|]. destruct (r =? d)%N; lia. Qed.
Lemma upd_nth_len {A} (l : list A) : forall i f, length (update_nth l i f) = length l.
Proof. induction l as [|x l IH]; intros [|i] f; cbn; try rewrite IH; reflexivity. Qed.
Lemma update_len {A} (l : list A) i f l' : update l i f = Ok l' -> length l' = length l.
Proof. unfold update. repeat match goal with |- context [match ?x with _ => _ end] => destruct x end; try discriminate. intros [= <-]. apply upd_nth_len. Qed.
Lemma copy_len n : forall data dst src data', copy_rune data dst src n = Ok data' -> length data' = length data.
Proof.
  induction n as [|n IH]; intros data dst src data'; cbn [copy_rune]; [intros [= <-]; reflexivity|].
  destruct (index data src) as [b| |]; cbn [rbind]; try discriminate. destruct (update data dst (fun _ => b)) as [d| |] eqn:E; cbn [rbind]; try discriminate.
  intros H. rewrite (IH _ _ _ _ H). exact (update_len E).
Qed.
Lemma t_copy_ok data e p n data' : result (t_copy data e p n) = Ok data' -> length data' = length data /\ steps (t_copy data e p n) <= n.
Proof.
  unfold t_copy. destruct (negb (e =? p)); cbn [result steps fst snd].
  - intros H. split; [exact (copy_len H)|lia].
  - intros [= <-]. split; [reflexivity|lia].
Qed.
Lemma from_size data p r n : p < length data -> decode_rune (from data p) = (r, n) -> 1 <= n /\ p + n <= length data.
Proof.
  intros L E. assert (N : from data p <> []) by (intros N; apply (f_equal (@length _)) in N; unfold from in N; rewrite skipn_length in N; cbn in N; lia).
  destruct (seg_head N) as (r' & b & R & E' & S & _ & B). rewrite E in E'. injection E' as <- ->. apply (f_equal (@length _)) in S. unfold from in S. rewrite skipn_length, app_length in S. lia.
Qed.

Section Counts.
Variable s : splitter.
Definition per_byte : nat := 2 + length (sp_delim s) + length (sp_follower s).
Let a := per_byte.
Lemma bind_ok {A B} (t : timed A) (f : A -> timed B) y : result (tbind t f) = Ok y -> exists x, result t = Ok x /\ result (f x) = Ok y /\ steps (tbind t f) = steps t + steps (f x).
Proof. unfold tbind. destruct (result t) as [x| |]; try discriminate. intros H. exists x. split; [reflexivity|]. split; [exact H|]. rewrite steps_charge. reflexivity. Qed.

Lemma tail_steps f : forall data p e nn data' p' e', p <= length data -> result (t_split_tail s f data p e nn) = Ok (data', p', e') ->
  length data' = length data /\ p <= p' <= length data /\ steps (t_split_tail s f data p e nn) <= a * (p' - p) + a.
Proof.
  induction f as [|f IH]; intros data p e nn data' p' e' L; cbn [t_split_tail]; [discriminate|].
  destruct (Nat.ltb_spec p (length data)) as [Lt|Ge]; [|cbn; intros [= <- <- <-]; split; [reflexivity|]; split; lia].
  rewrite result_charge, steps_charge. destruct (decode_rune (from data p)) as [r n] eqn:D. destruct (from_size Lt D) as (N1 & N2).
  assert (A2 : 2 <= a) by (unfold a, per_byte; lia).
  destruct (sp_skip s && is_space r).
  - destruct (sp_dlf s && (r =? line_feed)%N); [destruct nn|].
    + cbn. intros [= <- <- <-]. split; [reflexivity|]. split; nia.
    + intros H. destruct (IH _ _ _ _ _ _ _ N2 H) as (H1 & H2 & H3). split; [exact H1|]. split; [lia|]. nia.
    + intros H. destruct (IH _ _ _ _ _ _ _ N2 H) as (H1 & H2 & H3). split; [exact H1|]. split; [lia|]. nia.
  - intros H. apply bind_ok in H. destruct H as (d & E1 & H & ->). unfold t_delim in *. cbn [result steps fst snd] in *. injection E1 as <-.
    pose proof (compared_le (sp_delim s) r) as C1. apply bind_ok in H. destruct H as (d & E2 & H & ->).
    assert (C2 : steps (if is_delim s r then (0, Ok true) else t_follower s r) <= length (sp_follower s)) by (destruct (is_delim s r); [cbn; lia|apply compared_le]).
    destruct d.
    + apply bind_ok in H. destruct H as (dd & E3 & H & ->). destruct (t_copy_ok E3) as (L3 & C3). rewrite <- L3 in N2. destruct (IH _ _ _ _ _ _ _ N2 H) as (H1 & H2 & H3).
      split; [congruence|]. split; [lia|].
      assert (P : p' - p = n + (p' - (p + n))) by lia. rewrite P, Nat.mul_add_distr_l. assert (1 + length (sp_delim s) + length (sp_follower s) + n <= a * n) by (unfold a, per_byte; nia). lia.
    + cbn [result snd steps fst] in *. injection H as <- <- <-. split; [reflexivity|]. split; [lia|]. unfold a, per_byte in *. nia.
Qed.

Lemma loop_steps f : forall data p st e rc h nn, p <= length data ->
  match result (t_split_loop s f data p st e rc h nn) with
  | Ok (SplitReturn data' p' _ _) => length data' = length data /\ p < p' <= length data /\ steps (t_split_loop s f data p st e rc h nn) <= a * (p' - p) + a
  | Ok (SplitExhausted data' _ _) => length data' = length data /\ steps (t_split_loop s f data p st e rc h nn) <= a * (length data - p)
  | _ => True
  end.
Proof.
  induction f as [|f IH]; intros data p st e rc h nn L; cbn [t_split_loop]; [exact I|].
  destruct (Nat.ltb_spec p (length data)) as [Lt|Ge]; [|cbn; split; lia].
  rewrite result_charge, steps_charge. destruct (decode_rune (from data p)) as [r n] eqn:D. destruct (from_size Lt D) as (N1 & N2).
  assert (A2 : 2 <= a) by (unfold a, per_byte; lia). pose proof (compared_le (sp_delim s) r) as C1.
  assert (Q : forall k (data2 : bytes) (t : timed split_result), length data2 = length data -> 1 + k <= a * n -> match result t with
    | Ok (SplitReturn data' p' _ _) => length data' = length data2 /\ p + n < p' <= length data2 /\ steps t <= a * (p' - (p + n)) + a
    | Ok (SplitExhausted data' _ _) => length data' = length data2 /\ steps t <= a * (length data2 - (p + n)) | _ => True end ->
    match result t with
    | Ok (SplitReturn data' p' _ _) => length data' = length data /\ p < p' <= length data /\ 1 + (k + steps t) <= a * (p' - p) + a
    | Ok (SplitExhausted data' _ _) => length data' = length data /\ 1 + (k + steps t) <= a * (length data - p) | _ => True end).
  { intros k data2 t E K H. destruct (result t) as [[d' p' ? ?|d' ? ?]| |]; try exact I; rewrite E in H.
    - destruct H as (H1 & H2 & H3). split; [exact H1|]. split; [lia|]. assert (P : p' - p = n + (p' - (p + n))) by lia. rewrite P, Nat.mul_add_distr_l. lia.
    - destruct H as (H1 & H2). split; [exact H1|]. assert (P : length data - p = n + (length data - (p + n))) by lia. rewrite P, Nat.mul_add_distr_l. lia. }
  assert (AN : 1 + length (sp_delim s) + n <= a * n) by (unfold a, per_byte; nia).
  destruct (sp_skip s && is_space r).
  - destruct h; [apply (Q 0 data); [reflexivity|nia|apply IH; exact N2]|].
    unfold t_delim, tbind. cbn [result snd steps fst]. rewrite result_charge, steps_charge.
    destruct (is_delim s r); [cbn; split; [reflexivity|]; split; nia|].
    destruct (sp_dlf s && (r =? line_feed)%N); destruct nn; try (cbn [result snd steps fst]; split; [reflexivity|]; split; nia); apply (Q _ data); try reflexivity; try (apply IH; exact N2); lia.
  - destruct (tbind (t_copy data e p n) _) as [k rr] eqn:T. cbn [result steps fst snd]. destruct rr as [x| |]; try exact I.
    assert (T' : result (tbind (t_copy data e p n) (fun data0 => if sp_dlf s && (r =? line_feed)%N && nn then (0, Ok (SplitReturn data0 (p + n) st (e + n)))
      else let+ d := t_delim s r in if negb d && (rc + 1 <? sp_max s)%Z then t_split_loop s f data0 (p + n) st (e + n) (rc + 1) false (if sp_dlf s && (r =? line_feed)%N then true else nn)
      else let+ x := t_split_tail s (S (length data0)) data0 (p + n) (e + n) false in let '(data1, p0, end_0) := x in (0, Ok (SplitReturn data1 p0 st end_0)))) = Ok x) by (rewrite T; reflexivity).
    pose proof (bind_ok T') as (dd & E1 & H & S1). rewrite T in S1. cbn [steps fst] in S1. destruct (t_copy_ok E1) as (L1 & C2).
    destruct (sp_dlf s && (r =? line_feed)%N && nn).
    { cbn [result snd steps fst] in H, S1. injection H as <-. split; [exact L1|]. split; nia. }
    pose proof (bind_ok H) as (d & E2 & H2 & S2). rewrite S2 in S1. unfold t_delim in E2, S1. cbn [result steps fst snd] in E2, S1. injection E2 as <-.
    rewrite <- L1 in N2. destruct (negb (is_delim s r) && (rc + 1 <? sp_max s)%Z).
    + pose proof (IH dd (p + n) st (e + n) (rc + 1)%Z false (if sp_dlf s && (r =? line_feed)%N then true else nn) N2) as G.
      pose proof (Q (steps (t_copy data e p n) + compared (sp_delim s) r) dd _ L1 ltac:(lia) G) as G2. rewrite H2 in G2.
      rewrite S1. destruct x; [destruct G2 as (Ga & Gb & Gc); split; [exact Ga|]; split; [exact Gb|]|destruct G2 as (Ga & Gc); split; [exact Ga|]]; lia.
    + pose proof (bind_ok H2) as ([[d2 p2] e2] & E3 & H3 & S3). rewrite S3 in S1. cbn [result snd steps fst] in H3, S1. injection H3 as <-.
      destruct (tail_steps N2 E3) as (G1 & G2 & G3). split; [congruence|]. split; [lia|]. assert (P : p2 - p = n + (p2 - (p + n))) by lia. rewrite P, Nat.mul_add_distr_l. lia.
Qed.

(** A call that yields a sentence costs as much as the sentence is long; one that asks for more, as much as there is. *)
Lemma call_steps data eof data' adv tok : result (t_scan_sentences s data eof) = Ok (data', adv, tok) ->
  (tok <> None -> steps (t_scan_sentences s data eof) <= 2 * a * adv) /\ (tok = None -> steps (t_scan_sentences s data eof) <= 2 * a * length data).
Proof.
  remember (steps (t_scan_sentences s data eof)) as k eqn:K. revert K. unfold t_scan_sentences.
  destruct (eof && (length data =? 0)) eqn:E0; [cbn; intros -> [= <- <- <-]; split; [congruence|lia]|].
  intros K H. apply bind_ok in H. destruct H as (x & E & H & Q). pose proof (eq_trans K Q) as K1. clear K Q.
  pose proof (@loop_steps (S (length data)) data 0 0 0 0%Z true false (Nat.le_0_l _)) as L. rewrite E in L.
  assert (A2 : 2 <= a) by (unfold a, per_byte; lia).
  destruct x as [d p st e|d st e].
  - apply bind_ok in H. destruct H as (t & E1 & H & Q). pose proof (eq_trans K1 (f_equal (Nat.add _) Q)) as K2. clear K1 Q. cbn [result steps fst snd free_of_charge] in *. injection H as <- <- <-. destruct L as (L1 & L2 & L3). split; [intros _|discriminate]. nia.
  - destruct L as (L1 & L2). destruct (negb eof).
    + apply bind_ok in H. destruct H as (t & E1 & H & Q). pose proof (eq_trans K1 (f_equal (Nat.add _) Q)) as K2. clear K1 Q. cbn [result steps fst snd] in *. injection H as <- <- <-. split; [intros X; now destruct X|intros _]. nia.
    + apply bind_ok in H. destruct H as (t & E1 & H & Q). pose proof (eq_trans K1 (f_equal (Nat.add _) Q)) as K2. clear K1 Q. cbn [result steps fst snd free_of_charge] in *. injection H as <- <- <-. split; [intros _|discriminate]. nia.
Qed.
End Counts.

(** ** The counts of a run *)
Lemma loop_log tries r cap chunk err r' : read_loop tries r cap = (chunk, err, r') -> length (rd_log r) <= length (rd_log r') /\ (1 <= tries -> length (rd_log r) < length (rd_log r')).
Proof.
  revert r. induction tries as [|t IH]; intros r; cbn [read_loop]; [intros [= <- <- <-]; split; lia|].
  destruct (read r cap) as [[c e] r1] eqn:R. assert (L : length (rd_log r1) = S (length (rd_log r))).
  { unfold read in R. destruct (match rd_script r with [] => (S cap, false) | op :: _ => op end) as [lim eg]. injection R as _ _ <-. cbn. rewrite app_length. cbn. lia. }
  destruct e as [x|]; [intros [= <- <- <-]; lia|]. destruct c; [|intros [= <- <- <-]; lia]. intros H. apply IH in H. lia.
Qed.

Section Run.
Variable s : splitter.
Variable M : nat.
Hypothesis asks : forall data data' adv, (N.of_nat (length data) <= max_token_size)%N -> scan_sentences s data false = Ok (data', adv, None) -> length data <= M.
Definition sound (sc : scanner) : Prop := (sc_start sc + N.of_nat (length (sc_data sc)) <= sc_len sc /\ sc_len sc <= max_token_size)%N.

Lemma fill_counts sc r : sound sc -> match scan_fill sc r with
  | ScanMore sc' r' => sound sc' /\ length (sc_data sc') + length (rd_rest r') = length (sc_data sc) + length (rd_rest r) /\ length (rd_log r) < length (rd_log r')
  | ScanToken _ _ => False
  | ScanStop _ => True
  end.
Proof.
  intros (S1 & S2). unfold scan_fill. destruct (sc_err sc); [exact I|]. destruct (make_room sc) as [s'|] eqn:R; [|exact I].
  destruct (make_room_some R S1 S2) as (D & _ & L1 & L2). destruct (read_loop (S max_empty_reads) r _) as [[chunk err] r'] eqn:E.
  destruct (read_loop_ok E) as (G1 & G2 & _). destruct (loop_log E) as (_ & G3). rewrite D in *. cbn [sc_data].
  split; [split; cbn [sc_start sc_data sc_len]; [rewrite app_length; lia|exact L2]|]. split; [rewrite G1, !app_length; lia|]. apply G3. lia.
Qed.

Definition after (sc : scanner) (r : reader) (x : bytes * nat * option bytes) : res scan_outcome :=
  let '(data, adv, tok) := x in
  if length data <? adv then Ok (ScanStop (set_err (sc_err sc) ErrAdvanceTooFar))
  else match tok with
       | Some t =>
         match sc_err sc, adv with
         | Some _, O =>
           if max_empty_reads <? S (sc_empties sc) then Panic
           else Ok (ScanToken t (Scanner (skipn adv data) (sc_start sc + N.of_nat adv) (sc_len sc) (sc_err sc) (S (sc_empties sc))))
         | _, _ => Ok (ScanToken t (Scanner (skipn adv data) (sc_start sc + N.of_nat adv) (sc_len sc) (sc_err sc) 0))
         end
       | None => Ok (scan_fill (Scanner (skipn adv data) (sc_start sc + N.of_nat adv) (sc_len sc) (sc_err sc) (sc_empties sc)) r)
       end.
Definition at_end (sc : scanner) : bool := match sc_err sc with Some _ => true | None => false end.
Lemma step_cases split sc r : (sc_data sc = [] /\ sc_err sc = None /\ steps (t_scan_step split sc r) = 0 /\ result (t_scan_step split sc r) = Ok (scan_fill sc r)) \/
  (steps (t_scan_step split sc r) = steps (split (sc_data sc) (at_end sc)) /\ result (t_scan_step split sc r) = rbind (result (split (sc_data sc) (at_end sc))) (after sc r)).
Proof.
  unfold t_scan_step, scan_step, at_end, after. cbn [steps result fst snd].
  destruct (sc_data sc) as [|b d]; destruct (sc_err sc) as [e|]; [right|left|right|right]; repeat split; reflexivity.
Qed.

(** A step costs what it advances, or at most as much as may be waiting if it reads more or stops. *)
Lemma step_counts sc r o : sound sc -> result (t_scan_step (t_scan_sentences s) sc r) = Ok o -> match o with
  | ScanToken _ sc' => sound sc' /\ exists adv, steps (t_scan_step (t_scan_sentences s) sc r) <= 2 * per_byte s * adv /\ length (sc_data sc') + adv = length (sc_data sc)
  | ScanMore sc' r1 => sound sc' /\ steps (t_scan_step (t_scan_sentences s) sc r) <= 2 * per_byte s * M /\
      length (sc_data sc') + length (rd_rest r1) <= length (sc_data sc) + length (rd_rest r) /\ length (rd_log r) < length (rd_log r1)
  | ScanStop _ => steps (t_scan_step (t_scan_sentences s) sc r) <= 2 * per_byte s * M
  end.
Proof.
  intros Hs. destruct (step_cases (t_scan_sentences s) sc r) as [(D & Er & -> & ->)|(-> & ->)].
  - intros [= <-]. pose proof (@fill_counts sc r Hs) as F. destruct (scan_fill sc r) as [t sc'|sc' r1|e]; [destruct F| |lia]. destruct F as (F1 & F2 & F3). split; [exact F1|]. split; [lia|]. split; lia.
  - destruct (@sentences_contract s (sc_data sc) (at_end sc)) as (data' & adv & tok & E & C). pose proof E as E'. rewrite <- same_sentences in E'. rewrite E'. cbn [rbind].
    destruct (call_steps E') as (K1 & K2). unfold after. destruct C as [C1 C2 C3 C4]. destruct Hs as (S1 & S2).
    assert (La : length data' <? adv = false) by lia. rewrite La.
    assert (Sd : length (skipn adv data') = length (sc_data sc) - adv) by (rewrite skipn_length; lia).
    assert (Sok : forall e k, sound (Scanner (skipn adv data') (sc_start sc + N.of_nat adv) (sc_len sc) e k)) by (intros e k; split; cbn [sc_start sc_data sc_len]; lia).
    destruct tok as [t|].
    + assert (1 <= adv) by (apply C3; discriminate). assert (Q : steps (t_scan_sentences s (sc_data sc) (at_end sc)) <= 2 * per_byte s * adv) by (apply K1; discriminate).
      destruct adv as [|adv]; [lia|]. destruct (sc_err sc); intros [= <-]; (split; [apply Sok|]); exists (S adv); (split; [exact Q|cbn [sc_data]; refine (eq_trans (f_equal (fun n => n + S adv) Sd) _); lia]).
    + assert (Q : steps (t_scan_sentences s (sc_data sc) (at_end sc)) <= 2 * per_byte s * M).
      { destruct (at_end sc) eqn:A.
        - destruct (sc_data sc) as [|b d] eqn:D; [|exfalso; apply C4; [reflexivity|discriminate|reflexivity]]. specialize (K2 eq_refl). cbn [length] in K2. lia.
        - specialize (K2 eq_refl). assert (length (sc_data sc) <= M) by (eapply asks; [|exact E]; lia). nia. }
      intros [= <-]. pose proof (@fill_counts (Scanner (skipn adv data') (sc_start sc + N.of_nat adv) (sc_len sc) (sc_err sc) (sc_empties sc)) r (Sok _ _)) as F.
      destruct (scan_fill _ r) as [t sc'|sc' r1|e]; [destruct F| |exact Q]. destruct F as (F1 & F2 & F3). cbn [sc_data] in F2. split; [exact F1|]. split; [exact Q|]. split; [lia|exact F3].
Qed.

Lemma run_steps f : forall sc r acc toks err r', sound sc -> result (t_scan_all f (t_scan_sentences s) sc r acc) = Ok (toks, err, r') ->
  length (rd_log r) <= length (rd_log r') /\
  steps (t_scan_all f (t_scan_sentences s) sc r acc) <= 2 * per_byte s * (length (sc_data sc) + length (rd_rest r)) + 2 * per_byte s * M * (length (rd_log r') - length (rd_log r) + 1).
Proof.
  induction f as [|f IH]; intros sc r acc toks err r' Hs; cbn [t_scan_all]; [discriminate|]. intros H. apply bind_ok in H. destruct H as (o & E & H & ->).
  pose proof (step_counts Hs E) as St. set (b := 2 * per_byte s) in *. destruct o as [t sc'|sc' r1|e].
  - destruct St as (Hs' & adv & St & L). destruct (IH _ _ _ _ _ _ Hs' H) as (G1 & G2). split; [exact G1|]. rewrite <- L. fold b in G2. rewrite !Nat.mul_add_distr_l in *. lia.
  - destruct St as (Hs' & St & L & G). destruct (IH _ _ _ _ _ _ Hs' H) as (G1 & G2). split; [lia|]. fold b in G2.
    assert (P : length (rd_log r') - length (rd_log r) + 1 = S (length (rd_log r') - S (length (rd_log r)) + 1)) by lia.
    assert (b * M * (length (rd_log r') - length (rd_log r1) + 1) <= b * M * (length (rd_log r') - S (length (rd_log r)) + 1)) by (apply Nat.mul_le_mono_l; lia).
    assert (b * (length (sc_data sc') + length (rd_rest r1)) <= b * (length (sc_data sc) + length (rd_rest r))) by (apply Nat.mul_le_mono_l; exact L).
    rewrite P, Nat.mul_succ_r. lia.
  - cbn [result steps fst snd] in *. injection H as <- <- <-. split; [lia|].
    replace (length (rd_log r) - length (rd_log r) + 1) with 1 by lia. lia.
Qed.
Theorem texts_steps r toks err r' : scan_texts (scan_sentences s) r = Ok (toks, err, r') ->
  steps (t_scan_texts (t_scan_sentences s) r) <= 2 * per_byte s * length (rd_rest r) + 2 * per_byte s * M * (length (rd_log r') - length (rd_log r) + 1).
Proof.
  rewrite <- same_texts. intros H. unfold t_scan_texts in *. apply (@run_steps _ new_scanner) in H; [exact (proj2 H)|]. split; cbn; discriminate.
Qed.
End Run.

(** Never more than a full buffer is waiting. *)
Theorem texts_linear s r toks err r' : scan_texts (scan_sentences s) r = Ok (toks, err, r') ->
  steps (t_scan_texts (t_scan_sentences s) r) <= 2 * per_byte s * (length (rd_rest r) + N.to_nat max_token_size * (length (rd_log r') - length (rd_log r) + 1)).
Proof.
  intros H. rewrite Nat.mul_add_distr_l, Nat.mul_assoc. apply (@texts_steps s (N.to_nat max_token_size)) with (2 := H). intros data _ _ L _. lia.
Qed.
(** If no white space is skipped, never more than the longest sentence is waiting. *)
Theorem texts_short s r toks err r' : sp_skip s = false -> scan_texts (scan_sentences s) r = Ok (toks, err, r') ->
  steps (t_scan_texts (t_scan_sentences s) r) <= 2 * per_byte s * (length (rd_rest r) + 4 * Z.to_nat (sp_max s) * (length (rd_log r') - length (rd_log r) + 1)).
Proof.
  intros Hk H. rewrite Nat.mul_add_distr_l, Nat.mul_assoc. apply (@texts_steps s (4 * Z.to_nat (sp_max s))) with (2 := H). intros data data' adv _ E.
  destruct data as [|b0 d0]; [cbn; lia|]. remember (b0 :: d0) as data eqn:Ed.
  destruct (@split_call s data false) as [(c & rest & ? & ? & E' & _)|[(X & _)|(_ & _ & V & _)]]; [subst; discriminate|rewrite E in E'; discriminate|discriminate|].
  unfold SpecSent.visible in V. rewrite Hk in V. pose proof (text_le_runes (segs_le4 data)) as T. rewrite segs_concat in T. refine (Nat.le_trans _ _ _ T _). destruct V as [V|V]; [rewrite V; cbn [length]; lia|]. match type of V with (Z.of_nat ?n < _)%Z => change (4 * n <= 4 * Z.to_nat (sp_max s)) end. lia.
Qed.
