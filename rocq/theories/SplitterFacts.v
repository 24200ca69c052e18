(** Facts about ScanSentences: the in-place loops compute a function of the decoded runes. *)
From Verif Require Import Splitter ScannerFacts Utf8Facts.
From Coq Require Import List Arith Lia ZifyBool ZifyNat ZifyN.
Import ListNotations.
Set Implicit Arguments.
Unset Strict Implicit.

(** ** The loops on decoded runes *)
Section Abs.
Variable s : splitter.

Fixpoint abs_tail (l : list (N * bytes)) (kept : bytes) (nn : bool) : bytes * list (N * bytes) :=
  match l with
  | [] => (kept, [])
  | (r, b) :: l' =>
    if sp_skip s && is_space r then
      if sp_dlf s && (r =? line_feed)%N then if nn then (kept, l') else abs_tail l' kept true
      else abs_tail l' kept nn
    else if is_delim s r || is_follower s r then abs_tail l' (kept ++ b) nn
    else (kept, l)
  end.

Inductive abs_result := ATok (kept : bytes) (rest : list (N * bytes)) | AEnd (kept : bytes).

Fixpoint abs_loop (l : list (N * bytes)) (kept : bytes) (rcount : Z) (head nn : bool) : abs_result :=
  match l with
  | [] => AEnd kept
  | (r, b) :: l' =>
    if sp_skip s && is_space r then
      if head then abs_loop l' kept rcount head nn
      else if is_delim s r then ATok kept l'
      else if sp_dlf s && (r =? line_feed)%N then
        if nn then ATok kept l' else abs_loop l' kept rcount head true
      else abs_loop l' kept rcount head false
    else
      if sp_dlf s && (r =? line_feed)%N && nn then ATok (kept ++ b) l'
      else
        let nn' := if sp_dlf s && (r =? line_feed)%N then true else nn in
        if negb (is_delim s r) && (rcount + 1 <? sp_max s)%Z then abs_loop l' (kept ++ b) (rcount + 1) false nn'
        else let (k, l'') := abs_tail l' (kept ++ b) false in ATok k l''
  end.

(** ** The copies *)
Lemma index_mid (A : bytes) b R : index (A ++ b :: R) (length A) = Ok b.
Proof. unfold index. rewrite nth_error_app2, Nat.sub_diag by lia. reflexivity. Qed.
Lemma update_mid (A : bytes) b R f : update (A ++ b :: R) (length A) f = Ok (A ++ f b :: R).
Proof.
  unfold update. rewrite app_length. cbn [length].
  destruct (length A <? length A + S (length R))%nat eqn:E; [|lia].
  f_equal. clear E. induction A as [|a A IH]; cbn; [reflexivity|f_equal; assumption].
Qed.

Lemma copy_rune_ok w : forall A J R, exists J', length J' = length J /\
  copy_rune (A ++ J ++ w ++ R) (length A) (length (A ++ J)) (length w) = Ok (A ++ w ++ J' ++ R).
Proof.
  induction w as [|b w IH]; intros A J R.
  - exists J. split; reflexivity.
  - cbn [length copy_rune]. rewrite app_assoc. cbn [app]. rewrite index_mid. cbn [rbind].
    assert (Hup : exists J2, length J2 = length J /\ update ((A ++ J) ++ b :: w ++ R) (length A) (fun _ => b) = Ok ((A ++ [b]) ++ J2 ++ w ++ R)).
    { destruct J as [|j J].
      - exists []. split; [reflexivity|]. rewrite app_nil_r, update_mid, <- app_assoc. reflexivity.
      - exists (J ++ [b]). split; [rewrite app_length; cbn; lia|].
        rewrite <- app_assoc. cbn [app]. rewrite update_mid, <- !app_assoc. reflexivity. }
    destruct Hup as (J2 & L2 & ->). cbn [rbind].
    destruct (IH (A ++ [b]) J2 R) as (J' & L' & E).
    replace (S (length A)) with (length (A ++ [b])) by (rewrite app_length; cbn; lia).
    replace (S (length (A ++ J))) with (length ((A ++ [b]) ++ J2)) by (rewrite !app_length; cbn; lia).
    rewrite E. exists J'. split; [congruence|]. rewrite <- !app_assoc. reflexivity.
Qed.

Lemma fill_blank_ok R : forall A, fill_blank (A ++ R) (length A) (length R) = Ok (A ++ repeat x20 (length R)).
Proof.
  induction R as [|b R IH]; intros A; [reflexivity|].
  cbn [length fill_blank repeat]. rewrite update_mid. cbn [rbind].
  replace (A ++ x20 :: R) with ((A ++ [x20]) ++ R) by (rewrite <- app_assoc; reflexivity).
  replace (S (length A)) with (length (A ++ [x20])) by (rewrite app_length; cbn; lia).
  rewrite IH, <- app_assoc. reflexivity.
Qed.

Lemma from_mid A R p : p = length A -> from (A ++ R) p = R.
Proof. intros ->. unfold from. rewrite skipn_app, skipn_all, Nat.sub_diag. reflexivity. Qed.

(** Taking one rune off the front. *)
Lemma seg_head R : R <> [] -> exists r b R', decode_rune R = (r, length b) /\ R = b ++ R' /\ segs R = (r, b) :: segs R' /\ (1 <= length b)%nat.
Proof.
  intros Hne. destruct (decode_rune R) as [r w] eqn:E. pose proof (decode_width Hne) as Hw. rewrite E in Hw. cbn in Hw.
  exists r, (firstn w R), (skipn w R). rewrite firstn_length_le by lia.
  split; [reflexivity|]. split; [symmetry; apply firstn_skipn|]. split; [|lia].
  rewrite (segs_unfold Hne), E. reflexivity.
Qed.

Definition maybe_copy data end_ p size : res bytes :=
  if negb (end_ =? p)%nat then copy_rune data end_ p size else Ok data.
Lemma maybe_copy_ok A J w R end_ p : end_ = length A -> p = length (A ++ J) -> exists J', length J' = length J /\
  maybe_copy (A ++ J ++ w ++ R) end_ p (length w) = Ok (A ++ w ++ J' ++ R).
Proof.
  intros -> ->. unfold maybe_copy. destruct (length A =? length (A ++ J))%nat eqn:E.
  - exists []. rewrite app_length in E. destruct J; [|cbn in E; lia]. split; reflexivity.
  - apply copy_rune_ok.
Qed.

Lemma split_tail_ok fuel : forall A J R nn p end_, (length R < fuel)%nat -> end_ = length A -> p = length (A ++ J) ->
  exists K J' R', split_tail s fuel (A ++ J ++ R) p end_ nn =
      Ok (A ++ K ++ J' ++ R', length (A ++ K ++ J'), length (A ++ K)) /\
    (forall kept, abs_tail (segs R) kept nn = (kept ++ K, segs R')) /\
    length (A ++ K ++ J' ++ R') = length (A ++ J ++ R) /\ exists C, R = C ++ R'.
Proof.
  induction fuel as [|f IH]; intros A J R nn p end_ Hf -> ->; [lia|].
  destruct R as [|b0 R0] eqn:ER.
  { exists [], J, []. cbn [split_tail]. rewrite !app_nil_r.
    destruct (length (A ++ J) <? length (A ++ J))%nat eqn:E; [lia|]. cbn [app]. rewrite ?app_nil_r.
    split; [reflexivity|]. split; [intros kept; cbn; rewrite app_nil_r; reflexivity|]. split; [reflexivity|]. exists []. reflexivity. }
  rewrite <- ER in *. assert (Hne : R <> []) by (rewrite ER; discriminate). clear ER b0 R0.
  destruct (seg_head Hne) as (r & w & R1 & Ed & -> & Es & Hw).
  cbn [split_tail].
  destruct (length (A ++ J) <? length (A ++ J ++ w ++ R1))%nat eqn:El; [|rewrite !app_length in El; lia].
  replace (from (A ++ J ++ w ++ R1) (length (A ++ J))) with (w ++ R1)
    by (rewrite (app_assoc A), from_mid; reflexivity).
  rewrite Ed, Es. rewrite app_length in Hf.
  assert (Hskip : forall nn', exists K J' R', split_tail s f (A ++ J ++ w ++ R1) (length (A ++ J) + length w) (length A) nn' =
      Ok (A ++ K ++ J' ++ R', length (A ++ K ++ J'), length (A ++ K)) /\
    (forall kept, abs_tail (segs R1) kept nn' = (kept ++ K, segs R')) /\
    length (A ++ K ++ J' ++ R') = length (A ++ J ++ w ++ R1) /\ exists C, w ++ R1 = C ++ R').
  { intros nn'. destruct (IH A (J ++ w) R1 nn' (length (A ++ J) + length w)%nat (length A)) as (K & J' & R' & E1 & E2 & E3 & (C & E4));
      [lia|reflexivity|rewrite !app_length; lia|].
    exists K, J', R'. rewrite <- app_assoc in E1, E3. split; [assumption|]. split; [assumption|]. split; [assumption|].
    exists (w ++ C). rewrite E4, app_assoc. reflexivity. }
  cbn [abs_tail].
  destruct (sp_skip s && is_space r).
  - destruct (sp_dlf s && (r =? line_feed)%N).
    + destruct nn; [|apply Hskip].
      exists [], (J ++ w), R1. cbn [app]. rewrite <- !app_assoc, !app_nil_r.
      split; [f_equal; f_equal; f_equal; rewrite !app_length; lia|].
      split; [intros kept; rewrite app_nil_r; reflexivity|]. split; [reflexivity|]. exists w. reflexivity.
    + apply Hskip.
  - destruct (is_delim s r || is_follower s r).
    + fold (maybe_copy (A ++ J ++ w ++ R1) (length A) (length (A ++ J)) (length w)).
      destruct (@maybe_copy_ok A J w R1 _ _ eq_refl eq_refl) as (J2 & L2 & ->). cbn [rbind].
      destruct (IH (A ++ w) J2 R1 nn (length (A ++ J) + length w)%nat (length A + length w)%nat) as (K & J' & R' & E1 & E2 & E3 & (C & E4));
        [lia|rewrite app_length; lia|rewrite !app_length; lia|].
      exists (w ++ K), J', R'. repeat rewrite <- app_assoc in E1. repeat rewrite <- app_assoc in E3.
      split; [rewrite <- ?app_assoc in *; assumption|].
      split; [intros kept; rewrite (E2 (kept ++ w)), <- app_assoc; reflexivity|].
      split; [rewrite <- !app_assoc, E3, !app_length; lia|]. exists (w ++ C). rewrite E4, app_assoc. reflexivity.
    + exists [], J, (w ++ R1). cbn [app]. rewrite !app_nil_r.
      split; [reflexivity|]. split; [intros kept; rewrite app_nil_r, Es; reflexivity|]. split; [reflexivity|]. exists []. reflexivity.
Qed.

(** The first rune is not skipped. *)
Definition starts_visible (R : bytes) : Prop :=
  match segs R with [] => True | g :: _ => sp_skip s && is_space (fst g) = false end.

Lemma split_loop_ok fuel : forall P K J R rc head nn p start end_, (length R < fuel)%nat ->
  start = length P -> end_ = length (P ++ K) -> p = length (P ++ K ++ J) -> (head = true -> K = [] /\ J = []) -> (head = false -> K <> []) ->
  match abs_loop (segs R) K rc head nn with
  | ATok K' l' => exists P' J' R', split_loop s fuel (P ++ K ++ J ++ R) p start end_ rc head nn =
        Ok (SplitReturn (P' ++ K' ++ J' ++ R') (length (P' ++ K' ++ J')) (length P') (length (P' ++ K'))) /\
      segs R' = l' /\ length (P' ++ K' ++ J' ++ R') = length (P ++ K ++ J ++ R) /\ exists C, R = C ++ R' /\ (1 <= length C)%nat
  | AEnd K' => exists P' J', split_loop s fuel (P ++ K ++ J ++ R) p start end_ rc head nn =
        Ok (SplitExhausted (P' ++ K' ++ J') (length P') (length (P' ++ K'))) /\
      length (P' ++ K' ++ J') = length (P ++ K ++ J ++ R) /\ (K' = [] -> J' = []) /\
      (head = false \/ starts_visible R -> P' = P)
  end.
Proof.
  induction fuel as [|f IH]; intros P K J R rc head nn p start end_ Hf -> -> -> Hhead Hbody; [lia|].
  destruct R as [|b0 R0] eqn:ER.
  { cbn [segs segs_fuel length abs_loop]. exists P, J. cbn [split_loop]. rewrite !app_nil_r.
    destruct (length (P ++ K ++ J) <? length (P ++ K ++ J))%nat eqn:E; [lia|]. split; [reflexivity|]. split; [reflexivity|]. split; [|reflexivity]. intros EK. destruct head; [apply Hhead; reflexivity|destruct (Hbody eq_refl EK)]. }
  rewrite <- ER in *. assert (Hne : R <> []) by (rewrite ER; discriminate). clear ER b0 R0.
  destruct (seg_head Hne) as (r & w & R1 & Ed & -> & Es & Hw).
  cbn [split_loop]. rewrite Es. cbn [abs_loop].
  destruct (length (P ++ K ++ J) <? length (P ++ K ++ J ++ w ++ R1))%nat eqn:El; [|rewrite !app_length in El; lia].
  replace (from (P ++ K ++ J ++ w ++ R1) (length (P ++ K ++ J))) with (w ++ R1)
    by (rewrite (app_assoc K), (app_assoc P), from_mid; [reflexivity|rewrite !app_length; lia]).
  rewrite Ed. rewrite app_length in Hf.
  assert (Hskip : forall nn', head = false ->
    match abs_loop (segs R1) K rc head nn' with
    | ATok K' l' => exists P' J' R', split_loop s f (P ++ K ++ J ++ w ++ R1) (length (P ++ K ++ J) + length w) (length P) (length (P ++ K)) rc head nn' =
        Ok (SplitReturn (P' ++ K' ++ J' ++ R') (length (P' ++ K' ++ J')) (length P') (length (P' ++ K'))) /\
      segs R' = l' /\ length (P' ++ K' ++ J' ++ R') = length (P ++ K ++ J ++ w ++ R1) /\ exists C, w ++ R1 = C ++ R' /\ (1 <= length C)%nat
    | AEnd K' => exists P' J', split_loop s f (P ++ K ++ J ++ w ++ R1) (length (P ++ K ++ J) + length w) (length P) (length (P ++ K)) rc head nn' =
        Ok (SplitExhausted (P' ++ K' ++ J') (length P') (length (P' ++ K'))) /\
      length (P' ++ K' ++ J') = length (P ++ K ++ J ++ w ++ R1) /\ (K' = [] -> J' = []) /\ P' = P
    end).
  { intros nn' ->.
    pose proof (IH P K (J ++ w) R1 rc false nn' (length (P ++ K ++ J) + length w)%nat _ _ ltac:(lia) eq_refl eq_refl) as H.
    rewrite <- !app_assoc in H. specialize (H ltac:(rewrite !app_length; lia) ltac:(discriminate) ltac:(auto)).
    destruct (abs_loop (segs R1) K rc false nn'); [|destruct H as (P' & J' & E1 & E2 & E3 & E4); exists P', J'; repeat (split; [assumption|]); apply E4; left; reflexivity].
    destruct H as (P' & J' & R' & E1 & E2 & E3 & C & -> & HC). exists P', J', R'. split; [assumption|]. split; [assumption|].
    split; [assumption|]. exists (w ++ C). rewrite <- app_assoc, app_length. split; [reflexivity|lia]. }
  assert (Hret : exists P' J' R', Ok (SplitReturn (P ++ K ++ J ++ w ++ R1) (length (P ++ K ++ J) + length w) (length P) (length (P ++ K))) =
        Ok (SplitReturn (P' ++ K ++ J' ++ R') (length (P' ++ K ++ J')) (length P') (length (P' ++ K))) /\
      segs R' = segs R1 /\ length (P' ++ K ++ J' ++ R') = length (P ++ K ++ J ++ w ++ R1) /\ exists C, w ++ R1 = C ++ R' /\ (1 <= length C)%nat).
  { exists P, (J ++ w), R1. rewrite <- !app_assoc. split; [f_equal; f_equal; rewrite !app_length; lia|].
    split; [reflexivity|]. split; [reflexivity|]. exists w. auto. }
  assert (Hskip' : forall nn', head = false ->
    match abs_loop (segs R1) K rc head nn' with
    | ATok K' l' => exists P' J' R', split_loop s f (P ++ K ++ J ++ w ++ R1) (length (P ++ K ++ J) + length w) (length P) (length (P ++ K)) rc head nn' =
        Ok (SplitReturn (P' ++ K' ++ J' ++ R') (length (P' ++ K' ++ J')) (length P') (length (P' ++ K'))) /\
      segs R' = l' /\ length (P' ++ K' ++ J' ++ R') = length (P ++ K ++ J ++ w ++ R1) /\ exists C, w ++ R1 = C ++ R' /\ (1 <= length C)%nat
    | AEnd K' => exists P' J', split_loop s f (P ++ K ++ J ++ w ++ R1) (length (P ++ K ++ J) + length w) (length P) (length (P ++ K)) rc head nn' =
        Ok (SplitExhausted (P' ++ K' ++ J') (length P') (length (P' ++ K'))) /\
      length (P' ++ K' ++ J') = length (P ++ K ++ J ++ w ++ R1) /\ (K' = [] -> J' = []) /\ (head = false \/ starts_visible (w ++ R1) -> P' = P)
    end).
  { intros nn' Hh. specialize (Hskip nn' Hh). destruct (abs_loop (segs R1) K rc head nn'); [assumption|].
    destruct Hskip as (P' & J' & E1 & E2 & E3 & E4). exists P', J'. auto. }
  destruct (sp_skip s && is_space r) eqn:Esk.
  - destruct head.
    + destruct (Hhead eq_refl) as [-> ->]. cbn [app] in *.
      pose proof (IH (P ++ w) [] [] R1 rc true nn (length P + length w)%nat (length P + length w)%nat (length P + length w)%nat) as H.
      cbn [app] in H. rewrite !app_nil_r, <- app_assoc in H. rewrite app_nil_r.
      specialize (H ltac:(lia) ltac:(rewrite app_length; lia) ltac:(rewrite app_length; lia) ltac:(rewrite app_length; lia) ltac:(auto) ltac:(discriminate)).
      destruct (abs_loop (segs R1) [] rc true nn).
      2:{ destruct H as (P' & J' & E1 & E2 & E3 & _). exists P', J'. repeat (split; [assumption|]). intros [Hx|Hx]; [discriminate|].
          unfold starts_visible in Hx. rewrite Es in Hx. cbn [fst] in Hx. congruence. }
      destruct H as (P' & J' & R' & E1 & E2 & E3 & C & -> & HC). exists P', J', R'. split; [assumption|]. split; [assumption|].
      split; [assumption|]. exists (w ++ C). rewrite <- app_assoc, app_length. split; [reflexivity|lia].
    + destruct (is_delim s r); [exact Hret|]. destruct (sp_dlf s && (r =? line_feed)%N).
      * destruct nn; [exact Hret|apply Hskip'; reflexivity].
      * destruct nn; apply Hskip'; reflexivity.
  - fold (maybe_copy (P ++ K ++ J ++ w ++ R1) (length (P ++ K)) (length (P ++ K ++ J)) (length w)).
    destruct (@maybe_copy_ok (P ++ K) J w R1 (length (P ++ K)) (length (P ++ K ++ J)) eq_refl ltac:(rewrite app_assoc; reflexivity)) as (J2 & L2 & E).
    rewrite <- !app_assoc in E. rewrite E. cbn [rbind]. clear E.
    destruct (sp_dlf s && (r =? line_feed)%N && nn).
    { exists P, J2, R1. rewrite <- !app_assoc. split; [f_equal; f_equal; rewrite !app_length; lia|].
      split; [reflexivity|]. split; [rewrite !app_length; lia|]. exists w. auto. }
    destruct (negb (is_delim s r) && (rc + 1 <? sp_max s)%Z).
    + set (nn' := if sp_dlf s && (r =? line_feed)%N then true else nn).
      pose proof (IH P (K ++ w) J2 R1 (rc + 1)%Z false nn' (length (P ++ K ++ J) + length w)%nat (length P) (length (P ++ K) + length w)%nat) as H.
      rewrite <- !app_assoc in H.
      specialize (H ltac:(lia) eq_refl ltac:(rewrite !app_length; lia) ltac:(rewrite !app_length; lia) ltac:(discriminate)
        ltac:(intros _ Ex; apply app_eq_nil in Ex; destruct Ex as [_ ->]; cbn in Hw; lia)).
      destruct (abs_loop (segs R1) (K ++ w) (rc + 1) false nn').
      * destruct H as (P' & J' & R' & E1 & E2 & E3 & C & -> & HC). exists P', J', R'. split; [assumption|]. split; [assumption|].
        split; [rewrite E3, !app_length; lia|]. exists (w ++ C). rewrite <- app_assoc, app_length. split; [reflexivity|lia].
      * destruct H as (P' & J' & E1 & E2 & E3 & E4). exists P', J'. split; [assumption|]. split; [rewrite E2, !app_length; lia|]. split; [assumption|]. intros _. apply E4. left. reflexivity.
    + destruct (@split_tail_ok (S (length (P ++ K ++ w ++ J2 ++ R1))) (P ++ K ++ w) J2 R1 false
                  (length (P ++ K ++ J) + length w)%nat (length (P ++ K) + length w)%nat) as (K2 & J3 & R2 & E1 & E2 & E3 & C & E4);
        [rewrite !app_length; lia|rewrite !app_length; lia|rewrite !app_length; lia|].
      rewrite <- !app_assoc in E1, E3. rewrite E1. cbn [rbind]. rewrite (E2 (K ++ w)).
      exists P, J3, R2. rewrite <- !app_assoc. split; [reflexivity|]. split; [reflexivity|].
      split; [rewrite E3, !app_length; lia|]. exists (w ++ C). rewrite E4, <- app_assoc, app_length. split; [reflexivity|lia].
Qed.

(** ScanSentences in terms of the decoded runes. *)
Lemma scan_sentences_ok data eof : data <> [] ->
  match abs_loop (segs data) [] 0 true false with
  | ATok K l => exists data' adv, scan_sentences s data eof = Ok (data', adv, Some K) /\
      skipn adv data' = segs_text l /\ segs (segs_text l) = l /\ length data' = length data /\
      (1 <= adv <= length data)%nat /\ exists C, data = C ++ segs_text l
  | AEnd K =>
      if eof then exists data', scan_sentences s data eof = Ok (data', length data, Some K) /\ length data' = length data
      else exists data' adv k, scan_sentences s data eof = Ok (data', adv, None) /\ skipn adv data' = K ++ repeat x20 k /\
             length data' = length data /\ (adv <= length data)%nat /\ (K = [] -> k = 0%nat) /\
             (starts_visible data -> adv = 0%nat)
  end.
Proof.
  intros Hne. unfold scan_sentences.
  replace (eof && (length data =? 0)%nat) with false by (destruct data; [congruence|destruct eof; reflexivity]).
  pose proof (@split_loop_ok (S (length data)) [] [] [] data 0 true false 0 0 0 ltac:(lia) eq_refl eq_refl eq_refl ltac:(auto) ltac:(discriminate)) as H.
  cbn [app] in H. destruct (abs_loop (segs data) [] 0 true false) as [K l|K].
  - destruct H as (P & J & R & E & <- & EL & C & EC & HC). rewrite E. cbn [rbind].
    assert (Hs : slice (P ++ K ++ J ++ R) (length P) (length (P ++ K)) = Ok K).
    { unfold slice. rewrite !app_length.
      replace ((length P <=? length P + length K)%nat && (length P + length K <=? length P + (length K + (length J + length R)))%nat) with true
        by (symmetry; apply andb_true_iff; split; apply Nat.leb_le; lia).
      rewrite skipn_app, skipn_all, Nat.sub_diag. cbn [app skipn]. f_equal.
      replace (length P + length K - length P)%nat with (length K) by lia.
      rewrite firstn_app, firstn_all, Nat.sub_diag. cbn. apply app_nil_r. }
    rewrite Hs. cbn [rbind]. exists (P ++ K ++ J ++ R), (length (P ++ K ++ J)). split; [reflexivity|]. rewrite segs_concat.
    assert (Hadv : length (P ++ K ++ J) = length C).
    { rewrite EC in EL. rewrite !app_length in *. lia. }
    split; [|split; [reflexivity|split; [assumption|split; [|exists C; assumption]]]].
    + replace (P ++ K ++ J ++ R) with ((P ++ K ++ J) ++ R) by (rewrite <- !app_assoc; reflexivity).
      rewrite skipn_app, skipn_all, Nat.sub_diag. reflexivity.
    + rewrite Hadv, EC, app_length. lia.
  - destruct H as (P & J & E & EL & EJ & EP). rewrite E. cbn [rbind]. destruct eof; cbn [negb].
    + assert (Hs : slice (P ++ K ++ J) (length P) (length (P ++ K)) = Ok K).
      { unfold slice. rewrite !app_length.
        replace ((length P <=? length P + length K)%nat && (length P + length K <=? length P + (length K + length J))%nat) with true
          by (symmetry; apply andb_true_iff; split; apply Nat.leb_le; lia).
        rewrite skipn_app, skipn_all, Nat.sub_diag. cbn [app skipn]. f_equal.
        replace (length P + length K - length P)%nat with (length K) by lia.
        rewrite firstn_app, firstn_all, Nat.sub_diag. cbn. apply app_nil_r. }
      rewrite Hs. cbn [rbind]. exists (P ++ K ++ J). rewrite EL. auto.
    + rewrite app_assoc. replace (length ((P ++ K) ++ J) - length (P ++ K))%nat with (length J) by (rewrite !app_length; lia).
      rewrite fill_blank_ok. cbn [rbind]. exists ((P ++ K) ++ repeat x20 (length J)), (length P), (length J).
      split; [reflexivity|]. split; [|split; [|split; [|split]]].
      * rewrite <- app_assoc, skipn_app, skipn_all, Nat.sub_diag. reflexivity.
      * rewrite app_length, repeat_length. rewrite !app_length in *. lia.
      * rewrite !app_length in *. lia.
      * intros Ek. rewrite (EJ Ek). reflexivity.
      * intros Hx. rewrite (EP (or_intror Hx)). reflexivity.
Qed.
End Abs.
