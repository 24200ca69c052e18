(** Facts about sentence splitting with a bufio.Scanner. *)
From Verif Require Import SpecSent ScannerFacts SplitterFacts Utf8Facts.
From Coq Require Import List Arith Lia ZifyBool ZifyNat ZifyN.
Import ListNotations.
Set Implicit Arguments.
Unset Strict Implicit.

Lemma is_delim_in s r : is_delim s r = true <-> In r (sp_delim s).
Proof.
  unfold is_delim. rewrite existsb_exists. split.
  - intros (x & Hin & E). apply N.eqb_eq in E. subst. assumption.
  - intros H. exists r. split; [assumption|apply N.eqb_refl].
Qed.
Lemma is_follower_in s r : is_follower s r = true <-> In r (sp_follower s).
Proof.
  unfold is_follower. rewrite existsb_exists. split.
  - intros (x & Hin & E). apply N.eqb_eq in E. subst. assumption.
  - intros H. exists r. split; [assumption|apply N.eqb_refl].
Qed.

Section Split.
Variable s : splitter.

Lemma visible_nil : visible s [] = [].
Proof. unfold visible. destruct (sp_skip s); reflexivity. Qed.
Lemma visible_app a b : visible s (a ++ b) = visible s a ++ visible s b.
Proof. unfold visible. destruct (sp_skip s); [apply filter_app|reflexivity]. Qed.
Lemma visible_space g : sp_skip s && is_space (fst g) = true -> visible s [g] = [].
Proof. unfold visible. intros H. apply andb_true_iff in H. destruct H as [-> H]. cbn. rewrite H. reflexivity. Qed.
Lemma visible_keep g : sp_skip s && is_space (fst g) = false -> visible s [g] = [g].
Proof. unfold visible. destruct (sp_skip s); [|reflexivity]. cbn. intros ->. reflexivity. Qed.

Definition has_lf (l : list (N * bytes)) : Prop := exists l1 g l2, l = l1 ++ g :: l2 /\ fst g = line_feed.
Lemma has_lf_app a b : has_lf a -> has_lf (a ++ b).
Proof. intros (l1 & g & l2 & -> & H). exists l1, g, (l2 ++ b). rewrite <- app_assoc. auto. Qed.
Lemma has_lf_snoc a g : fst g = line_feed -> has_lf (a ++ [g]).
Proof. intros H. exists a, g, []. auto. Qed.
Lemma two_lf a g : has_lf a -> fst g = line_feed -> two_line_feeds (a ++ [g]).
Proof. intros (l1 & g1 & l2 & -> & H1) H2. exists l1, g1, l2, g. rewrite <- app_assoc. auto. Qed.

(** What follows does not belong to the sentence. *)
Definition outside (l : list (N * bytes)) : Prop :=
  match l with [] => True | g :: _ => ~ tail_rune s g /\ (sp_skip s = true -> is_space (fst g) = false) end.

Lemma abs_tail_spec l : forall c0 kept nn k l', abs_tail s l kept nn = (k, l') ->
  (nn = true -> has_lf c0) ->
  exists c, l = c ++ l' /\ k = kept ++ segs_text (visible s c) /\ Forall (tail_rune s) (visible s c) /\
    (outside l' \/ (sp_dlf s = true /\ two_line_feeds (c0 ++ c))).
Proof.
  induction l as [|[r b] l IH]; intros c0 kept nn k l'; cbn [abs_tail].
  - intros [= <- <-] _. exists []. rewrite visible_nil. cbn [segs_text map concat]. rewrite !app_nil_r. split; [reflexivity|]. split; [reflexivity|]. split; [constructor|]. left. exact I.
  - intros H Hnn. destruct (sp_skip s && is_space r) eqn:Esp.
    + pose proof (@visible_space (r, b) Esp) as Hv.
      destruct (sp_dlf s && (r =? line_feed)%N) eqn:Elf.
      * destruct nn.
        -- injection H as <- <-. exists [(r, b)]. rewrite Hv. cbn [segs_text map concat app]. rewrite app_nil_r. repeat split; auto. right.
           apply andb_true_iff in Elf. destruct Elf as [E1 E2]. apply N.eqb_eq in E2. split; [assumption|]. apply two_lf; auto.
        -- apply IH with (c0 := c0 ++ [(r, b)]) in H.
           ++ destruct H as (c & -> & -> & Hf & He). exists ((r, b) :: c).
              change ((r, b) :: c) with ([(r, b)] ++ c). rewrite visible_app, Hv. rewrite <- app_assoc in He. auto.
           ++ intros _. apply andb_true_iff in Elf. destruct Elf as [E1 E2]. apply N.eqb_eq in E2. apply has_lf_snoc. assumption.
      * apply IH with (c0 := c0 ++ [(r, b)]) in H.
        -- destruct H as (c & -> & -> & Hf & He). exists ((r, b) :: c).
           change ((r, b) :: c) with ([(r, b)] ++ c). rewrite visible_app, Hv. rewrite <- app_assoc in He. auto.
        -- intros Hn. apply has_lf_app. auto.
    + destruct (is_delim s r || is_follower s r) eqn:Ed.
      * apply IH with (c0 := c0 ++ [(r, b)]) in H.
        -- destruct H as (c & -> & -> & Hf & He). exists ((r, b) :: c).
           change ((r, b) :: c) with ([(r, b)] ++ c). rewrite visible_app, (@visible_keep (r, b) Esp). rewrite <- app_assoc in He.
           split; [reflexivity|]. split; [rewrite segs_text_app, <- app_assoc; cbn; rewrite app_nil_r; reflexivity|].
           split; [|assumption]. cbn. constructor; [|assumption]. unfold tail_rune. cbn [fst].
           rewrite <- is_delim_in, <- is_follower_in. apply orb_true_iff. assumption.
        -- intros Hn. apply has_lf_app. auto.
      * injection H as <- <-. exists []. rewrite visible_nil. cbn [segs_text map concat]. rewrite !app_nil_r. split; [reflexivity|]. split; [reflexivity|split; [constructor|]].
        -- left. split.
           ++ unfold tail_rune. cbn [fst]. rewrite <- is_delim_in, <- is_follower_in. intros [Hx|Hx]; rewrite Hx in Ed; [discriminate|].
              rewrite orb_true_r in Ed. discriminate.
           ++ intros Hs. rewrite Hs in Esp. exact Esp.
Qed.

(** The runes of the sentence being collected. *)
Definition open (c0 : list (N * bytes)) (head nn : bool) : Prop :=
  (head = true <-> visible s c0 = []) /\
  Forall (fun g => ~ delim_rune s g) (visible s c0) /\
  (visible s c0 = [] \/ (Z.of_nat (length (visible s c0)) < sp_max s)%Z) /\
  (nn = true -> has_lf c0).

Lemma open_no_delim c0 head nn b1 g b2 : open c0 head nn -> visible s c0 = b1 ++ g :: b2 -> ~ delim_rune s g.
Proof.
  intros (_ & H & _ & _) E. rewrite E in H. apply Forall_app in H. destruct H as [_ H]. inversion H; assumption.
Qed.

Lemma open_sentence c0 head nn : open c0 head nn -> sentence s (visible s c0).
Proof.
  intros Ho. exists (visible s c0), []. rewrite app_nil_r. split; [reflexivity|].
  pose proof Ho as (_ & _ & H & _). split; [destruct H as [->|H]; [cbn|]; lia|].
  split; [intros b1 g b2 E _; apply (open_no_delim Ho E)|]. split; [constructor|]. congruence.
Qed.

(** A body that ends with the next rune. *)
Lemma snoc_inv {A} (l : list A) a b1 g b2 : l ++ [a] = b1 ++ g :: b2 -> (b2 = [] /\ b1 = l /\ g = a) \/ exists b2', b2 = b2' ++ [a] /\ l = b1 ++ g :: b2'.
Proof.
  destruct (@exists_last _ (g :: b2)) as [b2' [x E]]; [discriminate|].
  destruct b2 as [|y b2].
  - intros H. apply app_inj_tail in H. destruct H. auto.
  - intros H. right. destruct (@exists_last _ (y :: b2)) as [b3 [z E3]]; [discriminate|]. rewrite E3 in *.
    exists b3. rewrite app_comm_cons, app_assoc in H. apply app_inj_tail in H. destruct H as [-> ->]. auto.
Qed.

Lemma open_snoc_sentence c0 head nn g tail : open c0 head nn -> Forall (tail_rune s) tail ->
  (tail <> [] -> complete s (visible s c0 ++ [g])) -> sentence s ((visible s c0 ++ [g]) ++ tail).
Proof.
  intros Ho Ht Hc. exists (visible s c0 ++ [g]), tail. split; [reflexivity|].
  pose proof Ho as (_ & _ & H & _). rewrite app_length. cbn [length].
  split; [destruct H as [->|H]; [cbn|]; lia|].
  split; [|split; [assumption|]].
  - intros b1 x b2 E Hb. apply snoc_inv in E. destruct E as [(E & _)|(b2' & -> & E)]; [contradiction|]. apply (open_no_delim Ho E).
  - intros Hne. split; [auto|]. intros E. apply app_eq_nil in E. destruct E. discriminate.
Qed.

Lemma abs_loop_spec l : forall c0 head nn, open c0 head nn ->
  match abs_loop s l (segs_text (visible s c0)) (Z.of_nat (length (visible s c0))) head nn with
  | ATok K l' => exists c, l = c ++ l' /\ c <> [] /\ K = segs_text (visible s (c0 ++ c)) /\ visible s (c0 ++ c) <> [] /\
      sentence s (visible s (c0 ++ c)) /\ ended s (c0 ++ c) l'
  | AEnd K => K = segs_text (visible s (c0 ++ l)) /\ sentence s (visible s (c0 ++ l)) /\ (visible s (c0 ++ l) = [] \/
      (Z.of_nat (length (visible s (c0 ++ l))) < sp_max s)%Z)
  end.
Proof.
  induction l as [|[r b] l IH]; intros c0 head nn Ho.
  - cbn [abs_loop]. rewrite app_nil_r. split; [reflexivity|]. split; [apply (open_sentence Ho)|]. apply Ho.
  - cbn [abs_loop]. pose proof Ho as (Hh & Hd & Hm & Hn).
    assert (Hcons : forall head' nn' X, X = segs_text (visible s (c0 ++ [(r, b)])) -> forall n, n = Z.of_nat (length (visible s (c0 ++ [(r, b)]))) -> open (c0 ++ [(r, b)]) head' nn' ->
      match abs_loop s l X n head' nn' with
      | ATok K l' => exists c, (r, b) :: l = c ++ l' /\ c <> [] /\ K = segs_text (visible s (c0 ++ c)) /\ visible s (c0 ++ c) <> [] /\
          sentence s (visible s (c0 ++ c)) /\ ended s (c0 ++ c) l'
      | AEnd K => K = segs_text (visible s (c0 ++ (r, b) :: l)) /\ sentence s (visible s (c0 ++ (r, b) :: l)) /\
          (visible s (c0 ++ (r, b) :: l) = [] \/ (Z.of_nat (length (visible s (c0 ++ (r, b) :: l))) < sp_max s)%Z)
      end).
    { intros head' nn' X -> n -> Ho'. specialize (IH _ _ _ Ho'). destruct (abs_loop s l _ _ head' nn').
      - destruct IH as (c & -> & H2 & H3 & H4). rewrite <- app_assoc in *. exists ((r, b) :: c). split; [reflexivity|].
        split; [discriminate|]. split; [assumption|]. exact H4.
      - rewrite <- app_assoc in IH. exact IH. }
    destruct (sp_skip s && is_space r) eqn:Esp.
    + pose proof (@visible_space (r, b) Esp) as Hv.
      assert (Hv' : visible s (c0 ++ [(r, b)]) = visible s c0) by (rewrite visible_app, Hv, app_nil_r; reflexivity).
      assert (Hs : forall x, x = segs_text (visible s c0) -> x = segs_text (visible s (c0 ++ [(r, b)]))) by (intros; rewrite Hv'; assumption).
      destruct head.
      * apply Hcons; rewrite ?Hv'; try reflexivity. repeat split; rewrite ?Hv'; try apply Hh; auto. intros E. apply has_lf_app. auto.
      * assert (Hvne : visible s (c0 ++ [(r, b)]) <> []).
        { rewrite Hv'. intros E. apply Hh in E. discriminate. }
        destruct (is_delim s r) eqn:Edl.
        { exists [(r, b)]. split; [reflexivity|]. split; [discriminate|]. split; [apply Hs; reflexivity|]. split; [assumption|].
          split; [rewrite Hv'; apply (open_sentence Ho)|]. right. left. apply andb_true_iff in Esp. destruct Esp as [E1 E2].
          split; [assumption|]. exists c0, (r, b). split; [reflexivity|]. split; [assumption|]. apply is_delim_in. assumption. }
        destruct (sp_dlf s && (r =? line_feed)%N) eqn:Elf.
        -- apply andb_true_iff in Elf. destruct Elf as [E1 E2]. apply N.eqb_eq in E2. destruct nn.
           ++ exists [(r, b)]. split; [reflexivity|]. split; [discriminate|]. split; [apply Hs; reflexivity|]. split; [assumption|].
              split; [rewrite Hv'; apply (open_sentence Ho)|]. right. right. split; [assumption|]. apply two_lf; auto.
           ++ apply Hcons; rewrite ?Hv'; try reflexivity. split; [rewrite Hv'; assumption|]. split; [rewrite Hv'; assumption|]. split; [rewrite Hv'; assumption|].
              intros _. apply has_lf_snoc. assumption.
        -- apply Hcons; rewrite ?Hv'; try reflexivity. split; [rewrite Hv'; assumption|]. split; [rewrite Hv'; assumption|]. split; [rewrite Hv'; assumption|].
           discriminate.
    + pose proof (@visible_keep (r, b) Esp) as Hv.
      assert (Hv' : visible s (c0 ++ [(r, b)]) = visible s c0 ++ [(r, b)]) by (rewrite visible_app, Hv; reflexivity).
      assert (Ht' : segs_text (visible s c0) ++ b = segs_text (visible s (c0 ++ [(r, b)]))).
      { rewrite Hv', segs_text_app. cbn. rewrite app_nil_r. reflexivity. }
      assert (Hvne : visible s (c0 ++ [(r, b)]) <> []).
      { rewrite Hv'. intros E. apply app_eq_nil in E. destruct E. discriminate. }
      destruct (sp_dlf s && (r =? line_feed)%N && nn) eqn:E2.
      { apply andb_true_iff in E2. destruct E2 as [E2 ->]. apply andb_true_iff in E2. destruct E2 as [E1 E2]. apply N.eqb_eq in E2.
        exists [(r, b)]. split; [reflexivity|]. split; [discriminate|]. split; [exact Ht'|]. split; [assumption|]. split.
        - rewrite Hv'. rewrite <- (app_nil_r (visible s c0 ++ _)). eapply open_snoc_sentence; [exact Ho|constructor|congruence].
        - right. right. split; [assumption|]. apply two_lf; auto. }
      destruct (negb (is_delim s r) && (Z.of_nat (length (visible s c0)) + 1 <? sp_max s)%Z) eqn:Ego.
      * apply andb_true_iff in Ego. destruct Ego as [E3 E4]. apply Z.ltb_lt in E4.
        apply Hcons.
        -- exact Ht'.
        -- rewrite Hv', app_length. cbn. lia.
        -- split; [split; [discriminate|intros E; contradiction]|]. split; [rewrite Hv'; apply Forall_app; split; [assumption|]|].
           ++ constructor; [|constructor]. intros Hx. apply is_delim_in in Hx. cbn [fst] in Hx. rewrite Hx in E3. discriminate.
           ++ split; [right; rewrite Hv', app_length; cbn; lia|].
              destruct (sp_dlf s && (r =? line_feed)%N) eqn:Elf; [|intros E; apply has_lf_app; auto].
              intros _. apply has_lf_snoc. apply andb_true_iff in Elf. destruct Elf as [_ E]. apply N.eqb_eq in E. assumption.
      * assert (Hc : complete s (visible s c0 ++ [(r, b)])).
        { unfold complete. destruct (is_delim s r) eqn:Ed.
          - left. exists (visible s c0), (r, b). split; [reflexivity|]. apply is_delim_in. assumption.
          - right. cbn in Ego. rewrite app_length. cbn. lia. }
        destruct (abs_tail s l (segs_text (visible s c0) ++ b) false) as [k l''] eqn:Et.
        apply abs_tail_spec with (c0 := c0 ++ [(r, b)]) in Et; [|discriminate]. destruct Et as (c & -> & -> & Hf & He).
        exists ((r, b) :: c). split; [reflexivity|]. split; [discriminate|].
        assert (Hv2 : visible s (c0 ++ (r, b) :: c) = (visible s c0 ++ [(r, b)]) ++ visible s c).
        { change (c0 ++ (r, b) :: c) with (c0 ++ ([(r, b)] ++ c)). rewrite app_assoc, visible_app, Hv'. reflexivity. }
        rewrite Hv2. split; [rewrite Ht', Hv', <- segs_text_app; reflexivity|]. split.
        { intros E. apply app_eq_nil in E. destruct E as [E _]. apply app_eq_nil in E. destruct E. discriminate. }
        split; [eapply open_snoc_sentence; [exact Ho|exact Hf|auto]|].
        destruct He as [He|[He1 He2]].
        -- left. split; [exists (visible s c0 ++ [(r, b)]), (visible s c); split; [exact Hv2|]; split; [|auto]|exact He].
           intros E. apply app_eq_nil in E. destruct E. discriminate.
        -- right. right. split; [assumption|]. rewrite <- app_assoc in He2. exact He2.
Qed.

Lemma open_start : open [] true false.
Proof.
  unfold open. assert (visible s [] = []) as -> by (unfold visible; destruct (sp_skip s); reflexivity).
  repeat split; auto. discriminate.
Qed.

(** One call of the split function on data. *)
Lemma split_call data eof : data <> [] ->
  (exists c rest data' adv, scan_sentences s data eof = Ok (data', adv, Some (segs_text (visible s c))) /\
     segs data = c ++ segs rest /\ skipn adv data' = rest /\ c <> [] /\ length data' = length data /\ (1 <= adv <= length data)%nat /\
     visible s c <> [] /\ sentence s (visible s c) /\ ended s c (segs rest) /\ abs_loop s (segs data) [] 0 true false = ATok (segs_text (visible s c)) (segs rest)) \/
  (eof = true /\ exists data', scan_sentences s data eof = Ok (data', length data, Some (segs_text (visible s (segs data)))) /\
     length data' = length data /\ sentence s (visible s (segs data)) /\
     abs_loop s (segs data) [] 0 true false = AEnd (segs_text (visible s (segs data)))) \/
  (eof = false /\ (sentence s (visible s (segs data)) /\
     abs_loop s (segs data) [] 0 true false = AEnd (segs_text (visible s (segs data)))) /\
     (visible s (segs data) = [] \/ (Z.of_nat (length (visible s (segs data))) < sp_max s)%Z) /\ exists data' adv k, scan_sentences s data eof = Ok (data', adv, None) /\
     skipn adv data' = segs_text (visible s (segs data)) ++ repeat x20 k /\ length data' = length data /\ (adv <= length data)%nat /\
     (segs_text (visible s (segs data)) = [] -> k = 0%nat) /\ (starts_visible s data -> adv = 0%nat)).
Proof.
  intros Hne. pose proof (@scan_sentences_ok s data eof Hne) as H. pose proof (@abs_loop_spec (segs data) [] true false open_start) as A.
  assert (Hv : visible s [] = []) by (unfold visible; destruct (sp_skip s); reflexivity). rewrite Hv in A. cbn [length segs_text map concat Z.of_nat] in A.
  change (concat []) with (@nil byte) in A. unfold segs_text in A at 1. cbn [map concat] in A.
  destruct (abs_loop s (segs data) [] 0 true false) as [K l|K] eqn:EA.
  - left. destruct H as (data' & adv & H1 & H2 & H3 & H4 & H5 & _). destruct A as (c & A1 & A2 & A3 & A4 & A5 & A6). cbn [app] in *. subst K.
    exists c, (segs_text l), data', adv. rewrite H3. repeat (split; [solve [auto]|]). reflexivity.
  - cbn [app] in A. destruct A as (-> & A2 & A3). right. destruct eof.
    + left. split; [reflexivity|]. destruct H as (data' & H1 & H2). eauto 6.
    + right. split; [reflexivity|]. split; [auto|]. split; [assumption|]. destruct H as (data' & adv & k & H1 & H2 & H3 & H4 & H5 & H6). exists data', adv, k. auto 9.
Qed.

Lemma sentences_contract : split_contract (scan_sentences s).
Proof.
  intros data eof. destruct data as [|b0 d0].
  - destruct eof.
    + exists [], 0%nat, None. split; [reflexivity|]. constructor; auto; congruence.
    + exists [], 0%nat, None. split; [reflexivity|]. constructor; auto; congruence.
  - remember (b0 :: d0) as data eqn:Ed. assert (Hne : data <> []) by (rewrite Ed; discriminate). clear Ed.
    assert (Hl : (1 <= length data)%nat) by (destruct data; [congruence|cbn; lia]).
    destruct (@split_call data eof Hne) as [(c & rest & data' & adv & H & _ & _ & _ & H1 & H2 & _)|[(He & data' & H & H1 & _)|(He & _ & _ & data' & adv & k & H & _ & H1 & H2 & _)]];
      rewrite H; do 3 eexists; (split; [reflexivity|]); constructor; try (intros; lia); try congruence.
Qed.
End Split.

(** ScanLines obeys it too. *)
Lemma index_byte_lt l c i : index_byte l c = Some i -> (i < length l)%nat.
Proof.
  revert i. induction l as [|b l IH]; intros i; cbn; [discriminate|]. destruct (Byte.eqb b c); [intros [= <-]; lia|].
  destruct (index_byte l c) as [j|]; [|discriminate]. cbn. intros [= <-]. specialize (IH j eq_refl). lia.
Qed.
Lemma lines_contract : split_contract scan_lines.
Proof.
  intros data eof. unfold scan_lines. destruct (eof && (length data =? 0)%nat) eqn:E.
  - exists data, 0%nat, None. split; [reflexivity|]. constructor; try lia; try congruence.
    intros -> Hne. destruct data; [congruence|]. cbn in E. discriminate.
  - destruct (index_byte data x0a) as [i|] eqn:Ei.
    + apply index_byte_lt in Ei. unfold slice. replace ((0 <=? i) && (i <=? length data))%nat with true by lia. cbn [rbind].
      do 3 eexists. split; [reflexivity|]. constructor; try (intros; lia); congruence.
    + destruct eof; do 3 eexists; (split; [reflexivity|]); constructor; try (intros; lia); try congruence.
Qed.

(** ** C33: without skipping, nothing is lost *)
Lemma visible_all s l : sp_skip s = false -> visible s l = l.
Proof. unfold visible. intros ->. reflexivity. Qed.

Lemma lossless_inv s : sp_skip s = false -> forall input,
  let I := fun acc (data : bytes) (r : reader) (e : option scan_err) => concat acc ++ data ++ rd_rest r = input in
  (forall acc data r e data' adv t, I acc data r e ->
     scan_sentences s data (match e with Some _ => true | None => false end) = Ok (data', adv, Some t) -> I (acc ++ [t]) (skipn adv data') r e) /\
  (forall acc data r data' adv, data <> [] -> I acc data r None -> scan_sentences s data false = Ok (data', adv, None) -> I acc (skipn adv data') r None) /\
  (forall acc data r tries cap chunk err r', I acc data r None -> waiting (scan_sentences s) I acc data r -> read_loop tries r cap = (chunk, err, r') ->
     (N.of_nat (length (data ++ chunk)) <= max_token_size)%N -> I acc (data ++ chunk) r' err).
Proof.
  intros Hs input I. unfold I. split; [|split].
  - intros acc data r e data' adv t HI H. destruct data as [|b0 d0] eqn:Ed.
    { destruct e; discriminate. }
    rewrite <- Ed in *. assert (Hne : data <> []) by (rewrite Ed; discriminate). clear Ed.
    destruct (@split_call s data (match e with Some _ => true | None => false end) Hne)
      as [(c & rest & d' & a & E & Hsegs & Hrest & _)|[(He & d' & E & Hl & _)|(He & _ & _ & d' & a & k & E & _)]];
      rewrite E in H; try discriminate; injection H as <- <- <-; rewrite visible_all by assumption.
    + rewrite Hrest. rewrite <- HI, concat_app. cbn [concat]. rewrite app_nil_r, <- !app_assoc. f_equal.
      destruct (segs_split Hsegs) as (_ & _ & ->). rewrite segs_concat, <- app_assoc. reflexivity.
    + rewrite <- Hl, skipn_all, segs_concat, concat_app. cbn [concat]. rewrite app_nil_r, <- app_assoc. exact HI.
  - intros acc data r data' adv Hne HI H.
    destruct (@split_call s data false Hne)
      as [(c & rest & d' & a & E & _)|[(He & _)|(He & _ & _ & d' & a & k & E & Hk & Hl & Ha & _)]]; try discriminate; rewrite E in H; try discriminate.
    injection H as <- <-. rewrite visible_all, segs_concat in Hk by assumption. rewrite Hk.
    assert (k = 0%nat) as ->. { apply (f_equal (@length byte)) in Hk. rewrite skipn_length, app_length, repeat_length in Hk. lia. }
    cbn. rewrite app_nil_r. exact HI.
  - intros acc data r tries cap chunk err r' HI _ H _. apply read_loop_ok in H. destruct H as (H & _).
    rewrite <- app_assoc, <- H. exact HI.
Qed.

Theorem c33_lemma s r : sp_skip s = false ->
  exists toks err r', scan_texts (scan_sentences s) r = Ok (toks, err, r') /\
    ((err = scanner_err (Some (rd_end r)) /\ concat toks = rd_rest r) \/
     ((err = Some ErrTooLong \/ (err = Some ErrNoProgress /\ ~ lively r)) /\ exists lost, rd_rest r = concat toks ++ lost)).
Proof.
  intros Hs. destruct (@lossless_inv s Hs (rd_rest r)) as (H1 & H2 & H3).
  destruct (@scan_texts_ok (scan_sentences s) (sentences_contract s) _ H1 H2 H3 r eq_refl) as (toks & err & r' & E & Hst).
  exists toks, err, r'. split; [exact E|]. destruct Hst as [(e & HI & -> & [[-> Hl]|[-> Hr]])|(data & HI & _ & -> & _)].
  - right. split; [right; split; [reflexivity|assumption]|]. eexists. symmetry. exact HI.
  - left. split; [reflexivity|]. rewrite Hr in HI. cbn in HI. rewrite app_nil_r in HI. exact HI.
  - right. split; [left; reflexivity|]. eexists. symmetry. exact HI.
Qed.

(** ** Running the scanner with ScanSentences *)
Section Sentences.
Variable s : splitter.
Variable I : list bytes -> bytes -> reader -> option scan_err -> Prop.
Let vis data := visible s (segs data).
Let kept data := segs_text (vis data).
Definition idle (acc : list bytes) (data : bytes) (r : reader) : Prop :=
  data = [] \/ exists data0 k, data0 <> [] /\ I acc data0 r None /\ (sentence s (vis data0) /\ abs_loop s (segs data0) [] 0 true false = AEnd (kept data0)) /\
    (vis data0 = [] \/ (Z.of_nat (length (vis data0)) < sp_max s)%Z) /\ (kept data0 = [] -> k = 0%nat) /\
    (length (kept data0 ++ repeat x20 k) <= length data0)%nat /\ data = kept data0 ++ repeat x20 k.
Hypothesis I_tok : forall acc data r e c rest, I acc data r e -> segs data = c ++ segs rest -> c <> [] -> visible s c <> [] ->
  sentence s (visible s c) -> ended s c (segs rest) ->
  abs_loop s (segs data) [] 0 true false = ATok (segs_text (visible s c)) (segs rest) -> I (acc ++ [segs_text (visible s c)]) rest r e.
Hypothesis I_last : forall acc data r e, data <> [] -> I acc data r (Some e) -> sentence s (vis data) ->
  abs_loop s (segs data) [] 0 true false = AEnd (kept data) -> I (acc ++ [kept data]) [] r (Some e).
Hypothesis I_more : forall acc data r k, data <> [] -> I acc data r None -> sentence s (vis data) /\
  abs_loop s (segs data) [] 0 true false = AEnd (kept data) -> (kept data = [] -> k = 0%nat) ->
  (length (kept data ++ repeat x20 k) <= length data)%nat ->
  (starts_visible s data -> length (kept data ++ repeat x20 k) = length data) -> I acc (kept data ++ repeat x20 k) r None.
Hypothesis I_chunk : forall acc data r tries cap chunk err r', I acc data r None -> idle acc data r ->
  read_loop tries r cap = (chunk, err, r') -> (N.of_nat (length (data ++ chunk)) <= max_token_size)%N -> I acc (data ++ chunk) r' err.

Lemma waiting_idle acc data r : waiting (scan_sentences s) I acc data r -> idle acc data r.
Proof.
  intros [H|(data0 & data' & adv & Hne & HI & H & ->)]; [left; assumption|right].
  destruct (@split_call s data0 false Hne)
    as [(c & rest & d' & a & E & _)|[(He & _)|(He & Hs & Hm & d' & a & k & E & Hk & Hl & Ha & H0 & _)]]; try discriminate; rewrite E in H; try discriminate.
  injection H as <- <-. exists data0, k. rewrite Hk. split; [assumption|]. split; [assumption|]. split; [exact Hs|]. split; [exact Hm|]. split; [exact H0|].
  split; [|reflexivity]. unfold kept, vis. rewrite <- Hk, skipn_length. lia.
Qed.

Definition sent_stopped (acc : list bytes) (err : option scan_err) (r0 r : reader) : Prop :=
  (exists e, I acc [] r (Some e) /\ err = scanner_err (Some e) /\ ((e = ErrNoProgress /\ ~ lively r0) \/ (e = rd_end r0 /\ rd_rest r = []))) \/
  (exists data, I acc data r None /\ idle acc data r /\ err = Some ErrTooLong /\ (max_token_size <= N.of_nat (length data))%N).

Theorem sent_run r : I [] [] r None ->
  exists toks err r', scan_texts (scan_sentences s) r = Ok (toks, err, r') /\ sent_stopped toks err r r'.
Proof.
  intros H0.
  assert (H1 : forall acc data r e data' adv t, I acc data r e ->
     scan_sentences s data (match e with Some _ => true | None => false end) = Ok (data', adv, Some t) -> I (acc ++ [t]) (skipn adv data') r e).
  { intros acc data r1 e data' adv t HI H. destruct data as [|b0 d0] eqn:Ed.
    { destruct e; discriminate. }
    rewrite <- Ed in *. assert (Hne : data <> []) by (rewrite Ed; discriminate). clear Ed.
    destruct (@split_call s data (match e with Some _ => true | None => false end) Hne)
      as [(c & rest & d' & a & E & Hsegs & Hrest & Hc & Hl & Ha & Hv & Hs & He & HA)|[(He & d' & E & Hl & Hs & HA)|(He & _ & _ & d' & a & k & E & _)]];
      rewrite E in H; try discriminate; injection H as <- <- <-.
    + rewrite Hrest. eapply I_tok; eauto.
    + rewrite <- Hl, skipn_all. destruct e; [|discriminate]. apply I_last; assumption. }
  assert (H2 : forall acc data r data' adv, data <> [] -> I acc data r None -> scan_sentences s data false = Ok (data', adv, None) -> I acc (skipn adv data') r None).
  { intros acc data r1 data' adv Hne HI H.
    destruct (@split_call s data false Hne)
      as [(c & rest & d' & a & E & _)|[(He & _)|(He & Hs & Hm & d' & a & k & E & Hk & Hl & Ha & Hz & Hsv)]]; try discriminate; rewrite E in H; try discriminate.
    injection H as <- <-. rewrite Hk. apply I_more; auto; unfold kept, vis; rewrite <- Hk, skipn_length; [lia|].
    intros Hx. rewrite (Hsv Hx). lia. }
  destruct (@scan_texts_ok (scan_sentences s) (sentences_contract s) I H1 H2) with (r := r) as (toks & err & r' & E & Hst); auto.
  { intros acc data r1 tries cap chunk err r' HI Hw. apply I_chunk; [assumption|]. apply waiting_idle. assumption. }
  exists toks, err, r'. split; [assumption|]. destruct Hst as [H|(data & Ha & Hb & Hc & Hd)]; [left; assumption|right].
  exists data. repeat split; auto. apply waiting_idle. assumption.
Qed.
End Sentences.

(** ** Sizes: when ErrTooLong is possible *)
Lemma text_le_runes l : Forall (fun g => (length (snd g) <= 4)%nat) l -> (length (segs_text l) <= 4 * length l)%nat.
Proof.
  induction 1 as [|[r b] l H _ IH]; [cbn; lia|]. rewrite segs_text_cons, app_length. cbn [snd length] in *. lia.
Qed.
Lemma segs_le4 data : Forall (fun g => (length (snd g) <= 4)%nat) (segs data).
Proof. apply Forall_forall. intros g Hg. apply (@segs_nonempty_seg data g) in Hg. apply Hg. Qed.
Lemma visible_sub s l : incl (visible s l) l.
Proof. unfold visible. destruct (sp_skip s); [|apply incl_refl]. intros g Hg. apply filter_In in Hg. apply Hg. Qed.
Lemma visible_Forall s (P : N * bytes -> Prop) l : Forall P l -> Forall P (visible s l).
Proof. rewrite !Forall_forall. intros H g Hg. apply H. eapply visible_sub; eassumption. Qed.

Lemma text_visible_le s l : (length (segs_text (visible s l)) <= length (segs_text l))%nat.
Proof.
  unfold visible. destruct (sp_skip s); [|lia]. induction l as [|[r b] l IH]; [cbn; lia|]. cbn [filter fst].
  destruct (is_space r); cbn [negb]; rewrite ?segs_text_cons, ?app_length; lia.
Qed.

Theorem too_long_lemma s r toks r' : scan_texts (scan_sentences s) r = Ok (toks, Some ErrTooLong, r') -> rd_end r <> ErrTooLong ->
  (65536 <= N.of_nat (length (rd_rest r)))%N /\ (sp_skip s = false -> (16384 < sp_max s)%Z).
Proof.
  set (I := fun (acc : list bytes) (data : bytes) (r' : reader) (e : option scan_err) =>
    (length data + length (rd_rest r') <= length (rd_rest r))%nat).
  intros H Hend. destruct (@sent_run s I) with (r := r) as (toks1 & err1 & r1 & E & Hst); subst I; cbn beta in *.
  - intros acc data r1 e c rest HI Hs _ _ _ _ _. destruct (segs_split Hs) as (_ & _ & E2). rewrite E2, segs_concat, app_length in HI. lia.
  - intros acc data r1 e Hne HI _ _. cbn. lia.
  - intros acc data r1 k Hne HI _ _ Hk _. lia.
  - intros acc data r1 tries cap chunk err r2 HI _ Hr _. apply read_loop_ok in Hr. destruct Hr as (Hr & _). rewrite Hr, app_length in HI. rewrite app_length. lia.
  - cbn. lia.
  - rewrite H in E. injection E as <- <- <-. destruct Hst as [(e & _ & He & [[-> _]|[-> _]])|(data & HI & Hid & _ & Hm)].
    + discriminate.
    + destruct (rd_end r); cbn in He; congruence.
    + unfold max_token_size in Hm. split; [lia|]. intros Hs.
      destruct Hid as [->|(data0 & k & _ & _ & _ & Hmax & H0 & Hl & ->)]; [cbn in Hm; lia|].
      rewrite app_length, repeat_length in *. rewrite visible_all in * by assumption. rewrite segs_concat in *.
      pose proof (text_le_runes (segs_le4 data0)) as H4. rewrite segs_concat in H4.
      destruct Hmax as [Hmax|Hmax]; [rewrite Hmax in H4; cbn in H4; lia|]. unfold bytes in *. lia.
Qed.
