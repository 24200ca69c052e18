(** Facts about sentence splitting with white space skipping. *)
From Verif Require Import SpecSent ScannerFacts SplitterFacts SentenceFacts Utf8Facts.
From Coq Require Import List Arith Lia ZifyBool ZifyNat ZifyN.
Import ListNotations.
Set Implicit Arguments.
Unset Strict Implicit.

(** ** Editing bytes: deleting encoded white space, inserting blanks *)
Definition space_enc (w : bytes) : Prop := w <> [] /\ exists r, is_space r = true /\ decode_rune w = (r, length w).

Inductive edits : bytes -> bytes -> Prop :=
| ed_refl x : edits x x
| ed_del x A w B : edits x (A ++ w ++ B) -> space_enc w -> edits x (A ++ B)
| ed_ins x A B : edits x (A ++ B) -> edits x (A ++ x20 :: B).

Lemma edits_trans x y z : edits x y -> edits y z -> edits x z.
Proof. intros H1 H2. induction H2; [assumption|eapply ed_del; eauto|apply ed_ins; auto]. Qed.
Lemma edits_frame L R x y : edits x y -> edits (L ++ x ++ R) (L ++ y ++ R).
Proof.
  induction 1 as [x|x A w B _ IH Hw|x A B _ IH].
  - apply ed_refl.
  - replace (L ++ (A ++ B) ++ R) with ((L ++ A) ++ B ++ R) by (rewrite <- !app_assoc; reflexivity).
    apply ed_del with (w := w); [|assumption]. rewrite <- !app_assoc in *. exact IH.
  - replace (L ++ (A ++ x20 :: B) ++ R) with ((L ++ A) ++ x20 :: B ++ R) by (rewrite <- !app_assoc; reflexivity).
    apply ed_ins. rewrite <- !app_assoc in *. exact IH.
Qed.
Lemma edits_blanks x k : edits x (x ++ repeat x20 k).
Proof.
  induction k as [|k IH]; [rewrite app_nil_r; apply ed_refl|]. cbn. apply ed_ins. exact IH.
Qed.

Definition rune_ok (g : N * bytes) : Prop := snd g <> [] /\ decode_rune (snd g) = (fst g, length (snd g)).
Lemma segs_rune_ok data : Forall rune_ok (segs data).
Proof.
  apply Forall_forall. intros g Hg. pose proof (segs_nonempty_seg Hg) as H1. pose proof (segs_decode Hg) as H2. split; [|assumption].
  intros E. rewrite E in H1. cbn in H1. lia.
Qed.

Lemma edits_visible s l : Forall rune_ok l -> edits (segs_text l) (segs_text (visible s l)).
Proof.
  unfold visible. destruct (sp_skip s); [|constructor].
  induction 1 as [|[r b] l [H1 H2] _ IH]; [constructor|]. cbn [filter fst snd] in *.
  destruct (is_space r) eqn:E; cbn [negb]; rewrite ?segs_text_cons.
  - eapply edits_trans; [|exact IH]. apply (@ed_del _ [] b); [apply ed_refl|]. split; [assumption|eauto].
  - pose proof (@edits_frame b [] _ _ IH) as H. rewrite !app_nil_r in H. exact H.
Qed.

(** ** Inserted blanks *)
Inductive blanked : bytes -> bytes -> Prop :=
| bl_nil : blanked [] []
| bl_same b x y : blanked x y -> blanked (b :: x) (b :: y)
| bl_blank x y : blanked x y -> blanked x (x20 :: y).

Lemma blanked_refl x : blanked x x.
Proof. induction x; constructor; assumption. Qed.
Lemma blanked_split A : forall X B, blanked X (A ++ B) -> exists XA XB, X = XA ++ XB /\ blanked XA A /\ blanked XB B.
Proof.
  induction A as [|a A IH]; intros X B H.
  - exists [], X. repeat split; [constructor|assumption].
  - cbn in H. inversion H as [|b x y Hxy|x y Hxy]; subst.
    + destruct (IH _ _ Hxy) as (XA & XB & -> & H1 & H2). exists (a :: XA), XB. repeat split; [constructor; assumption|assumption].
    + destruct (IH _ _ Hxy) as (XA & XB & -> & H1 & H2). exists XA, XB. repeat split; [constructor; assumption|assumption].
Qed.
Lemma blanked_app XA A XB B : blanked XA A -> blanked XB B -> blanked (XA ++ XB) (A ++ B).
Proof. induction 1; intros HB; cbn; [assumption|constructor; auto|constructor; auto]. Qed.
Lemma blanked_none X y : blanked X y -> ~ In x20 y -> X = y.
Proof.
  induction 1 as [|b x y _ IH|x y _ IH]; intros Hn; [reflexivity| |].
  - rewrite IH; [reflexivity|]. intros H. apply Hn. right. assumption.
  - destruct Hn. left. reflexivity.
Qed.

(** ** White space encodings *)
Lemma space_not_error r : is_space r = true -> r <> rune_error.
Proof. intros H E. subst. discriminate. Qed.

(** Bytes of an encoded rune. *)
Lemma rune_bytes g : rune_ok g ->
  (exists b, snd g = [b] /\ b2n b < 128 /\ fst g = b2n b) \/
  (Forall (fun b => 128 <= b2n b) (snd g) /\ (fst g <> rune_error -> exists b t, snd g = b :: t /\ rune_start b = true)).
Proof.
  destruct g as [r b]. intros [Hne Hd]. cbn [fst snd] in *. pose proof (decode_dec Hne) as D. rewrite Hd in D. cbn [fst snd] in D.
  remember (length b) as w eqn:Ew. clear Hd.
  destruct D as [b0 t Hs Hb|b0 t Hs Hb|b0 b1 t Hs H0 H1|b0 b1 b2 t Hs H0 H1 H2|b0 b1 b2 b3 t Hs H0 H1 H2 H3]; subst b; cbn [length] in Ew.
  all: assert (t = []) as -> by (destruct t; [reflexivity|cbn in Ew; lia]).
  - left. eauto.
  - right. split; [repeat constructor; assumption|congruence].
  - right. split; [repeat constructor; lia|]. intros _. do 2 eexists. split; [reflexivity|]. apply rune_start_spec. lia.
  - pose proof (second_lo_bounds (b2n b0)). right. split; [repeat constructor; lia|]. intros _. do 2 eexists. split; [reflexivity|]. apply rune_start_spec. lia.
  - pose proof (second_lo_bounds (b2n b0)). right. split; [repeat constructor; lia|]. intros _. do 2 eexists. split; [reflexivity|]. apply rune_start_spec. lia.
Qed.

(** A byte of an encoded rune that is a blank is the whole rune. *)
Lemma rune_blank g : rune_ok g -> In x20 (snd g) -> g = (32, [x20]).
Proof.
  intros Hok Hin. destruct (rune_bytes Hok) as [(b & E1 & E2 & E3)|[H _]].
  - destruct g as [r bs]. cbn in *. rewrite E1 in Hin. destruct Hin as [->|[]]. rewrite E1, E3. reflexivity.
  - rewrite Forall_forall in H. specialize (H _ Hin). cbn in H. lia.
Qed.
Lemma space_enc_blank w : space_enc w -> In x20 w -> w = [x20].
Proof. intros [Hne (r & _ & Hd)] Hin. assert (H : rune_ok (r, w)) by (split; assumption). apply (rune_blank H) in Hin. congruence. Qed.
Lemma space_enc_start w : space_enc w -> exists b t, w = b :: t /\ rune_start b = true.
Proof.
  intros [Hne (r & Hs & Hd)]. assert (H : rune_ok (r, w)) by (split; assumption). destruct (rune_bytes H) as [(b & E & Hb & _)|[_ H2]].
  - exists b, []. split; [assumption|]. apply rune_start_spec. lia.
  - apply H2. apply (space_not_error Hs).
Qed.

(** ** Texts of whole runes *)
Definition good_rune (g : N * bytes) : Prop := rune_ok g /\ seg_ok g = true.
Lemma good_segs l : Forall good_rune l -> segs (segs_text l) = l.
Proof.
  induction 1 as [|[r b] l [[Hne Hd] Hok] _ IH]; [reflexivity|]. rewrite segs_text_cons. cbn [fst snd] in *.
  assert (Hd' : decode_rune (b ++ segs_text l) = (r, length b)).
  { apply decode_app; [assumption|assumption|]. intros [-> E]. unfold seg_ok in Hok. cbn in Hok. rewrite E in Hok. discriminate. }
  rewrite segs_unfold by (destruct b; [congruence|discriminate]). rewrite Hd'. cbn [fst snd].
  rewrite firstn_app, firstn_all, skipn_app, skipn_all, Nat.sub_diag. cbn [firstn skipn app]. rewrite app_nil_r, IH. reflexivity.
Qed.
Lemma valid_good x : valid_utf8 x = true <-> Forall good_rune (segs x).
Proof.
  unfold valid_utf8. rewrite forallb_forall, Forall_forall. pose proof (segs_rune_ok x) as H. rewrite Forall_forall in H.
  unfold good_rune. split; [auto|]. intros G g Hg. apply G. assumption.
Qed.
Lemma good_valid l : Forall good_rune l -> valid_utf8 (segs_text l) = true.
Proof. intros H. apply valid_good. rewrite good_segs; assumption. Qed.

Lemma drops_good l l' : drops_space l l' -> Forall good_rune l -> Forall good_rune l'.
Proof. induction 1; intros HG; [constructor| |]; inversion HG; subst; auto. Qed.
Lemma drops_refl l : drops_space l l.
Proof. induction l; constructor; assumption. Qed.
Lemma drops_more l M1 g M2 : drops_space l (M1 ++ g :: M2) -> is_space (fst g) = true -> drops_space l (M1 ++ M2).
Proof.
  intros H Hg. remember (M1 ++ g :: M2) as M eqn:EM. revert M1 EM. induction H as [|h l l' Hk IH|h l l' Hh _ IH]; intros M1 EM.
  - destruct M1; discriminate.
  - destruct M1 as [|h1 M1]; cbn in EM; injection EM as -> ->.
    + apply ds_drop; assumption.
    + cbn. apply ds_keep. apply IH. reflexivity.
  - apply ds_drop; auto.
Qed.

(** Deleting one encoded white space rune from a text of whole runes. *)
Lemma delete_space M A w B : Forall good_rune M -> segs_text M = A ++ w ++ B -> space_enc w ->
  exists M1 g M2, M = M1 ++ g :: M2 /\ is_space (fst g) = true /\ segs_text M1 = A /\ segs_text M2 = B.
Proof.
  intros HM E Hw. pose proof (good_segs HM) as Hsegs. destruct (space_enc_start Hw) as (b & t & Ew & Hb).
  destruct (@start_boundary (segs_text M) (length A)) as (a & c & Hac & Hla).
  { rewrite E, Ew, !app_length. cbn. lia. }
  { rewrite E, Ew, app_nth2, Nat.sub_diag by lia. exact Hb. }
  destruct (segs_split Hac) as (Ha & Hc & Hs). rewrite Hsegs in Hac.
  assert (Haa : segs_text a = A /\ segs_text c = w ++ B).
  { rewrite E in Hs. apply (f_equal (firstn (length A))) in Hs as Hs1. apply (f_equal (skipn (length A))) in Hs as Hs2.
    rewrite <- Hla in Hs1 at 2. rewrite <- Hla in Hs2 at 2.
    rewrite !firstn_app, !firstn_all, !Nat.sub_diag in Hs1. rewrite !skipn_app, !skipn_all, !Nat.sub_diag in Hs2. cbn in *.
    rewrite !app_nil_r in Hs1. auto. }
  destruct Haa as [HaA HcB]. destruct Hw as [Hne (r & Hr & Hd)].
  assert (Hg : segs (w ++ B) = (r, w) :: segs B).
  { rewrite segs_unfold by (destruct w; [congruence|discriminate]).
    rewrite (decode_app Hd Hne) by (intros [-> _]; discriminate). cbn [fst snd].
    rewrite firstn_app, firstn_all, skipn_app, skipn_all, Nat.sub_diag. cbn [firstn skipn app]. rewrite app_nil_r. reflexivity. }
  rewrite HcB in Hc. rewrite Hg in Hc. exists a, (r, w), (segs B). rewrite <- Hc in Hac. rewrite segs_concat. auto.
Qed.

Lemma edits_drops x y : edits x y -> valid_utf8 x = true -> exists M, drops_space (segs x) M /\ blanked (segs_text M) y.
Proof.
  intros H Hv. induction H as [x|x A w B _ IH Hw|x A B _ IH].
  - exists (segs x). split; [apply drops_refl|]. rewrite segs_concat. apply blanked_refl.
  - destruct (IH Hv) as (M & HM & Hb). apply blanked_split in Hb. destruct Hb as (XA & X1 & EX & HA & Hb).
    apply blanked_split in Hb. destruct Hb as (Xw & XB & -> & HW & HB).
    assert (Hcase : Xw = w \/ (Xw = [])).
    { destruct (in_dec Byte.byte_eq_dec x20 w) as [Hin|Hin].
      - apply (space_enc_blank Hw) in Hin. subst w. inversion HW as [|b x0 y0 H0|x0 y0 H0]; subst; inversion H0; subst; auto.
      - left. apply blanked_none with (y := w); assumption. }
    destruct Hcase as [-> | ->].
    + pose proof (drops_good HM (proj1 (valid_good x) Hv)) as HG.
      destruct (delete_space HG EX Hw) as (M1 & g & M2 & -> & Hg & HM1 & HM2).
      exists (M1 ++ M2). split; [apply drops_more with (g := g); assumption|]. rewrite segs_text_app, HM1, HM2. apply blanked_app; assumption.
    + exists M. split; [assumption|]. rewrite EX. cbn. apply blanked_app; assumption.
  - destruct (IH Hv) as (M & HM & Hb). exists M. split; [assumption|]. apply blanked_split in Hb. destruct Hb as (XA & XB & -> & HA & HB).
    apply blanked_app; [assumption|]. constructor. assumption.
Qed.

(** ** C34 for any reader *)
Lemma visible_no_blank s l : sp_skip s = true -> Forall rune_ok l -> ~ In x20 (segs_text (visible s l)).
Proof.
  intros Hs Hl Hin. unfold segs_text in Hin. apply in_concat in Hin. destruct Hin as (bs & Hbs & Hin).
  apply in_map_iff in Hbs. destruct Hbs as (g & <- & Hg). unfold visible in Hg. rewrite Hs in Hg. apply filter_In in Hg. destruct Hg as [Hg Hsp].
  rewrite Forall_forall in Hl. apply (rune_blank (Hl _ Hg)) in Hin. rewrite Hin in Hsp. discriminate.
Qed.

Lemma segs_app_ok data c rest : segs data = c ++ segs rest -> Forall rune_ok c /\ data = segs_text c ++ rest.
Proof.
  intros H. pose proof (segs_rune_ok data) as Hok. rewrite H in Hok. apply Forall_app in Hok. split; [apply Hok|].
  destruct (segs_split H) as (_ & _ & E). rewrite segs_concat in E. exact E.
Qed.

Theorem c34_any_lemma s r : sp_skip s = true -> valid_utf8 (rd_rest r) = true ->
  exists toks err r', scan_texts (scan_sentences s) r = Ok (toks, err, r') /\
    ((err = scanner_err (Some (rd_end r)) /\ exists left, drops_space (segs (rd_rest r)) left /\ concat toks = segs_text left) \/
     ((err = Some ErrTooLong \/ (err = Some ErrNoProgress /\ ~ lively r)) /\
      exists left lost, drops_space (segs (rd_rest r)) left /\ segs_text left = concat toks ++ lost)).
Proof.
  intros Hs Hv.
  set (I := fun (acc : list bytes) (data : bytes) (r' : reader) (e : option scan_err) =>
    ~ In x20 (concat acc) /\ edits (rd_rest r) (concat acc ++ data ++ rd_rest r')).
  assert (Hnb : forall acc t, ~ In x20 (concat acc) -> ~ In x20 t -> ~ In x20 (concat (acc ++ [t]))).
  { intros acc t H1 H2 H. rewrite concat_app in H. cbn in H. rewrite app_nil_r in H. apply in_app_or in H. tauto. }
  destruct (@sent_run s I) with (r := r) as (toks & err & r' & E & Hst); subst I; cbn beta in *.
  - intros acc data r1 e c rest [H1 H2] Hsegs _ _ _ _ _. destruct (segs_app_ok Hsegs) as [Hc ->].
    split; [apply Hnb; [assumption|apply visible_no_blank; assumption]|].
    eapply edits_trans; [exact H2|]. rewrite concat_app. cbn [concat]. rewrite app_nil_r, <- !app_assoc.
    apply edits_frame with (R := rest ++ rd_rest r1). apply edits_visible. assumption.
  - intros acc data r1 e Hne [H1 H2] _ _. split; [apply Hnb; [assumption|apply visible_no_blank; [assumption|apply segs_rune_ok]]|].
    eapply edits_trans; [exact H2|]. rewrite concat_app. cbn [concat app]. rewrite app_nil_r, <- app_assoc. apply edits_frame.
    rewrite <- (segs_concat data) at 1. apply edits_visible. apply segs_rune_ok.
  - intros acc data r1 k Hne [H1 H2] _ _ _ _. split; [assumption|]. eapply edits_trans; [exact H2|].
    apply edits_frame. eapply edits_trans; [|apply edits_blanks]. rewrite <- (segs_concat data) at 1. apply edits_visible. apply segs_rune_ok.
  - intros acc data r1 tries cap chunk err r2 [H1 H2] _ Hr _. split; [assumption|]. apply read_loop_ok in Hr. destruct Hr as (Hr & _).
    rewrite Hr in H2. rewrite <- app_assoc. exact H2.
  - cbn. split; [tauto|apply ed_refl].
  - exists toks, err, r'. split; [exact E|].
    assert (Hfin : forall tl, ~ In x20 (concat toks) -> edits (rd_rest r) (concat toks ++ tl) ->
      exists left lost, drops_space (segs (rd_rest r)) left /\ segs_text left = concat toks ++ lost /\ (tl = [] -> lost = [])).
    { intros tl H1 H2. destruct (edits_drops H2 Hv) as (M & HM & Hb). apply blanked_split in Hb. destruct Hb as (XA & XB & EX & HA & HB).
      apply blanked_none in HA; [|assumption]. subst XA. exists M, XB. repeat split; [assumption|assumption|]. intros ->. inversion HB. reflexivity. }
    destruct Hst as [(e & [H1 H2] & -> & [[-> Hl]|[-> Hr]])|(data & [H1 H2] & _ & -> & _)].
    + right. split; [right; split; [reflexivity|assumption]|]. destruct (Hfin _ H1 H2) as (left & lost & G1 & G2 & _). eauto.
    + left. split; [reflexivity|]. rewrite Hr in H2. destruct (Hfin _ H1 H2) as (left & lost & G1 & G2 & G3). exists left.
      rewrite G2, G3, app_nil_r by reflexivity. auto.
    + right. split; [left; reflexivity|]. destruct (Hfin _ H1 H2) as (left & lost & G1 & G2 & _). eauto.
Qed.

(** ** Chunks of whole runes *)
Definition shown (s : splitter) (x : bytes) : bytes := segs_text (visible s (segs x)).

Lemma shown_nil s : shown s [] = [].
Proof. unfold shown. rewrite segs_nil, visible_nil. reflexivity. Qed.
Lemma valid_app a b : valid_utf8 a = true -> valid_utf8 b = true -> valid_utf8 (a ++ b) = true.
Proof. intros Ha Hb. unfold valid_utf8 in *. rewrite segs_valid_app by exact Ha. rewrite forallb_app, Ha, Hb. reflexivity. Qed.
Lemma shown_app s a b : valid_utf8 a = true -> shown s (a ++ b) = shown s a ++ shown s b.
Proof. intros Ha. unfold shown. rewrite segs_valid_app, visible_app, segs_text_app by assumption. reflexivity. Qed.
Lemma visible_idem s l : visible s (visible s l) = visible s l.
Proof.
  unfold visible. destruct (sp_skip s); [|reflexivity]. induction l as [|g l IH]; [reflexivity|]. cbn [filter].
  destruct (negb (is_space (fst g))) eqn:E; [|assumption]. cbn [filter]. rewrite E, IH. reflexivity.
Qed.
Lemma good_visible s l : Forall good_rune l -> segs (segs_text (visible s l)) = visible s l.
Proof. intros H. apply good_segs. apply visible_Forall. assumption. Qed.
Lemma shown_visible s l : Forall good_rune l -> shown s (segs_text (visible s l)) = segs_text (visible s l).
Proof. intros H. unfold shown. rewrite good_visible, visible_idem by assumption. reflexivity. Qed.
Lemma blanks_good k : Forall good_rune (repeat (32, [x20]) k).
Proof. apply Forall_forall. intros g Hg. apply repeat_spec in Hg. subst. repeat split. discriminate. Qed.
Lemma blanks_text k : segs_text (repeat (32, [x20]) k) = repeat x20 k.
Proof. induction k; [reflexivity|]. cbn [repeat]. rewrite segs_text_cons, IHk. reflexivity. Qed.
Lemma blanks_segs k : segs (repeat x20 k) = repeat (32, [x20]) k.
Proof. rewrite <- blanks_text. apply good_segs. apply blanks_good. Qed.
Lemma shown_blanks s k : sp_skip s = true -> shown s (repeat x20 k) = [].
Proof.
  intros Hs. unfold shown. rewrite blanks_segs. unfold visible. rewrite Hs. induction k; [reflexivity|assumption].
Qed.

(** The unread bytes after asking for more. *)
Lemma more_valid s data k : valid_utf8 data = true -> (length (shown s data ++ repeat x20 k) <= length data)%nat ->
  valid_utf8 (shown s data ++ repeat x20 k) = true /\ shown s (shown s data ++ repeat x20 k) = shown s data.
Proof.
  intros Hv Hk. apply valid_good in Hv.
  assert (Hg : Forall good_rune (visible s (segs data))) by (apply visible_Forall; assumption).
  split.
  - apply valid_app; [apply good_valid; assumption|]. rewrite <- blanks_text. apply good_valid. apply blanks_good.
  - rewrite shown_app by (apply good_valid; assumption). replace (shown s (shown s data)) with (shown s data)
      by (unfold shown at 2; fold (shown s data); unfold shown at 1; symmetry; apply shown_visible; assumption).
    destruct (sp_skip s) eqn:Hs; [rewrite shown_blanks by assumption; apply app_nil_r|].
    unfold shown in Hk. rewrite visible_all, segs_concat, app_length, repeat_length in Hk by assumption.
    assert (k = 0%nat) as -> by lia. cbn [repeat]. rewrite shown_nil. apply app_nil_r.
Qed.

Lemma tok_valid s data c rest : valid_utf8 data = true -> segs data = c ++ segs rest ->
  valid_utf8 rest = true /\ Forall good_rune c /\ shown s data = segs_text (visible s c) ++ shown s rest.
Proof.
  intros Hv Hs. apply valid_good in Hv. rewrite Hs in Hv. apply Forall_app in Hv. destruct Hv as [H1 H2].
  split; [apply valid_good; assumption|]. split; [assumption|]. unfold shown. rewrite Hs, visible_app, segs_text_app. reflexivity.
Qed.

Definition aligned_ok (s : splitter) (acc : list bytes) (data : bytes) (r : reader) : Prop :=
  valid_utf8 data = true /\ valid_utf8 (concat (rd_log r)) = true /\
  concat acc ++ shown s data = shown s (concat (rd_log r)) /\
  Forall (fun t => valid_utf8 t = true /\ sentence s (segs t) /\ visible s (segs t) = segs t) acc.

Lemma tok_aligned s acc data r c rest : aligned_ok s acc data r -> segs data = c ++ segs rest -> sentence s (visible s c) ->
  aligned_ok s (acc ++ [segs_text (visible s c)]) rest r.
Proof.
  intros (H1 & H2 & H3 & H4) Hs Hsent. destruct (tok_valid s H1 Hs) as (G1 & G2 & G3).
  split; [assumption|]. split; [assumption|]. split.
  - rewrite <- H3, G3, concat_app. cbn [concat]. rewrite app_nil_r, <- app_assoc. reflexivity.
  - apply Forall_app. split; [assumption|]. constructor; [|constructor]. rewrite good_visible, visible_idem by assumption.
    split; [apply good_valid; apply visible_Forall; assumption|auto].
Qed.
Lemma last_aligned s acc data r : aligned_ok s acc data r -> sentence s (visible s (segs data)) -> aligned_ok s (acc ++ [shown s data]) [] r.
Proof. intros H Hs. apply tok_aligned with (data := data); [assumption|rewrite segs_nil, app_nil_r; reflexivity|assumption]. Qed.
Lemma more_aligned s acc data r k : aligned_ok s acc data r -> (length (shown s data ++ repeat x20 k) <= length data)%nat ->
  aligned_ok s acc (shown s data ++ repeat x20 k) r.
Proof.
  intros (H1 & H2 & H3 & H4) Hk. destruct (more_valid H1 Hk) as [G1 G2]. split; [assumption|]. split; [assumption|].
  split; [rewrite G2; assumption|assumption].
Qed.
Lemma read_aligned s acc data r tries cap chunk err r' : (Forall (fun c => valid_utf8 c = true) (rd_log r) -> aligned_ok s acc data r) ->
  read_loop tries r cap = (chunk, err, r') ->
  Forall (fun c => valid_utf8 c = true) (rd_log r') -> aligned_ok s acc (data ++ chunk) r'.
Proof.
  intros H Hr Hlog. apply read_loop_ok in Hr. destruct Hr as (_ & _ & _ & Hc & HP & _). destruct (HP _ Hlog) as [Hl Hch].
  destruct (H Hl) as (H1 & H2 & H3 & H4).
  assert (Hcv : valid_utf8 chunk = true) by (destruct Hch as [->|Hch]; [reflexivity|assumption]).
  split; [apply valid_app; assumption|]. rewrite Hc. split; [apply valid_app; assumption|]. split; [|assumption].
  rewrite !shown_app by assumption. rewrite app_assoc, H3. reflexivity.
Qed.

Theorem aligned_lemma s r : rd_log r = [] ->
  exists toks err r', scan_texts (scan_sentences s) r = Ok (toks, err, r') /\ rd_rest r = concat (rd_log r') ++ rd_rest r' /\
    (Forall (fun c => valid_utf8 c = true) (rd_log r') ->
     Forall (fun t => valid_utf8 t = true /\ sentence s (segs t)) toks /\
     ((err = scanner_err (Some (rd_end r)) /\ concat toks = shown s (rd_rest r)) \/
      ((err = Some ErrTooLong \/ (err = Some ErrNoProgress /\ ~ lively r)) /\ exists lost, shown s (rd_rest r) = concat toks ++ lost))).
Proof.
  intros Hlog.
  set (I := fun (acc : list bytes) (data : bytes) (r' : reader) (e : option scan_err) =>
    rd_rest r = concat (rd_log r') ++ rd_rest r' /\ (Forall (fun c => valid_utf8 c = true) (rd_log r') -> aligned_ok s acc data r')).
  destruct (@sent_run s I) with (r := r) as (toks & err & r' & E & Hst); subst I; cbn beta in *.
  - intros acc data r1 e c rest [H1 H2] Hsegs _ _ Hsent _ _. split; [assumption|]. intros Hl. eapply tok_aligned; eauto.
  - intros acc data r1 e Hne [H1 H2] Hsent _. split; [assumption|]. intros Hl. apply last_aligned; auto.
  - intros acc data r1 k Hne [H1 H2] _ _ Hk _. split; [assumption|]. intros Hl. apply more_aligned; auto.
  - intros acc data r1 tries cap chunk err r2 [H1 H2] _ Hr _. split.
    + apply read_loop_ok in Hr. destruct Hr as (Hr & _ & _ & Hc & _). rewrite Hc, H1, Hr, app_assoc. reflexivity.
    + eapply read_aligned; eauto.
  - rewrite Hlog. split; [reflexivity|]. intros _. split; [reflexivity|]. rewrite Hlog. repeat split. constructor.
  - exists toks, err, r'. split; [exact E|].
    assert (Hfin : forall data, aligned_ok s toks data r' -> rd_rest r = concat (rd_log r') ++ rd_rest r' ->
       Forall (fun t => valid_utf8 t = true /\ sentence s (segs t)) toks /\ shown s (rd_rest r) = concat toks ++ shown s data ++ shown s (rd_rest r')).
    { intros data (H1 & H2 & H3 & H4) ->. split; [eapply Forall_impl; [|exact H4]; intros t (Ht1 & Ht2 & _); auto|].
      rewrite shown_app, app_assoc, H3 by assumption. reflexivity. }
    destruct Hst as [(e & [H1 H2] & -> & [[-> Hl]|[-> Hr]])|(data & [H1 H2] & _ & -> & _)]; (split; [exact H1|]; intros Hv; destruct (Hfin _ (H2 Hv) H1) as [G1 G2]; split; [exact G1|]).
    + right. split; [right; split; [reflexivity|assumption]|]. eauto.
    + left. split; [reflexivity|]. rewrite Hr in G2. rewrite G2. rewrite !shown_nil, !app_nil_r. reflexivity.
    + right. split; [left; reflexivity|]. eauto.
Qed.
Lemma shown_strip s x : sp_skip s = true -> shown s x = strip x.
Proof. intros H. unfold shown, strip, visible. rewrite H. reflexivity. Qed.

(** ** C36: any reader *)
Theorem c36_run_lemma s r : exists toks err r', scan_texts (scan_sentences s) r = Ok (toks, err, r') /\
  Forall (fun t => exists rs, t = segs_text rs /\ Forall rune_ok rs /\ sentence s rs) toks.
Proof.
  set (I := fun (acc : list bytes) (data : bytes) (r' : reader) (e : option scan_err) =>
    Forall (fun t => exists rs, t = segs_text rs /\ Forall rune_ok rs /\ sentence s rs) acc).
  destruct (@sent_run s I) with (r := r) as (toks & err & r' & E & Hst); subst I; cbn beta in *.
  - intros acc data r1 e c rest H Hsegs _ _ Hsent _ _. apply Forall_app. split; [assumption|]. constructor; [|constructor].
    exists (visible s c). split; [reflexivity|]. split; [|assumption]. apply visible_Forall. apply (segs_app_ok Hsegs).
  - intros acc data r1 e Hne H Hsent _. apply Forall_app. split; [assumption|]. constructor; [|constructor].
    exists (visible s (segs data)). split; [reflexivity|]. split; [|assumption]. apply visible_Forall. apply segs_rune_ok.
  - auto.
  - auto.
  - constructor.
  - exists toks, err, r'. split; [exact E|]. destruct Hst as [(e & H & _)|(data & H & _)]; exact H.
Qed.

(** ** C54: no empty sentence *)
(** Unread bytes at the end of the input: runes, then blanks. *)
Definition settled (l : list (N * bytes)) : Prop :=
  exists (vs : list (N * bytes)) k, l = vs ++ repeat (32, [x20]) k /\ Forall (fun g => is_space (fst g) = false) vs /\ (vs = [] -> k = 0%nat).

Lemma plain_read tries r cap chunk err r' : read_loop tries r cap = (chunk, err, r') -> plain r ->
  plain r' /\ (err <> None -> chunk = []).
Proof.
  revert r. induction tries as [|t IH]; intros r; cbn [read_loop].
  - intros [= <- <- <-] H. auto.
  - destruct (read r cap) as [[c e] r1] eqn:E. intros H Hp.
    assert (Hr : plain r1 /\ (e <> None -> c = [])).
    { unfold read in E. unfold plain in *. destruct (rd_script r) as [|[limit eager] sc].
      - injection E as <- <- <-. split; [constructor|]. cbn. destruct (rd_rest r) as [|b0 l0]; [intros _; apply firstn_nil|].
        match goal with |- context[match ?x with [] => _ | _ :: _ => _ end] => destruct x end; congruence.
      - inversion Hp as [|? ? He Hsc]; subst. cbn in He. subst eager. injection E as <- <- <-. split; [assumption|]. cbn.
        destruct limit; [congruence|]. destruct (rd_rest r) as [|b0 l0]; [intros _; apply firstn_nil|].
        match goal with |- context[match ?x with [] => _ | _ :: _ => _ end] => destruct x end; congruence. }
    destruct Hr as [Hp1 Hc]. destruct e as [e|].
    + injection H as <- <- <-. split; [assumption|]. intros _. apply Hc. discriminate.
    + destruct c as [|b c]; [apply (IH _ H Hp1)|]. injection H as <- <- <-. split; [assumption|congruence].
Qed.

Lemma text_nil l : Forall rune_ok l -> segs_text l = [] -> l = [].
Proof.
  destruct 1 as [|[r b] l [H _] _]; [reflexivity|]. rewrite segs_text_cons. intros E. apply app_eq_nil in E. destruct E. contradiction.
Qed.

Lemma settled_suffix s c rest : sp_skip s = true -> ~ In 32 (sp_delim s) -> settled (c ++ rest) -> ended s c rest -> settled rest.
Proof.
  intros Hskip Hd (vs & k & E & Hvs & _) He.
  assert (Hb : forall k', k' <> 0%nat -> rest = repeat (32, [x20]) k' -> (forall g, In g c -> is_space (fst g) = false \/ g = (32, [x20])) -> False).
  { intros k' Hk' -> Hc. destruct He as [[_ He]|[[_ (c' & g & -> & Hg1 & Hg2)]|[_ (l1 & g1 & l2 & g2 & -> & Hg1 & Hg2)]]].
    - destruct k' as [|k']; [congruence|]. cbn in He. destruct He as [_ He]. specialize (He Hskip). discriminate.
    - destruct (Hc g) as [H| ->]; [apply in_or_app; right; left; reflexivity|congruence|]. apply Hd. exact Hg2.
    - destruct (Hc g1) as [H| ->]; [apply in_or_app; right; left; reflexivity| |].
      + rewrite Hg1 in H. discriminate.
      + discriminate. }
  apply app_eq_app in E. destruct E as (l & [[-> El]|[-> El]]).
  - (* the suffix lies in the blanks *)
    destruct (Nat.eq_dec (length rest) 0) as [Hz|Hz].
    + destruct rest; [|discriminate]. exists [], 0%nat. repeat split. constructor.
    + exfalso. assert (Hrest : rest = repeat (32, [x20]) (length rest)).
      { apply Forall_eq_repeat. symmetry in El. assert (HF : Forall (eq (32, [x20])) (l ++ rest)) by (rewrite El; apply Forall_forall; intros g Hg; apply repeat_spec in Hg; auto).
        apply Forall_app in HF. destruct HF as [_ HF]. eapply Forall_impl; [|exact HF]. auto. }
      apply Hb with (k' := length rest); [assumption|assumption|]. intros g Hg. apply in_app_or in Hg. destruct Hg as [Hg|Hg].
      * left. rewrite Forall_forall in Hvs. apply Hvs. assumption.
      * right. assert (Hin : In g (l ++ rest)) by (apply in_or_app; auto). rewrite <- El in Hin. apply repeat_spec in Hin. assumption.
  - apply Forall_app in Hvs. destruct Hvs as [Hc Hl]. destruct l as [|g l].
    + destruct k as [|k]; [exists [], 0%nat; repeat split; [assumption|constructor]|]. exfalso.
      apply Hb with (k' := S k); [discriminate|assumption|]. intros g Hg. left. rewrite Forall_forall in Hc. apply Hc. assumption.
    + exists (g :: l), k. repeat split; [assumption|assumption|discriminate].
Qed.

Lemma visible_settled (l : list (N * bytes)) : settled l -> l <> [] -> filter (fun g => negb (is_space (fst g))) l <> [].
Proof.
  intros (vs & k & -> & Hvs & Hk) Hne. destruct vs as [|g vs].
  - rewrite Hk in Hne by reflexivity. destruct (Hne eq_refl).
  - inversion Hvs as [|? ? Hg _]; subst. cbn [app filter]. rewrite Hg. discriminate.
Qed.

Theorem c54_lemma s r : sp_skip s = true -> ~ In 32 (sp_delim s) -> rd_log r = [] -> plain r ->
  exists toks err r', scan_texts (scan_sentences s) r = Ok (toks, err, r') /\
    (Forall (fun c => valid_utf8 c = true) (rd_log r') -> ~ In [] toks).
Proof.
  intros Hskip Hd Hlog Hplain.
  set (I := fun (acc : list bytes) (data : bytes) (r' : reader) (e : option scan_err) => plain r' /\
    (Forall (fun c => valid_utf8 c = true) (rd_log r') -> aligned_ok s acc data r' /\ ~ In [] acc /\ (e <> None -> settled (segs data)))).
  assert (Hin : forall (acc : list bytes) t, ~ In [] acc -> t <> [] -> ~ In [] (acc ++ [t])).
  { intros acc t H1 H2 H. apply in_app_or in H. destruct H as [H|[H|[]]]; [auto|congruence]. }
  destruct (@sent_run s I) with (r := r) as (toks & err & r' & E & Hst); subst I; cbn beta in *.
  - intros acc data r1 e c rest [Hp H] Hsegs _ Hv Hsent He _. split; [assumption|]. intros Hl. destruct (H Hl) as (H1 & H2 & H3).
    split; [eapply tok_aligned; eauto|]. split.
    + apply Hin; [assumption|]. intros E. apply Hv. apply text_nil; [|assumption]. apply visible_Forall. apply (segs_app_ok Hsegs).
    + intros He'. specialize (H3 He'). rewrite Hsegs in H3. eapply settled_suffix; eauto.
  - intros acc data r1 e Hne [Hp H] Hsent _. split; [assumption|]. intros Hl. destruct (H Hl) as (H1 & H2 & H3).
    split; [apply last_aligned; auto|]. split.
    + apply Hin; [assumption|]. intros E. apply text_nil in E; [|apply visible_Forall; apply segs_rune_ok].
      unfold visible in E. rewrite Hskip in E. revert E. apply visible_settled; [apply H3; discriminate|].
      intros E. apply Hne. rewrite <- (segs_concat data), E. reflexivity.
    + intros _. exists [], 0%nat. repeat split. constructor.
  - intros acc data r1 k Hne [Hp H] _ _ Hk _. split; [assumption|]. intros Hl. destruct (H Hl) as (H1 & H2 & H3).
    split; [apply more_aligned; auto|]. split; [assumption|congruence].
  - intros acc data r1 tries cap chunk err r2 [Hp H] Hid Hr _. destruct (plain_read Hr Hp) as [Hp2 Hch]. split; [assumption|]. intros Hl.
    split; [eapply read_aligned; eauto; intros Hx; apply H; assumption|].
    assert (Hl1 : Forall (fun c => valid_utf8 c = true) (rd_log r1)) by (apply read_loop_ok in Hr; destruct Hr as (_ & _ & _ & _ & HP & _); apply (HP _ Hl)).
    destruct (H Hl1) as (H1 & H2 & _). split; [assumption|]. intros Herr. rewrite (Hch Herr), app_nil_r.
    destruct Hid as [->|(data0 & k & Hne & [_ HI] & _ & _ & Hz & _ & ->)]; [exists [], 0%nat; repeat split; constructor|].
    destruct (HI Hl1) as ((Hv & _) & _). apply valid_good in Hv.
    exists (visible s (segs data0)), k. split; [|split].
    + rewrite segs_valid_app, blanks_segs, good_visible by (try apply good_valid; try apply visible_Forall; assumption). reflexivity.
    + unfold visible. rewrite Hskip. apply Forall_forall. intros g Hg. apply filter_In in Hg. destruct Hg as [_ Hg]. destruct (is_space (fst g)); [discriminate|reflexivity].
    + intros E. apply Hz. rewrite E. reflexivity.
  - split; [assumption|]. intros _. split; [|split; [tauto|congruence]]. split; [reflexivity|]. rewrite Hlog. repeat split. constructor.
  - exists toks, err, r'. split; [exact E|]. intros Hl. destruct Hst as [(e & [_ H] & _)|(data & [_ H] & _)]; apply (H Hl).
Qed.
