(** Sentences that are valid UTF-8 although reads cut runes. *)
From Verif Require Import SpecSent SpecCuts ScannerFacts SplitterFacts SentenceFacts SpaceFacts Utf8Facts.
From Coq Require Import List Arith Lia ZifyBool ZifyNat ZifyN.
Import ListNotations.
Local Open Scope N_scope.
Set Implicit Arguments.
Unset Strict Implicit.

(** ** UTF-8 *)
Definition real (g : N * bytes) : Prop := rune_ok g /\ fst g <> rune_error.
Lemma real_good g : real g -> good_rune g.
Proof. intros (H & E). split; [exact H|]. unfold seg_ok. rewrite (proj2 (N.eqb_neq _ _) E). reflexivity. Qed.
Lemma real_valid g : real g -> valid_utf8 (snd g) = true.
Proof.
  intros H. pose proof (@good_valid [g] (Forall_cons _ (real_good H) (Forall_nil _))) as V. destruct g as [r b]. rewrite segs_text_cons in V. change (segs_text []) with (@nil byte) in V. rewrite app_nil_r in V. exact V.
Qed.
Lemma valid_join p q : valid_utf8 p = true -> valid_utf8 q = true -> valid_utf8 (p ++ q) = true.
Proof. intros A B. unfold valid_utf8 in *. rewrite (segs_valid_app q A), forallb_app, A, B. reflexivity. Qed.
Lemma valid_rest p q : valid_utf8 p = true -> valid_utf8 (p ++ q) = true -> valid_utf8 q = true.
Proof. intros A B. unfold valid_utf8 in *. rewrite (segs_valid_app q A), forallb_app, A in B. exact B. Qed.
Lemma real_starts g : real g -> exists b t, snd g = b :: t /\ rune_start b = true.
Proof.
  intros (H & E). destruct (rune_bytes H) as [(b & E1 & L & _)|(_ & S)]; [|auto]. exists b, []. split; [exact E1|]. apply rune_start_spec. lia.
Qed.
Lemma app_len_inj (A : Type) (a b c d : list A) : length a = length c -> a ++ b = c ++ d -> a = c /\ b = d.
Proof. revert c. induction a as [|x a IH]; intros [|y c] L E; cbn in *; try discriminate; [auto|]. injection E as -> E. destruct (IH c ltac:(lia) E) as (-> & ->). auto. Qed.
(** A whole rune inside a valid text begins and ends a rune of the text. *)
Lemma valid_cut p g q : real g -> valid_utf8 (p ++ snd g ++ q) = true -> valid_utf8 p = true /\ valid_utf8 q = true.
Proof.
  intros R V. destruct (real_starts R) as (b & t & E & S). assert (K : (length p < length (p ++ snd g ++ q))%nat) by (rewrite !app_length, E; cbn; lia).
  assert (N : nth (length p) (p ++ snd g ++ q) x00 = b) by (rewrite app_nth2, Nat.sub_diag, E by lia; reflexivity).
  destruct (start_boundary K) as (a & c & Sg & La); [rewrite N; exact S|]. destruct (segs_split Sg) as (Sa & Sc & T).
  assert (T2 : p = segs_text a /\ snd g ++ q = segs_text c).
  { apply app_len_inj; [symmetry; exact La|exact T]. }
  destruct T2 as (Tp & Tq). unfold valid_utf8 in V. rewrite Sg, forallb_app in V. apply andb_true_iff in V. destruct V as (Va & Vc).
  split; [unfold valid_utf8; rewrite Tp, Sa; exact Va|]. apply (valid_rest (real_valid R)). rewrite Tq. unfold valid_utf8. rewrite Sc. exact Vc.
Qed.

Section Cuts.
Variable s : splitter.
Hypothesis Hs : sober s.

(** [b] is [v] with blanks in it, if the splitter writes blanks at all. *)
Definition filled (v b : bytes) : Prop := if sp_skip s then blanked v b else v = b.
Lemma filled_refl b : filled b b.
Proof. unfold filled. destruct (sp_skip s); [|reflexivity]. induction b; constructor; assumption. Qed.
Lemma filled_join v b w c : filled v b -> filled w c -> filled (v ++ w) (b ++ c).
Proof. unfold filled. destruct (sp_skip s); [apply blanked_app|congruence]. Qed.
Lemma filled_split v b c : filled v (b ++ c) -> exists v1 v2, v = v1 ++ v2 /\ filled v1 b /\ filled v2 c.
Proof.
  unfold filled. destruct (sp_skip s); [|intros ->; eauto]. intros H. destruct (blanked_split H) as (x & y & H1 & H2 & H3). eauto.
Qed.
(** A rune in the text with blanks is a blank or a rune of the text. *)
Lemma filled_rune v g : rune_ok g -> filled v (snd g) -> v = snd g \/ (sp_skip s = true /\ g = (32, [x20]) /\ v = []).
Proof.
  intros R. unfold filled. destruct (sp_skip s) eqn:K; [|auto]. intros H. destruct (in_dec Byte.byte_eq_dec x20 (snd g)) as [I|I].
  - pose proof (rune_blank R I) as E. subst g. cbn [snd] in *. inversion H as [|b x y Hxy|x y Hxy]; subst; inversion Hxy; subst; auto.
  - left. exact (blanked_none H I).
Qed.
Lemma text_cons (g : N * bytes) c : segs_text (g :: c) = snd g ++ segs_text c.
Proof. destruct g. apply segs_text_cons. Qed.
Lemma space_real g : rune_ok g -> is_space (fst g) = true -> real g.
Proof. intros R S. split; [exact R|exact (space_not_error S)]. Qed.

(** Taking white space away *)
Lemma visible_valid c : Forall rune_ok c -> forall p v q, filled v (segs_text c) -> valid_utf8 (p ++ v ++ q) = true -> valid_utf8 (p ++ segs_text (visible s c) ++ q) = true.
Proof.
  induction 1 as [|g c R _ IH]; intros p v q F V.
  - rewrite visible_nil. unfold filled in F. change (segs_text []) with (@nil byte) in *. destruct (sp_skip s); [inversion F; subst; exact V|subst; exact V].
  - rewrite text_cons in F. destruct (filled_split F) as (v1 & v2 & -> & F1 & F2). change (g :: c) with ([g] ++ c). rewrite visible_app, segs_text_app.
    destruct (sp_skip s && is_space (fst g)) eqn:E.
    + rewrite (visible_space E). cbn [app]. change (segs_text []) with (@nil byte). cbn [app]. apply (IH p v2 q F2). apply andb_true_iff in E. destruct E as (K & S).
      destruct (filled_rune R F1) as [->|(_ & _ & ->)]; [|exact V]. rewrite <- app_assoc in V. destruct (valid_cut (space_real R S) V) as (A & B). apply valid_join; assumption.
    + rewrite (visible_keep E). rewrite text_cons. change (segs_text []) with (@nil byte). rewrite app_nil_r.
      destruct (filled_rune R F1) as [->|(K & -> & ->)]; [|rewrite K in E; discriminate]. rewrite <- !app_assoc in *. rewrite app_assoc. apply (IH (p ++ snd g) v2 q F2). rewrite <- app_assoc. exact V.
Qed.
(** The rest of a text after whole runes *)
Lemma after_valid c : Forall real c -> forall v q, filled v (segs_text c) -> valid_utf8 (v ++ q) = true -> valid_utf8 v = true /\ valid_utf8 q = true.
Proof.
  induction 1 as [|g c R _ IH]; intros v q F V.
  - unfold filled in F. change (segs_text []) with (@nil byte) in *. destruct (sp_skip s); [inversion F; subst; split; [reflexivity|exact V]|subst; split; [reflexivity|exact V]].
  - rewrite text_cons in F. destruct (filled_split F) as (v1 & v2 & -> & F1 & F2). rewrite <- app_assoc in V. destruct (filled_rune (proj1 R) F1) as [->|(_ & _ & ->)]; [|exact (IH _ _ F2 V)].
    destruct (IH v2 q F2) as (A & B); [exact (valid_rest (real_valid R) V)|]. split; [apply valid_join; [exact (real_valid R)|exact A]|exact B].
Qed.
Lemma cut_valid c0 g c1 p v q : Forall rune_ok c0 -> real g -> (fst g = 32 -> sp_skip s = false) -> Forall real c1 ->
  filled v (segs_text (c0 ++ g :: c1)) -> valid_utf8 (p ++ v ++ q) = true -> valid_utf8 (p ++ v) = true /\ valid_utf8 q = true.
Proof.
  intros R0 R NB R1 F V. rewrite segs_text_app, text_cons in F. destruct (filled_split F) as (v0 & v' & -> & F0 & F'). destruct (filled_split F') as (vg & v1 & -> & Fg & F1).
  destruct (filled_rune (proj1 R) Fg) as [->|(K & E & _)]; [|rewrite E in NB; cbn in NB; specialize (NB eq_refl); congruence].
  rewrite <- !app_assoc in V. rewrite app_assoc in V. destruct (valid_cut R V) as (A & B). destruct (after_valid R1 F1 B) as (C & D). split; [|exact D].
  rewrite !app_assoc. rewrite <- (app_assoc (p ++ v0)). apply valid_join; [exact A|]. apply valid_join; [exact (real_valid R)|exact C].
Qed.

Lemma visible_split c : forall a g b, visible s c = a ++ g :: b -> exists c0 c1, c = c0 ++ g :: c1 /\ visible s c1 = b.
Proof.
  induction c as [|h c IH]; intros a g b H; [rewrite visible_nil in H; destruct a; discriminate|]. change (h :: c) with ([h] ++ c) in H. rewrite visible_app in H.
  destruct (sp_skip s && is_space (fst h)) eqn:E.
  - rewrite (visible_space E) in H. cbn [app] in H. destruct (IH _ _ _ H) as (c0 & c1 & -> & H1). exists (h :: c0), c1. auto.
  - rewrite (visible_keep E) in H. cbn [app] in H. destruct a as [|a0 a]; cbn in H; injection H as -> H; [exists [], c; auto|]. destruct (IH _ _ _ H) as (c0 & c1 & -> & H1). exists (a0 :: c0), c1. auto.
Qed.
Lemma tail_real g : rune_ok g -> tail_rune s g -> real g.
Proof. intros R [D|D]; (split; [exact R|]); intros E; rewrite E in D; [exact (proj1 Hs D)|exact (proj1 (proj2 Hs) D)]. Qed.
Lemma visible_in c g : In g c -> In g (visible s c) \/ is_space (fst g) = true.
Proof. intros I. unfold visible. destruct (sp_skip s); [|auto]. destruct (is_space (fst g)) eqn:E; [auto|]. left. apply filter_In. rewrite E. auto. Qed.
Lemma runes_bytes c : Forall rune_ok c -> (length c <= length (segs_text c))%nat.
Proof. induction 1 as [|g c (N & _) _ IH]; [cbn; lia|]. rewrite text_cons, app_length. cbn [length]. destruct (snd g); [congruence|cbn [length]; lia]. Qed.
(** Where a brief sentence ends *)
Lemma ended_cut c rest : Forall rune_ok c -> ended s c rest -> brief s (segs_text (visible s c)) ->
  exists c0 g c1, c = c0 ++ g :: c1 /\ real g /\ (fst g = 32 -> sp_skip s = false) /\ Forall real c1.
Proof.
  intros R E B. rewrite Forall_forall in R. destruct E as [((body & tail & V & Nb & C & T) & _)|[(K & (c' & g & -> & S & D))|(_ & (l1 & g1 & l2 & g2 & -> & _ & L))]].
  - destruct C as [(b0 & g & -> & D)|M].
    + rewrite <- app_assoc in V. cbn [app] in V. destruct (visible_split V) as (c0 & c1 & E & V1). exists c0, g, c1. split; [exact E|].
      assert (Rg : rune_ok g) by (apply R; rewrite E; apply in_or_app; right; left; reflexivity). split; [apply tail_real; [exact Rg|left; exact D]|].
      split; [intros E32; destruct (sp_skip s) eqn:K; [|reflexivity]; destruct (proj2 (proj2 Hs) K); unfold delim_rune in D; rewrite <- E32; exact D|].
      apply Forall_forall. intros h I. assert (Rh : rune_ok h) by (apply R; rewrite E; apply in_or_app; right; right; exact I).
      destruct (visible_in I) as [J|S]; [|exact (space_real Rh S)]. rewrite V1 in J. rewrite Forall_forall in T. apply tail_real; auto.
    + exfalso. unfold brief in B. assert (X : Forall rune_ok (visible s c)) by (apply visible_Forall, Forall_forall; exact R). pose proof (runes_bytes X) as Y. rewrite V in B, Y. rewrite app_length in Y. unfold bytes in *. lia.
  - exists c', g, []. split; [reflexivity|]. assert (Rg : rune_ok g) by (apply R; apply in_or_app; right; left; reflexivity). split; [exact (space_real Rg S)|].
    split; [intros E32; destruct (proj2 (proj2 Hs) K); unfold delim_rune in D; rewrite <- E32; exact D|constructor].
  - exists (l1 ++ g1 :: l2), g2, []. split; [rewrite <- app_assoc; reflexivity|]. assert (Rg : rune_ok g2) by (apply R; apply in_or_app; right; right; apply in_or_app; right; left; reflexivity).
    split; [split; [exact Rg|rewrite L; discriminate]|]. split; [rewrite L; discriminate|constructor].
Qed.

(** ** The invariant *)
Definition settled (acc : list bytes) : Prop := forall b p, acc = b ++ [p] -> brief s p.
Definition J (acc : list bytes) (data : bytes) (r : reader) (e : option scan_err) : Prop :=
  e = Some ErrNoProgress \/
  ((exists p v, filled v (data ++ rd_rest r) /\ valid_utf8 (p ++ v) = true /\ (settled acc -> p = [])) /\
   (forall x, e = Some x -> rd_rest r = []) /\ judged s acc).
Lemma judged_snoc acc t : judged s acc -> (settled acc -> brief s t -> valid_utf8 t = true) -> judged s (acc ++ [t]).
Proof.
  intros A T before x after E Bx Bp. destruct (snoc_inv E) as [(-> & -> & ->)|(a' & -> & E')]; [exact (T Bp Bx)|]. exact (A _ _ _ E' Bx Bp).
Qed.
Lemma settled_snoc acc t : settled (acc ++ [t]) <-> brief s t.
Proof. split; [intros H; exact (H acc t eq_refl)|]. intros B b p E. apply app_inj_tail in E. destruct E as (_ & <-). exact B. Qed.
Lemma brief_dec t : brief s t \/ ~ brief s t.
Proof. unfold brief. lia. Qed.

Lemma visible_nofill l : sp_skip s = false -> segs_text (visible s (segs l)) = l.
Proof. intros K. rewrite visible_all by exact K. apply segs_concat. Qed.
Lemma filled_blanks b k : sp_skip s = true -> filled b (b ++ repeat x20 k).
Proof.
  intros K. rewrite <- (app_nil_r b) at 1. apply filled_join; [apply filled_refl|]. unfold filled. rewrite K. induction k; cbn [repeat]; constructor; assumption.
Qed.

Theorem cuts_lemma r : valid_utf8 (rd_rest r) = true ->
  exists toks err r', scan_texts (scan_sentences s) r = Ok (toks, err, r') /\ (err = Some ErrNoProgress \/ judged s toks).
Proof.
  intros V. destruct (@sent_run s J) with (r := r) as (toks & err & r' & E & St).
  - intros acc data r1 e c rest [->|((p & v & F & P & A) & X & Jd)] Sg _ _ _ Ed _; [left; reflexivity|right]. destruct (segs_split Sg) as (Sc & _ & T). rewrite segs_concat in T.
    assert (R : Forall rune_ok c) by (rewrite <- Sc; apply segs_rune_ok). rewrite T, <- app_assoc in F. destruct (filled_split F) as (v1 & v2 & -> & F1 & F2).
    destruct (brief_dec (segs_text (visible s c))) as [B|B].
    + destruct (ended_cut R Ed B) as (c0 & g & c1 & -> & Rg & Ng & R1). pose proof R as R'. apply Forall_app in R'. destruct R' as (R0 & R'). destruct (cut_valid R0 Rg Ng R1 F1 P) as (P1 & P2).
      split; [exists [], v2; split; [exact F2|]; split; [exact P2|reflexivity]|]. split; [exact X|]. apply judged_snoc; [exact Jd|].
      intros S _. rewrite (A S) in P1. pose proof (@visible_valid _ R [] v1 [] F1) as Y. cbn [app] in Y. rewrite !app_nil_r in Y. apply Y. exact P1.
    + split; [exists (p ++ v1), v2; split; [exact F2|]; split; [rewrite <- app_assoc; exact P|intros S; destruct (B (proj1 (settled_snoc _ _) S))]|].
      split; [exact X|]. apply judged_snoc; [exact Jd|]. intros _ B'. contradiction.
  - intros acc data r1 e _ [H|((p & v & F & P & A) & X & Jd)] _ _; [left; exact H|right]. specialize (X _ eq_refl). rewrite X, app_nil_r in F.
    pose proof (segs_rune_ok data) as R. assert (F' : filled v (segs_text (segs data))) by (rewrite segs_concat; exact F).
    split; [exists [], []; rewrite X; split; [apply filled_refl|]; split; reflexivity|]. split; [intros _ _; exact X|]. apply judged_snoc; [exact Jd|].
    intros S _. rewrite (A S) in P. pose proof (@visible_valid _ R [] v [] F') as Y. cbn [app] in Y. rewrite !app_nil_r in Y. apply Y. exact P.
  - intros acc data r1 k _ [H|((p & v & F & P & A) & X & Jd)] _ _ Lk _; [left; exact H|right]. split; [|split; [exact X|exact Jd]].
    destruct (sp_skip s) eqn:K.
    + destruct (filled_split F) as (v1 & v2 & -> & F1 & F2). assert (F' : filled v1 (segs_text (segs data))) by (rewrite segs_concat; exact F1).
      exists p, (segs_text (visible s (segs data)) ++ v2). split; [apply filled_join; [apply filled_blanks; exact K|exact F2]|]. split; [|exact A]. apply (visible_valid (segs_rune_ok data) F' P).
    + rewrite visible_nofill in * by exact K. rewrite app_length, repeat_length in Lk. assert (k = 0%nat) by lia. subst k. cbn [repeat]. rewrite app_nil_r. exists p, v. auto.
  - intros acc data r1 tries cap chunk e r2 [H|((p & v & F & P & A) & X & Jd)] _ Rd _; [discriminate|]. apply read_loop_ok in Rd. destruct Rd as (Rr & _ & _ & _ & _ & _ & Re).
    destruct e as [e|].
    + destruct (Re e eq_refl) as [(-> & _)|(_ & Z)]; [left; reflexivity|right]. split; [|split; [intros _ _; exact Z|exact Jd]]. exists p, v. rewrite <- app_assoc, <- Rr. auto.
    + right. split; [|split; [discriminate|exact Jd]]. exists p, v. rewrite <- app_assoc, <- Rr. auto.
  - right. split; [|split; [discriminate|intros [|? ?] ? ? H; discriminate]]. exists [], (rd_rest r). split; [apply filled_refl|]. split; [exact V|reflexivity].
  - exists toks, err, r'. split; [exact E|]. destruct St as [(e & [H|(_ & _ & Jd)] & D & _)|(data & [H|(_ & _ & Jd)] & _)]; try (right; exact Jd); [|discriminate].
    left. rewrite D. injection H as ->. reflexivity.
Qed.
End Cuts.
