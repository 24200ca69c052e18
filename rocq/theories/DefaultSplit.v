(** The default sentence splitter (filter/sentence_splitter.go:17-24): exactly where the package
    level ScanSentences ends a sentence. *)
From Verif Require Import SpecSent ScannerFacts SplitterFacts SentenceFacts LoaderFacts Utf8Facts.
From Coq Require Import List Arith Lia ZifyBool ZifyNat ZifyN.
Import ListNotations.
Set Implicit Arguments.
Unset Strict Implicit.
Local Open Scope N_scope.

(** ** Specification *)
Definition runes_of (s : bytes) : list N := map fst (segs s).
(** The marks that end a sentence and those that may follow them, as text. *)
Definition marks : list N := runes_of (s2b "。．！!？?").
Definition closers : list N := runes_of (s2b ".｣」』)）｝}〉》").
Definition is_solid (g : N * bytes) : bool := negb (is_space (fst g)).
Definition solid (l : list (N * bytes)) : list (N * bytes) := filter is_solid l.
(** A text with no mark, and in which two line feeds after its first solid rune always have other
    white space between them. *)
Definition quiet (a : list (N * bytes)) : Prop :=
  Forall (fun g => ~ In (fst g) marks) a /\
  forall x b y c z, a = x ++ (10, b) :: y ++ (10, c) :: z -> solid x <> [] -> ~ Forall (fun g => is_solid g = true) y.
(** What may stand after the mark that ends a sentence and belongs to it: marks, closers and white
    space, up to and including a second line feed. *)
Definition trailing (g : N * bytes) : Prop :=
  In (fst g) marks \/ In (fst g) closers \/ is_space (fst g) = true.
Definition feeds (l : list (N * bytes)) : nat := length (filter (fun g => fst g =? 10) l).
Definition starts_other (l : list (N * bytes)) : Prop :=
  match l with
  | [] => True
  | g :: _ => ~ trailing g
  end.
Definition tail_of (tail rest : list (N * bytes)) : Prop :=
  Forall trailing tail /\
  (((feeds tail <= 1)%nat /\ starts_other rest) \/ exists t b, tail = t ++ [(10, b)] /\ feeds t = 1%nat).

Inductive outcome := Sentence (kept rest : list (N * bytes)) | Unfinished (kept : list (N * bytes)).
(** Where the first sentence of a text ends. *)
Inductive cut : list (N * bytes) -> outcome -> Prop :=
| cut_mark a m tail rest : quiet a -> (length (solid a) < 128)%nat ->
    In (fst m) marks \/ (is_solid m = true /\ length (solid a) = 127%nat) -> tail_of tail rest ->
    cut (a ++ m :: tail ++ rest) (Sentence (solid (a ++ m :: tail)) rest)
| cut_feeds a b y c rest : quiet (a ++ (10, b) :: y) -> (length (solid (a ++ y)) < 128)%nat ->
    solid a <> [] -> Forall (fun g => is_solid g = true) y ->
    cut (a ++ (10, b) :: y ++ (10, c) :: rest) (Sentence (solid (a ++ y)) rest)
| cut_none a : quiet a -> (length (solid a) < 128)%nat -> cut a (Unfinished (solid a)).

(** ** Proof *)
Lemma marks_default r : is_delim default_splitter r = true <-> In r marks.
Proof.
  assert (marks = sp_delim default_splitter) as -> by (vm_compute; reflexivity). apply is_delim_in.
Qed.
Lemma closers_default r : is_follower default_splitter r = true <-> In r closers.
Proof. assert (closers = sp_follower default_splitter) as -> by (vm_compute; reflexivity). apply is_follower_in. Qed.
Lemma mark_solid r : In r marks \/ In r closers -> is_space r = false.
Proof.
  intros H. destruct (is_space r) eqn:E; [|reflexivity]. exfalso.
  assert (Hc : forallb (fun x => negb (is_space x)) (marks ++ closers) = true) by (vm_compute; reflexivity).
  rewrite forallb_forall in Hc. specialize (Hc r). rewrite in_app_iff in Hc. specialize (Hc H). rewrite E in Hc. discriminate.
Qed.
#[local] Opaque marks closers.
Lemma not_mark r : ~ In r marks -> is_delim default_splitter r = false.
Proof. intros H. destruct (is_delim default_splitter r) eqn:E; [|reflexivity]. exact (False_ind _ (H (proj1 (marks_default r) E))). Qed.
Lemma solid_app a b : solid (a ++ b) = solid a ++ solid b.
Proof. apply filter_app. Qed.
Lemma solid_one r b : solid [(r, b)] = if is_space r then [] else [(r, b)].
Proof. unfold solid, is_solid. cbn [filter fst]. destruct (is_space r); reflexivity. Qed.

(** A line feed followed by solid runes only. *)
Definition armed (p : list (N * bytes)) : Prop :=
  exists x b y, p = x ++ (10, b) :: y /\ solid x <> [] /\ Forall (fun g => is_solid g = true) y.

Lemma armed_solid p : armed p -> solid p <> [].
Proof. intros (x & b & y & -> & H & _). rewrite solid_app. destruct (solid x); [contradiction|discriminate]. Qed.
Lemma snoc_inv {A} (p x : list A) g h y : p ++ [g] = x ++ h :: y ->
  (y = [] /\ h = g /\ x = p) \/ exists y', y = y' ++ [g] /\ p = x ++ h :: y'.
Proof.
  destruct (@exists_last _ (h :: y) ltac:(discriminate)) as (y0 & g0 & E). intros H. rewrite E in H. rewrite app_assoc in H.
  apply app_inj_tail in H. destruct H as [-> <-]. destruct y0 as [|h0 y0]; cbn [app] in E; injection E as -> ->.
  - left. rewrite app_nil_r. auto.
  - right. exists y0. auto.
Qed.
Lemma armed_step p r b : armed (p ++ [(r, b)]) <-> (if r =? 10 then solid p <> [] else is_space r = false /\ armed p).
Proof.
  split.
  - intros (x & b0 & y & E & Hx & Hy). destruct (snoc_inv E) as [(-> & Eg & ->)|(y' & -> & ->)].
    + injection Eg as <- <-. exact Hx.
    + apply Forall_app in Hy. destruct Hy as [Hy Hg]. inversion Hg as [|? ? Hg' _]; subst. unfold is_solid in Hg'. cbn [fst] in Hg'.
      destruct (N.eqb_spec r 10) as [->|]; [discriminate Hg'|]. split; [destruct (is_space r); [discriminate|reflexivity]|].
      exists x, b0, y'. auto.
  - destruct (N.eqb_spec r 10) as [->|Hr].
    + intros H. exists p, b, []. auto.
    + intros (Hs & x & b0 & y & -> & Hx & Hy). exists x, b0, (y ++ [(r, b)]). split; [rewrite <- app_assoc; reflexivity|]. split; [assumption|].
      apply Forall_app. split; [assumption|]. constructor; [|constructor]. unfold is_solid. cbn [fst]. rewrite Hs. reflexivity.
Qed.
Lemma quiet_step p r b : quiet (p ++ [(r, b)]) <-> quiet p /\ ~ In r marks /\ (r = 10 -> ~ armed p).
Proof.
  split.
  - intros [H1 H2]. apply Forall_app in H1. destruct H1 as [H1 H3]. inversion H3; subst. split; [split; [assumption|]|split; [assumption|]].
    + intros x b0 y c z -> Hx. apply (H2 x b0 y c (z ++ [(r, b)])); [|assumption].
      rewrite <- app_assoc. cbn [app]. rewrite <- app_assoc. reflexivity.
    + intros -> (x & b0 & y & -> & Hx & Hy). apply (H2 x b0 y b []); [|assumption|assumption]. rewrite <- app_assoc. reflexivity.
  - intros ([H1 H2] & H3 & H4). split.
    + apply Forall_app. split; [assumption|]. constructor; [assumption|constructor].
    + intros x b0 y c z E Hx Hy.
      assert (E' : p ++ [(r, b)] = (x ++ (10, b0) :: y) ++ (10, c) :: z) by (rewrite E, <- app_assoc; reflexivity).
      destruct (snoc_inv E') as [(-> & Eg & <-)|(z' & -> & ->)].
      * injection Eg as <- <-. apply H4; [reflexivity|]. exists x, b0, y. auto.
      * apply (H2 x b0 y c z'); [rewrite <- app_assoc; reflexivity|assumption|assumption].
Qed.
Lemma quiet_nil : quiet [].
Proof. split; [constructor|]. intros [|? ?] ? ? ? ? H; discriminate. Qed.
Lemma armed_nil : ~ armed [].
Proof. intros ([|? ?] & ? & ? & H & _); discriminate. Qed.

(** After a quiet text the loop goes on, and its flags say whether a solid rune was seen and
    whether a line feed ends the sentence. *)
Definition headb (p : list (N * bytes)) : bool := match solid p with [] => true | _ => false end.
Lemma quiet_loop a : quiet a -> (length (solid a) < 128)%nat -> exists nn, (nn = true <-> armed a) /\
  forall l, abs_loop default_splitter (a ++ l) [] 0 true false =
            abs_loop default_splitter l (segs_text (solid a)) (Z.of_nat (length (solid a))) (headb a) nn.
Proof.
  induction a as [|[r b] a IH] using rev_ind; intros HQ HL.
  - exists false. split; [split; [discriminate|intros H; destruct (armed_nil H)]|]. reflexivity.
  - apply quiet_step in HQ. destruct HQ as (HQ & HM & HF). rewrite solid_app, solid_one, app_length in HL.
    destruct IH as (nn & Hnn & IH); [assumption|lia|].
    assert (St : exists nn', (nn' = true <-> armed (a ++ [(r, b)])) /\ forall l,
      abs_loop default_splitter ((r, b) :: l) (segs_text (solid a)) (Z.of_nat (length (solid a))) (headb a) nn =
      abs_loop default_splitter l (segs_text (solid (a ++ [(r, b)]))) (Z.of_nat (length (solid (a ++ [(r, b)])))) (headb (a ++ [(r, b)])) nn').
    { cbn [abs_loop sp_skip sp_dlf sp_max default_splitter andb]. fold default_splitter. rewrite (not_mark HM). unfold line_feed.
      unfold headb. rewrite solid_app, solid_one, segs_text_app, app_length. destruct (is_space r) eqn:E.
      - cbn [length]. change (segs_text []) with (@nil byte). rewrite Nat.add_0_r, !app_nil_r.
        destruct (solid a) as [|g0 sa] eqn:Es.
        + exists nn. split; [|reflexivity]. rewrite armed_step, Es, Hnn, E.
          assert (~ armed a) by (intros H; apply armed_solid in H; congruence).
          destruct (r =? 10); split; intros H'; try contradiction; destruct H'; discriminate || contradiction.
        + destruct (N.eqb_spec r 10) as [->|Hr].
          * specialize (HF eq_refl). destruct nn; [exfalso; apply HF, Hnn; reflexivity|]. exists true.
            split; [|reflexivity]. rewrite armed_step, Es. cbn [N.eqb Pos.eqb]. split; [discriminate|reflexivity].
          * exists false. split; [|reflexivity]. rewrite armed_step. replace (r =? 10) with false by lia. rewrite E.
            split; [discriminate|intros [H _]; discriminate].
      - assert (Hr : (r =? 10) = false) by (destruct (N.eqb_spec r 10) as [->|]; [discriminate E|reflexivity]). rewrite Hr. cbn [andb negb].
        cbn [length] in *. replace (Z.of_nat (length (solid a)) + 1 <? 128)%Z with true by lia.
        exists nn. split; [rewrite armed_step, Hr, E, Hnn; tauto|]. intros l.
        replace (match solid a ++ [(r, b)] with [] => true | _ => false end) with false by (destruct (solid a); reflexivity).
        f_equal; [|lia]. f_equal. unfold segs_text. cbn [map concat snd]. rewrite app_nil_r. reflexivity. }
    destruct St as (nn' & Hnn' & St). exists nn'. split; [assumption|]. intros l. rewrite <- app_assoc. cbn [app]. rewrite IH. apply St.
Qed.

Lemma feeds_app a b : feeds (a ++ b) = (feeds a + feeds b)%nat.
Proof. unfold feeds. rewrite filter_app, app_length. reflexivity. Qed.
Lemma feeds_cons r b a : feeds ((r, b) :: a) = ((if (r =? 10)%N then 1 else 0) + feeds a)%nat.
Proof. unfold feeds. cbn [filter fst]. destruct (r =? 10); reflexivity. Qed.
Definition seen (nn : bool) : nat := if nn then 1%nat else 0%nat.

Lemma tail_step r b l kept nn : trailing (r, b) -> ((r =? 10) && nn = false) ->
  abs_tail default_splitter ((r, b) :: l) kept nn = abs_tail default_splitter l (kept ++ segs_text (solid [(r, b)])) (if r =? 10 then true else nn).
Proof.
  intros Ht Hn. rewrite solid_one. cbn [abs_tail sp_skip sp_dlf default_splitter andb]. fold default_splitter. unfold line_feed.
  destruct (is_space r) eqn:E.
  - unfold segs_text. cbn [map concat]. rewrite app_nil_r. destruct (r =? 10); [|reflexivity]. destruct nn; [discriminate|reflexivity].
  - assert (Hr : (r =? 10) = false) by (destruct (N.eqb_spec r 10) as [->|]; [discriminate E|reflexivity]). rewrite Hr.
    unfold segs_text. cbn [map concat snd]. rewrite app_nil_r. destruct Ht as [Ht|[Ht|Ht]]; cbn [fst] in Ht; [| |congruence].
    + rewrite (proj2 (marks_default r) Ht). reflexivity.
    + rewrite (proj2 (closers_default r) Ht), orb_true_r. reflexivity.
Qed.
Lemma tail_stop l kept nn : starts_other l -> abs_tail default_splitter l kept nn = (kept, l).
Proof.
  destruct l as [|[r b] l]; [reflexivity|]. unfold starts_other, trailing. cbn [fst]. intros H. cbn [abs_tail sp_skip sp_dlf default_splitter andb]. fold default_splitter.
  destruct (is_space r) eqn:E; [exact (False_ind _ (H (or_intror (or_intror eq_refl))))|]. destruct (is_delim default_splitter r) eqn:Ed; [exact (False_ind _ (H (or_introl (proj1 (marks_default r) Ed))))|].
  destruct (is_follower default_splitter r) eqn:Ef; [exact (False_ind _ (H (or_intror (or_introl (proj1 (closers_default r) Ef)))))|]. reflexivity.
Qed.
Lemma tail_run t l : Forall trailing t -> forall kept nn, (feeds t + seen nn <= 1)%nat ->
  exists nn', seen nn' = (feeds t + seen nn)%nat /\
  abs_tail default_splitter (t ++ l) kept nn = abs_tail default_splitter l (kept ++ segs_text (solid t)) nn'.
Proof.
  induction 1 as [|[r b] t Ht HT IH]; intros kept nn Hf.
  - exists nn. split; [reflexivity|]. unfold segs_text. cbn [app solid filter map concat]. rewrite app_nil_r. reflexivity.
  - rewrite feeds_cons in Hf. cbn [app]. rewrite tail_step; [|assumption|destruct (r =? 10), nn; cbn [seen] in Hf; reflexivity || lia].
    destruct (IH (kept ++ segs_text (solid [(r, b)])) (if r =? 10 then true else nn)) as (nn' & Hn & IH').
    { destruct (r =? 10), nn; cbn [seen] in *; lia. }
    exists nn'. rewrite feeds_cons. split; [rewrite Hn; destruct (r =? 10), nn; cbn [seen] in *; lia|]. rewrite IH'.
    change ((r, b) :: t) with ([(r, b)] ++ t). rewrite solid_app, segs_text_app, app_assoc. reflexivity.
Qed.
Lemma tail_ok tail rest kept : tail_of tail rest -> abs_tail default_splitter (tail ++ rest) kept false = (kept ++ segs_text (solid tail), rest).
Proof.
  intros [HT [[Hf HR]|(t & b & -> & Hf)]].
  - destruct (@tail_run tail rest HT kept false) as (nn & _ & E); [cbn [seen]; lia|]. rewrite E. apply tail_stop. assumption.
  - apply Forall_app in HT. destruct HT as [HT _]. rewrite <- app_assoc. cbn [app].
    destruct (@tail_run t ((10, b) :: rest) HT kept false) as (nn & Hn & E); [cbn [seen]; lia|]. rewrite E.
    destruct nn; cbn [seen] in Hn; [|lia]. rewrite solid_app, solid_one. cbn [is_space]. rewrite app_nil_r. reflexivity.
Qed.
Lemma tail_exists l : exists tail rest, l = tail ++ rest /\ tail_of tail rest.
Proof.
  enough (H : forall n, (n <= 1)%nat -> exists tail rest, l = tail ++ rest /\ Forall trailing tail /\
    (((feeds tail <= n)%nat /\ starts_other rest) \/ exists t b, tail = t ++ [(10, b)] /\ feeds t = n)).
  { destruct (H 1%nat) as (t & r & E & H1); [lia|]. exists t, r. split; assumption. }
  induction l as [|[r b] l IH]; intros n Hn.
  - exists [], []. split; [reflexivity|]. split; [constructor|]. left. split; [cbn; lia|exact I].
  - assert (HD : trailing (r, b) \/ ~ trailing (r, b)).
    { destruct (in_dec N.eq_dec r marks) as [i1|n1]; [left; left; exact i1|].
      destruct (in_dec N.eq_dec r closers) as [i2|n2]; [left; right; left; exact i2|].
      destruct (is_space r) eqn:E; [left; right; right; exact E|].
      right. intros [x|[x|x]]; [exact (n1 x)|exact (n2 x)|]. cbn [fst] in x. rewrite E in x. discriminate x. }
    destruct HD as [HD|HD].
    + destruct (N.eqb_spec r 10) as [->|Hr].
      * destruct n as [|n].
        -- exists [(10, b)], l. split; [reflexivity|]. split; [constructor; [assumption|constructor]|]. right. exists [], b. split; reflexivity.
        -- destruct (IH n) as (t & rest & -> & HT & HE); [lia|]. exists ((10, b) :: t), rest. split; [reflexivity|].
           split; [constructor; assumption|]. destruct HE as [[H1 H2]|(t' & b' & -> & H1)].
           ++ left. rewrite feeds_cons. cbn [N.eqb Pos.eqb]. split; [lia|assumption].
           ++ right. exists ((10, b) :: t'), b'. rewrite feeds_cons. cbn [N.eqb Pos.eqb]. split; [reflexivity|lia].
      * destruct (IH n) as (t & rest & -> & HT & HE); [lia|]. exists ((r, b) :: t), rest. split; [reflexivity|].
        assert (E0 : (r =? 10) = false) by lia.
        split; [constructor; assumption|]. destruct HE as [[H1 H2]|(t' & b' & -> & H1)].
        -- left. rewrite feeds_cons, E0. split; [lia|assumption].
        -- right. exists ((r, b) :: t'), b'. rewrite feeds_cons, E0. split; [reflexivity|lia].
    + exists [], ((r, b) :: l). split; [reflexivity|]. split; [constructor|]. left. split; [cbn; lia|exact HD].
Qed.

Definition loop_result (o : outcome) : abs_result :=
  match o with Sentence k rest => ATok (segs_text k) rest | Unfinished k => AEnd (segs_text k) end.
Lemma cut_loop l o : cut l o -> abs_loop default_splitter l [] 0 true false = loop_result o.
Proof.
  intros [a [r b] tail rest HQ HL HM HT|a b y c rest HQ HL HS HY|a HQ HL].
  - destruct (quiet_loop HQ HL) as (nn & _ & ->). cbn [fst] in HM. unfold is_solid in HM. cbn [fst] in HM.
    assert (Hs : is_space r = false).
    { destruct HM as [HM|[HM _]]; [exact (@mark_solid r (or_introl HM))|destruct (is_space r); [discriminate|reflexivity]]. }
    assert (Hr : (r =? 10) = false) by (destruct (N.eqb_spec r 10) as [->|]; [discriminate Hs|reflexivity]).
    cbn [abs_loop sp_skip sp_dlf sp_max default_splitter andb]. fold default_splitter. unfold line_feed. rewrite Hs, Hr. cbn [andb].
    assert (Hstop : negb (is_delim default_splitter r) && (Z.of_nat (length (solid a)) + 1 <? 128)%Z = false).
    { destruct HM as [HM|[_ HM]]; [rewrite (proj2 (marks_default r) HM); reflexivity|rewrite HM; apply andb_false_r]. }
    rewrite Hstop, tail_ok by assumption. cbn [loop_result]. f_equal.
    change ((r, b) :: tail) with ([(r, b)] ++ tail). rewrite !solid_app, !segs_text_app, solid_one, Hs, <- app_assoc. f_equal. f_equal.
    unfold segs_text. cbn [map concat snd]. rewrite app_nil_r. reflexivity.
  - assert (Hsol : solid (a ++ (10, b) :: y) = solid (a ++ y)).
    { rewrite !solid_app. reflexivity. }
    replace (a ++ (10, b) :: y ++ (10, c) :: rest) with ((a ++ (10, b) :: y) ++ (10, c) :: rest) by (rewrite <- app_assoc; reflexivity).
    rewrite <- Hsol in HL. destruct (quiet_loop HQ HL) as (nn & Hnn & ->).
    assert (nn = true) as -> by (apply Hnn; exists a, b, y; auto).
    unfold headb. rewrite Hsol. destruct (solid (a ++ y)) eqn:E; [rewrite solid_app in E; destruct (solid a); [contradiction|discriminate]|]. reflexivity.
  - destruct (quiet_loop HQ HL) as (nn & _ & E). rewrite <- (app_nil_r a) at 1. rewrite E. reflexivity.
Qed.

Lemma cut_exists l : exists o, cut l o.
Proof.
  enough (H : forall p, quiet p -> (length (solid p) < 128)%nat -> exists o, cut (p ++ l) o) by exact (H [] quiet_nil ltac:(cbn; lia)).
  induction l as [|[r b] l IH]; intros p HQ HL.
  - exists (Unfinished (solid p)). rewrite app_nil_r. constructor; assumption.
  - assert (Hq : forall r, {In r marks} + {~ In r marks}) by (intros r0; apply in_dec, N.eq_dec).
    destruct (Hq r) as [HM|HM].
    + destruct (tail_exists l) as (tail & rest & -> & HT). eexists. apply cut_mark; try eassumption. left. exact HM.
    + destruct (is_space r) eqn:E.
      * assert (HD : r = 10 /\ armed p \/ (r = 10 -> ~ armed p)).
        { destruct (quiet_loop HQ HL) as (nn & Hnn & _). destruct nn; [|right; intros _ H; apply Hnn in H; discriminate].
          destruct (N.eq_dec r 10); [left|right; contradiction]. split; [assumption|apply Hnn; reflexivity]. }
        destruct HD as [[-> (x & b0 & y & -> & Hx & Hy)]|HD].
        -- eexists. rewrite <- app_assoc. cbn [app]. apply cut_feeds; try assumption. revert HL. rewrite !solid_app. auto.
        -- change ((r, b) :: l) with ([(r, b)] ++ l). rewrite app_assoc. apply IH; [apply quiet_step; auto|].
           rewrite solid_app, solid_one, E, app_nil_r. assumption.
      * destruct (Nat.eq_dec (length (solid p)) 127) as [H127|H127].
        -- destruct (tail_exists l) as (tail & rest & -> & HT). eexists. apply cut_mark; try eassumption. right.
           unfold is_solid. cbn [fst]. rewrite E. auto.
        -- change ((r, b) :: l) with ([(r, b)] ++ l). rewrite app_assoc. apply IH.
           ++ apply quiet_step. split; [assumption|]. split; [assumption|]. intros ->. discriminate E.
           ++ rewrite solid_app, solid_one, E, app_length. cbn [length]. lia.
Qed.

Theorem default_cut_lemma data : exists o, cut (segs data) o.
Proof. apply cut_exists. Qed.
Theorem default_scan_lemma data eof o : data <> [] -> cut (segs data) o ->
  match o with
  | Sentence kept rest => exists data' adv, scan_sentences default_splitter data eof = Ok (data', adv, Some (segs_text kept)) /\
      skipn adv data' = segs_text rest /\ segs (segs_text rest) = rest
  | Unfinished kept =>
      if eof then exists data', scan_sentences default_splitter data eof = Ok (data', length data, Some (segs_text kept))
      else exists data' adv k, scan_sentences default_splitter data eof = Ok (data', adv, None) /\ skipn adv data' = segs_text kept ++ repeat x20 k
  end.
Proof.
  intros Hne HC. pose proof (@scan_sentences_ok default_splitter data eof Hne) as H. rewrite (cut_loop HC) in H.
  destruct o as [kept rest|kept]; cbn [loop_result] in H.
  - destruct H as (data' & adv & H1 & H2 & H3 & _). eauto.
  - destruct eof; [destruct H as (data' & H & _); eauto|destruct H as (data' & adv & k & H1 & H2 & _); eauto].
Qed.
