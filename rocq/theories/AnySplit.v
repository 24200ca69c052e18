(** ScanSentences ends sentences where SpecSplit says, for any options. *)
From Verif Require Import ScannerFacts SplitterFacts SentenceFacts SpaceFacts Utf8Facts ChunkFacts SpecSplit.
From Coq Require Import List Arith Lia ZifyBool ZifyNat ZifyN.
Import ListNotations.
Set Implicit Arguments.
Unset Strict Implicit.
Local Open Scope N_scope.

Section Cut.
Variable s : splitter.
Notation dropped := (dropped s).
Notation armed := (armed s).
Notation quiet := (quiet s).
Notation vis := (visible s).

Definition dropb (g : N * bytes) : bool := sp_skip s && is_space (fst g).
Lemma dropped_b g : dropped g <-> dropb g = true.
Proof. unfold SpecSplit.dropped, dropb. rewrite andb_true_iff. reflexivity. Qed.
Lemma kept_b g : ~ dropped g <-> dropb g = false.
Proof. rewrite dropped_b. destruct (dropb g); split; congruence. Qed.
Lemma vis_one g : vis [g] = if dropb g then [] else [g].
Proof. destruct (dropb g) eqn:E; [apply visible_space|apply visible_keep]; exact E. Qed.
Lemma snoc_inv {A} (p x : list A) g h y : p ++ [g] = x ++ h :: y ->
  (y = [] /\ h = g /\ x = p) \/ exists y', y = y' ++ [g] /\ p = x ++ h :: y'.
Proof.
  destruct (@exists_last _ (h :: y) ltac:(discriminate)) as (y0 & g0 & E). intros H. rewrite E in H. rewrite app_assoc in H.
  apply app_inj_tail in H. destruct H as [-> <-]. destruct y0 as [|h0 y0]; cbn [app] in E; injection E as -> ->.
  - left. rewrite app_nil_r. auto.
  - right. exists y0. auto.
Qed.
Lemma armed_step p r b : armed (p ++ [(r, b)]) <->
  (if (r =? line_feed) && sp_dlf s then (sp_skip s = true -> vis p <> []) else dropb (r, b) = false /\ armed p).
Proof.
  split.
  - intros (Hd & x & b0 & y & E & Hx & Hy). destruct (snoc_inv E) as [(-> & Eg & ->)|(y' & -> & ->)].
    + injection Eg as <- <-. rewrite N.eqb_refl, Hd. exact Hx.
    + apply Forall_app in Hy. destruct Hy as [Hy Hg]. inversion Hg as [|? ? Hg' _]; subst. apply kept_b in Hg'.
      assert (A : dropb (r, b) = false /\ armed (x ++ (line_feed, b0) :: y')) by (split; [exact Hg'|split; [exact Hd|exists x, b0, y'; auto]]).
      destruct (N.eqb_spec r line_feed) as [->|]; [|exact A]. rewrite Hd. cbn [andb]. intros Hs. unfold dropb in Hg'. rewrite Hs in Hg'. discriminate Hg'.
  - destruct (N.eqb_spec r line_feed) as [->|Hr]; cbn [andb].
    + destruct (sp_dlf s) eqn:Hd.
      * intros H. split; [exact Hd|]. exists p, b, []. auto.
      * intros [_ [H _]]. congruence.
    + intros (Hs & Hd & x & b0 & y & -> & Hx & Hy). split; [exact Hd|]. exists x, b0, (y ++ [(r, b)]). split; [rewrite <- app_assoc; reflexivity|]. split; [assumption|].
      apply Forall_app. split; [assumption|]. constructor; [|constructor]. apply kept_b. exact Hs.
Qed.
Lemma armed_nil : ~ armed [].
Proof. intros (_ & [|? ?] & ? & ? & H & _); discriminate. Qed.

Definition below (n : nat) : bool := (n =? 0)%nat || (Z.of_nat n <? sp_max s)%Z.
Lemma below_ok a : (vis a = [] \/ (Z.of_nat (length (vis a)) < sp_max s)%Z) <-> below (length (vis a)) = true.
Proof. unfold below. destruct (vis a); cbn [length]; split; intros H; [reflexivity|left; reflexivity|destruct H as [H|H]; [discriminate|lia]|right; lia]. Qed.
Lemma quiet_step p r b : quiet (p ++ [(r, b)]) <->
  quiet p /\ (In r (sp_delim s) -> vis (p ++ [(r, b)]) = []) /\ (r = line_feed -> ~ armed p) /\ below (length (vis (p ++ [(r, b)]))) = true.
Proof.
  split.
  - intros (H1 & H2 & H3). split; [split; [|split]|split; [|split]].
    + intros x g y -> Hg. apply (H1 x g (y ++ [(r, b)])); [rewrite <- app_assoc; reflexivity|exact Hg].
    + intros x b0 y ->. apply (H2 x b0 (y ++ [(r, b)])). rewrite <- app_assoc. reflexivity.
    + apply below_ok in H3. apply below_ok. unfold below in *. rewrite visible_app, app_length in H3. lia.
    + intros Hr. apply (H1 p (r, b) []); [reflexivity|exact Hr].
    + intros ->. apply (H2 p b []). reflexivity.
    + apply below_ok. exact H3.
  - intros ((H1 & H2 & H3) & H4 & H5 & H6). split; [|split].
    + intros x g y E Hg. destruct (snoc_inv E) as [(-> & -> & ->)|(y' & -> & E')]; [apply H4; exact Hg|]. exact (H1 _ _ _ E' Hg).
    + intros x b0 y E. destruct (snoc_inv E) as [(-> & Eg & ->)|(y' & -> & E')]; [injection Eg as <- <-; apply H5; reflexivity|]. exact (H2 _ _ _ E').
    + apply below_ok. exact H6.
Qed.
Lemma quiet_nil : quiet [].
Proof. split; [intros [|? ?] ? ? H; discriminate|]. split; [intros [|? ?] ? ? H; discriminate|]. left. apply visible_nil. Qed.

Definition headb (p : list (N * bytes)) : bool := match vis p with [] => true | _ => false end.
Lemma quiet_loop a : quiet a -> exists nn, (nn = true <-> armed a) /\
  forall l, abs_loop s (a ++ l) [] 0 true false = abs_loop s l (segs_text (vis a)) (Z.of_nat (length (vis a))) (headb a) nn.
Proof.
  induction a as [|[r b] a IH] using rev_ind; intros HQ.
  - exists false. split; [split; [discriminate|intros H; destruct (armed_nil H)]|]. unfold headb. rewrite visible_nil. reflexivity.
  - apply quiet_step in HQ. destruct HQ as (HQ & HM & HF & HL). destruct IH as (nn & Hnn & IH); [assumption|].
    assert (St : exists nn', (nn' = true <-> armed (a ++ [(r, b)])) /\ forall l,
      abs_loop s ((r, b) :: l) (segs_text (vis a)) (Z.of_nat (length (vis a))) (headb a) nn =
      abs_loop s l (segs_text (vis (a ++ [(r, b)]))) (Z.of_nat (length (vis (a ++ [(r, b)])))) (headb (a ++ [(r, b)])) nn').
    { cbn [abs_loop]. change (sp_skip s && is_space r) with (dropb (r, b)).
      unfold headb. rewrite visible_app in HM, HL |- *. rewrite vis_one in HM, HL |- *. rewrite segs_text_app, app_length. destruct (dropb (r, b)) eqn:E.
      - cbn [length]. change (segs_text []) with (@nil byte). rewrite Nat.add_0_r, !app_nil_r in *.
        assert (Hs : sp_skip s = true) by (unfold dropb in E; apply andb_true_iff in E; apply E).
        destruct (vis a) as [|g0 sa] eqn:Es.
        + exists nn. split; [|reflexivity]. rewrite armed_step, Es, Hnn, E.
          assert (~ armed a).
          { intros (_ & x & b0 & y & -> & Hx & _). specialize (Hx Hs). rewrite visible_app in Es. destruct (vis x); [contradiction|discriminate]. }
          destruct ((r =? line_feed) && sp_dlf s); split; intros H'; try contradiction; [destruct (H' Hs eq_refl)|destruct H'; discriminate].
        + replace (is_delim s r) with false by (destruct (is_delim s r) eqn:Ed; [apply is_delim_in in Ed; discriminate (HM Ed)|reflexivity]).
          rewrite (andb_comm (sp_dlf s)).
          destruct ((r =? line_feed) && sp_dlf s) eqn:El.
          * destruct (N.eqb_spec r line_feed) as [->|]; [|discriminate]. specialize (HF eq_refl). destruct nn; [exfalso; apply HF, Hnn; reflexivity|]. exists true.
            split; [|reflexivity]. rewrite armed_step, N.eqb_refl, El, Es. split; [discriminate|reflexivity].
          * exists false. split; [|reflexivity]. rewrite armed_step, El, E. split; [discriminate|intros [H _]; discriminate].
      - rewrite app_length in HL. cbn [length] in *. unfold below in HL.
        assert (Hd : is_delim s r = false).
        { destruct (is_delim s r) eqn:Ed; [|reflexivity]. apply is_delim_in in Ed. specialize (HM Ed). destruct (vis a); discriminate HM. }
        rewrite Hd, (andb_comm (sp_dlf s)). cbn [negb andb].
        replace (Z.of_nat (length (vis a)) + 1 <? sp_max s)%Z with true by lia.
        replace (match vis a ++ [(r, b)] with [] => true | _ => false end) with false by (destruct (vis a); reflexivity).
        replace (segs_text [(r, b)]) with b by (unfold segs_text; cbn; rewrite app_nil_r; reflexivity).
        replace (Z.of_nat (length (vis a) + 1)) with (Z.of_nat (length (vis a)) + 1)%Z by lia.
        destruct ((r =? line_feed) && sp_dlf s) eqn:El.
        + destruct (N.eqb_spec r line_feed) as [->|]; [|discriminate]. specialize (HF eq_refl). destruct nn; [exfalso; apply HF, Hnn; reflexivity|].
          exists true. split; [|reflexivity]. rewrite armed_step, N.eqb_refl, El. split; [|reflexivity]. intros _ Hs. unfold dropb in E. rewrite Hs in E. discriminate E.
        + exists nn. split; [rewrite armed_step, El, E, Hnn; tauto|reflexivity]. }
    destruct St as (nn' & Hnn' & St). exists nn'. split; [assumption|]. intros l. rewrite <- app_assoc. cbn [app]. rewrite IH. apply St.
Qed.

(** ** The tail *)
Notation trailing := (trailing s).
Notation feeds := (counted_feeds s).
Lemma feeds_app a b : feeds (a ++ b) = (feeds a + feeds b)%nat.
Proof. unfold counted_feeds. rewrite filter_app, app_length. reflexivity. Qed.
Definition feedb (r : N) : bool := sp_dlf s && sp_skip s && (r =? line_feed).
Lemma feeds_cons r b a : feeds ((r, b) :: a) = ((if feedb r then 1 else 0) + feeds a)%nat.
Proof. unfold counted_feeds, feedb. cbn [filter fst]. destruct (sp_dlf s && sp_skip s && (r =? line_feed)); reflexivity. Qed.
Definition seen (nn : bool) : nat := if nn then 1%nat else 0%nat.
Lemma trailing_b g : trailing g <-> dropb g = true \/ is_delim s (fst g) = true \/ is_follower s (fst g) = true.
Proof. unfold SpecSplit.trailing. rewrite is_delim_in, is_follower_in, dropped_b. tauto. Qed.
Lemma feedb_dropped r b : dropb (r, b) = true -> feedb r = sp_dlf s && (r =? line_feed).
Proof. unfold dropb, feedb. cbn [fst]. destruct (sp_skip s); [|discriminate]. rewrite andb_true_r. reflexivity. Qed.
Lemma feedb_kept r b : dropb (r, b) = false -> feedb r = false.
Proof.
  unfold dropb, feedb. cbn [fst]. destruct (sp_skip s); [|rewrite andb_false_r; reflexivity]. cbn [andb]. intros H.
  destruct (N.eqb_spec r line_feed) as [->|]; [discriminate H|]. apply andb_false_r.
Qed.

Lemma tail_step r b l kept nn : trailing (r, b) -> feedb r && nn = false ->
  abs_tail s ((r, b) :: l) kept nn = abs_tail s l (kept ++ segs_text (vis [(r, b)])) (if feedb r then true else nn).
Proof.
  intros Ht Hn. rewrite vis_one. cbn [abs_tail]. change (sp_skip s && is_space r) with (dropb (r, b)). destruct (dropb (r, b)) eqn:E.
  - unfold segs_text. cbn [map concat]. rewrite app_nil_r. rewrite (feedb_dropped E) in *. destruct (sp_dlf s && (r =? line_feed)); [|reflexivity]. destruct nn; [discriminate|reflexivity].
  - rewrite (feedb_kept E). unfold segs_text. cbn [map concat snd]. rewrite app_nil_r. apply trailing_b in Ht. cbn [fst] in Ht.
    destruct Ht as [Ht|[Ht|Ht]]; [congruence| |]; rewrite Ht; [reflexivity|rewrite orb_true_r; reflexivity].
Qed.
Lemma tail_stop l kept nn : match l with [] => True | g :: _ => ~ trailing g end -> abs_tail s l kept nn = (kept, l).
Proof.
  destruct l as [|[r b] l]; [reflexivity|]. intros H. rewrite trailing_b in H. cbn [fst] in H. cbn [abs_tail]. change (sp_skip s && is_space r) with (dropb (r, b)).
  destruct (dropb (r, b)); [tauto|]. destruct (is_delim s r); [tauto|]. destruct (is_follower s r); [tauto|]. reflexivity.
Qed.
Lemma tail_run t l : Forall trailing t -> forall kept nn, (feeds t + seen nn <= 1)%nat ->
  exists nn', seen nn' = (feeds t + seen nn)%nat /\
  abs_tail s (t ++ l) kept nn = abs_tail s l (kept ++ segs_text (vis t)) nn'.
Proof.
  induction 1 as [|[r b] t Ht HT IH]; intros kept nn Hf.
  - exists nn. split; [reflexivity|]. rewrite visible_nil. unfold segs_text. cbn [app map concat]. rewrite app_nil_r. reflexivity.
  - rewrite feeds_cons in Hf. cbn [app]. rewrite tail_step; [|assumption|destruct (feedb r), nn; cbn [seen] in Hf; reflexivity || lia].
    destruct (IH (kept ++ segs_text (vis [(r, b)])) (if feedb r then true else nn)) as (nn' & Hn & IH').
    { destruct (feedb r), nn; cbn [seen] in *; lia. }
    exists nn'. rewrite feeds_cons. split; [rewrite Hn; destruct (feedb r), nn; cbn [seen] in *; lia|]. rewrite IH'.
    change ((r, b) :: t) with ([(r, b)] ++ t). rewrite visible_app, segs_text_app, app_assoc. reflexivity.
Qed.
Lemma tail_ok tail rest kept : tail_of s tail rest -> abs_tail s (tail ++ rest) kept false = (kept ++ segs_text (vis tail), rest).
Proof.
  intros [HT [[Hf HR]|(Hd & Hs & t & b & -> & Hf)]].
  - destruct (@tail_run tail rest HT kept false) as (nn & _ & E); [cbn [seen]; lia|]. rewrite E. apply tail_stop. assumption.
  - apply Forall_app in HT. destruct HT as [HT _]. rewrite <- app_assoc. cbn [app].
    destruct (@tail_run t ((line_feed, b) :: rest) HT kept false) as (nn & Hn & E); [cbn [seen]; lia|]. rewrite E.
    destruct nn; cbn [seen] in Hn; [|lia]. rewrite visible_app, vis_one. unfold dropb. cbn [abs_tail]. rewrite Hs, Hd. cbn. rewrite app_nil_r. reflexivity.
Qed.
Lemma tail_exists l : exists tail rest, l = tail ++ rest /\ tail_of s tail rest.
Proof.
  enough (H : forall n, (n <= 1)%nat -> exists tail rest, l = tail ++ rest /\ Forall trailing tail /\
    (((feeds tail <= n)%nat /\ match rest with [] => True | g :: _ => ~ trailing g end) \/
     (sp_dlf s = true /\ sp_skip s = true /\ exists t b, tail = t ++ [(line_feed, b)] /\ feeds t = n))).
  { destruct (H 1%nat) as (t & r & E & H1); [lia|]. exists t, r. split; assumption. }
  induction l as [|[r b] l IH]; intros n Hn.
  - exists [], []. split; [reflexivity|]. split; [constructor|]. left. split; [cbn; lia|exact I].
  - assert (HD : trailing (r, b) \/ ~ trailing (r, b)) by (rewrite trailing_b; destruct (dropb (r, b)), (is_delim s (fst (r, b))), (is_follower s (fst (r, b))); intuition discriminate).
    destruct HD as [HD|HD].
    + destruct (feedb r) eqn:Ef.
      * destruct n as [|n].
        -- exists [(r, b)], l. split; [reflexivity|]. split; [constructor; [assumption|constructor]|]. right. unfold feedb in Ef.
           apply andb_true_iff in Ef. destruct Ef as [Ef Er]. apply andb_true_iff in Ef. apply N.eqb_eq in Er. subst r. split; [apply Ef|]. split; [apply Ef|]. exists [], b. split; reflexivity.
        -- destruct (IH n) as (t & rest & -> & HT & HE); [lia|]. exists ((r, b) :: t), rest. split; [reflexivity|].
           split; [constructor; assumption|]. destruct HE as [[H1 H2]|(Hd & Hs & t' & b' & -> & H1)].
           ++ left. rewrite feeds_cons, Ef. split; [lia|assumption].
           ++ right. split; [exact Hd|]. split; [exact Hs|]. exists ((r, b) :: t'), b'. rewrite feeds_cons, Ef. split; [reflexivity|lia].
      * destruct (IH n) as (t & rest & -> & HT & HE); [lia|]. exists ((r, b) :: t), rest. split; [reflexivity|].
        split; [constructor; assumption|]. destruct HE as [[H1 H2]|(Hd & Hs & t' & b' & -> & H1)].
        -- left. rewrite feeds_cons, Ef. split; [lia|assumption].
        -- right. split; [exact Hd|]. split; [exact Hs|]. exists ((r, b) :: t'), b'. rewrite feeds_cons, Ef. split; [reflexivity|lia].
    + exists [], ((r, b) :: l). split; [reflexivity|]. split; [constructor|]. left. split; [cbn; lia|exact HD].
Qed.

(** ** The loop *)
Definition loop_result (o : outcome) : abs_result :=
  match o with Sentence k rest => ATok (segs_text k) rest | Unfinished k => AEnd (segs_text k) end.
Lemma head_kept a : headb a = false <-> vis a <> [].
Proof. unfold headb. destruct (vis a); split; congruence. Qed.
Lemma cut_loop l o : cut s l o -> abs_loop s l [] 0 true false = loop_result o.
Proof.
  intros [a [r b] tail rest HQ HK HF HM HT|a [r b] rest HQ HK HM HV|a b rest HQ HA|a HQ].
  - destruct (quiet_loop HQ) as (nn & Hnn & ->). apply kept_b in HK. cbn [fst] in HM, HF.
    cbn [abs_loop]. change (sp_skip s && is_space r) with (dropb (r, b)). rewrite HK.
    assert (E1 : sp_dlf s && (r =? line_feed) && nn = false).
    { destruct (N.eqb_spec r line_feed) as [->|]; [|rewrite andb_false_r; reflexivity]. rewrite andb_true_r. destruct nn; [|apply andb_false_r].
      destruct HF. split; [reflexivity|]. apply Hnn. reflexivity. }
    assert (E2 : negb (is_delim s r) && (Z.of_nat (length (vis a)) + 1 <? sp_max s)%Z = false).
    { destruct HM as [HM|HM]; [rewrite (proj2 (is_delim_in _ _) HM); reflexivity|]. replace (Z.of_nat (length (vis a)) + 1 <? sp_max s)%Z with false by lia. apply andb_false_r. }
    rewrite E1, E2. rewrite (@tail_ok tail rest _ HT). cbn [loop_result]. f_equal.
    change ((r, b) :: tail) with ([(r, b)] ++ tail). rewrite !visible_app, !segs_text_app, vis_one, HK, <- app_assoc. f_equal. f_equal.
    unfold segs_text. cbn [map concat snd]. rewrite app_nil_r. reflexivity.
  - destruct (quiet_loop HQ) as (nn & _ & ->). apply dropped_b in HK. cbn [fst] in HM. cbn [abs_loop]. change (sp_skip s && is_space r) with (dropb (r, b)).
    rewrite HK, (proj2 (head_kept a) HV), (proj2 (is_delim_in _ _) HM). reflexivity.
  - destruct (quiet_loop HQ) as (nn & Hnn & ->). assert (nn = true) as -> by (apply Hnn; exact HA). destruct HA as (Hd & x & b0 & y & Ea & Hx & Hy).
    cbn [abs_loop loop_result]. change (sp_skip s && is_space line_feed) with (dropb (line_feed, b)). rewrite visible_app, segs_text_app, vis_one, Hd, N.eqb_refl.
    destruct (dropb (line_feed, b)) eqn:E.
    + assert (Hv : vis a <> []).
      { rewrite Ea, visible_app. unfold dropb in E. apply andb_true_iff in E. destruct E as [Es _]. specialize (Hx Es). destruct (vis x); [contradiction|discriminate]. }
      rewrite (proj2 (head_kept a) Hv). cbn [andb]. unfold segs_text at 3. cbn [map concat]. rewrite app_nil_r. destruct (is_delim s line_feed); reflexivity.
    + cbn [andb]. unfold segs_text at 3. cbn [map concat snd]. rewrite app_nil_r. reflexivity.
  - destruct (quiet_loop HQ) as (nn & _ & E). rewrite <- (app_nil_r a) at 1. rewrite E. reflexivity.
Qed.

Lemma armed_dec a : quiet a -> armed a \/ ~ armed a.
Proof. intros HQ. destruct (quiet_loop HQ) as ([|] & H & _); [left; apply H; reflexivity|right; intros X; apply H in X; discriminate]. Qed.
Lemma cut_exists l : exists o, cut s l o.
Proof.
  enough (H : forall p, quiet p -> exists o, cut s (p ++ l) o) by exact (H [] quiet_nil).
  induction l as [|[r b] l IH]; intros p HQ.
  - exists (Unfinished (vis p)). rewrite app_nil_r. constructor; assumption.
  - assert (HX : (r = line_feed /\ armed p) \/ ~ (r = line_feed /\ armed p)).
    { destruct (N.eq_dec r line_feed) as [E|E]; [|tauto]. destruct (armed_dec HQ); tauto. }
    destruct HX as [[-> HA]|HX]; [eexists; apply cut_feeds; assumption|].
    assert (HD : {In r (sp_delim s)} + {~ In r (sp_delim s)}) by apply in_dec, N.eq_dec.
    assert (Go : quiet (p ++ [(r, b)]) -> exists o, cut s (p ++ (r, b) :: l) o).
    { intros H. change ((r, b) :: l) with ([(r, b)] ++ l). rewrite app_assoc. apply IH. exact H. }
    assert (HB : below (length (vis p)) = true) by (apply below_ok; apply HQ).
    destruct (dropb (r, b)) eqn:E.
    + assert (Ev : vis (p ++ [(r, b)]) = vis p) by (rewrite visible_app, vis_one, E, app_nil_r; reflexivity).
      destruct (vis p) as [|g0 v] eqn:Ep.
      * apply Go. apply quiet_step. rewrite Ev. split; [exact HQ|]. split; [reflexivity|]. split; [tauto|exact HB].
      * destruct HD as [HD|HD].
        -- eexists. apply cut_blank; [exact HQ|apply dropped_b; exact E|exact HD|rewrite Ep; discriminate].
        -- apply Go. apply quiet_step. rewrite Ev. split; [exact HQ|]. split; [contradiction|]. split; [tauto|exact HB].
    + assert (Ev : vis (p ++ [(r, b)]) = vis p ++ [(r, b)]) by (rewrite visible_app, vis_one, E; reflexivity).
      assert (HS : (In r (sp_delim s) \/ (sp_max s <= Z.of_nat (length (vis p)) + 1)%Z) \/ (~ In r (sp_delim s) /\ (Z.of_nat (length (vis p)) + 1 < sp_max s)%Z)).
      { destruct HD as [HD|HD]; [tauto|]. destruct (Z.le_gt_cases (sp_max s) (Z.of_nat (length (vis p)) + 1)); [tauto|right; split; [exact HD|lia]]. }
      destruct HS as [HS|[HS HS2]].
      * destruct (tail_exists l) as (tail & rest & -> & HT). eexists. apply cut_mark; [exact HQ|apply kept_b; exact E|exact HX|exact HS|exact HT].
      * apply Go. apply quiet_step. rewrite Ev. split; [exact HQ|]. split; [contradiction|]. split; [tauto|].
        rewrite app_length. cbn [length]. unfold below. lia.
Qed.
Theorem any_scan data eof o : data <> [] -> cut s (segs data) o ->
  match o with
  | Sentence kept rest => exists data' adv, scan_sentences s data eof = Ok (data', adv, Some (segs_text kept)) /\
      skipn adv data' = segs_text rest /\ segs (segs_text rest) = rest
  | Unfinished kept =>
      if eof then exists data', scan_sentences s data eof = Ok (data', length data, Some (segs_text kept))
      else exists data' adv k, scan_sentences s data eof = Ok (data', adv, None) /\ skipn adv data' = segs_text kept ++ repeat x20 k
  end.
Proof.
  intros Hne HC. pose proof (@scan_sentences_ok s data eof Hne) as H. rewrite (cut_loop HC) in H.
  destruct o as [kept rest|kept]; cbn [loop_result] in H.
  - destruct H as (data' & adv & H1 & H2 & H3 & _). eauto.
  - destruct eof; [destruct H as (data' & H & _); eauto|destruct H as (data' & adv & k & H1 & H2 & _); eauto].
Qed.

(** ** One outcome *)
Lemma cut_parts l o : cut s l o ->
  match o with Sentence k rest => exists c, l = c ++ rest /\ k = vis c | Unfinished k => k = vis l end.
Proof.
  intros [a m tail rest HQ HK HF HM HT|a m rest HQ HK HM HV|a b rest HQ HA|a HQ].
  - exists (a ++ m :: tail). rewrite <- app_assoc. split; reflexivity.
  - exists (a ++ [m]). rewrite <- app_assoc. split; [reflexivity|]. rewrite visible_app, vis_one. apply dropped_b in HK. rewrite HK, app_nil_r. reflexivity.
  - exists (a ++ [(line_feed, b)]). rewrite <- app_assoc. split; reflexivity.
  - reflexivity.
Qed.
Theorem cut_one l o o' : cut s l o -> cut s l o' -> o = o'.
Proof.
  intros H H'. pose proof (cut_loop H) as E. rewrite (cut_loop H') in E. apply cut_parts in H. apply cut_parts in H'.
  destruct o as [k rest|k], o' as [k' rest'|k']; cbn [loop_result] in E; try discriminate E.
  - injection E as E1 E2. destruct H as (c & E3 & ->), H' as (c' & E4 & ->). subst rest'. rewrite E3 in E4. apply app_inv_tail in E4. subst c'. reflexivity.
  - subst. reflexivity.
Qed.

(** ** The sentences of a text *)
Lemma sents_sentences l ts : Forall rune_ok l -> sents s l ts -> sentences s l ts.
Proof.
  intros Hl H. revert Hl. induction H as [l K l' ts E _ IH|l K E]; intros Hl; destruct (cut_exists l) as (o & HC); pose proof (cut_loop HC) as E'; rewrite E in E'.
  - destruct o as [k rest|k]; [|discriminate E']. injection E' as -> ->. eapply st_more; [exact HC|]. apply IH.
    apply cut_parts in HC. destruct HC as (c & -> & _). apply Forall_app in Hl. apply Hl.
  - destruct o as [k rest|k]; [discriminate E'|]. injection E' as ->. destruct k as [|g k]; [apply st_none; exact HC|].
    assert (Hn : segs_text (g :: k) <> []).
    { intros En. apply text_nil in En; [discriminate En|]. apply cut_parts in HC. rewrite HC. apply visible_Forall. exact Hl. }
    unfold nonempty. cbn [filter]. replace (length (segs_text (g :: k)) =? 0)%nat with false by (destruct (segs_text (g :: k)); [contradiction|reflexivity]).
    apply st_last; [exact HC|discriminate].
Qed.
Theorem sentences_one l ts ts' : sentences s l ts -> sentences s l ts' -> ts = ts'.
Proof.
  intros H. revert ts'. induction H as [l k rest ts HC _ IH|l k HC Hk|l HC]; intros ts' H'; inversion H' as [l1 k1 r1 ts1 HC1 H1|l1 k1 HC1 Hk1|l1 HC1]; subst;
    pose proof (cut_one HC HC1) as E; try discriminate E; try reflexivity.
  - injection E as <- <-. f_equal. apply IH. exact H1.
  - injection E as <-. reflexivity.
  - injection E as ->. destruct (Hk eq_refl).
  - injection E as <-. destruct (Hk1 eq_refl).
Qed.

Lemma again k l : sp_skip s = true -> ~ In 32 (sp_delim s) -> forall kept rc head nn nn2 K,
  abs_loop s l kept rc head nn = AEnd K -> abs_loop s (vis l ++ repeat (32, [x20]) k) kept rc head nn2 = AEnd K.
Proof.
  intros Hs Hd. induction l as [|[r b] l IH]; intros kept rc head nn nn2 K H.
  - rewrite visible_nil. cbn [app]. cbn [abs_loop] in H. injection H as <-. revert nn2. induction k as [|k IHk]; intros nn2; [reflexivity|]. cbn [repeat abs_loop].
    rewrite Hs. change (is_space 32) with true. cbn [andb]. destruct head; [apply IHk|]. destruct (is_delim s 32) eqn:E; [apply is_delim_in in E; contradiction|].
    change (32 =? line_feed) with false. rewrite andb_false_r. apply IHk.
  - change ((r, b) :: l) with ([(r, b)] ++ l). rewrite visible_app, vis_one. cbn [abs_loop] in H. change (sp_skip s && is_space r) with (dropb (r, b)) in H.
    destruct (dropb (r, b)) eqn:E.
    + cbn [app]. destruct head; [eapply IH; exact H|]. destruct (is_delim s r); [discriminate H|].
      destruct (sp_dlf s && (r =? line_feed)); [destruct nn; [discriminate H|]|]; eapply IH; exact H.
    + assert (Hr : (r =? line_feed) = false).
      { destruct (N.eqb_spec r line_feed) as [->|]; [|reflexivity]. unfold dropb in E. rewrite Hs in E. discriminate E. }
      rewrite Hr, andb_false_r in H. cbn [andb] in H. cbn [app abs_loop]. change (sp_skip s && is_space r) with (dropb (r, b)). rewrite E, Hr, andb_false_r. cbn [andb].
      destruct (negb (is_delim s r) && (rc + 1 <? sp_max s)%Z); [eapply IH; exact H|]. destruct (abs_tail s l (kept ++ b) false). discriminate H.
Qed.

(** The whole text in one read. *)
Theorem piece_lemma r toks r' : sp_skip s = false \/ ~ In 32 (sp_delim s) -> valid_utf8 (rd_rest r) = true -> rd_log r = [] ->
  scan_texts (scan_sentences s) r = Ok (toks, None, r') -> one_piece (rd_rest r) (rd_log r') -> sents s (segs (rd_rest r)) (nonempty toks).
Proof.
  intros Hmode Hv0 Hlog0 Hrun Hone.
  set (J := fun (acc : list bytes) (data : bytes) (r1 : reader) (e : option scan_err) =>
    (concat (rd_log r1) = [] -> data = [] /\ acc = [] /\ rd_rest r1 = rd_rest r) /\
    (e = Some EOF -> rd_rest r1 = []) /\
    (e = None \/ e = Some EOF -> one_piece (rd_rest r) (rd_log r1) -> concat (rd_log r1) <> [] ->
      rd_rest r1 = [] /\ valid_utf8 data = true /\ forall ts, sents s (segs data) ts -> sents s (segs (rd_rest r)) (nonempty acc ++ ts))).
  assert (Hnil : forall ts, sents s [] ts -> ts = []).
  { intros ts H. inversion H as [l K l' ts' E _|l K E]; subst; [discriminate|]. injection E as <-. reflexivity. }
  assert (Hne_app : forall a b, nonempty (a ++ b) = nonempty a ++ nonempty b) by (intros; apply filter_app).
  destruct (@sent_run s J) with (r := r) as (toks1 & err1 & r1 & E & Hst).
  - intros acc data r1 e c rest (H1 & H2 & H3) Hsegs Hc Hv _ _ HA.
    assert (Hne : data <> []) by (intros ->; rewrite segs_nil in Hsegs; destruct c; [congruence|discriminate]).
    split; [intros Hx; destruct (H1 Hx); contradiction|]. split; [assumption|]. intros He Hcl Hb. destruct (H3 He Hcl Hb) as (G0 & G1 & G3).
    destruct (tok_valid s G1 Hsegs) as (K1 & K2 & K3). split; [assumption|]. split; [assumption|].
    destruct (segs_app_ok Hsegs) as [Hok Hdata].
    intros ts Hts. rewrite Hne_app, <- app_assoc. apply G3.
    assert (Hk : nonempty [segs_text (vis c)] = [segs_text (vis c)]).
    { unfold nonempty. cbn [filter]. destruct (segs_text (vis c)) eqn:Ek; [|reflexivity]. exfalso. apply Hv. apply text_nil; [|assumption].
      apply visible_Forall. assumption. }
    rewrite Hk. cbn [app]. eapply se_tok; [exact HA|exact Hts].
  - intros acc data r1 e Hne (H1 & H2 & H3) _ HA.
    split; [intros Hx; destruct (H1 Hx); contradiction|]. split; [assumption|]. intros He Hcl Hb. destruct (H3 He Hcl Hb) as (G0 & G1 & G3).
    split; [assumption|]. split; [reflexivity|]. intros ts Hts. apply Hnil in Hts. subst ts. rewrite app_nil_r.
    rewrite Hne_app. apply G3. apply se_end. assumption.
  - intros acc data r1 k Hne (H1 & H2 & H3) [_ HA] _ Hk _. fold (shown s data) in *.
    split; [intros Hx; destruct (H1 Hx); contradiction|]. split; [discriminate|]. intros He Hcl Hb. destruct (H3 He Hcl Hb) as (G0 & G1 & G3).
    destruct (more_valid G1 Hk) as [K1 K2]. split; [assumption|]. split; [assumption|].
    destruct (sp_skip s) eqn:Hs.
    + destruct Hmode as [Hm|Hm]; [congruence|]. intros ts Hts. apply G3. eapply sents_same; [|exact Hts].
      assert (Hseg : segs (shown s data ++ repeat x20 k) = vis (segs data) ++ repeat (32, [x20]) k).
      { pose proof (proj1 (valid_good data) G1) as Hg. unfold shown. rewrite segs_valid_app, blanks_segs, good_visible; auto.
        apply good_valid. apply visible_Forall. assumption. }
      rewrite Hseg, HA. eapply again; [exact Hs|exact Hm|exact HA].
    + assert (Hd : shown s data = data) by (unfold shown; rewrite visible_all, segs_concat by assumption; reflexivity).
      rewrite Hd in *. rewrite app_length, repeat_length in Hk. assert (k = 0%nat) as -> by lia. cbn [repeat]. rewrite app_nil_r. auto.
  - intros acc data r1 tries cap chunk err r2 (H1 & H2 & H3) _ Hr _. pose proof (read_loop_ok Hr) as (F1 & _ & _ & F4 & F5 & _ & F7).
    split; [|split].
    + intros Hx. rewrite F4 in Hx. apply app_eq_nil in Hx. destruct Hx as [Hx1 ->]. destruct (H1 Hx1) as (-> & -> & Hx2). repeat split. cbn in F1. congruence.
    + intros ->. destruct (F7 _ eq_refl) as [[Hx _]|[_ Hx]]; [discriminate|assumption].
    + intros _ Hcl Hb. destruct (F5 _ Hcl) as [C1 C2].
      destruct (concat (rd_log r1)) as [|b0 L] eqn:EL.
      * destruct (H1 eq_refl) as (-> & -> & Hx). rewrite Hx in F1. cbn [app] in *. rewrite F4 in Hb.
        assert (Ec : chunk = rd_rest r) by (destruct C2 as [C2|[C2|C2]]; [contradiction|contradiction|exact C2]).
        assert (Er : rd_rest r2 = []) by (apply (app_inv_head chunk); rewrite <- F1, app_nil_r; congruence).
        rewrite Ec. auto.
      * destruct (H3 (or_introl eq_refl) C1 ltac:(discriminate)) as (G0 & G1 & G3). rewrite G0 in F1. symmetry in F1. apply app_eq_nil in F1. destruct F1 as [-> F1].
        rewrite app_nil_r. auto.
  - split; [auto|]. split; [discriminate|]. intros _ _ Hb. rewrite Hlog0 in Hb. destruct (Hb eq_refl).
  - rewrite Hrun in E. injection E as <- <- <-. destruct Hst as [(e & (H1 & H2 & H3) & He & _)|(data & _ & _ & He & _)]; [|discriminate].
    assert (e = EOF) as -> by (destruct e; cbn in He; congruence). specialize (H2 eq_refl).
    destruct (concat (rd_log r')) as [|b0 L] eqn:EL.
    + destruct (H1 eq_refl) as (_ & -> & Hx). rewrite <- Hx, H2, segs_nil. exact (@se_end s [] [] eq_refl).
    + destruct (H3 (or_intror eq_refl) Hone ltac:(discriminate)) as (_ & _ & G3). rewrite segs_nil in G3.
      specialize (G3 [] (@se_end s [] [] eq_refl)). rewrite app_nil_r in G3. exact G3.
Qed.
Theorem any_piece r toks r' : sp_skip s = false \/ ~ In 32 (sp_delim s) -> valid_utf8 (rd_rest r) = true -> rd_log r = [] ->
  scan_texts (scan_sentences s) r = Ok (toks, None, r') -> one_piece (rd_rest r) (rd_log r') -> sentences s (segs (rd_rest r)) (nonempty toks).
Proof. intros H1 H2 H3 H4 H5. apply sents_sentences; [apply segs_rune_ok|]. eapply piece_lemma; eassumption. Qed.
Theorem any_reads r toks r' :
  sp_skip s = false \/ (~ In 32 (sp_delim s) /\ (sp_dlf s = false \/ lone_feeds s (segs (rd_rest r)))) -> rd_log r = [] ->
  scan_texts (scan_sentences s) r = Ok (toks, None, r') -> clean_cuts s (rd_log r') -> sentences s (segs (rd_rest r)) (nonempty toks).
Proof.
  intros Hm L E C. apply sents_sentences; [apply segs_rune_ok|]. refine (@chunk_lemma s _ r toks r' L _ E C); [tauto|unfold no_lf; tauto].
Qed.
Theorem sentences_exist data : exists ts, sentences s (segs data) ts.
Proof.
  remember (length (segs data)) as n eqn:Hn. assert (Hl : Forall rune_ok (segs data)) by apply segs_rune_ok. revert Hn Hl. generalize (segs data) as l. clear data.
  induction n as [n IH] using (well_founded_induction lt_wf). intros l Hn Hl. destruct (cut_exists l) as (o & HC). destruct o as [k rest|k].
  - assert (Hc : exists c, c <> [] /\ l = c ++ rest).
    { inversion HC; subst; [exists (a ++ m :: tail)|exists (a ++ [m])|exists (a ++ [(line_feed, b)])]; (split; [destruct a; discriminate|rewrite <- app_assoc; reflexivity]). }
    destruct Hc as (c & Hc & El). destruct (IH (length rest)) with (l := rest) as (ts & H).
    + subst. rewrite app_length. destruct c; [contradiction|cbn; lia].
    + reflexivity.
    + subst l. apply Forall_app in Hl. apply Hl.
    + exists (segs_text k :: ts). eapply st_more; eassumption.
  - destruct k as [|g k]; [exists []; apply st_none; exact HC|exists [segs_text (g :: k)]; apply st_last; [exact HC|discriminate]].
Qed.
End Cut.
