(** Splitting what has been split. *)
From Verif Require Import ScannerFacts SplitterFacts SentenceFacts SpaceFacts Utf8Facts ChunkFacts AnySplit SentenceRuns.
From Verif Require Import SpecSplit SpecAgain.
From Coq Require Import List Arith Lia ZifyBool ZifyNat ZifyN.
Import ListNotations.
Set Implicit Arguments.
Unset Strict Implicit.
Local Open Scope N_scope.

Section Again.
Variable s : splitter.
Hypothesis Skip : sp_skip s = true.
Hypothesis Solid : solid_delims s.
Notation seg := (N * bytes)%type.
Definition lf : seg := (line_feed, [x0a]).
Definition solid (l : list seg) : Prop := Forall (fun g => is_space (fst g) = false) l.
Definition printed (ls : list (list seg)) : list seg := concat (map (fun l => l ++ [lf]) ls).
Definition nonnil (ls : list (list seg)) : list (list seg) := filter (fun l => match l with [] => false | _ => true end) ls.

Lemma vis_solid l : solid l -> visible s l = l.
Proof.
  intros H. unfold visible. rewrite Skip. induction H as [|g l Hg _ IH]; [reflexivity|]. cbn [filter]. rewrite Hg. cbn [negb]. rewrite IH. reflexivity.
Qed.
Lemma vis_lfs k : visible s (repeat lf k) = [].
Proof. unfold visible. rewrite Skip. induction k as [|k IH]; [reflexivity|]. cbn [repeat filter]. exact IH. Qed.
Lemma vis_head k l : solid l -> visible s (repeat lf k ++ l) = l.
Proof. intros H. rewrite visible_app, vis_lfs, vis_solid by assumption. reflexivity. Qed.
Lemma lf_no_delim : ~ delim_rune s lf.
Proof. intros H. unfold solid_delims in Solid. rewrite Forall_forall in Solid. specialize (Solid _ H). discriminate Solid. Qed.
Lemma feed_inside k : forall b x c y, solid b -> repeat lf k ++ b = x ++ (line_feed, c) :: y -> visible s x = [].
Proof.
  induction k as [|k IH]; intros b x c y Hb E.
  - cbn in E. exfalso. unfold solid in Hb. rewrite Forall_forall in Hb. assert (H : In (line_feed, c) b) by (rewrite E; apply in_or_app; right; left; reflexivity).
    specialize (Hb _ H). discriminate Hb.
  - destruct x as [|g x]; [unfold visible; rewrite Skip; reflexivity|]. cbn [repeat app] in E. injection E as <- E. change (lf :: x) with ([lf] ++ x). rewrite visible_app, (IH _ _ _ _ Hb E), app_nil_r.
    exact (vis_lfs 1).
Qed.
Lemma not_armed k b : solid b -> ~ armed s (repeat lf k ++ b).
Proof. intros Hb (_ & x & c & y & E & N & _). apply (N Skip). exact (feed_inside Hb E). Qed.
Lemma quiet_head k b : solid b -> Forall (fun g => ~ delim_rune s g) b -> b = [] \/ (Z.of_nat (length b) < sp_max s)%Z -> quiet s (repeat lf k ++ b).
Proof.
  intros Hb Nd L. split; [|split].
  - intros x g y E D. exfalso. assert (H : In g (repeat lf k ++ b)) by (rewrite E; apply in_or_app; right; left; reflexivity). apply in_app_or in H.
    destruct H as [H|H]; [apply repeat_spec in H; subst g; exact (lf_no_delim D)|]. rewrite Forall_forall in Nd. exact (Nd _ H D).
  - intros x c y E (_ & x1 & c1 & y1 & -> & N & _). apply (N Skip). rewrite <- app_assoc in E. cbn [app] in E. exact (feed_inside Hb E).
  - rewrite vis_head by assumption. exact L.
Qed.

Lemma shape l : solid l -> sentence s l -> l <> [] ->
  (exists a m tail, l = a ++ m :: tail /\ Forall (fun g => ~ delim_rune s g) a /\ (a = [] \/ (Z.of_nat (length a) < sp_max s)%Z) /\
     (delim_rune s m \/ (sp_max s <= Z.of_nat (length a) + 1)%Z) /\ Forall (tail_rune s) tail) \/
  (Forall (fun g => ~ delim_rune s g) l /\ (Z.of_nat (length l) < sp_max s)%Z).
Proof.
  intros Hs (body & tail & -> & L & Nd & T & C) Ne.
  assert (B : body <> []) by (intros ->; destruct tail; [apply Ne; reflexivity|]; destruct (C ltac:(discriminate)) as (_ & Z); congruence).
  destruct (exists_last B) as (a & m & ->). rewrite app_length in L. cbn [length] in L.
  assert (Na : Forall (fun g => ~ delim_rune s g) a).
  { apply Forall_forall. intros g Hg. apply in_split in Hg. destruct Hg as (x & y & ->). apply (Nd x g (y ++ [m])); [rewrite <- app_assoc; reflexivity|destruct y; discriminate]. }
  assert (La : a = [] \/ (Z.of_nat (length a) < sp_max s)%Z) by (destruct a; [left; reflexivity|right; cbn [length] in *; lia]).
  assert (D : delim_rune s m \/ ~ delim_rune s m) by (unfold delim_rune; destruct (in_dec N.eq_dec (fst m) (sp_delim s)); auto).
  destruct D as [D|D]; [left; exists a, m, tail; rewrite <- app_assoc; auto 6|].
  destruct (Z.leb_spec (sp_max s) (Z.of_nat (length a) + 1)) as [G|G]; [left; exists a, m, tail; rewrite <- app_assoc; auto 6|].
  assert (tail = []) as ->.
  { destruct tail as [|g tail]; [reflexivity|]. exfalso. destruct (C ltac:(discriminate)) as ([(l' & g' & E & Dg)|Z] & _).
    - apply app_inj_tail in E. destruct E as (_ & <-). contradiction.
    - rewrite app_length in Z. cbn [length] in Z. lia. }
  right. rewrite app_nil_r, app_length. cbn [length]. split; [apply Forall_app; split; [assumption|constructor; [assumption|constructor]]|lia].
Qed.
Lemma split_nils (ls : list (list seg)) : exists m rest, ls = repeat [] m ++ rest /\ (rest = [] \/ exists g u rest', rest = (g :: u) :: rest').
Proof.
  induction ls as [|[|g u] ls (m & rest & -> & H)]; [exists 0%nat, []; auto|exists (S m), rest; auto|].
  exists 0%nat, ((g :: u) :: repeat [] m ++ rest). split; [reflexivity|]. right. eauto.
Qed.
Lemma printed_nils m rest : printed (repeat [] m ++ rest) = repeat lf m ++ printed rest.
Proof. induction m as [|m IH]; [reflexivity|]. cbn [repeat app]. unfold printed in *. cbn [map concat app]. rewrite IH. reflexivity. Qed.
Lemma nonnil_nils m rest : nonnil (repeat [] m ++ rest) = nonnil rest.
Proof. induction m as [|m IH]; [reflexivity|exact IH]. Qed.
Lemma feeds_lfs m : sp_dlf s = true -> counted_feeds s (repeat lf m) = m.
Proof. intros D. unfold counted_feeds. rewrite D, Skip. induction m as [|m IH]; [reflexivity|]. cbn [repeat filter]. cbn. f_equal. exact IH. Qed.
Lemma feeds_solid l : solid l -> counted_feeds s l = 0%nat.
Proof.
  intros H. unfold counted_feeds. induction H as [|g l Hg _ IH]; [reflexivity|]. cbn [filter]. assert (E : (fst g =? line_feed) = false) by (destruct (N.eqb_spec (fst g) line_feed) as [Z|]; [rewrite Z in Hg; discriminate Hg|reflexivity]).
  rewrite E, andb_false_r. exact IH.
Qed.
Lemma feeds_off l : sp_dlf s = false -> counted_feeds s l = 0%nat.
Proof. intros D. unfold counted_feeds. rewrite D. cbn [andb]. induction l; auto. Qed.
Lemma feeds_both a b : counted_feeds s (a ++ b) = (counted_feeds s a + counted_feeds s b)%nat.
Proof. unfold counted_feeds. rewrite filter_app, app_length. reflexivity. Qed.
Lemma lf_dropped : dropped s lf.
Proof. split; [exact Skip|reflexivity]. Qed.
Lemma trail_lfs m : Forall (trailing s) (repeat lf m).
Proof. apply Forall_forall. intros g H. apply repeat_spec in H. subst g. right. right. exact lf_dropped. Qed.
Lemma trail_tail l : Forall (tail_rune s) l -> Forall (trailing s) l.
Proof. apply Forall_impl. intros g [H|H]; [left|right; left]; exact H. Qed.

(** A closed sentence: with the line feeds after it, what follows. *)
Lemma closed_cut k a m tail j rest : solid (a ++ m :: tail) -> Forall (fun g => ~ delim_rune s g) a -> (a = [] \/ (Z.of_nat (length a) < sp_max s)%Z) ->
  (delim_rune s m \/ (sp_max s <= Z.of_nat (length a) + 1)%Z) -> Forall (tail_rune s) tail ->
  (rest = [] \/ exists g r, rest = g :: r /\ ~ trailing s g) ->
  exists j', (j' <= j)%nat /\ cut s (repeat lf k ++ (a ++ m :: tail) ++ repeat lf (S j) ++ rest) (Sentence (a ++ m :: tail) (repeat lf j' ++ rest)) /\ (sp_dlf s = false -> j' = 0%nat).
Proof.
  intros Hs Nd La D T R. assert (Ha : solid a) by (apply Forall_app in Hs; apply Hs). assert (Hm : is_space (fst m) = false) by (apply Forall_app in Hs; destruct Hs as (_ & Hs); inversion Hs; assumption).
  assert (Ht : solid tail) by (apply Forall_app in Hs; destruct Hs as (_ & Hs); inversion Hs; assumption).
  assert (G : forall c rest', tail_of s (tail ++ repeat lf c) rest' -> cut s (repeat lf k ++ (a ++ m :: tail) ++ repeat lf c ++ rest') (Sentence (a ++ m :: tail) rest')).
  { intros c rest' TO. pose proof (@cut_mark s (repeat lf k ++ a) m (tail ++ repeat lf c) rest') as C.
    assert (V : visible s ((repeat lf k ++ a) ++ m :: tail ++ repeat lf c) = a ++ m :: tail).
    { rewrite <- app_assoc. change (a ++ m :: tail ++ repeat lf c) with (a ++ (m :: tail) ++ repeat lf c). rewrite (app_assoc a), (app_assoc (repeat lf k)), visible_app, vis_lfs, app_nil_r.
      apply vis_head. exact Hs. }
    rewrite V in C. replace (repeat lf k ++ (a ++ m :: tail) ++ repeat lf c ++ rest') with ((repeat lf k ++ a) ++ m :: (tail ++ repeat lf c) ++ rest') by (rewrite <- !app_assoc; cbn [app]; rewrite <- ?app_assoc; reflexivity).
    apply C; [apply quiet_head; assumption|intros (_ & Z); congruence|intros (_ & Z); exact (not_armed Ha Z)|rewrite vis_head by assumption; exact D|exact TO]. }
  assert (Tr : forall c, Forall (trailing s) (tail ++ repeat lf c)) by (intros c; apply Forall_app; split; [apply trail_tail; exact T|apply trail_lfs]).
  destruct (sp_dlf s) eqn:Dl.
  - destruct j as [|j].
    + exists 0%nat. split; [lia|]. split; [|discriminate]. apply (G 1%nat). split; [apply Tr|]. left. rewrite feeds_both, (feeds_solid Ht), feeds_lfs by assumption. split; [lia|].
      destruct R as [->|(g & r & -> & Nt)]; [exact I|exact Nt].
    + exists j. split; [lia|]. split; [|discriminate]. replace (repeat lf (S (S j)) ++ rest) with (repeat lf 2 ++ repeat lf j ++ rest) by reflexivity. apply G. split; [apply Tr|]. right. split; [exact Dl|]. split; [exact Skip|].
      exists (tail ++ [lf]), [x0a]. split; [rewrite <- app_assoc; reflexivity|]. rewrite feeds_both, (feeds_solid Ht). exact (feeds_lfs 1 Dl).
  - exists 0%nat. split; [lia|]. split; [|reflexivity]. apply G. split; [apply Tr|]. left. rewrite feeds_off by assumption. split; [lia|]. destruct R as [->|(g & r & -> & Nt)]; [exact I|exact Nt].
Qed.
Lemma blank_sentences k : sentences s (repeat lf k) [].
Proof.
  apply st_none. pose proof (@cut_none s (repeat lf k)) as C. rewrite vis_lfs in C. apply C. pose proof (@quiet_head k []) as Q. rewrite app_nil_r in Q. apply Q; [constructor|constructor|auto].
Qed.
(** An unclosed one, the last. *)
Lemma open_sentences k l j : solid l -> l <> [] -> Forall (fun g => ~ delim_rune s g) l -> (Z.of_nat (length l) < sp_max s)%Z -> sentences s (repeat lf k ++ l ++ repeat lf j) [segs_text l].
Proof.
  intros Hs Ne Nd L.
  assert (Q0 : quiet s (repeat lf k ++ l)) by (apply quiet_head; auto).
  assert (Vs : forall c, visible s ((repeat lf k ++ l) ++ repeat lf c) = l) by (intros c; rewrite visible_app, vis_lfs, app_nil_r; apply vis_head; exact Hs).
  assert (Last : forall c, quiet s ((repeat lf k ++ l) ++ repeat lf c) -> sentences s ((repeat lf k ++ l) ++ repeat lf c) [segs_text l]).
  { intros c Q. pose proof (@cut_none s _ Q) as C. rewrite Vs in C. apply st_last; assumption. }
  assert (Step : forall p, quiet s p -> ~ armed s p -> visible s (p ++ [lf]) = l -> quiet s (p ++ [lf])).
  { intros p (Q1 & Q2 & Q3) Na V. split; [|split; [|rewrite V; auto]].
    - intros x g y E D. destruct (snoc_inv E) as [(-> & -> & ->)|(y' & -> & ->)]; [destruct (lf_no_delim D)|]. apply (Q1 x g y'); auto.
    - intros x b y E. destruct (snoc_inv E) as [(-> & Eg & ->)|(y' & -> & ->)]; [exact Na|]. apply (Q2 x b y'). reflexivity. }
  rewrite app_assoc. destruct (sp_dlf s) eqn:D.
  - destruct j as [|[|j]].
    + apply Last. cbn [repeat]. rewrite app_nil_r. exact Q0.
    + apply Last. apply Step; [exact Q0|apply not_armed; exact Hs|exact (Vs 1%nat)].
    + assert (Q1 : quiet s ((repeat lf k ++ l) ++ [lf])) by (apply Step; [exact Q0|apply not_armed; exact Hs|exact (Vs 1%nat)]).
      replace ((repeat lf k ++ l) ++ repeat lf (S (S j))) with (((repeat lf k ++ l) ++ [lf]) ++ lf :: repeat lf j) by (rewrite <- app_assoc; reflexivity).
      assert (C : cut s (((repeat lf k ++ l) ++ [lf]) ++ lf :: repeat lf j) (Sentence l (repeat lf j))).
      { replace l with (visible s (((repeat lf k ++ l) ++ [lf]) ++ [lf])) at 2 by (rewrite <- (app_assoc _ [lf]); exact (Vs 2%nat)). apply (@cut_feeds s _ [x0a]); [exact Q1|].
        split; [exact D|]. exists (repeat lf k ++ l), [x0a], []. split; [reflexivity|]. split; [intros _; rewrite vis_head by exact Hs; exact Ne|constructor]. }
      eapply st_more; [exact C|apply blank_sentences].
  - apply Last. assert (Na : forall p, ~ armed s p) by (intros p (Z & _); congruence). induction j as [|j IH]; [cbn [repeat]; rewrite app_nil_r; exact Q0|].
    replace (repeat lf (S j)) with (repeat lf j ++ [lf]) by (symmetry; apply repeat_cons). rewrite app_assoc. apply Step; [exact IH|apply Na|].
    rewrite <- app_assoc, <- repeat_cons. exact (Vs (S j)).
Qed.

Definition closed_l (l : list seg) : Prop := Exists (delim_rune s) l \/ (sp_max s <= Z.of_nat (length l))%Z.
Definition settled_l (ls : list (list seg)) : Prop := forall pre t u post, ls = pre ++ t :: u :: post -> closed_l t /\ match u with [] => True | g :: _ => ~ tail_rune s g end.
Lemma again_list n : forall ls k, (length ls <= n)%nat -> Forall (fun l => solid l /\ sentence s l) ls -> settled_l (nonnil ls) -> sentences s (repeat lf k ++ printed ls) (map segs_text (nonnil ls)).
Proof.
  induction n as [|n IH]; intros ls k Hn Hok Hst.
  { destruct ls; [|cbn in Hn; lia]. cbn. rewrite app_nil_r. apply blank_sentences. }
  destruct ls as [|l ls]; [cbn; rewrite app_nil_r; apply blank_sentences|]. cbn [length] in Hn. inversion Hok as [|? ? (Hs & Hsen) Hok']; subst.
  destruct l as [|g0 l0].
  { change (nonnil ([] :: ls)) with (nonnil ls). change (printed ([] :: ls)) with ([lf] ++ printed ls). rewrite app_assoc. replace (repeat lf k ++ [lf]) with (repeat lf (S k)) by (apply repeat_cons). apply IH; [lia|exact Hok'|exact Hst]. }
  set (l := g0 :: l0) in *. assert (Ne : l <> []) by discriminate. change (nonnil (l :: ls)) with (l :: nonnil ls) in *. cbn [map].
  destruct (split_nils ls) as (m & rest & -> & R). rewrite nonnil_nils in *.
  assert (E : printed (l :: repeat [] m ++ rest) = l ++ repeat lf (S m) ++ printed rest).
  { change (printed (l :: repeat [] m ++ rest)) with ((l ++ [lf]) ++ printed (repeat [] m ++ rest)). rewrite printed_nils, <- app_assoc. reflexivity. }
  rewrite E. rewrite app_length, repeat_length in Hn. apply Forall_app in Hok'. destruct Hok' as (_ & Hok').
  destruct (shape Hs Hsen Ne) as [(a & m0 & tail & El & Nd & La & D & T)|(Nd & L)].
  - assert (Rt : printed rest = [] \/ exists g r, printed rest = g :: r /\ ~ trailing s g).
    { destruct R as [->|(g & u & rest' & ->)]; [left; reflexivity|]. right. exists g, (u ++ lf :: printed rest'). split; [unfold printed; cbn [map concat app]; rewrite <- app_assoc; reflexivity|].
      destruct (Hst [] l (g :: u) (nonnil rest') eq_refl) as (_ & Nt). inversion Hok' as [|? ? (Hg & _) _]; subst. inversion Hg as [|? ? Hg' _]; subst.
      intros [Z|[Z|(_ & Z)]]; [apply Nt; left; exact Z|apply Nt; right; exact Z|congruence]. }
    destruct (@closed_cut k a m0 tail m (printed rest)) as (j & Lj & C & _); [rewrite <- El; exact Hs|exact Nd|exact La|exact D|exact T|exact Rt|]. rewrite <- El in C.
    eapply st_more; [exact C|]. apply IH; [lia|exact Hok'|]. intros pre t u post Eq. apply (Hst (l :: pre) t u post). rewrite Eq. reflexivity.
  - destruct R as [->|(g & u & rest' & ->)].
    + cbn [nonnil filter map]. change (printed []) with (@nil seg). rewrite app_nil_r. apply open_sentences; assumption.
    + exfalso. destruct (Hst [] l (g :: u) (nonnil rest') eq_refl) as ([Z|Z] & _); [|lia]. apply Exists_exists in Z. destruct Z as (x & Ix & Dx). rewrite Forall_forall in Nd. exact (Nd _ Ix Dx).
Qed.

(** The line feeds of the printed lines do not meet in a sentence. *)
Lemma line_break ls : Forall solid ls -> forall x b w, printed ls = x ++ (line_feed, b) :: w -> exists l1 l2, ls = l1 ++ l2 /\ printed l1 = x ++ [lf] /\ w = printed l2.
Proof.
  induction 1 as [|l ls Hl _ IH]; intros x b w E; [destruct x; discriminate E|]. change (printed (l :: ls)) with ((l ++ [lf]) ++ printed ls) in E. rewrite <- app_assoc in E. cbn [app] in E.
  apply app_eq_app in E. destruct E as (y & [(E & Ey)|(E & Ey)]).
  - destruct y as [|g y]; cbn [app] in Ey.
    + rewrite app_nil_r in E. injection Ey as Eb Ew. subst w. exists [l], ls. split; [reflexivity|]. split; [unfold printed; cbn [map concat]; rewrite app_nil_r, ?E; reflexivity|reflexivity].
    + exfalso. injection Ey as <- _. unfold solid in Hl. rewrite E in Hl. apply Forall_app in Hl. destruct Hl as (_ & Hl). inversion Hl as [|? ? Z _]; subst. discriminate Z.
  - destruct y as [|g y]; cbn [app] in Ey.
    + rewrite app_nil_r in E. injection Ey as Eb Ew. subst w. exists [l], ls. split; [reflexivity|]. split; [unfold printed; cbn [map concat]; rewrite app_nil_r, ?E; reflexivity|reflexivity].
    + injection Ey as <- Ey. destruct (IH _ _ _ Ey) as (l1 & l2 & -> & E1 & E2). exists (l :: l1), l2. split; [reflexivity|]. split; [|exact E2].
      change (printed (l :: l1)) with ((l ++ [lf]) ++ printed l1). rewrite E1, E, <- !app_assoc. reflexivity.
Qed.
Lemma vis_printed ls : Forall solid ls -> visible s (printed ls) = concat (nonnil ls).
Proof.
  induction 1 as [|l ls Hl _ IH]; [unfold visible; destruct (sp_skip s); reflexivity|]. change (printed (l :: ls)) with ((l ++ [lf]) ++ printed ls). rewrite !visible_app, IH, vis_solid by exact Hl.
  change (visible s [lf]) with (visible s (repeat lf 1)). rewrite vis_lfs, app_nil_r. destruct l; reflexivity.
Qed.
Lemma printed_lone ls : Forall solid ls -> settled_l (nonnil ls) -> lone_feeds s (printed ls).
Proof.
  intros Hs St x b y c z E. destruct (line_break Hs E) as (l1 & l2 & -> & E1 & E2). apply Forall_app in Hs. destruct Hs as (Hs1 & Hs2). symmetry in E2. destruct (line_break Hs2 E2) as (m1 & m2 & -> & E3 & E4). apply Forall_app in Hs2. destruct Hs2 as (Hm1 & Hm2).
  assert (Vy : visible s y = concat (nonnil m1)).
  { rewrite <- vis_printed by exact Hm1. rewrite E3, visible_app. change (visible s [lf]) with (visible s (repeat lf 1)). rewrite vis_lfs, app_nil_r. reflexivity. }
  right. destruct (nonnil m1) as [|t n1] eqn:N1; [left; exact Vy|]. right. destruct (nonnil m2) as [|u n2] eqn:N2; [left; rewrite E4, vis_printed, N2 by exact Hm2; reflexivity|]. right.
  assert (Ct : closed_l t).
  { assert (Z : exists u' post, nonnil (l1 ++ m1 ++ m2) = nonnil l1 ++ t :: u' :: post).
    { unfold nonnil in *. rewrite !filter_app, N1, N2. destruct n1 as [|v n1]; [exists u, n2; reflexivity|exists v, (n1 ++ u :: n2); reflexivity]. }
    destruct Z as (u' & post & Z). destruct (St _ _ _ _ Z) as (Ct & _). exact Ct. }
  destruct Ct as [D|L].
  - left. apply Exists_exists in D. destruct D as (g & Hg & Dg). apply Exists_exists. exists g. split; [|exact Dg]. assert (H : In g (visible s y)) by (rewrite Vy; cbn [concat]; apply in_or_app; auto).
    unfold visible in H. rewrite Skip in H. apply filter_In in H. apply H.
  - right. rewrite Vy. cbn [concat]. rewrite app_length. lia.
Qed.
(** And if splitting again changes nothing, they are closed. *)
Lemma two_ways c rest0 l g X : solid l -> is_space (fst g) = false -> c ++ rest0 = l ++ lf :: g :: X -> visible s c = l ->
  (c = l /\ rest0 = lf :: g :: X) \/ (c = l ++ [lf] /\ rest0 = g :: X).
Proof.
  intros Hl Hg E V. assert (S : forall z, lf :: g :: X = z ++ rest0 -> c = l ++ z -> (c = l /\ rest0 = lf :: g :: X) \/ (c = l ++ [lf] /\ rest0 = g :: X)).
  { intros z Ez Ec. destruct z as [|g1 z]; [rewrite app_nil_r in Ec; auto|]. injection Ez as <- Ez. destruct z as [|g2 z]; [auto|]. injection Ez as <- Ez. exfalso.
    rewrite Ec, visible_app, vis_solid in V by exact Hl. change (lf :: g :: z) with ([lf] ++ [g] ++ z) in V. rewrite !visible_app in V. change (visible s [lf]) with (visible s (repeat lf 1)) in V. rewrite vis_lfs in V. rewrite (@vis_solid [g]) in V by (constructor; [exact Hg|constructor]).
    cbn [app] in V. rewrite <- (app_nil_r l) in V at 2. apply app_inv_head in V. discriminate V. }
  apply app_eq_app in E. destruct E as (z & [(E & Ez)|(E & Ez)]); [exact (S z Ez E)|].
  assert (Hc : solid c) by (unfold solid in Hl; rewrite E in Hl; apply Forall_app in Hl; apply Hl). rewrite vis_solid in V by exact Hc. rewrite <- V, <- (app_nil_r c) in E at 1. apply app_inv_head in E. subst z.
  left. split; [exact V|exact Ez].
Qed.
Lemma snoc_lf l x c : solid l -> l = x ++ [(line_feed, c)] -> False.
Proof. intros H ->. apply Forall_app in H. destruct H as (_ & H). inversion H as [|? ? Z _]; subst. discriminate Z. Qed.
Lemma back_cut l g X kept rest0 : solid l -> is_space (fst g) = false -> cut s (l ++ lf :: g :: X) (Sentence kept rest0) -> kept = l ->
  closed_l l /\ ~ tail_rune s g /\ rest0 = g :: X.
Proof.
  intros Hl Hg C K. remember (l ++ lf :: g :: X) as T eqn:ET. inversion C as [a m tail rest1 Q Nm _ D (Tr & Tl) E1 E2|a m rest1 _ (_ & Sm) Dm _ E1 E2|a b rest1 _ Ar E1 E2|]; subst rest1.
  - assert (V : visible s (a ++ m :: tail) = l) by congruence. assert (Hm : is_space (fst m) = false) by (destruct (is_space (fst m)) eqn:Z; [destruct Nm; split; assumption|reflexivity]).
    assert (Vm : visible s a ++ m :: visible s tail = l) by (rewrite <- V; change (a ++ m :: tail) with (a ++ [m] ++ tail); rewrite !visible_app, (@vis_solid [m]) by (constructor; [exact Hm|constructor]); reflexivity).
    assert (E : (a ++ m :: tail) ++ rest0 = l ++ lf :: g :: X) by (rewrite <- app_assoc; cbn [app]; congruence).
    assert (Cl : closed_l l).
    { destruct D as [D|D]; [left; rewrite <- Vm; apply Exists_app; right; left; exact D|right; rewrite <- Vm, app_length; cbn [length]; lia]. }
    destruct (two_ways Hl Hg E V) as [(Ec & Er)|(Ec & Er)]; rewrite Er in *.
    + exfalso. destruct Tl as [(_ & Nt)|(_ & _ & t & b & -> & _)]; [apply Nt; right; right; exact lf_dropped|]. eapply (@snoc_lf l (a ++ m :: t)); [exact Hl|]. rewrite <- Ec, <- app_assoc. reflexivity.
    + split; [exact Cl|]. split; [|reflexivity]. destruct Tl as [(_ & Nt)|(_ & _ & t & b & -> & Ct)]; [intros [Z|Z]; apply Nt; [left|right; left]; exact Z|]. exfalso.
      assert (Ea : (a ++ m :: t) ++ [(line_feed, b)] = l ++ [lf]) by (rewrite <- Ec, <- app_assoc; reflexivity). apply app_inj_tail in Ea. destruct Ea as (Ea & _).
      rewrite feeds_solid in Ct; [discriminate Ct|]. unfold solid in Hl. rewrite <- Ea in Hl. apply Forall_app in Hl. destruct Hl as (_ & Hl). inversion Hl; assumption.
  - exfalso. unfold solid_delims in Solid. rewrite Forall_forall in Solid. specialize (Solid _ Dm). congruence.
  - exfalso. assert (V : visible s (a ++ [(line_feed, b)]) = l) by congruence. assert (E : (a ++ [(line_feed, b)]) ++ rest0 = l ++ lf :: g :: X) by (rewrite <- app_assoc; cbn [app]; congruence).
    destruct (two_ways Hl Hg E V) as [(Ec & _)|(Ec & _)]; [exact (snoc_lf Hl (eq_sym Ec))|]. apply app_inj_tail in Ec. destruct Ec as (-> & _). exact (@not_armed 0 l Hl Ar).
Qed.
Lemma cut_good l kept rest : Forall good_rune l -> cut s l (Sentence kept rest) -> Forall good_rune kept.
Proof.
  intros G C. inversion C as [a m tail rest1 Q Nm _ D Tl E1 E2|a m rest1 _ _ _ _ E1 E2|a b rest1 _ Ar E1 E2|]; subst; apply visible_Forall.
  - replace (a ++ m :: tail ++ rest) with ((a ++ m :: tail) ++ rest) in G by (rewrite <- app_assoc; reflexivity). apply Forall_app in G. apply G.
  - apply Forall_app in G. apply G.
  - replace (a ++ (line_feed, b) :: rest) with ((a ++ [(line_feed, b)]) ++ rest) in G by (rewrite <- app_assoc; reflexivity). apply Forall_app in G. apply G.
Qed.
Lemma again_back m ls : Forall (fun l => solid l /\ l <> []) ls -> Forall good_rune (printed ls ++ repeat lf m) -> sentences s (printed ls ++ repeat lf m) (map segs_text ls) -> settled_l ls.
Proof.
  induction ls as [|l [|u rest] IH]; intros H G S; [intros pre t u post E; destruct pre; discriminate E|intros pre t u post E; destruct pre as [|? [|]]; discriminate E|].
  inversion H as [|? ? (Hl & Nl) H']; subst. inversion H' as [|? ? (Hu & Nu) _]; subst. destruct u as [|g u]; [congruence|].
  set (X := u ++ lf :: printed rest ++ repeat lf m).
  assert (E : printed (l :: (g :: u) :: rest) ++ repeat lf m = l ++ lf :: g :: X) by (unfold printed, X; cbn [map concat]; rewrite <- ?app_assoc; cbn [app]; rewrite <- ?app_assoc; reflexivity).
  assert (E' : printed ((g :: u) :: rest) ++ repeat lf m = g :: X) by (unfold printed, X; cbn [map concat app]; rewrite <- ?app_assoc; cbn [app]; rewrite <- ?app_assoc; reflexivity).
  rewrite E in *. cbn [map] in S. inversion S as [l1 kept rest0 ts C S' E1 E2|l1 kept C Nk E1 E2|l1 C E1 E2].
  assert (Kl : kept = l).
  { rewrite <- (good_segs (cut_good G C)). apply Forall_app in G. destruct G as (G & _). rewrite <- (good_segs G). congruence. }
  assert (Hg : is_space (fst g) = false) by (inversion Hu; assumption).
  destruct (back_cut Hl Hg C Kl) as (Cl & Nt & Er). rewrite Er in S'.
  assert (IHs : settled_l ((g :: u) :: rest)).
  { apply IH; [exact H'| |]; rewrite E'; [apply Forall_app in G; destruct G as (_ & G); inversion G; assumption|]. exact S'. }
  intros [|p pre] t v post Eq; [injection Eq as <- <- _; split; [exact Cl|exact Nt]|]. injection Eq as _ Eq. exact (IHs pre t v post Eq).
Qed.

(** From texts to runes *)
Lemma printed_segs ts : Forall (fun t => valid_utf8 t = true) ts -> segs (print_lines ts) = printed (map segs ts).
Proof.
  induction 1 as [|t ts Hv _ IH]; [reflexivity|]. unfold print_lines in *. cbn [map concat]. rewrite <- app_assoc, segs_valid_app by exact Hv. unfold printed. cbn [map concat]. rewrite <- app_assoc. f_equal.
  rewrite segs_valid_app by reflexivity. rewrite IH. reflexivity.
Qed.
Lemma print_valid ts : Forall (fun t => valid_utf8 t = true) ts -> valid_utf8 (print_lines ts) = true.
Proof. induction 1 as [|t ts Hv _ IH]; [reflexivity|]. unfold print_lines in *. cbn [map concat]. apply valid_app; [apply valid_app; [exact Hv|reflexivity]|exact IH]. Qed.
Lemma nonempty_segs ts : nonnil (map segs ts) = map segs (nonempty ts).
Proof.
  induction ts as [|t ts IH]; [reflexivity|]. cbn [map nonnil nonempty filter]. destruct t as [|b t]; [exact IH|].
  destruct (segs (b :: t)) eqn:E; [exfalso; pose proof (segs_concat (b :: t)) as Z; rewrite E in Z; discriminate Z|]. cbn [length Nat.eqb negb map]. rewrite E. f_equal. exact IH.
Qed.
Lemma segs_all ts rest : Forall (fun t => valid_utf8 t = true) ts -> segs (concat ts ++ rest) = concat (map segs ts) ++ segs rest.
Proof. induction 1 as [|t ts Hv _ IH]; [reflexivity|]. cbn [concat map]. rewrite <- !app_assoc, segs_valid_app by exact Hv. rewrite IH. reflexivity. Qed.
Lemma shown_solid x : valid_utf8 x = true -> solid (segs (shown s x)).
Proof.
  intros V. unfold shown. rewrite good_visible by (apply valid_good; exact V). unfold visible, solid. rewrite Skip. apply Forall_forall. intros g H. apply filter_In in H. destruct H as (_ & H). destruct (is_space (fst g)); [discriminate H|reflexivity].
Qed.
Lemma printed_app a b : printed (a ++ b) = printed a ++ printed b.
Proof. unfold printed. rewrite map_app, concat_app. reflexivity. Qed.
Theorem again_lemma r toks err r' : rd_log r = [] -> valid_utf8 (rd_rest r) = true -> scan_texts (scan_sentences s) r = Ok (toks, err, r') -> whole_runes (rd_log r') ->
  forall r2 toks2 r2', rd_rest r2 = print_lines toks -> rd_log r2 = [] -> scan_texts (scan_sentences s) r2 = Ok (toks2, None, r2') ->
  (one_piece (rd_rest r2) (rd_log r2') \/ clean_cuts s (rd_log r2') -> settled s (nonempty toks) -> nonempty toks2 = nonempty toks) /\
  (forall m, one_piece (rd_rest r2) (rd_log r2') -> toks = nonempty toks ++ repeat [] m -> nonempty toks2 = nonempty toks -> settled s (nonempty toks)).
Proof.
  intros L V Er W r2 toks2 r2' E2 L2 Er2.
  destruct (aligned_lemma s L) as (toks0 & err0 & r0 & E0 & _ & A). rewrite Er in E0. injection E0 as <- <- <-. destruct (A W) as (F & C).
  assert (Vs : Forall (fun t => valid_utf8 t = true) toks) by (eapply Forall_impl; [|exact F]; cbv beta; tauto).
  assert (Sol : solid (concat (map segs toks))).
  { assert (H : exists lost, shown s (rd_rest r) = concat toks ++ lost) by (destruct C as [(_ & <-)|(_ & H)]; [exists []; rewrite app_nil_r; reflexivity|exact H]).
    destruct H as (lost & H). pose proof (shown_solid V) as Z. rewrite H, segs_all in Z by exact Vs. apply Forall_app in Z. apply Z. }
  assert (Ok : Forall (fun l => solid l /\ sentence s l) (map segs toks)).
  { apply Forall_forall. intros l Hl. apply in_map_iff in Hl. destruct Hl as (t & <- & It). rewrite Forall_forall in F. destruct (F _ It) as (_ & Sn). split; [|exact Sn].
    apply Forall_forall. intros g Hg. unfold solid in Sol. rewrite Forall_forall in Sol. apply Sol. apply in_concat. exists (segs t). split; [apply in_map; exact It|exact Hg]. }
  assert (D32 : ~ In 32 (sp_delim s)) by (intros Z; unfold solid_delims in Solid; rewrite Forall_forall in Solid; specialize (Solid _ Z); discriminate Solid).
  assert (H1 : one_piece (rd_rest r2) (rd_log r2') -> sentences s (printed (map segs toks)) (nonempty toks2)).
  { intros One. rewrite <- printed_segs, <- E2 by exact Vs. eapply any_piece; [right; exact D32|rewrite E2; apply print_valid; exact Vs|exact L2|exact Er2|exact One]. }
  assert (Tx : map segs_text (map segs (nonempty toks)) = nonempty toks) by (rewrite map_map; rewrite <- (map_id (nonempty toks)) at 2; apply map_ext; intros t; apply segs_concat).
  split.
  - intros Cut St. assert (Sl : settled_l (nonnil (map segs toks))).
    { rewrite nonempty_segs. intros pre l u post E. apply map_eq_app in E. destruct E as (p1 & p2 & E1 & <- & E). destruct p2 as [|t p2]; [discriminate E|]. cbn [map] in E. injection E as <- E.
      destruct p2 as [|v p2]; [discriminate E|]. injection E as <- E. exact (St p1 t v p2 E1). }
    assert (H2 : sentences s (printed (map segs toks)) (nonempty toks2)).
    { destruct Cut as [One|Cl]; [exact (H1 One)|]. rewrite <- printed_segs, <- E2 by exact Vs. eapply any_reads; [|exact L2|exact Er2|exact Cl]. right. split; [exact D32|]. right. rewrite E2, printed_segs by exact Vs. apply printed_lone; [|exact Sl].
      eapply Forall_impl; [|exact Ok]. cbv beta. tauto. }
    pose proof (@again_list (length (map segs toks)) (map segs toks) 0 ltac:(lia) Ok Sl) as H. cbn [repeat app] in H. rewrite (sentences_one H2 H), nonempty_segs. exact Tx.
  - intros m One Em Eq. specialize (H1 One). rename H1 into H2. assert (Ep : printed (map segs toks) = printed (map segs (nonempty toks)) ++ repeat lf m).
    { rewrite Em at 1. rewrite map_app, printed_app. f_equal. assert (Zm : map segs (repeat [] m) = repeat [] m) by (clear; induction m as [|m IH]; [reflexivity|]; cbn [repeat map]; rewrite IH; reflexivity). rewrite Zm. pose proof (printed_nils m []) as Z. rewrite !app_nil_r in Z. exact Z. }
    assert (H3 : sentences s (printed (map segs (nonempty toks)) ++ repeat lf m) (map segs_text (map segs (nonempty toks)))) by (rewrite <- Ep, Tx, <- Eq; exact H2).
    assert (Ok' : Forall (fun l => solid l /\ l <> []) (map segs (nonempty toks))).
    { apply Forall_forall. intros l Hl. apply in_map_iff in Hl. destruct Hl as (t & <- & It). unfold nonempty in It. apply filter_In in It. destruct It as (It & Nt). rewrite Forall_forall in Ok. split; [apply Ok; apply in_map; exact It|].
      intros Z. pose proof (segs_concat t) as Q. rewrite Z in Q. subst t. discriminate Nt. }
    assert (G : Forall good_rune (printed (map segs (nonempty toks)) ++ repeat lf m)) by (rewrite <- Ep, <- printed_segs by exact Vs; apply valid_good; apply print_valid; exact Vs).
    pose proof (again_back Ok' G H3) as Sl. intros pre t u post E. apply (Sl (map segs pre) (segs t) (segs u) (map segs post)). rewrite E, map_app. reflexivity.
Qed.
End Again.
