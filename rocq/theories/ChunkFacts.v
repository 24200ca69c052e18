(** How sentences depend on the reads. *)
From Verif Require Import SpecSent ScannerFacts SplitterFacts SentenceFacts SpaceFacts Utf8Facts.
From Coq Require Import List Arith Lia ZifyBool ZifyNat ZifyN.
Import ListNotations.
Set Implicit Arguments.
Unset Strict Implicit.

Section Chunks.
Variable s : splitter.

(** More text behind a finished sentence. *)
Lemma abs_tail_app L l : forall kept nn k l', abs_tail s l kept nn = (k, l') -> (l' <> [] \/ outside s L) ->
  abs_tail s (l ++ L) kept nn = (k, l' ++ L).
Proof.
  induction l as [|[r b] l IH]; intros kept nn k l'; cbn [abs_tail app].
  - intros [= <- <-] [H|H]; [congruence|]. cbn. destruct L as [|[r b] L]; [reflexivity|]. cbn [abs_tail].
    destruct H as [H1 H2]. destruct (sp_skip s && is_space r) eqn:E.
    + apply andb_true_iff in E. destruct E as [E1 E2]. specialize (H2 E1). cbn in H2. congruence.
    + destruct (is_delim s r || is_follower s r) eqn:E2; [|reflexivity]. exfalso. apply H1. unfold tail_rune. cbn [fst].
      apply orb_true_iff in E2. rewrite is_delim_in, is_follower_in in E2. exact E2.
  - destruct (sp_skip s && is_space r).
    + destruct (sp_dlf s && (r =? line_feed)); [|apply IH]. destruct nn; [|apply IH]. intros [= <- <-] _. reflexivity.
    + destruct (is_delim s r || is_follower s r); [apply IH|]. intros [= <- <-] _. reflexivity.
Qed.
Lemma abs_loop_app L l : forall kept rc head nn K l', abs_loop s l kept rc head nn = ATok K l' -> (l' <> [] \/ outside s L) ->
  abs_loop s (l ++ L) kept rc head nn = ATok K (l' ++ L).
Proof.
  induction l as [|[r b] l IH]; intros kept rc head nn K l'; cbn [abs_loop app]; [discriminate|].
  destruct (sp_skip s && is_space r).
  - destruct head; [apply IH|]. destruct (is_delim s r); [intros [= <- <-] _; reflexivity|].
    destruct (sp_dlf s && (r =? line_feed)); [|apply IH]. destruct nn; [intros [= <- <-] _; reflexivity|apply IH].
  - destruct (sp_dlf s && (r =? line_feed) && nn); [intros [= <- <-] _; reflexivity|].
    destruct (negb (is_delim s r) && (rc + 1 <? sp_max s)%Z); [apply IH|].
    destruct (abs_tail s l (kept ++ b) false) as [k l''] eqn:E. intros [= <- <-] H. rewrite (abs_tail_app E H). reflexivity.
Qed.

(** Without line feeds, or without the option, the line feed flag has no effect. *)
Definition quiet (l : list (N * bytes)) : Prop := sp_dlf s = false \/ Forall (fun g => fst g <> line_feed) l.
Lemma quiet_cons g l : quiet (g :: l) -> sp_dlf s && (fst g =? line_feed) = false /\ quiet l.
Proof.
  intros [H|H].
  - rewrite H. split; [reflexivity|left; assumption].
  - inversion H; subst. split; [|right; assumption]. destruct (sp_dlf s); [|reflexivity]. cbn. apply N.eqb_neq. assumption.
Qed.
Lemma quiet_app a b : quiet (a ++ b) -> quiet a /\ quiet b.
Proof. intros [H|H]; [split; left; assumption|]. apply Forall_app in H. split; right; apply H. Qed.

Lemma nn_irrelevant l : quiet l -> forall kept rc head nn nn2, abs_loop s l kept rc head nn = abs_loop s l kept rc head nn2.
Proof.
  induction l as [|[r b] l IH]; intros Hq kept rc head nn nn2; [reflexivity|]. cbn [abs_loop].
  apply quiet_cons in Hq. destruct Hq as [E Hq]. cbn [fst] in E. rewrite !E. cbn [andb].
  destruct (sp_skip s && is_space r).
  - destruct head; [apply IH; assumption|]. destruct (is_delim s r); reflexivity.
  - destruct (negb (is_delim s r) && (rc + 1 <? sp_max s)%Z); [apply IH; assumption|reflexivity].
Qed.

Lemma blanks_skip k M : sp_skip s = true -> ~ In 32 (sp_delim s) -> quiet M -> forall kept rc head nn nn2,
  abs_loop s (repeat (32, [x20]) k ++ M) kept rc head nn = abs_loop s M kept rc head nn2.
Proof.
  intros Hs Hd Hq. induction k as [|k IH]; intros kept rc head nn nn2; cbn [repeat app]; [apply nn_irrelevant; assumption|].
  cbn [abs_loop]. rewrite Hs. change (is_space 32) with true. cbn [andb].
  destruct head; [apply IH|]. destruct (is_delim s 32) eqn:E; [apply is_delim_in in E; contradiction|].
  change (32 =? line_feed) with false. rewrite andb_false_r. apply IH.
Qed.

(** Rescanning what was kept. *)
Lemma rescan k M l : sp_skip s = true -> ~ In 32 (sp_delim s) -> quiet (l ++ M) -> forall kept rc head nn nn2 K,
  abs_loop s l kept rc head nn = AEnd K ->
  abs_loop s (visible s l ++ repeat (32, [x20]) k ++ M) kept rc head nn2 = abs_loop s (l ++ M) kept rc head nn.
Proof.
  intros Hs Hd. induction l as [|[r b] l IH]; intros Hq kept rc head nn nn2 K.
  - intros _. rewrite visible_nil. apply blanks_skip; assumption.
  - intros H. cbn [app] in Hq. apply quiet_cons in Hq. destruct Hq as [E Hq]. cbn [fst] in E.
    change ((r, b) :: l) with ([(r, b)] ++ l) at 1. rewrite visible_app.
    cbn [abs_loop app] in *. rewrite E in *. cbn [andb] in *. destruct (sp_skip s && is_space r) eqn:Esp.
    + rewrite (@visible_space s (r, b) Esp). cbn [app]. destruct head; [eapply IH; eassumption|].
      destruct (is_delim s r); [discriminate|]. eapply IH; eassumption.
    + rewrite (@visible_keep s (r, b) Esp). cbn [abs_loop app]. rewrite Esp, E. cbn [andb].
      destruct (negb (is_delim s r) && (rc + 1 <? sp_max s)%Z); [eapply IH; eassumption|].
      destruct (abs_tail s l (kept ++ b) false). discriminate.
Qed.

(** With line feeds that do not meet in a sentence. *)
Definition pending (rc : Z) (l : list (N * bytes)) : Prop := forall x b y, l = x ++ (line_feed, b) :: y ->
  visible s x = [] \/ visible s y = [] \/ Exists (delim_rune s) x \/ (sp_max s <= rc + Z.of_nat (length (visible s x)))%Z.
(** The same sentences, if only white space is left. *)
Definition blank_end (K : bytes) (a : abs_result) : Prop := a = AEnd K \/ exists l, a = ATok K l /\ visible s l = [].
Definition alike (a b : abs_result) : Prop := a = b \/ exists K, K <> [] /\ blank_end K a /\ blank_end K b.
Lemma blank_loop l : sp_skip s = true -> visible s l = [] -> forall kept rc nn, blank_end kept (abs_loop s l kept rc false nn).
Proof.
  intros Hs. induction l as [|[r b] l IH]; intros V kept rc nn; [left; reflexivity|]. cbn [abs_loop]. unfold visible in V. rewrite Hs in *. cbn [filter fst andb] in *. destruct (is_space r) eqn:Er; [|discriminate V]. cbn [negb] in V.
  assert (Vl : visible s l = []) by (unfold visible; rewrite Hs; exact V). destruct (is_delim s r); [right; exists l; auto|]. destruct (sp_dlf s && (r =? line_feed)); [|apply IH; exact Vl]. destruct nn; [right; exists l; auto|apply IH; exact Vl].
Qed.
Lemma blank_lf (r : N) (b : bytes) : is_space r = false -> forall x c y l, (r, b) :: l = x ++ (line_feed, c) :: y -> exists x', x = (r, b) :: x' /\ l = x' ++ (line_feed, c) :: y.
Proof.
  intros H x c y l E. destruct x as [|g x]; [injection E as -> _ _; discriminate H|]. injection E as <- E. exists x. auto.
Qed.
Lemma vis_cons r b l : sp_skip s = true -> is_space r = false -> visible s ((r, b) :: l) = (r, b) :: visible s l.
Proof. intros Hs H. change ((r, b) :: l) with ([(r, b)] ++ l). rewrite visible_app. unfold visible at 1. rewrite Hs. cbn [filter fst]. rewrite H. reflexivity. Qed.
Lemma vis_space r b l : sp_skip s = true -> is_space r = true -> visible s ((r, b) :: l) = visible s l.
Proof. intros Hs H. change ((r, b) :: l) with ([(r, b)] ++ l). rewrite visible_app. unfold visible at 1. rewrite Hs. cbn [filter fst]. rewrite H. reflexivity. Qed.
Lemma nn_lone M : sp_skip s = true -> forall kept rc, kept <> [] -> (rc < sp_max s)%Z ->
  (forall x b y, M = x ++ (line_feed, b) :: y -> visible s y = [] \/ Exists (delim_rune s) x \/ (sp_max s <= rc + Z.of_nat (length (visible s x)))%Z) ->
  alike (abs_loop s M kept rc false false) (abs_loop s M kept rc false true).
Proof.
  intros Hs. induction M as [|[r b] M IH]; intros kept rc Hk Hrc H; [left; reflexivity|]. cbn [abs_loop]. rewrite Hs. cbn [andb]. destruct (is_space r) eqn:Er.
  - destruct (is_delim s r) eqn:Ed; [left; reflexivity|]. destruct (sp_dlf s && (r =? line_feed)) eqn:E; [|left; reflexivity]. apply andb_true_iff in E. destruct E as (_ & E). apply N.eqb_eq in E. subst r.
    destruct (H [] b M eq_refl) as [Z|[Z|Z]]; [|inversion Z|].
    + right. exists kept. split; [assumption|]. split; [apply blank_loop; assumption|]. right. exists M. auto.
    + exfalso. unfold visible in Z. rewrite Hs in Z. cbn [filter length] in Z. lia.
  - assert (Ef : (r =? line_feed) = false) by (apply N.eqb_neq; intros ->; discriminate Er). rewrite Ef, !andb_false_r. cbn [andb].
    destruct (negb (is_delim s r) && (rc + 1 <? sp_max s)%Z) eqn:E; [|left; reflexivity]. apply andb_true_iff in E. destruct E as (Ed & Ec). apply IH; [intros Z; apply app_eq_nil in Z; destruct Z; contradiction|lia|].
    intros x c y Ex. destruct (H ((r, b) :: x) c y) as [Z|[Z|Z]]; [rewrite Ex; reflexivity|left; exact Z| |].
    + right. left. inversion Z as [? ? Z1|? ? Z1]; subst; [|assumption]. exfalso. apply is_delim_in in Z1. cbn [fst] in Z1. rewrite Z1 in Ed. discriminate Ed.
    + right. right. rewrite vis_cons in Z by assumption. cbn [length] in Z. lia.
Qed.
Lemma blanks_calm k M : sp_skip s = true -> ~ In 32 (sp_delim s) -> forall kept rc head,
  abs_loop s (repeat (32, [x20]) k ++ M) kept rc head false = abs_loop s M kept rc head false.
Proof.
  intros Hs Hd. induction k as [|k IH]; intros kept rc head; cbn [repeat app]; [reflexivity|].
  cbn [abs_loop]. rewrite Hs. change (is_space 32) with true. cbn [andb].
  destruct head; [apply IH|]. destruct (is_delim s 32) eqn:E; [apply is_delim_in in E; contradiction|].
  change (32 =? line_feed) with false. rewrite andb_false_r. apply IH.
Qed.
Lemma last_visible a b v g : visible s b = v ++ [g] -> exists v', visible s (a ++ b) = v' ++ [g].
Proof. intros E. exists (visible s a ++ v). rewrite visible_app, E, app_assoc. reflexivity. Qed.
Lemma lone_app a l : lone_feeds s (a ++ l) -> lone_feeds s l.
Proof.
  intros H x b y c z E. destruct (H (a ++ x) b y c z) as [Z|Z]; [rewrite E, <- app_assoc; reflexivity| |right; exact Z].
  left. intros v g Ev. destruct (last_visible a Ev) as (v' & Ev'). exact (Z v' g Ev').
Qed.
Lemma lone_front a a' l : Forall (fun g => fst g <> line_feed) a' -> visible s a' = visible s a -> lone_feeds s (a ++ l) -> lone_feeds s (a' ++ l).
Proof.
  intros Hf Hv H x b y c z E. apply app_eq_app in E. destruct E as (w & [(E & Ew)|(E & Ew)]).
  - destruct w as [|g w]; cbn [app] in Ew.
    + rewrite app_nil_r in E. subst x. rewrite Hv. apply (H a b y c z). rewrite <- Ew. reflexivity.
    + exfalso. injection Ew as <- _. subst a'. apply Forall_app in Hf. destruct Hf as (_ & Hf). inversion Hf as [|? ? Z _]; subst. apply Z. reflexivity.
  - subst x. rewrite visible_app, Hv, <- visible_app. apply (H (a ++ w) b y c z). rewrite <- app_assoc, <- Ew. reflexivity.
Qed.
Lemma rescan_lone k M l : sp_skip s = true -> ~ In 32 (sp_delim s) -> outside s M -> forall P kept rc head nn K,
  Forall rune_ok l -> lone_feeds s (P ++ l ++ M) -> (0 <= rc)%Z ->
  (head = false -> (rc < sp_max s)%Z /\ kept <> [] /\ exists v g, visible s P = v ++ [g] /\ ~ delim_rune s g) -> (nn = true -> head = false /\ pending rc (l ++ M)) ->
  abs_loop s l kept rc head nn = AEnd K ->
  alike (abs_loop s (visible s l ++ repeat (32, [x20]) k ++ M) kept rc head false) (abs_loop s (l ++ M) kept rc head nn).
Proof.
  intros Hs Hd Ho. induction l as [|[r b] l IH]; intros P kept rc head nn K Hok Hl H0 Hh Hn H.
  - rewrite visible_nil. cbn [app]. rewrite blanks_calm by assumption. destruct nn; [|left; reflexivity]. destruct (Hn eq_refl) as (-> & Hp). destruct (Hh eq_refl) as (Hh1 & Hh2 & _). apply nn_lone; [assumption|assumption|assumption|].
    intros x c y E. destruct (Hp x c y E) as [Z|Z]; [|exact Z]. exfalso. destruct M as [|[r b] M]; [destruct x; discriminate E|]. cbn in Ho. destruct Ho as (_ & Ho). specialize (Ho Hs).
    destruct (blank_lf Ho E) as (x' & -> & _). rewrite vis_cons in Z by assumption. discriminate Z.
  - assert (Hl' : lone_feeds s ((P ++ [(r, b)]) ++ l ++ M)) by (rewrite <- app_assoc; exact Hl).
    cbn [app abs_loop] in *. inversion Hok as [|? ? Hrb Hok']; subst. rewrite Hs in *. cbn [andb] in *. destruct (is_space r) eqn:Er.
    + assert (VP : visible s (P ++ [(r, b)]) = visible s P) by (rewrite visible_app, vis_space, visible_nil, app_nil_r by assumption; reflexivity).
      rewrite vis_space by assumption. destruct head.
      { destruct nn; [destruct (Hn eq_refl); discriminate|]. eapply IH; [assumption|exact Hl'|assumption|discriminate|discriminate|exact H]. }
      destruct (is_delim s r); [discriminate|]. destruct (sp_dlf s && (r =? line_feed)) eqn:E.
      * destruct nn; [discriminate|]. apply andb_true_iff in E. destruct E as (_ & E). apply N.eqb_eq in E. subst r. eapply IH; [assumption|exact Hl'|assumption|rewrite VP; assumption| |exact H]. intros _. split; [reflexivity|].
        intros x c y Ex. destruct (Hl P b x c y) as [Z|[Z|[Z|[Z|Z]]]]; [rewrite Ex; reflexivity| |auto|auto|auto|right; right; right; lia].
        exfalso. destruct (Hh eq_refl) as (_ & _ & v & g & Ev & Ng). exact (Ng (Z v g Ev)).
      * eapply IH; [assumption|exact Hl'|assumption|rewrite VP; assumption|discriminate|exact H].
    + rewrite vis_cons by assumption. cbn [app abs_loop]. rewrite Hs, Er. cbn [andb]. assert (Ef : (r =? line_feed) = false) by (apply N.eqb_neq; intros ->; discriminate Er). rewrite Ef, !andb_false_r in *. cbn [andb] in *.
      destruct (negb (is_delim s r) && (rc + 1 <? sp_max s)%Z) eqn:Ec; [|destruct (abs_tail s l (kept ++ b) false); discriminate]. apply andb_true_iff in Ec. destruct Ec as (Ed & Ec).
      eapply IH; [assumption|exact Hl'|lia| | |exact H].
      { intros _. split; [lia|]. split.
        - destruct Hrb as (Hb & _). cbn [snd] in Hb. intros Z. apply app_eq_nil in Z. destruct Z; contradiction.
        - exists (visible s P), (r, b). split; [rewrite visible_app, vis_cons, visible_nil by assumption; reflexivity|]. intros Z. apply is_delim_in in Z. cbn [fst] in Z. rewrite Z in Ed. discriminate Ed. }
      intros ->. split; [reflexivity|]. destruct (Hn eq_refl) as (_ & Hp). intros x c y Ex.
      destruct (Hp ((r, b) :: x) c y) as [Z|[Z|[Z|Z]]]; [rewrite Ex; reflexivity|rewrite vis_cons in Z by assumption; discriminate Z|auto| |].
      * right. right. left. inversion Z as [? ? Z1|? ? Z1]; subst; [|assumption]. exfalso. apply is_delim_in in Z1. cbn [fst] in Z1. rewrite Z1 in Ed. discriminate Ed.
      * right. right. right. rewrite vis_cons in Z by assumption. cbn [length] in Z. lia.
Qed.

(** The sentences of a whole text. *)
Inductive sents : list (N * bytes) -> list bytes -> Prop :=
| se_tok l K l' ts : abs_loop s l [] 0 true false = ATok K l' -> sents l' ts -> sents l (K :: ts)
| se_end l K : abs_loop s l [] 0 true false = AEnd K -> sents l (nonempty [K]).

Lemma sents_fun l ts : sents l ts -> forall ts', sents l ts' -> ts = ts'.
Proof.
  induction 1 as [l K l' ts E _ IH|l K E]; intros ts' H'; inversion H' as [l1 K1 l1' ts1 E1 H1|l1 K1 E1]; subst; try congruence.
  rewrite E in E1. injection E1 as -> ->. f_equal. apply IH. assumption.
Qed.
Lemma sents_same l l2 ts : abs_loop s l [] 0 true false = abs_loop s l2 [] 0 true false -> sents l ts -> sents l2 ts.
Proof. intros E H. inversion H; subst; [eapply se_tok; [rewrite <- E|]; eassumption|apply se_end; congruence]. Qed.

Lemma sents_blank l : sp_skip s = true -> visible s l = [] -> sents l [].
Proof.
  intros Hs V. apply (@se_end l []). induction l as [|[r b] l IH]; [reflexivity|]. cbn [abs_loop]. unfold visible in V. rewrite Hs in *. cbn [filter fst andb] in *. destruct (is_space r); [|discriminate V]. apply IH. unfold visible. rewrite Hs. exact V.
Qed.
Lemma sents_alike l l2 ts : sp_skip s = true -> alike (abs_loop s l [] 0 true false) (abs_loop s l2 [] 0 true false) -> sents l ts -> sents l2 ts.
Proof.
  intros Hs [E|(K & Hk & B1 & B2)] H; [exact (sents_same E H)|].
  assert (E : forall l0, blank_end K (abs_loop s l0 [] 0 true false) -> sents l0 [K]).
  { intros l0 [E|(l' & E & V)]; [|eapply se_tok; [exact E|apply sents_blank; assumption]]. replace [K] with (nonempty [K]) by (destruct K; [congruence|reflexivity]). apply se_end. exact E. }
  rewrite (sents_fun H (E _ B1)). exact (E _ B2).
Qed.

(** The next chunk begins with an ordinary rune. *)
Definition boundary (r : reader) : Prop :=
  rd_rest r = [] \/ concat (rd_log r) = [] \/ ordinary_start s (rd_rest r).

Lemma ordinary_app c x : valid_utf8 c = true -> ordinary_start s c -> ordinary_start s (c ++ x).
Proof. intros Hv H. unfold ordinary_start in *. rewrite segs_valid_app by assumption. destruct (segs c); [contradiction|]. exact H. Qed.

Lemma cuts_read r r' tries cap chunk err : read_loop tries r cap = (chunk, err, r') -> clean_cuts s (rd_log r') ->
  clean_cuts s (rd_log r) /\ (chunk <> [] -> boundary r) /\ (chunk = [] -> boundary r' -> boundary r).
Proof.
  intros Hr [Hw Hc]. pose proof (read_loop_log Hr) as (n & Hlog). apply read_loop_ok in Hr.
  destruct Hr as (H1 & _ & _ & H4 & _). rewrite Hlog in Hw, Hc. split; [split|split].
  - unfold whole_runes in *. apply Forall_app in Hw. apply Hw.
  - intros pre c post E. apply Hc with (post := post ++ repeat [] n ++ match chunk with [] => [] | _ :: _ => [chunk] end).
    rewrite E, <- app_assoc. reflexivity.
  - intros Hne. destruct chunk as [|b ch] eqn:Ech; [congruence|]. rewrite <- Ech in *.
    destruct (concat (rd_log r)) as [|x y] eqn:El; [right; left; assumption|]. right. right.
    rewrite H1. apply ordinary_app.
    + unfold whole_runes in Hw. apply Forall_app in Hw. destruct Hw as [_ Hw]. apply Forall_app in Hw. destruct Hw as [_ Hw]. inversion Hw; assumption.
    + apply Hc with (pre := rd_log r ++ repeat [] n) (post := []); [rewrite <- app_assoc; reflexivity| |assumption].
      rewrite concat_app, El. discriminate.
  - intros -> Hb. cbn [app] in H1. rewrite app_nil_r in H4. unfold boundary in *. rewrite H1, <- H4. exact Hb.
Qed.

Lemma lf_byte l : Forall rune_ok l -> ~ In x0a (segs_text l) -> Forall (fun g => fst g <> line_feed) l.
Proof.
  intros H Hn. rewrite Forall_forall in *. intros [r b] Hg E. cbn [fst] in E. subst r. apply Hn.
  destruct (rune_bytes (H _ Hg)) as [(b0 & E1 & _ & E3)|[HF _]].
  - cbn [fst snd] in *. assert (b0 = x0a) as -> by (apply b2n_inj; rewrite <- E3; reflexivity).
    unfold segs_text. apply in_concat. exists [x0a]. split; [|left; reflexivity]. apply in_map_iff. exists (line_feed, [x0a]). rewrite E1 in Hg. auto.
  - destruct (H _ Hg) as [Hne Hd]. cbn [fst snd] in *. destruct b as [|b0 t]; [congruence|].
    inversion HF as [|? ? Hb _]; subst. pose proof (decode_dec Hne) as D. rewrite Hd in D. cbn [fst snd] in D.
    exfalso. unfold line_feed in D. remember 10 as ten eqn:Et. remember (length (b0 :: t)) as w. clear Heqw.
    destruct D as [? ? Hs ?|? ? Hs ?|? ? ? Hs ? ?|c0 ? ? ? Hs ? ? ?|c0 ? ? ? ? Hs ? ? ? ?]; injection Hs as -> _; unfold rune_error in *; try lia.
    + pose proof (second_lo_bounds (b2n c0)). unfold second_lo in *. destruct (b2n c0 =? 224) eqn:E5; lia.
    + pose proof (second_lo_bounds (b2n c0)). unfold second_lo in *. destruct (b2n c0 =? 224) eqn:E5; [lia|]. destruct (b2n c0 =? 240) eqn:E6; lia.
Qed.

Hypothesis Hmode : sp_skip s = false \/ ~ In 32 (sp_delim s).

(** No line feeds to lose. *)
Definition no_lf (x : bytes) : Prop := sp_skip s = false \/ sp_dlf s = false \/ lone_feeds s (segs x).
Lemma visible_no_lf l : sp_skip s = true -> Forall (fun g => fst g <> line_feed) (visible s l).
Proof. intros Hs. unfold visible. rewrite Hs. apply Forall_forall. intros g H E. apply filter_In in H. destruct H as (_ & H). rewrite E in H. discriminate H. Qed.

Lemma shown_in data b : In b (shown s data) -> In b data.
Proof.
  unfold shown. intros H. rewrite <- (segs_concat data). unfold segs_text in *. apply in_concat in H. destruct H as (x & Hx & Hb).
  apply in_concat. exists x. split; [|assumption]. apply in_map_iff in Hx. destruct Hx as (g & <- & Hg). apply in_map. eapply visible_sub; eassumption.
Qed.

Theorem chunk_lemma r toks r' : rd_log r = [] -> no_lf (rd_rest r) ->
  scan_texts (scan_sentences s) r = Ok (toks, None, r') -> clean_cuts s (rd_log r') -> sents (segs (rd_rest r)) (nonempty toks).
Proof.
  intros Hlog0 Hlf0 Hrun Hcuts.
  set (J := fun (acc : list bytes) (data : bytes) (r1 : reader) (e : option scan_err) =>
    (concat (rd_log r1) = [] -> data = [] /\ acc = [] /\ rd_rest r1 = rd_rest r) /\
    (e = Some EOF -> rd_rest r1 = []) /\ (e = None \/ e = Some EOF -> clean_cuts s (rd_log r1) -> boundary r1 ->
      valid_utf8 data = true /\ no_lf (data ++ rd_rest r1) /\
      forall ts, sents (segs (data ++ rd_rest r1)) ts -> sents (segs (rd_rest r)) (nonempty acc ++ ts))).
  assert (Hb0 : forall (acc : list bytes) (data : bytes) r1, data <> [] ->
    (concat (rd_log r1) = [] -> data = [] /\ acc = [] /\ rd_rest r1 = rd_rest r) -> boundary r1 -> outside s (segs (rd_rest r1))).
  { intros acc data r1 Hne H [->|[Hb|Hb]]; [exact Logic.I|destruct (H Hb); contradiction|]. unfold ordinary_start, outside in *.
    destruct (segs (rd_rest r1)); [contradiction|exact Hb]. }
  assert (Hnil : forall ts, sents [] ts -> ts = []).
  { intros ts H. inversion H as [l K l' ts' E _|l K E]; subst; [discriminate|]. injection E as <-. reflexivity. }
  assert (Hne_app : forall a b, nonempty (a ++ b) = nonempty a ++ nonempty b) by (intros; apply filter_app).
  destruct (@sent_run s J) with (r := r) as (toks1 & err1 & r1 & E & Hst).
  - intros acc data r1 e c rest (H1 & H2 & H3) Hsegs Hc Hv _ _ HA.
    assert (Hne : data <> []) by (intros ->; rewrite segs_nil in Hsegs; destruct c; [congruence|discriminate]).
    split; [intros Hx; destruct (H1 Hx); contradiction|]. split; [assumption|]. intros He Hcl Hb. destruct (H3 He Hcl Hb) as (G1 & G2 & G3).
    destruct (tok_valid s G1 Hsegs) as (K1 & K2 & K3). split; [assumption|].
    destruct (segs_app_ok Hsegs) as [Hok Hdata]. split.
    { destruct G2 as [G2|[G2|G2]]; [left; assumption|right; left; assumption|]. right. right. rewrite segs_valid_app in G2 by assumption. rewrite segs_valid_app by assumption. rewrite Hsegs, <- app_assoc in G2. exact (lone_app G2). }
    intros ts Hts. rewrite Hne_app, <- app_assoc. apply G3.
    assert (Hk : nonempty [segs_text (visible s c)] = [segs_text (visible s c)]).
    { unfold nonempty. cbn [filter]. destruct (segs_text (visible s c)) eqn:Ek; [|reflexivity]. exfalso. apply Hv. apply text_nil; [|assumption].
      apply visible_Forall. assumption. }
    rewrite Hk. cbn [app]. rewrite segs_valid_app in * by assumption. eapply se_tok; [|exact Hts].
    apply abs_loop_app; [exact HA|]. right. eapply Hb0; eassumption.
  - intros acc data r1 e Hne (H1 & H2 & H3) _ HA.
    split; [intros Hx; destruct (H1 Hx); contradiction|]. split; [assumption|]. intros He Hcl Hb. destruct (H3 He Hcl Hb) as (G1 & G2 & G3).
    assert (Hr : rd_rest r1 = []) by (apply H2; destruct He; [discriminate|assumption]). rewrite Hr in *. cbn [app] in *. rewrite app_nil_r in *.
    split; [reflexivity|]. split; [right; right; rewrite segs_nil; intros x b y c z Z; destruct x; discriminate Z|]. intros ts Hts. apply Hnil in Hts. subst ts. rewrite app_nil_r.
    rewrite Hne_app. apply G3. apply se_end. assumption.
  - intros acc data r1 k Hne (H1 & H2 & H3) [_ HA] _ Hk _. fold (shown s data) in *.
    split; [intros Hx; destruct (H1 Hx); contradiction|]. split; [discriminate|]. intros He Hcl Hb. destruct (H3 He Hcl Hb) as (G1 & G2 & G3).
    destruct (more_valid G1 Hk) as [K1 K2]. split; [assumption|].
    destruct (sp_skip s) eqn:Hs.
    + destruct Hmode as [Hm|Hm]; [congruence|].
      assert (Hseg : segs (shown s data ++ repeat x20 k) = visible s (segs data) ++ repeat (32, [x20]) k).
      { pose proof (proj1 (valid_good data) G1) as Hg. unfold shown. rewrite segs_valid_app, blanks_segs, good_visible; auto.
        apply good_valid. apply visible_Forall. assumption. }
      split.
      { destruct G2 as [G2|[G2|G2]]; [congruence|right; left; assumption|]. right. right. rewrite (segs_valid_app (rd_rest r1) K1), Hseg.
        rewrite (segs_valid_app (rd_rest r1) G1) in G2. eapply lone_front; [| |exact G2].
        - apply Forall_app. split; [apply visible_no_lf; assumption|]. apply Forall_forall. intros g Hg. apply repeat_spec in Hg. subst g. discriminate.
        - rewrite visible_app, visible_idem. replace (visible s (repeat (32, [x20]) k)) with (@nil (N * bytes)); [apply app_nil_r|]. clear - Hs. unfold visible. rewrite Hs. induction k as [|k IH]; [reflexivity|exact IH]. }
      intros ts Hts. apply G3. eapply sents_alike; [assumption| |exact Hts].
      rewrite (segs_valid_app (rd_rest r1) G1), (segs_valid_app (rd_rest r1) K1), Hseg, <- app_assoc. destruct G2 as [G2|[G2|G2]]; [congruence| |].
      * left. eapply rescan; try eassumption. left. assumption.
      * rewrite (segs_valid_app (rd_rest r1) G1) in G2. eapply (@rescan_lone k (segs (rd_rest r1)) (segs data)) with (P := []); try eassumption; [eapply Hb0; eassumption|apply segs_rune_ok|lia|discriminate|discriminate].
    + assert (Hd : shown s data = data) by (unfold shown; rewrite visible_all, segs_concat by assumption; reflexivity).
      rewrite Hd in *. rewrite app_length, repeat_length in Hk. assert (k = 0%nat) as -> by lia. cbn [repeat]. rewrite app_nil_r. auto.
  - intros acc data r1 tries cap chunk err r2 (H1 & H2 & H3) _ Hr _. pose proof (read_loop_ok Hr) as (F1 & _ & _ & F4 & F5 & _ & F7).
    split; [|split].
    + intros Hx. rewrite F4 in Hx. apply app_eq_nil in Hx. destruct Hx as [Hx1 ->]. destruct (H1 Hx1) as (-> & -> & Hx2). repeat split. cbn in F1. congruence.
    + intros ->. destruct (F7 _ eq_refl) as [[Hx _]|[_ Hx]]; [discriminate|assumption].
    + intros _ Hcl Hb. destruct (cuts_read Hr Hcl) as (C1 & C2 & C3).
      assert (Hb1 : boundary r1) by (destruct chunk; [apply C3; auto|apply C2; discriminate]).
      destruct (H3 (or_introl eq_refl) C1 Hb1) as (G1 & G2 & G3). rewrite <- app_assoc, <- F1. split; [|auto].
      apply valid_app; [assumption|]. destruct Hcl as [Hw _]. destruct (F5 _ Hw) as [_ [->|Hc]]; [reflexivity|assumption].
  - split; [auto|]. split; [discriminate|]. intros _ _ _. split; [reflexivity|]. split; [exact Hlf0|]. auto.
  - rewrite Hrun in E. injection E as <- <- <-. destruct Hst as [(e & (H1 & H2 & H3) & He & _)|(data & _ & _ & He & _)]; [|discriminate].
    assert (e = EOF) as -> by (destruct e; cbn in He; congruence). specialize (H2 eq_refl).
    destruct (H3 (or_intror eq_refl) Hcuts (or_introl H2)) as (_ & _ & G3). rewrite H2 in G3. cbn [app] in G3.
    specialize (G3 [] (@se_end [] [] eq_refl)). rewrite app_nil_r in G3. exact G3.
Qed.
End Chunks.

Theorem c38_lemma s r1 r2 toks1 toks2 r1' r2' :
  (sp_skip s = false \/ (~ In 32 (sp_delim s) /\ (sp_dlf s = false \/ lone_feeds s (segs (rd_rest r1))))) ->
  rd_rest r1 = rd_rest r2 -> rd_log r1 = [] -> rd_log r2 = [] ->
  scan_texts (scan_sentences s) r1 = Ok (toks1, None, r1') -> scan_texts (scan_sentences s) r2 = Ok (toks2, None, r2') ->
  clean_cuts s (rd_log r1') -> clean_cuts s (rd_log r2') -> nonempty toks1 = nonempty toks2.
Proof.
  intros Hm Hrest L1 L2 E1 E2 C1 C2.
  assert (H1 : sp_skip s = false \/ ~ In 32 (sp_delim s)) by tauto.
  assert (H2 : no_lf s (rd_rest r1)) by (unfold no_lf; tauto).
  assert (H3 : no_lf s (rd_rest r2)) by (rewrite <- Hrest; assumption).
  pose proof (chunk_lemma H1 L1 H2 E1 C1) as S1. pose proof (chunk_lemma H1 L2 H3 E2 C2) as S2.
  rewrite Hrest in S1. exact (sents_fun S1 S2).
Qed.

(** ** C53: long white space *)
Theorem too_long_blanks s r n : sp_skip s = true -> ~ In 32 (sp_delim s) -> (2 <= sp_max s)%Z -> ~ In 97 (sp_delim s) ->
  rd_rest r = x61 :: repeat x20 n -> (65536 <= N.of_nat n)%N -> lively r -> rd_end r = EOF ->
  exists r', scan_texts (scan_sentences s) r = Ok ([], Some ErrTooLong, r').
Proof.
  intros Hskip Hd32 Hmax Hd97 Hrest Hn Hlive Hend.
  set (J := fun (acc : list bytes) (data : bytes) (r1 : reader) (e : option scan_err) => e = Some ErrNoProgress \/ (e = None /\ acc = [] /\ rd_end r1 = EOF /\
    ((data = [] /\ rd_rest r1 = x61 :: repeat x20 n) \/
     (exists k m, data = x61 :: repeat x20 k /\ rd_rest r1 = repeat x20 m /\ (k + m)%nat = n)))).
  assert (Hseg : forall k, segs (x61 :: repeat x20 k) = (97, [x61]) :: repeat (32, [x20]) k).
  { intros k. change (x61 :: repeat x20 k) with ([x61] ++ repeat x20 k). rewrite segs_valid_app by reflexivity. rewrite blanks_segs. reflexivity. }
  assert (Hvis : forall k, visible s (repeat (32, [x20]) k) = []).
  { intros k. unfold visible. rewrite Hskip. induction k; [reflexivity|assumption]. }
  assert (Hv : forall k, segs_text (visible s (segs (x61 :: repeat x20 k))) = [x61]).
  { intros k. rewrite Hseg. specialize (Hvis k). unfold visible in *. rewrite Hskip in *. cbn [filter fst]. change (is_space 97) with false. cbn [negb].
    rewrite segs_text_cons, Hvis. reflexivity. }
  assert (Habs : forall k kept rc nn, abs_loop s (repeat (32, [x20]) k) kept rc false nn = AEnd kept).
  { induction k as [|k IH]; intros kept rc nn; cbn [repeat abs_loop]; [reflexivity|]. rewrite Hskip. change (is_space 32) with true. cbn [andb].
    destruct (is_delim s 32) eqn:E; [apply is_delim_in in E; contradiction|]. change (32 =? line_feed) with false. rewrite andb_false_r. apply IH. }
  assert (Habs2 : forall k, abs_loop s (segs (x61 :: repeat x20 k)) [] 0 true false = AEnd [x61]).
  { intros k. rewrite Hseg. cbn [abs_loop]. change (is_space 97) with false. rewrite andb_false_r. change (97 =? line_feed) with false. rewrite andb_false_r. cbn [andb].
    destruct (is_delim s 97) eqn:E; [apply is_delim_in in E; contradiction|].
    replace (0 + 1 <? sp_max s)%Z with true by lia. cbn [negb andb app]. apply Habs. }
  destruct (@sent_run s J) with (r := r) as (toks & err & r' & E & Hst).
  - intros acc data r1 e c rest [->|(_ & _ & _ & [[-> _]|(k & m & -> & _)])] Hsegs Hc _ _ _ HA.
    + left. reflexivity.
    + rewrite segs_nil in Hsegs. destruct c; [congruence|discriminate].
    + rewrite Habs2 in HA. discriminate.
  - intros acc data r1 e Hne [He|(He & _)] _ _; [left; assumption|discriminate].
  - intros acc data r1 k Hne [He|(_ & Ha & He & [[-> _]|(k1 & m & -> & Hr & Hkm)])] _ _ _ Hk; [discriminate|congruence|]. right.
    assert (Hsv : starts_visible s (x61 :: repeat x20 k1)) by (unfold starts_visible; rewrite Hseg; apply andb_false_r). specialize (Hk Hsv).
    rewrite Hv in Hk |- *. cbn [app] in Hk |- *.
    split; [reflexivity|]. split; [assumption|]. split; [assumption|]. right. exists k1, m. cbn [length] in Hk. rewrite !repeat_length in Hk. assert (k = k1) as -> by lia. auto.
  - intros acc data r1 tries cap chunk err r2 [He|(_ & Ha & He & HI)] _ Hr Hmx; [discriminate|].
    pose proof (read_loop_ok Hr) as (F1 & _ & F3 & _ & _ & _ & F7).
    assert (Hrest2 : rd_rest r2 <> [] ).
    { intros Hx. rewrite Hx, app_nil_r in F1. unfold max_token_size in Hmx. destruct HI as [[-> Hr1]|(k & m & -> & Hr1 & Hkm)]; rewrite F1 in Hr1; subst chunk;
      rewrite !app_length in Hmx; cbn [length] in Hmx; rewrite !repeat_length in Hmx; lia. }
    destruct err as [e|].
    + destruct (F7 _ eq_refl) as [[-> _]|[_ Hx]]; [left; reflexivity|contradiction].
    + right. split; [reflexivity|]. split; [assumption|]. split; [congruence|].
      destruct HI as [[-> Hr1]|(k & m & -> & Hr1 & Hkm)].
      * rewrite F1 in Hr1. destruct chunk as [|b ch]; [left; auto|]. cbn in Hr1. injection Hr1 as -> Hr1. right.
        assert (HF : Forall (eq x20) (ch ++ rd_rest r2)) by (rewrite Hr1; apply Forall_forall; intros y Hy; apply repeat_spec in Hy; auto).
        apply Forall_app in HF. destruct HF as [HF1 HF2]. exists (length ch), (length (rd_rest r2)). apply (f_equal (@length byte)) in Hr1.
        rewrite app_length, repeat_length in Hr1. repeat split; [cbn; f_equal| |assumption]; apply Forall_eq_repeat; assumption.
      * rewrite F1 in Hr1. right.
        assert (HF : Forall (eq x20) (chunk ++ rd_rest r2)) by (rewrite Hr1; apply Forall_forall; intros y Hy; apply repeat_spec in Hy; auto).
        apply Forall_app in HF. destruct HF as [HF1 HF2]. exists (k + length chunk)%nat, (length (rd_rest r2)). apply (f_equal (@length byte)) in Hr1.
        rewrite app_length, repeat_length in Hr1. split; [|split; [apply Forall_eq_repeat; assumption|lia]].
        rewrite repeat_app. cbn. f_equal. f_equal. apply Forall_eq_repeat. assumption.
  - right. repeat split; auto.
  - exists r'. destruct Hst as [(e & HJ & _ & [[_ Hx]|[-> Hx]])|(data & HJ & _ & -> & _)].
    + contradiction.
    + destruct HJ as [HJ|(HJ & _)]; congruence.
    + destruct HJ as [Hx|(_ & -> & _)]; [discriminate|]. exact E.
Qed.
