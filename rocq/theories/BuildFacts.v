(** Build adds to list[p] exactly the nodes of the candidate words ending at rune p. *)
From Verif Require Export SpecTok Utf8Facts.
From Coq Require Import ZifyBool ZifyNat ZifyN.
Set Implicit Arguments.
Unset Strict Implicit.
Open Scope nat_scope.

Lemma skipn_skipn {A} (l : list A) : forall x y, skipn x (skipn y l) = skipn (x + y) l.
Proof.
  induction l as [|a l IH]; intros x y; [rewrite !skipn_nil; reflexivity|].
  destruct y as [|y]; [rewrite Nat.add_0_r; reflexivity|].
  replace (x + S y) with (S (x + y)) by lia. cbn [skipn]. apply IH.
Qed.

(** ** Texts and offsets *)
Section Text.
Variable inp : bytes.
Let S_ := segs inp.
Let n := rcount inp.

Lemma rcount_le : n <= length inp.
Proof. apply rune_count_le. Qed.

Lemma text_segs i j : i <= j <= n -> segs (text inp i j) = firstn (j - i) (skipn i S_).
Proof.
  intros H. assert (E : segs inp = firstn i S_ ++ skipn i S_) by (symmetry; apply firstn_skipn).
  destruct (segs_split E) as (_ & E2 & _).
  rewrite <- (firstn_skipn (j - i) (skipn i S_)) in E2 at 2.
  destruct (segs_split E2) as (E3 & _ & _). exact E3.
Qed.

Lemma text_app i j k : i <= j <= k -> text inp i k = text inp i j ++ text inp j k.
Proof.
  intros H. unfold text. fold S_. rewrite <- concat_app, <- map_app. do 2 f_equal.
  replace (k - i) with ((j - i) + (k - j)) by lia.
  rewrite <- (firstn_skipn (j - i) (skipn i S_)) at 1.
  rewrite firstn_app, firstn_firstn, Nat.min_r by lia.
  assert (Hs : skipn (j - i) (skipn i S_) = skipn j S_) by (rewrite skipn_skipn; f_equal; lia).
  rewrite Hs. f_equal. rewrite firstn_length, skipn_length.
  destruct (Nat.le_gt_cases (j - i) (length S_ - i)).
  - f_equal. lia.
  - rewrite !firstn_nil || (assert (Hn : skipn j S_ = []) by (apply skipn_all2; lia); rewrite Hn, !firstn_nil). reflexivity.
Qed.

Lemma text_all : text inp 0 n = inp.
Proof.
  unfold text. rewrite Nat.sub_0_r. cbn [skipn]. rewrite firstn_all2 by (unfold n, rcount; lia).
  apply segs_concat.
Qed.

Lemma text_nil i : text inp i i = [].
Proof. unfold text. rewrite Nat.sub_diag. reflexivity. Qed.

Lemma text_rcount i j : i <= j <= n -> rune_count (text inp i j) = j - i.
Proof.
  intros H. unfold rune_count. rewrite text_segs by assumption.
  rewrite firstn_length, skipn_length. unfold n, rcount, S_ in *. lia.
Qed.

Lemma offset_text i j : i <= j -> offset inp j = offset inp i + length (text inp i j).
Proof. intros H. unfold offset. rewrite (@text_app 0 i j) by lia. apply app_length. Qed.

Lemma offset_0 : offset inp 0 = 0.
Proof. unfold offset. rewrite text_nil. reflexivity. Qed.

Lemma offset_n : offset inp n = length inp.
Proof. unfold offset. rewrite text_all. reflexivity. Qed.

Lemma offset_mono i j : i <= j -> offset inp i <= offset inp j.
Proof. intros H. rewrite (offset_text H). lia. Qed.

Lemma text_split i : i <= n -> inp = text inp 0 i ++ text inp i n.
Proof. intros H. rewrite <- text_app by lia. symmetry. apply text_all. Qed.

Lemma skipn_offset i : i <= n -> skipn (offset inp i) inp = text inp i n.
Proof.
  intros H. rewrite (text_split H) at 2. unfold offset.
  rewrite skipn_app, Nat.sub_diag, skipn_all2 by lia. reflexivity.
Qed.

Lemma slice_text i j : i <= j <= n -> slice inp (offset inp i) (offset inp j) = Ok (text inp i j).
Proof.
  intros H. unfold slice.
  assert (H1 : offset inp i <= offset inp j) by (apply offset_mono; lia).
  assert (H2 : offset inp j <= length inp) by (rewrite <- offset_n; apply offset_mono; lia).
  destruct (Nat.leb_spec (offset inp i) (offset inp j)); [|lia].
  destruct (Nat.leb_spec (offset inp j) (length inp)); [|lia]. cbn [andb].
  rewrite skipn_offset by lia. rewrite (@text_app i j n) by lia.
  rewrite (@offset_text i j) by lia.
  replace (offset inp i + length (text inp i j) - offset inp i) with (length (text inp i j)) by lia.
  rewrite firstn_app, Nat.sub_diag, firstn_all, firstn_O, app_nil_r. reflexivity.
Qed.

Lemma slice_rest i : i <= n -> slice inp (offset inp i) (length inp) = Ok (text inp i n).
Proof. intros H. rewrite <- offset_n. apply slice_text. lia. Qed.

(** Segment i. *)
Lemma seg_at i : i < n -> exists b, nth_error S_ i = Some (rune_at inp i, b) /\ text inp i (S i) = b.
Proof.
  intros H. destruct (nth_error S_ i) as [[r b]|] eqn:E.
  2:{ apply nth_error_None in E. unfold n, rcount, S_ in *. lia. }
  exists b. unfold rune_at. fold S_. rewrite (nth_error_nth _ _ _ E). cbn [fst]. split; [reflexivity|].
  unfold text. fold S_. replace (S i - i) with 1 by lia.
  apply nth_error_split in E. destruct E as (l1 & l2 & E & Hl). rewrite E, <- Hl.
  rewrite skipn_app, Nat.sub_diag, skipn_all2 by lia. cbn. apply app_nil_r.
Qed.

Lemma skipn_seg i : i < n -> skipn i S_ = (rune_at inp i, text inp i (S i)) :: skipn (S i) S_.
Proof.
  intros H. destruct (seg_at H) as (b & E & Hb). rewrite Hb.
  apply nth_error_split in E. destruct E as (l1 & l2 & E & Hl). rewrite E, <- Hl. generalize (rune_at inp (length l1), b). intros x. clear.
  induction l1 as [|y l1 IH]; [reflexivity|exact IH].
Qed.

Lemma decode_at i : i < n ->
  decode_rune (text inp i n) = (rune_at inp i, length (text inp i (S i))).
Proof.
  intros H. assert (Hs : segs (text inp i n) = firstn (n - i) (skipn i S_)) by (apply text_segs; lia).
  assert (Hne : text inp i n <> []).
  { intros C. rewrite C in Hs. cbn in Hs. apply (f_equal (@length _)) in Hs.
    rewrite firstn_length, skipn_length in Hs. cbn in Hs. unfold n, rcount, S_ in *. lia. }
  rewrite (segs_unfold Hne), (skipn_seg H) in Hs.
  destruct (n - i) eqn:En; [lia|]. cbn [firstn] in Hs. injection Hs as Hr Hf Ht.
  destruct (decode_rune (text inp i n)) as [r w] eqn:Ed. cbn [fst snd] in *. subst r. f_equal.
  rewrite <- Hf. rewrite firstn_length.
  pose proof (decode_width Hne) as Hw. rewrite Ed in Hw. cbn [snd] in Hw. lia.
Qed.

Lemma text_pos i j : i < j <= n -> text inp i j <> [].
Proof.
  intros H C. pose proof (@text_rcount i j) as R. rewrite C in R. cbn in R. lia.
Qed.

Lemma offset_S i : i < n -> offset inp (S i) = offset inp i + length (text inp i (S i)).
Proof. intros H. apply offset_text. lia. Qed.

Lemma offset_lt i j : i < j <= n -> offset inp i < offset inp j.
Proof.
  intros H. rewrite (@offset_text i j) by lia. pose proof (@text_pos i j H).
  destruct (text inp i j); [congruence|cbn [length]; lia].
Qed.

Lemma offset_inj i j : i <= n -> j <= n -> offset inp i = offset inp j -> i = j.
Proof.
  intros Hi Hj E. destruct (Nat.lt_trichotomy i j) as [H|[H|H]]; [|assumption|].
  - pose proof (@offset_lt i j). lia.
  - pose proof (@offset_lt j i). lia.
Qed.

Lemma rune_decoded i : i < n -> decode_rune (text inp i (S i)) = (rune_at inp i, length (text inp i (S i))).
Proof.
  intros H. destruct (seg_at H) as (b & E & Hb). rewrite Hb.
  apply (@segs_decode inp (rune_at inp i, b)). eapply nth_error_In; eassumption.
Qed.

(** The three kinds of runes: valid, literal U+FFFD, invalid byte. *)
Lemma rune_kind i : i < n ->
  (rune_at inp i <> rune_error /\ length (text inp i (S i)) = rune_len (rune_at inp i) /\ ~ literal_fffd inp i) \/
  (rune_at inp i = rune_error /\ text inp i (S i) = [xef; xbf; xbd] /\ literal_fffd inp i) \/
  (rune_at inp i = rune_error /\ length (text inp i (S i)) = 1 /\ ~ literal_fffd inp i).
Proof.
  intros H. pose proof (rune_decoded H) as D.
  assert (Hne : text inp i (S i) <> []) by (apply text_pos; lia).
  destruct (seg_at H) as (b & E & Hb).
  destruct (N.eq_dec (rune_at inp i) rune_error) as [Hr|Hr].
  - right. destruct (Nat.eq_dec (length (text inp i (S i))) 1) as [H1|H1].
    + right. repeat split; try assumption. unfold literal_fffd. fold S_. rewrite E. intros C. injection C as C1 C2.
      rewrite Hb, C2 in H1. discriminate.
    + left. assert (Ht : text inp i (S i) = [xef; xbf; xbd]).
      { rewrite <- (encode_decode D Hne); [rewrite Hr; reflexivity|tauto]. }
      repeat split; try assumption. unfold literal_fffd. fold S_. rewrite E, Hr. rewrite Hb in Ht. rewrite Ht. reflexivity.
  - left. repeat split; try assumption.
    + symmetry. pose proof (decode_rune_len Hne) as L. rewrite D in L. apply L. assumption.
    + unfold literal_fffd. fold S_. rewrite E. intros C. injection C as C1 C2. congruence.
Qed.

Lemma range_from_offsets k i : i + k = n ->
  range_from (offset inp i) (skipn i S_) = map (fun i => (offset inp i, rune_at inp i)) (seq i k).
Proof.
  revert i; induction k as [|k IH]; intros i H.
  - rewrite skipn_all2 by (unfold n, rcount, S_ in *; lia). reflexivity.
  - assert (Hi : i < n) by lia.
    rewrite (skipn_seg Hi). cbn [range_from seq map]. f_equal. rewrite <- offset_S by assumption. apply IH. lia.
Qed.

Lemma range_string_offsets : range_string inp = map (fun i => (offset inp i, rune_at inp i)) (seq 0 n).
Proof.
  unfold range_string. rewrite <- offset_0. apply (@range_from_offsets n 0). reflexivity.
Qed.

(** ** Prefix search *)
Lemma cps_spec idx rest id l :
  In (id, l) (common_prefix_search idx rest) <->
  (1 <= l <= length rest /\ In (firstn l rest, id) idx).
Proof.
  unfold common_prefix_search. rewrite in_flat_map. split.
  - intros (l' & Hl & H). apply in_seq in Hl. apply in_map_iff in H. destruct H as ((key & id') & H1 & H2).
    cbn [snd] in H1. injection H1 as -> ->. apply filter_In in H2. destruct H2 as [H2 H3]. cbn [fst] in H3.
    apply bytes_eqb_eq in H3. subst key. split; [lia|assumption].
  - intros [Hl H]. exists l. split; [apply in_seq; lia|]. apply in_map_iff. exists (firstn l rest, id).
    split; [reflexivity|]. apply filter_In. split; [assumption|]. apply bytes_eqb_eq. reflexivity.
Qed.

Lemma match_keyword idx size i id l : wf_index idx size -> i <= n ->
  In (id, l) (common_prefix_search idx (text inp i n)) <->
  exists j, keyword_at idx inp id i j /\ l = length (text inp i j).
Proof.
  intros Hwf Hi. rewrite cps_spec. split.
  - intros [Hl Hin]. destruct (Hwf _ _ Hin) as (Hne & Hv & _).
    set (key := firstn l (text inp i n)) in *.
    assert (E : text inp i n = key ++ skipn l (text inp i n)) by (symmetry; apply firstn_skipn).
    assert (Hs : segs (text inp i n) = segs key ++ segs (skipn l (text inp i n))).
    { rewrite E at 1. apply segs_valid_app. assumption. }
    rewrite text_segs in Hs by lia.
    assert (Hc : rune_count key = length (segs key)) by reflexivity.
    assert (Hlen : length (segs key) <= n - i).
    { apply (f_equal (@length _)) in Hs. rewrite app_length, firstn_length in Hs. lia. }
    pose proof (rune_count_pos Hne) as Hp.
    exists (i + rune_count key).
    assert (Hkey : text inp i (i + rune_count key) = key).
    { unfold text. fold S_. replace (i + rune_count key - i) with (rune_count key) by lia.
      assert (F : firstn (rune_count key) (firstn (n - i) (skipn i S_)) = segs key).
      { rewrite Hs. rewrite firstn_app, Hc, Nat.sub_diag, firstn_all, firstn_O. apply app_nil_r. }
      rewrite firstn_firstn, Nat.min_l in F by lia. rewrite F. apply segs_concat. }
    unfold keyword_at. rewrite Hkey. repeat split; try assumption; fold n; try lia.
    unfold key. rewrite firstn_length. lia.
  - intros (j & [Hj Hin] & ->). fold n in Hj.
    assert (E : text inp i n = text inp i j ++ text inp j n) by (apply text_app; lia).
    split.
    + rewrite E, app_length. assert (Hne := @text_pos i j Hj). destruct (text inp i j); [congruence|cbn; lia].
    + rewrite E, firstn_app, Nat.sub_diag, firstn_all, firstn_O, app_nil_r. assumption.
Qed.

Lemma no_match_keyword idx size i : wf_index idx size -> i <= n ->
  common_prefix_search idx (text inp i n) = [] <-> no_keyword idx inp i.
Proof.
  intros Hwf Hi. split.
  - intros E id j H. assert (C : In (id, length (text inp i j)) (common_prefix_search idx (text inp i n))).
    { apply (match_keyword id _ Hwf Hi). eauto. }
    rewrite E in C. contradiction.
  - intros H. destruct (common_prefix_search idx (text inp i n)) as [|[id l] ms] eqn:E; [reflexivity|].
    exfalso. assert (C : In (id, l) (common_prefix_search idx (text inp i n))) by (rewrite E; left; reflexivity).
    apply (match_keyword id l Hwf Hi) in C. destruct C as (j & Hk & _). apply (H _ _ Hk).
Qed.
End Text.

(** ** Adding nodes to a table *)
Lemma nth_update_nth {A} (d : A) l i f p : i < length l ->
  nth p (update_nth l i f) d = if p =? i then f (nth p l d) else nth p l d.
Proof.
  revert i p; induction l as [|x l IH]; intros i p H; [cbn in H; lia|].
  destruct i as [|i], p as [|p]; cbn [update_nth nth Nat.eqb]; try reflexivity.
  apply IH. cbn in H. lia.
Qed.

Lemma update_nth_length {A} (l : list A) i f : length (update_nth l i f) = length l.
Proof. revert i; induction l as [|x l IH]; intros [|i]; cbn; auto. Qed.

Lemma nth_error_update_nth {A} (l : list A) i f p :
  nth_error (update_nth l i f) p = if p =? i then option_map f (nth_error l p) else nth_error l p.
Proof.
  revert i p; induction l as [|x l IH]; intros i p.
  - cbn. destruct p, (_ =? i); reflexivity.
  - destruct i as [|i], p as [|p]; cbn; try reflexivity. apply IH.
Qed.

(** [la'] is [la] with nodes appended: to list p exactly those satisfying [Q p]. *)
Definition adds (la la' : table) (Q : nat -> node -> Prop) : Prop :=
  length la' = length la /\
  forall p, exists ext, nth p la' [] = nth p la [] ++ ext /\ forall nd, In nd ext <-> Q p nd.

Lemma adds_refl la : adds la la (fun _ _ => False).
Proof. split; [reflexivity|]. intros p. exists []. rewrite app_nil_r. split; [reflexivity|cbn; tauto]. Qed.

Lemma adds_trans la la1 la2 Q1 Q2 : adds la la1 Q1 -> adds la1 la2 Q2 ->
  adds la la2 (fun p nd => Q1 p nd \/ Q2 p nd).
Proof.
  intros [L1 H1] [L2 H2]. split; [congruence|]. intros p.
  destruct (H1 p) as (e1 & E1 & I1). destruct (H2 p) as (e2 & E2 & I2). exists (e1 ++ e2).
  rewrite E2, E1, app_assoc. split; [reflexivity|]. intros nd. rewrite in_app_iff, I1, I2. tauto.
Qed.

Lemma adds_iff la la' Q Q' : (forall p nd, Q p nd <-> Q' p nd) -> adds la la' Q -> adds la la' Q'.
Proof.
  intros H [L A]. split; [assumption|]. intros p. destruct (A p) as (e & E & I). exists e.
  split; [assumption|]. intros nd. rewrite I. apply H.
Qed.

Lemma adds_add_node d la pos id position start class surface m :
  node_morph d id class = Ok m -> pos + rune_count surface < length la ->
  exists la', add_node d la pos id position start class surface = Ok la' /\
    adds la la' (fun p nd => p = pos + rune_count surface /\
      nd = Node id position start class 0 (m_left m) (m_right m) (m_weight m) surface None).
Proof.
  intros Hm Hp. unfold add_node. rewrite Hm. cbn [rbind]. unfold update.
  destruct (Nat.ltb_spec (pos + rune_count surface) (length la)); [|lia].
  eexists. split; [reflexivity|]. split; [apply update_nth_length|].
  intros p. rewrite nth_update_nth by assumption.
  destruct (Nat.eqb_spec p (pos + rune_count surface)) as [->|Hne].
  - eexists. split; [reflexivity|]. intros nd. cbn. intuition.
  - exists []. rewrite app_nil_r. split; [reflexivity|]. cbn. intuition.
Qed.

(** The node of a candidate word. *)
Definition odd_b (d : dict) (inp : bytes) (w : word) : bool :=
  match w_class w with
  | UNKNOWN => bytes_eqb (text inp (w_start w) (S (w_start w))) [xef; xbf; xbd] &&
               negb (groups d (cat d inp (w_start w)))
  | _ => false
  end.

Definition surface_of (d : dict) (inp : bytes) (w : word) : bytes :=
  if odd_b d inp w then [xef] else word_text inp w.

Definition node_of (d : dict) (inp : bytes) (w : word) : node :=
  let e := entry d (w_class w) (w_id w) in
  Node (w_id w) (offset inp (w_start w)) (w_start w) (w_class w) 0
       (m_left e) (m_right e) (m_weight e) (surface_of d inp w) None.

(** Ok result with the word nodes satisfying P added. *)
Definition word_adds d inp la (r : res table) (P : word -> Prop) : Prop :=
  exists la', r = Ok la' /\
    adds la la' (fun p nd => exists w, P w /\ w_stop w = p /\ nd = node_of d inp w).

Lemma word_adds_bind d inp la r f P1 P2 :
  word_adds d inp la r P1 ->
  (forall la1, length la1 = length la -> word_adds d inp la1 (f la1) P2) ->
  word_adds d inp la (rbind r f) (fun w => P1 w \/ P2 w).
Proof.
  intros (la1 & -> & A1) H. destruct (H la1) as (la2 & E2 & A2); [apply A1|].
  exists la2. cbn [rbind]. split; [assumption|].
  eapply adds_iff; [|exact (adds_trans A1 A2)]. intros p nd. cbn beta. split.
  - intros [(w & H1 & H2)|(w & H1 & H2)]; exists w; tauto.
  - intros (w & [H1|H1] & H2); [left|right]; exists w; tauto.
Qed.

Lemma word_adds_iff d inp la r P P' : (forall w, P w <-> P' w) ->
  word_adds d inp la r P -> word_adds d inp la r P'.
Proof.
  intros H (la' & E & A). exists la'. split; [assumption|]. eapply adds_iff; [|exact A].
  intros p nd. cbn beta. split; intros (w & H1 & H2); exists w; rewrite H in *; auto.
Qed.

Lemma word_adds_nil d inp la : word_adds d inp la (Ok la) (fun _ => False).
Proof.
  exists la. split; [reflexivity|]. eapply adds_iff; [|apply adds_refl].
  intros p nd. cbn beta. split; [tauto|intros (w & [] & _)].
Qed.

Lemma word_adds_foldM {B} d inp la (f : table -> B -> res table) (l : list B) (P : B -> word -> Prop) :
  (forall x la1, In x l -> length la1 = length la -> word_adds d inp la1 (f la1 x) (P x)) ->
  word_adds d inp la (foldM f l la) (fun w => exists x, In x l /\ P x w).
Proof.
  revert la; induction l as [|x l IH]; intros la H; cbn [foldM].
  - eapply word_adds_iff; [|apply word_adds_nil]. intros w. cbn. split; [tauto|intros (x & [] & _)].
  - eapply word_adds_iff; [|eapply word_adds_bind; [apply H; [left; reflexivity|reflexivity]|]].
    2:{ intros la1 Hl. apply IH. intros y la2 Hy Hl2. apply H; [right; assumption|congruence]. }
    intros w. cbn [In]. split.
    + intros [Hw|(y & Hy & Hw)]; [exists x; auto|exists y; auto].
    + intros (y & [<-|Hy] & Hw); [left; assumption|right; exists y; auto].
Qed.

Lemma indexZ_nth {A} (l : list A) (i : Z) (x : A) : (0 <= i < Z.of_nat (length l))%Z ->
  indexZ l i = Ok (nth (Z.to_nat i) l x).
Proof.
  intros H. unfold indexZ. destruct (Z.ltb_spec i 0); [lia|].
  destruct (nth_error l (Z.to_nat i)) eqn:E.
  - rewrite (nth_error_nth _ _ _ E). reflexivity.
  - apply nth_error_None in E. lia.
Qed.

Lemma index_nth {A} (l : list A) i (x : A) : i < length l -> index l i = Ok (nth i l x).
Proof.
  intros H. unfold index. destruct (nth_error l i) eqn:E.
  - rewrite (nth_error_nth _ _ _ E). reflexivity.
  - apply nth_error_None in E. lia.
Qed.

(** Valid ids per class. *)
Definition id_ok (d : dict) (c : node_class) (id : Z) : Prop :=
  match c with
  | KNOWN => (0 <= id < Z.of_nat (length (d_morphs d)))%Z
  | UNKNOWN => (0 <= id < Z.of_nat (length (d_unk_morphs d)))%Z
  | _ => True
  end.

Lemma node_morph_entry d c id : id_ok d c id -> node_morph d id c = Ok (entry d c id).
Proof.
  intros H. unfold node_morph, entry. destruct c; cbn [id_ok] in H; try reflexivity; apply indexZ_nth; assumption.
Qed.

Section Build.
Variables (d : dict) (u : option udict) (inp : bytes).
Hypothesis Hd : wf_dict d.
Hypothesis Hu : wf_udict u.
Let n := rcount inp.

(** One call of addNode for the word w. *)
Lemma add_word la w :
  length la = n + 2 -> id_ok d (w_class w) (w_id w) -> w_start w < w_stop w <= n ->
  (odd_b d inp w = true -> w_stop w = S (w_start w)) ->
  word_adds d inp la
    (add_node d la (w_start w) (w_id w) (offset inp (w_start w)) (w_start w) (w_class w) (surface_of d inp w))
    (fun w' => w' = w).
Proof.
  intros Hl Hid Hr Hodd.
  assert (Hc : w_start w + rune_count (surface_of d inp w) = w_stop w).
  { unfold surface_of. destruct (odd_b d inp w).
    - rewrite (Hodd eq_refl). cbn. lia.
    - unfold word_text. rewrite text_rcount; fold n; lia. }
  edestruct adds_add_node as (la' & E & A); [apply node_morph_entry, Hid| |].
  2:{ exists la'. split; [exact E|]. eapply adds_iff; [|exact A]. intros p nd. cbn beta. rewrite Hc.
      split.
      - intros [-> ->]. exists w. auto.
      - intros (w' & -> & <- & ->). auto. }
  rewrite Hc. lia.
Qed.

Lemma add_matches_words la class idx size i :
  (class = KNOWN \/ class = USER) -> wf_index idx size -> (class = KNOWN -> size = length (d_morphs d)) ->
  length la = n + 2 -> i <= n ->
  word_adds d inp la
    (add_matches d inp i (offset inp i) class (common_prefix_search idx (text inp i n)) la)
    (fun w => w_class w = class /\ w_start w = i /\ keyword_at idx inp (w_id w) i (w_stop w)).
Proof.
  intros Hcl Hwf Hsz Hl Hi. unfold add_matches.
  eapply word_adds_iff; [|apply word_adds_foldM with
    (P := fun (m : Z * nat) w => w_class w = class /\ w_start w = i /\ w_id w = fst m /\
            snd m = length (text inp i (w_stop w)) /\ i < w_stop w <= n)].
  - intros w. cbn beta. split.
    + intros ([id l] & Hin & Hc & Hs & Hid & Hlen & Hj). cbn [fst snd] in *. split; [assumption|]. split; [assumption|].
      apply (match_keyword id l Hwf Hi) in Hin. destruct Hin as (j & Hk & ->).
      assert (Ej : w_stop w = j).
      { assert (O : offset inp (w_stop w) = offset inp j).
        { rewrite (@offset_text inp i (w_stop w)), (@offset_text inp i j), Hlen by (destruct Hk; lia). reflexivity. }
        apply (@offset_inj inp); [fold n; lia|destruct Hk; lia|exact O]. }
      rewrite Ej, Hid. assumption.
    + intros (Hc & Hs & Hk). exists (w_id w, length (text inp i (w_stop w))). cbn [fst snd].
      split; [apply (match_keyword _ _ Hwf Hi); exists (w_stop w); auto|].
      destruct Hk as [Hk _]. auto.
  - intros [id l] la1 Hin Hl1. pose proof Hin as Hin'.
    apply (match_keyword id l Hwf Hi) in Hin. destruct Hin as (j & Hk & ->). cbn [fst snd].
    destruct Hk as [Hj Hin]. fold n in Hj.
    assert (Hsl : slice inp (offset inp i) (offset inp i + length (text inp i j)) = Ok (text inp i j)).
    { rewrite <- (@offset_text inp i j) by lia. apply slice_text. fold n; lia. }
    rewrite Hsl. cbn [rbind].
    pose proof (@add_word la1 (Word class id i j)) as A. cbn [w_class w_id w_start w_stop] in A.
    assert (So : surface_of d inp (Word class id i j) = text inp i j).
    { unfold surface_of, odd_b. cbn [w_class]. destruct Hcl as [-> | ->]; reflexivity. }
    rewrite So in A. eapply word_adds_iff; [|apply A].
    + intros w. cbn beta. split.
      * intros ->. cbn. repeat split; lia.
      * intros (H1 & H2 & H3 & H4 & H5). destruct w as [c' id' i' j']. cbn [w_class w_id w_start w_stop fst snd] in *. subst. f_equal.
        assert (O : offset inp j' = offset inp j).
        { rewrite (@offset_text inp i j'), (@offset_text inp i j) by lia. lia. }
        apply (@offset_inj inp) in O; fold n; lia.
    + congruence.
    + destruct Hcl as [-> | ->]; cbn [id_ok]; [|trivial]. rewrite <- Hsz by reflexivity. apply (Hwf _ _ Hin).
    + assumption.
    + unfold odd_b. cbn [w_class]. destruct Hcl as [-> | ->]; discriminate.
Qed.

(** The grouping loop started at a rune boundary. *)
Lemma group_loop_spec f k ul class :
  k <= n -> (ul < 1024)%N -> length inp - offset inp k < f ->
  exists e, group_loop f d inp class (offset inp k) (offset inp k) ul = Ok (offset inp e) /\
    k <= e <= n /\ (forall x, k <= x < e -> cat d inp x = class) /\
    (N.of_nat (e - k) + ul <= 1024)%N /\
    (e = n \/ (N.of_nat (e - k) + ul = 1024)%N \/ cat d inp e <> class).
Proof.
  revert k ul; induction f as [|f IH]; intros k ul Hk Hul Hf; [lia|].
  cbn [group_loop].
  assert (On : offset inp n = length inp) by apply offset_n.
  destruct (Nat.ltb_spec (offset inp k) (length inp)) as [Hlt|Hge].
  - assert (Hkn : k < n).
    { destruct (Nat.eq_dec k n) as [->|]; [|lia]. rewrite On in Hlt. lia. }
    rewrite slice_rest by assumption. cbn [rbind]. rewrite decode_at by assumption.
    unfold max_unk_len.
    destruct (Nat.eqb_spec (d_category d (rune_at inp k)) class) as [Hc|Hc]; cbn [negb].
    + rewrite <- (@offset_S inp k) by assumption.
      destruct (N.leb_spec 1024 (N.succ ul)) as [Hm|Hm].
      * exists (S k). split; [reflexivity|]. split; [lia|]. split.
        { intros x Hx. replace x with k by lia. exact Hc. }
        split; [lia|]. right. left. lia.
      * destruct (IH (S k) (N.succ ul)) as (e & E & H1 & H2 & H3 & H4); [lia|lia| |].
        { pose proof (@offset_lt inp k (S k)). lia. }
        exists e. split; [exact E|]. split; [lia|]. split.
        { intros x Hx. destruct (Nat.eq_dec x k) as [->|]; [exact Hc|apply H2; lia]. }
        split; [lia|]. destruct H4 as [H4|[H4|H4]]; [left; assumption|right; left; lia|right; right; assumption].
    + exists k. split; [reflexivity|]. split; [lia|]. split; [intros x Hx; lia|]. split; [lia|].
      right. right. exact Hc.
  - exists k. split; [reflexivity|]. split; [lia|]. split; [intros x Hx; lia|]. split; [lia|]. left.
    destruct (Nat.eq_dec k n) as [|Hne]; [assumption|]. pose proof (@offset_lt inp k n). lia.
Qed.

(** Where the unknown word at i ends, and its text. *)
Lemma unknown_end_spec i : i < n ->
  exists e, unknown_stop d inp i e /\
    exists s, (s = text inp i e /\ (literal_fffd inp i -> groups d (cat d inp i) = true) \/
               s = [xef] /\ literal_fffd inp i /\ groups d (cat d inp i) = false /\ e = S i) /\
      unknown_end d inp (offset inp i) (rune_at inp i) (d_category d (rune_at inp i)) =
        Ok (offset inp i + length s) /\
      slice inp (offset inp i) (offset inp i + length s) = Ok s.
Proof.
  intros Hi. unfold unknown_end. fold (cat d inp i).
  assert (Hg : index (d_group d) (cat d inp i) = Ok (groups d (cat d inp i))).
  { apply index_nth. apply (wf_cat Hd). }
  rewrite Hg. cbn [rbind].
  assert (On : offset inp n = length inp) by apply offset_n.
  assert (OS := @offset_S inp i Hi). assert (Oi := @offset_lt inp i (S i)).
  assert (Hsl : forall e, i <= e <= n -> offset inp i + length (text inp i e) = offset inp e /\
            slice inp (offset inp i) (offset inp i + length (text inp i e)) = Ok (text inp i e)).
  { intros e He. rewrite <- (@offset_text inp i e) by lia. split; [reflexivity|]. apply slice_text. fold n. lia. }
  assert (Hnl : forall ep, ep = offset inp (S i) -> ~ literal_fffd inp i ->
    exists e, unknown_stop d inp i e /\
    exists s, (s = text inp i e /\ (literal_fffd inp i -> groups d (cat d inp i) = true) \/
               s = [xef] /\ literal_fffd inp i /\ groups d (cat d inp i) = false /\ e = S i) /\
      (if groups d (cat d inp i) then group_loop (S (length inp)) d inp (cat d inp i) ep ep 1 else Ok ep) =
        Ok (offset inp i + length s) /\
      slice inp (offset inp i) (offset inp i + length s) = Ok s).
  { intros ep -> Hl. destruct (groups d (cat d inp i)) eqn:G.
    - destruct (@group_loop_spec (S (length inp)) (S i) 1%N (cat d inp i)) as (e & E & H1 & H2 & H3 & H4);
        [lia|lia|lia|].
      exists e. split.
      + unfold unknown_stop. fold n. split; [lia|]. rewrite G. split.
        * intros k Hk. destruct (Nat.eq_dec k i) as [->|]; [reflexivity|apply H2; lia].
        * exists 1024%N. split; [right; auto|]. split; [lia|].
          destruct H4 as [H4|[H4|H4]]; [left; assumption|right; left; lia|right; right; assumption].
      + exists (text inp i e). split; [left; auto|]. destruct (Hsl e) as [-> ->]; [lia|]. auto.
    - exists (S i). split.
      + unfold unknown_stop. fold n. split; [lia|]. rewrite G. reflexivity.
      + exists (text inp i (S i)). split; [left; split; [reflexivity|tauto]|]. destruct (Hsl (S i)) as [-> ->]; [lia|]. auto. }
  destruct (rune_kind Hi) as [(Hr & Hlen & Hl)|[(Hr & Ht & Hl)|(Hr & Hlen & Hl)]].
  - destruct (N.eqb_spec (rune_at inp i) rune_error); [congruence|]. cbn [negb]. apply Hnl; [lia|assumption].
  - (* literal U+FFFD *)
    rewrite (proj2 (N.eqb_eq _ _) Hr). cbn [negb].
    assert (Hrest : text inp i n = xef :: xbf :: xbd :: text inp (S i) n).
    { rewrite (@text_app inp i (S i) n), Ht by lia. reflexivity. }
    assert (Hlen3 : length (text inp i (S i)) = 3) by (rewrite Ht; reflexivity).
    assert (Hlin : offset inp i + 3 <= length inp).
    { pose proof (@offset_mono inp (S i) n). lia. }
    assert (Hsk : skipn (offset inp i) inp = xef :: xbf :: xbd :: text inp (S i) n) by (rewrite skipn_offset by (fold n; lia); exact Hrest).
    assert (Hsk1 : skipn (offset inp i + 1) inp = xbf :: xbd :: text inp (S i) n)
      by (rewrite Nat.add_comm, <- skipn_skipn, Hsk; reflexivity).
    assert (Hsk2 : skipn (offset inp i + 1 + 1) inp = xbd :: text inp (S i) n)
      by (rewrite Nat.add_comm, <- skipn_skipn, Hsk1; reflexivity).
    assert (Sl1 : slice inp (offset inp i + 1) (length inp) = Ok (xbf :: xbd :: text inp (S i) n)).
    { unfold slice. destruct (Nat.leb_spec (offset inp i + 1) (length inp)); [|lia]. rewrite Nat.leb_refl. cbn [andb].
      rewrite firstn_all2 by (rewrite skipn_length; lia). rewrite Hsk1. reflexivity. }
    assert (Sl2 : slice inp (offset inp i + 1 + 1) (length inp) = Ok (xbd :: text inp (S i) n)).
    { unfold slice. destruct (Nat.leb_spec (offset inp i + 1 + 1) (length inp)); [|lia]. rewrite Nat.leb_refl. cbn [andb].
      rewrite firstn_all2 by (rewrite skipn_length; lia). rewrite Hsk2. reflexivity. }
    destruct (groups d (cat d inp i)) eqn:G.
    + destruct (length inp) as [|[|[|len]]] eqn:El; [lia|lia|lia|].
      rewrite <- El in *.
      replace (group_loop (S (length inp)) d inp (cat d inp i) (offset inp i + 1) (offset inp i + 1) 1)
        with (group_loop (S (S len)) d inp (cat d inp i) (offset inp (S i)) (offset inp (S i)) 3).
      2:{ replace (S (length inp)) with (S (S (S (S len)))) by lia.
          cbn [group_loop].
          destruct (Nat.ltb_spec (offset inp i + 1) (length inp)); [|lia].
          rewrite Sl1. cbn [rbind]. change (decode_rune (xbf :: xbd :: text inp (S i) n)) with (rune_error, 1).
          cbv beta iota.
          assert (Hce : d_category d rune_error = cat d inp i) by (unfold cat; rewrite Hr; reflexivity).
          rewrite Hce, Nat.eqb_refl. cbn [negb]. cbv zeta.
          change (max_unk_len <=? N.succ 1)%N with false. cbv iota.
          destruct (Nat.ltb_spec (offset inp i + 1 + 1) (length inp)); [|lia].
          rewrite Sl2. cbn [rbind]. change (decode_rune (xbd :: text inp (S i) n)) with (rune_error, 1).
          cbv beta iota. rewrite Hce, Nat.eqb_refl. cbn [negb].
          change (max_unk_len <=? N.succ (N.succ 1))%N with false. cbv iota.
          replace (offset inp i + 1 + 1 + 1) with (offset inp (S i)) by lia. reflexivity. }
      destruct (@group_loop_spec (S (S len)) (S i) 3%N (cat d inp i)) as (e & E & H1 & H2 & H3 & H4);
        [lia|lia|lia|].
      exists e. split.
      * unfold unknown_stop. fold n. split; [lia|]. rewrite G. split.
        -- intros k Hk. destruct (Nat.eq_dec k i) as [->|]; [reflexivity|apply H2; lia].
        -- exists 1022%N. split; [left; auto|]. split; [lia|].
           destruct H4 as [H4|[H4|H4]]; [left; assumption|right; left; lia|right; right; assumption].
      * exists (text inp i e). split; [left; auto|]. destruct (Hsl e) as [-> ->]; [lia|]. auto.
    + exists (S i). split.
      * unfold unknown_stop. fold n. split; [lia|]. rewrite G. reflexivity.
      * exists [xef]. split; [right; auto|]. split; [reflexivity|].
        unfold slice. cbn [length].
        destruct (Nat.leb_spec (offset inp i) (offset inp i + 1)); [|lia].
        destruct (Nat.leb_spec (offset inp i + 1) (length inp)); [|lia]. cbn [andb].
        rewrite Hsk. replace (offset inp i + 1 - offset inp i) with 1 by lia. reflexivity.
  - rewrite (proj2 (N.eqb_eq _ _) Hr). cbn [negb]. apply Hnl; [lia|assumption].
Qed.

Lemma literal_text i : i < n -> literal_fffd inp i <-> text inp i (S i) = [xef; xbf; xbd].
Proof.
  intros Hi. destruct (rune_kind Hi) as [(Hr & Hlen & Hl)|[(Hr & Ht & Hl)|(Hr & Hlen & Hl)]].
  - split; [tauto|]. intros C. exfalso. pose proof (rune_decoded Hi) as D. rewrite C in D. change (decode_rune [xef; xbf; xbd]) with (rune_error, 3) in D. congruence.
  - tauto.
  - split; [tauto|]. intros C. rewrite C in Hlen. discriminate.
Qed.

(** The unknown words added at i. *)
Lemma build_unknown_words la i any : i < n -> length la = n + 2 ->
  word_adds d inp la (build_unknown d inp i (offset inp i) (rune_at inp i) any la)
    (fun w => w_class w = UNKNOWN /\ w_start w = i /\ (any = false \/ invokes d (cat d inp i) = true) /\
       (exists e, unknown_stop d inp i e /\
          (w_stop w = e \/ (S (w_stop w) = e /\ i < w_stop w /\ rune_at inp (w_stop w) <> rune_error))) /\
       (map_get (d_unk_index d) (Z.of_nat (cat d inp i)) <= w_id w <=
        map_get (d_unk_index d) (Z.of_nat (cat d inp i)) + map_get (d_unk_dup d) (Z.of_nat (cat d inp i)))%Z).
Proof.
  intros Hi Hl. unfold build_unknown.
  assert (Hgo : (if negb any then Ok true else index (d_invoke d) (d_category d (rune_at inp i))) =
                Ok (negb any || invokes d (cat d inp i))).
  { destruct any; cbn [negb orb]; [|reflexivity]. apply index_nth. apply (wf_cat Hd). }
  rewrite Hgo. cbn [rbind].
  destruct (negb any || invokes d (cat d inp i)) eqn:Go.
  2:{ eapply word_adds_iff; [|apply word_adds_nil]. intros w. cbn beta. split; [tauto|].
      intros (_ & _ & H & _). apply orb_false_iff in Go. destruct Go as [G1 G2]. destruct any; cbn in G1; [destruct H as [H|H]; [discriminate|rewrite G2 in H; discriminate]|discriminate]. }
  assert (Go' : any = false \/ invokes d (cat d inp i) = true).
  { apply orb_true_iff in Go. destruct Go as [G|G]; [left; destruct any; [discriminate|reflexivity]|right; assumption]. }
  destruct (unknown_end_spec Hi) as (e & He & s & Hs & E & Sl). rewrite E. cbn [rbind].
  unfold unknown_prev. rewrite Sl. cbn [rbind].
  assert (Her : i < e <= n) by apply He.
  set (base := map_get (d_unk_index d) (Z.of_nat (cat d inp i))).
  set (dup := map_get (d_unk_dup d) (Z.of_nat (cat d inp i))).
  assert (Hunk : (0 <= base /\ 0 <= dup /\ base + dup < Z.of_nat (length (d_unk_morphs d)))%Z) by apply (wf_unk Hd).
  (* uniqueness of the stop *)
  assert (Huniq : forall e', unknown_stop d inp i e' -> e' = e).
  { intros e' He'. destruct He as [_ He]. destruct He' as [Her' He']. fold n in Her'.
    destruct (groups d (cat d inp i)); [|congruence].
    destruct He as (A1 & l1 & R1 & B1 & C1). destruct He' as (A2 & l2 & R2 & B2 & C2).
    assert (l1 = l2) as <-.
    { destruct R1 as [[? ?]|[? ?]], R2 as [[? ?]|[? ?]]; try congruence; tauto. }
    fold n in C1, C2.
    destruct (Nat.lt_trichotomy e' e) as [H|[H|H]]; [|assumption|].
    - exfalso. destruct C2 as [C|[C|C]]; [lia|lia|]. apply C, A1. lia.
    - exfalso. destruct C1 as [C|[C|C]]; [lia|lia|]. apply C, A2. lia. }
  (* the full and the truncated word *)
  assert (Hfull : forall id, surface_of d inp (Word UNKNOWN id i e) = s).
  { intros id. unfold surface_of, odd_b. cbn [w_class w_start].
    destruct Hs as [[-> Hs]|(-> & Hlit & Hgr & He1)].
    - destruct (bytes_eqb (text inp i (S i)) [xef; xbf; xbd]) eqn:B; [|reflexivity].
      apply bytes_eqb_eq in B. apply literal_text in B; [|assumption]. rewrite (Hs B). reflexivity.
    - apply literal_text in Hlit; [|assumption]. apply bytes_eqb_eq in Hlit. rewrite Hlit, Hgr. reflexivity. }
  set (prev := let '(c, size) := decode_last_rune s in
               if negb (c =? rune_error)%N then offset inp i + length s - size else offset inp i).
  assert (Hprev : (prev = offset inp i /\ (S i = e \/ rune_at inp (e - 1) = rune_error)) \/
                  (prev = offset inp (e - 1) /\ S i < e /\ rune_at inp (e - 1) <> rune_error /\
                   ~ (s = [xef] /\ e = S i))).
  { destruct Hs as [[Hs _]|(Hs & Hlit & Hgr & He1)].
    - assert (Hsegs : exists l b, segs s = l ++ [(rune_at inp (e - 1), b)] /\ length b = length (text inp (e - 1) e)).
      { destruct (@seg_at inp (e - 1)) as (b & Eb & Hb); [fold n; lia|]. replace (S (e - 1)) with e in Hb by lia.
        exists (firstn (e - 1 - i) (skipn i (segs inp))), b. split; [|congruence].
        rewrite Hs, text_segs by (fold n; lia).
        replace (e - i) with ((e - 1 - i) + 1) by lia.
        rewrite <- (firstn_skipn (e - 1 - i) (skipn i (segs inp))) at 1.
        rewrite firstn_app. rewrite firstn_firstn, Nat.min_r by lia. f_equal.
        rewrite firstn_length, skipn_length, skipn_skipn.
        apply nth_error_split in Eb. destruct Eb as (l1 & l2 & Eb & Hl1).
        replace (e - 1 - i + i) with (length l1) by lia.
        rewrite Eb at 2. rewrite skipn_app, Nat.sub_diag, skipn_all2 by lia. cbn [skipn app].
        replace (e - 1 - i + 1 - Nat.min (e - 1 - i) (length (segs inp) - i)) with 1.
        2:{ unfold n, rcount in *. lia. }
        reflexivity. }
      destruct Hsegs as (l & b & Hsegs & Hb). unfold prev. rewrite (decode_last_spec Hsegs).
      destruct (N.eqb_spec (rune_at inp (e - 1)) rune_error) as [Hr|Hr]; cbn [negb].
      + left. auto.
      + assert (Hoff : offset inp i + length s - length b = offset inp (e - 1)).
        { rewrite Hb, Hs. rewrite <- (@offset_text inp i e) by lia. rewrite (@offset_text inp (e - 1) e) by lia. lia. }
        rewrite Hoff. destruct (Nat.eq_dec (S i) e) as [Hie|Hie].
        * left. replace (e - 1) with i by lia. auto.
        * right. repeat split; try assumption; lia.
    - left. unfold prev. rewrite Hs. change (decode_last_rune [xef]) with (rune_error, 1). cbn [negb].
      rewrite N.eqb_refl. auto. }
  destruct (decode_last_rune s) as [c size] eqn:Edl. cbn [rbind].
  change (if negb (c =? rune_error)%N then offset inp i + length s - size else offset inp i) with prev.
  clearbody prev. unfold add_unknowns. change (d_category d (rune_at inp i)) with (cat d inp i). fold base dup.
  eapply word_adds_iff; [|apply word_adds_foldM with
    (P := fun x w => w_class w = UNKNOWN /\ w_start w = i /\ w_id w = (base + Z.of_nat x)%Z /\
       (w_stop w = e \/ (S (w_stop w) = e /\ i < w_stop w /\ rune_at inp (w_stop w) <> rune_error)))].
  - intros w. cbn beta. split.
    + intros (x & Hx & H1 & H2 & H3 & H4). apply in_seq in Hx.  repeat split; try assumption; try lia.
      exists e. auto.
    + intros (H1 & H2 & H3 & (e' & He' & H4) & H5). rewrite (Huniq _ He') in H4.
      exists (Z.to_nat (w_id w - base)). split; [apply in_seq; lia|]. repeat split; try assumption. lia.
  - intros x la1 Hx Hl1. apply in_seq in Hx. 
    assert (Hid : id_ok d UNKNOWN (base + Z.of_nat x)) by (cbn [id_ok]; lia).
    eapply word_adds_iff with (P := fun w => ((i + 1 < e /\ rune_at inp (e - 1) <> rune_error) /\
         w = Word UNKNOWN (base + Z.of_nat x) i (e - 1)) \/ w = Word UNKNOWN (base + Z.of_nat x) i e).
    { intros w. split.
      - intros [[[H1 H2] ->]| ->]; cbn [w_class w_id w_start w_stop].
        + repeat split; try reflexivity. right. repeat split; try lia; try assumption.
        + repeat split; try reflexivity. left. reflexivity.
      - intros (H1 & H2 & H3 & H4). destruct w as [c' id' i' j']. cbn [w_class w_id w_start w_stop fst snd] in *. subst. destruct H4 as [->|(H4 & H5 & H6)].
        + right. reflexivity.
        + left. replace (e - 1) with j' by lia. repeat split; [lia|assumption]. }
    eapply word_adds_bind.
    + destruct Hprev as [[Hp Hcase]|(Hp & Hie & Hr & _)].
      * rewrite Hp. rewrite Nat.ltb_irrefl. eapply word_adds_iff; [|apply word_adds_nil].
        intros w. cbn beta. split; [tauto|]. intros [[H1 H2] _]. destruct Hcase; [lia|congruence].
      * rewrite Hp. destruct (Nat.ltb_spec (offset inp i) (offset inp (e - 1))) as [_|Hge].
        2:{ pose proof (@offset_lt inp i (e - 1)). fold n in H. lia. }
        rewrite slice_text by (fold n; lia). cbn [rbind].
        pose proof (@add_word la1 (Word UNKNOWN (base + Z.of_nat x) i (e - 1))) as A.
        cbn [w_class w_id w_start w_stop] in A.
        assert (So : odd_b d inp (Word UNKNOWN (base + Z.of_nat x) i (e - 1)) = false).
        { unfold odd_b. cbn [w_class w_start]. destruct He as [_ He].
          destruct (groups d (cat d inp i)); [apply andb_false_r|lia]. }
        unfold surface_of in A. rewrite So in A. unfold word_text in A. cbn [w_start w_stop] in A.
        eapply word_adds_iff; [|apply A; [congruence|assumption|lia|discriminate]].
        intros w. cbn beta. split; [intros ->; repeat split; [lia|assumption]|intros [_ ->]; reflexivity].
    + intros la2 Hl2. rewrite Sl. cbn [rbind].
      pose proof (@add_word la2 (Word UNKNOWN (base + Z.of_nat x) i e)) as A.
      cbn [w_class w_id w_start w_stop] in A. rewrite Hfull in A.
      apply A; [congruence|assumption|assumption|].
      unfold odd_b. cbn [w_class w_start]. intros Ho. apply andb_true_iff in Ho. destruct Ho as [Ho1 Ho2].
      destruct He as [_ He]. destruct (groups d (cat d inp i)); [discriminate|assumption].
Qed.

(** One iteration of Build's loop adds exactly the candidates starting at i. *)
Lemma build_step_words la i : i < n -> length la = n + 2 ->
  word_adds d inp la (build_step d u inp la i (offset inp i) (rune_at inp i))
    (fun w => w_start w = i /\ candidate d u inp w).
Proof.
  intros Hi Hl. unfold build_step. rewrite slice_rest by (fold n; lia). cbn [rbind]. fold n.
  set (user := match u with Some ud => common_prefix_search (u_index ud) (text inp i n) | None => [] end).
  assert (Huser : word_adds d inp la (add_matches d inp i (offset inp i) USER user la)
     (fun w => w_class w = USER /\ w_start w = i /\ exists ud, u = Some ud /\ keyword_at (u_index ud) inp (w_id w) i (w_stop w))).
  { unfold user. destruct u as [ud|] eqn:Eu.
    - eapply word_adds_iff; [|eapply add_matches_words with (size := length (u_contents ud));
        [right; reflexivity|exact Hu|discriminate|assumption|lia]].
      intros w. cbn beta. split.
      + intros (H1 & H2 & H3). repeat split; try assumption. exists ud. auto.
      + intros (H1 & H2 & ud' & [= <-] & H3). auto.
    - eapply word_adds_iff; [|apply word_adds_nil]. intros w. cbn beta. split; [tauto|].
      intros (_ & _ & ud & C & _). discriminate. }
  assert (Hnouser : user = [] <-> no_user_keyword u inp i).
  { unfold user, no_user_keyword. destruct u as [ud|]; [|tauto]. apply (no_match_keyword Hu). fold n. lia. }
  destruct (length user =? 0) eqn:Elen; cbn [negb].
  - apply Nat.eqb_eq, length_zero_iff_nil in Elen.
    eapply word_adds_iff; [|eapply word_adds_bind; [exact Huser|]].
    2:{ intros la1 Hl1. eapply word_adds_bind.
        - eapply add_matches_words with (size := length (d_morphs d));
            [left; reflexivity|apply (wf_idx Hd)|reflexivity|congruence|lia].
        - intros la2 Hl2. apply build_unknown_words; [assumption|congruence]. }
    pose proof (proj1 Hnouser Elen) as Hno.
    assert (Hnk : negb (length (common_prefix_search (d_index d) (text inp i n)) =? 0) = false <-> no_keyword (d_index d) inp i).
    { rewrite negb_false_iff, Nat.eqb_eq, length_zero_iff_nil. apply (no_match_keyword (wf_idx Hd)). fold n. lia. }
    intros w. cbn beta. split.
    + intros [(Hc & Hs & ud & Eu & Hk)|[(Hc & Hs & Hk)|(Hc & Hs & Hany & (e & He & Hj) & Hid)]];
        (split; [assumption|]); destruct w as [c id i' j]; cbn [w_class w_id w_start w_stop] in *; subst.
      * exfalso. cbn in Hno. eapply Hno; eassumption.
      * apply cand_known; assumption.
      * eapply cand_unknown; try eassumption. destruct Hany as [Hany|Hany]; [left; apply Hnk; assumption|right; assumption].
    + intros [Hs Hc]. destruct Hc as [ud id i' j Eu Hk|id i' j Hn Hk|id i' j e Hn Hor He Hj Hid];
        cbn [w_class w_id w_start w_stop] in *; subst i'.
      * left. repeat split. exists ud. auto.
      * right. left. auto.
      * right. right. repeat split; [|exists e; auto|lia|lia]. destruct Hor as [Hor|Hor]; [left; apply Hnk; assumption|right; assumption].
  - assert (Hne : user <> []) by (intros C; rewrite C in Elen; discriminate).
    eapply word_adds_iff; [|eapply word_adds_bind; [exact Huser|]].
    2:{ intros la1 Hl1. apply word_adds_nil. }
    intros w. cbn beta. split.
    + intros [(Hc & Hs & ud & Eu & Hk)|[]]. split; [assumption|].
      destruct w as [c id i' j]; cbn [w_class w_id w_start w_stop] in *; subst. eapply cand_user; [reflexivity|assumption].
    + intros [Hs Hc]. left. destruct Hc as [ud id i' j Eu Hk|id i' j Hn Hk|id i' j e Hn Hor He Hj Hid];
        cbn [w_class w_id w_start w_stop] in *; subst i'.
      * repeat split. exists ud. auto.
      * tauto.
      * tauto.
Qed.

Lemma build_loop_words k i la : i + k = n -> length la = n + 2 ->
  word_adds d inp la
    (build_loop d u inp i (map (fun i => (offset inp i, rune_at inp i)) (seq i k)) la)
    (fun w => i <= w_start w < n /\ candidate d u inp w).
Proof.
  revert i la; induction k as [|k IH]; intros i la Hk Hl; cbn [seq map build_loop].
  - eapply word_adds_iff; [|apply word_adds_nil]. intros w. cbn beta. split; [tauto|intros [H _]; lia].
  - eapply word_adds_iff; [|eapply word_adds_bind; [apply build_step_words; [lia|assumption]|]].
    2:{ intros la1 Hl1. apply IH; [lia|congruence]. }
    intros w. cbn beta. split.
    + intros [[H1 H2]|[H1 H2]]; split; try assumption; lia.
    + intros [H1 H2]. destruct (Nat.eq_dec (w_start w) i) as [E|E]; [left; auto|right; split; [lia|assumption]].
Qed.

Lemma candidate_range w : candidate d u inp w -> w_start w < w_stop w <= n.
Proof.
  intros H. destruct H as [ud id i j Eu Hk|id i j Hn Hk|id i j e Hn Hor He Hj Hid]; cbn [w_start w_stop].
  - apply Hk.
  - apply Hk.
  - destruct He as [He _]. fold n in He. lia.
Qed.

Definition bos_node : node := Node bos_eos_id 0 0 DUMMY 0 0 0 0 [] None.
Definition eos_node : node := Node bos_eos_id (length inp) n DUMMY 0 0 0 0 [] None.

(** The lattice after Build. *)
Record built (la : table) : Prop := {
  b_len : length la = n + 2;
  b_bos : nth 0 la [] = [bos_node];
  b_eos : nth (S n) la [] = [eos_node];
  b_mid : forall p nd, 0 < p <= n ->
     (In nd (nth p la []) <-> exists w, candidate d u inp w /\ w_stop w = p /\ nd = node_of d inp w)
}.

Theorem build_spec : exists la, build d u inp = Ok la /\ built la.
Proof.
  unfold build. fold (rcount inp). change (rune_count inp) with n.
  assert (Hs0 : slice inp 0 0 = Ok []) by (unfold slice; cbn; reflexivity).
  assert (Hs1 : slice inp n n = Ok []).
  { unfold slice. rewrite Nat.leb_refl. pose proof (rcount_le inp). fold n in H.
    destruct (Nat.leb_spec n (length inp)); [|lia]. cbn [andb]. rewrite Nat.sub_diag. reflexivity. }
  rewrite Hs0. cbn [rbind].
  destruct (@adds_add_node d (repeat [] (n + 2)) 0 bos_eos_id 0 0 DUMMY [] zero_morph) as (la0 & E0 & A0);
    [reflexivity|rewrite repeat_length; cbn; lia|].
  rewrite E0. cbn [rbind]. rewrite Hs1. cbn [rbind].
  assert (L0 : length la0 = n + 2) by (destruct A0 as [A0 _]; rewrite A0; apply repeat_length).
  destruct (@adds_add_node d la0 (n + 1) bos_eos_id (length inp) n DUMMY [] zero_morph) as (la1 & E1 & A1);
    [reflexivity|rewrite L0; cbn; lia|].
  rewrite E1. cbn [rbind].
  assert (L1 : length la1 = n + 2) by (destruct A1 as [A1 _]; congruence).
  rewrite range_string_offsets.
  destruct (@build_loop_words n 0 la1) as (la & E & A); [lia|assumption|].
  exists la. split; [exact E|].
  assert (Hrep : forall p, nth p (repeat (@nil node) (n + 2)) [] = []).
  { intros p. apply nth_repeat. }
  cbn [rune_count segs segs_fuel length Nat.add] in A0, A1.
  destruct A0 as [_ A0]. destruct A1 as [_ A1]. destruct A as [L A].
  assert (Hone : forall (ext : list node) x, (forall nd, In nd ext <-> nd = x) -> (length ext <= 1)%nat -> ext = [x]).
  { intros [|a [|b ext]] x H Hlen; [|f_equal; apply H; left; reflexivity|cbn in Hlen; lia].
    exfalso. apply (proj2 (H x) eq_refl). }
  (* exact contents of la1 *)
  assert (N0 : nth 0 la1 [] = [bos_node]).
  { unfold add_node in E1, E0. cbn [node_morph rbind] in E0, E1. unfold update in E0, E1. rewrite repeat_length in E0.
    rewrite L0 in E1. cbn [rune_count segs segs_fuel length Nat.add] in E0, E1.
    destruct (Nat.ltb_spec 0 (n + 2)); [|discriminate]. injection E0 as E0.
    destruct (Nat.ltb_spec (n + 1 + 0) (n + 2)); [|discriminate]. injection E1 as E1.
    rewrite <- E1, nth_update_nth by lia. destruct (Nat.eqb_spec 0 (n + 1 + 0)); [lia|].
    rewrite <- E0, nth_update_nth by (rewrite repeat_length; lia). rewrite Nat.eqb_refl, Hrep. reflexivity. }
  assert (N1 : nth (S n) la1 [] = [eos_node]).
  { unfold add_node in E1, E0. cbn [node_morph rbind] in E0, E1. unfold update in E0, E1. rewrite repeat_length in E0.
    rewrite L0 in E1. cbn [rune_count segs segs_fuel length Nat.add] in E0, E1.
    destruct (Nat.ltb_spec 0 (n + 2)); [|discriminate]. injection E0 as E0.
    destruct (Nat.ltb_spec (n + 1 + 0) (n + 2)); [|discriminate]. injection E1 as E1.
    rewrite <- E1, nth_update_nth by lia. destruct (Nat.eqb_spec (S n) (n + 1 + 0)); [|lia].
    rewrite <- E0, nth_update_nth by (rewrite repeat_length; lia). destruct (Nat.eqb_spec (S n) 0); [lia|].
    rewrite Hrep. reflexivity. }
  assert (Nm : forall p, 0 < p <= n -> nth p la1 [] = []).
  { intros p Hp. destruct (A1 p) as (x1 & X1 & I1). destruct (A0 p) as (x0 & X0 & I0). rewrite X1, X0, Hrep.
    assert (x0 = []) as ->. { destruct x0 as [|a x0]; [reflexivity|]. destruct (proj1 (I0 a)); [left; reflexivity|lia]. }
    assert (x1 = []) as ->. { destruct x1 as [|a x1]; [reflexivity|]. destruct (proj1 (I1 a)); [left; reflexivity|lia]. }
    reflexivity. }
  constructor.
  - congruence.
  - destruct (A 0) as (x & X & I). rewrite X, N0. assert (x = []) as ->; [|reflexivity].
    destruct x as [|a x]; [reflexivity|]. destruct (proj1 (I a)) as (w & [_ Hw] & Hs & _); [left; reflexivity|].
    apply candidate_range in Hw. lia.
  - destruct (A (S n)) as (x & X & I). rewrite X, N1. assert (x = []) as ->; [|reflexivity].
    destruct x as [|a x]; [reflexivity|]. destruct (proj1 (I a)) as (w & [_ Hw] & Hs & _); [left; reflexivity|].
    apply candidate_range in Hw. lia.
  - intros p nd Hp. destruct (A p) as (x & X & I). rewrite X, (Nm p Hp). cbn [app]. rewrite I. split.
    + intros (w & [_ Hw] & H1 & H2). exists w. auto.
    + intros (w & Hw & H1 & H2). exists w. repeat split; try assumption; apply candidate_range in Hw; lia.
Qed.
End Build.
