(** A goroutine's call of Analyze on its own objects gives the result of the value-level model. *)
From Verif Require Export HeapSound.
From Coq Require Import ZifyBool ZifyNat.
Set Implicit Arguments.
Unset Strict Implicit.
Open Scope nat_scope.

(** ** Single operations *)
Section Ops.
Variables (A : Type) (Q : A -> lheap -> Prop) (s : lheap).
Lemma wp_lat_read la f hl : ll s la = Some hl -> wp (f hl) Q s -> wp (pbind (lat_read la) f) Q s.
Proof. cbn. eauto. Qed.
Lemma wp_lat_set la g (f : unit -> prog A) hl : ll s la = Some hl -> wp (f tt) Q (lput_l s la (g hl)) -> wp (pbind (lat_set la g) f) Q s.
Proof. cbn. eauto. Qed.
Lemma wp_node_read a f b h : ln s a = Some (b, h) -> wp (f h) Q s -> wp (pbind (node_read a) f) Q s.
Proof. cbn. eauto. Qed.
Lemma wp_node_set a g (f : unit -> prog A) b h : ln s a = Some (b, h) -> wp (f tt) Q (lput_n s a b (g h)) -> wp (pbind (node_set a g) f) Q s.
Proof. cbn. eauto. Qed.
Lemma wp_lift X (r : res X) x f : r = Ok x -> wp (f x) Q s -> wp (pbind (lift r) f) Q s.
Proof. intros ->. cbn. auto. Qed.
Lemma wp_deref X (r : option X) x f : r = Some x -> wp (f x) Q s -> wp (pbind (deref r) f) Q s.
Proof. intros ->. cbn. auto. Qed.
Lemma wp_append r x (f : row -> prog A) : (forall extra, wp (f (gs_append None extra r x)) Q s) -> wp (pbind (p_append r x) f) Q s.
Proof. cbn. auto. Qed.
Lemma wp_ret (a : A) : Q a s -> wp (Ret a) Q s.
Proof. cbn. auto. Qed.
Lemma wp_ret_bind X (a : X) f : wp (f a) Q s -> wp (pbind (Ret a) f) Q s.
Proof. cbn. auto. Qed.
End Ops.

Lemma wp_lat_set0 la g (Q : unit -> lheap -> Prop) s hl : ll s la = Some hl -> Q tt (lput_l s la (g hl)) -> wp (lat_set la g) Q s.
Proof. cbn. eauto. Qed.
Lemma wp_node_set0 a g (Q : unit -> lheap -> Prop) s b h : ln s a = Some (b, h) -> Q tt (lput_n s a b (g h)) -> wp (node_set a g) Q s.
Proof. cbn. eauto. Qed.

Lemma ok_bind A B (r : res A) (f : A -> res B) b : rbind r f = Ok b -> exists a, r = Ok a /\ f a = Ok b.
Proof. destruct r as [a| |]; cbn; try discriminate. eauto. Qed.

(** Loops. *)
Lemma sim_fold A B C V (f : A -> B -> prog A) (g : V -> C -> res V) (P : A -> V -> lheap -> Prop) (rel : B -> C -> Prop) l l' :
  Forall2 rel l l' ->
  (forall a x y v v' s, rel x y -> g v y = Ok v' -> P a v s -> wp (f a x) (fun a' s' => P a' v' s') s) ->
  forall a v v' s, foldM g l' v = Ok v' -> P a v s -> wp (pfold f l a) (fun a' s' => P a' v' s') s.
Proof.
  intros F Hf. induction F as [|x y l l' Hr F IH]; intros a v v' s E HP; cbn [foldM pfold] in *.
  - injection E as <-. exact HP.
  - apply ok_bind in E. destruct E as (v1 & E1 & E2). apply wp_bind. eapply wp_mono; [exact (Hf _ _ _ _ _ _ Hr E1 HP)|].
    intros a' s' H. cbn beta in H. eapply IH; eassumption.
Qed.
Lemma Forall2_length A B (R : A -> B -> Prop) l l' : Forall2 R l l' -> length l = length l'.
Proof. intros F. induction F; cbn; congruence. Qed.
Lemma Forall2_same A (l : list A) : Forall2 eq l l.
Proof. induction l; constructor; auto. Qed.
Lemma Forall2_same_in A (l : list A) : Forall2 (fun x y => x = y /\ In x l) l l.
Proof.
  enough (forall k, incl k l -> Forall2 (fun x y => x = y /\ In x l) k k) by (apply H; firstorder).
  intros k. induction k; constructor; [split; [reflexivity|apply H; left; reflexivity]|]. apply IHk. intros x Hx. apply H. right. exact Hx.
Qed.

(** ** Two-dimensional lists *)
Definition nth2 {A} (c : list (list A)) (i j : nat) : option A := match nth_error c i with Some l => nth_error l j | None => None end.

Lemma get2_nth2 la i j n : get2 la i j = Ok n <-> nth2 la i j = Some n.
Proof.
  unfold get2, nth2, index. destruct (nth_error la i) as [l|]; cbn; [|split; discriminate].
  destruct (nth_error l j); split; congruence.
Qed.

Lemma nth_error_update A (l : list A) i f k : nth_error (update_nth l i f) k = if k =? i then option_map f (nth_error l k) else nth_error l k.
Proof.
  revert i k. induction l as [|x l IH]; intros i k; cbn.
  - destruct k, i; cbn; try destruct (k =? i); reflexivity.
  - destruct i; destruct k; cbn; try reflexivity. apply IH.
Qed.
Lemma update_nth_length A (l : list A) i f : length (update_nth l i f) = length l.
Proof. revert i. induction l; intros [|i]; cbn; auto. Qed.

Lemma nth2_upd A (c : list (list A)) i j f i' j' :
  nth2 (update_nth c i (fun l => update_nth l j f)) i' j' =
  if (i' =? i) && (j' =? j) then option_map f (nth2 c i' j') else nth2 c i' j'.
Proof.
  unfold nth2. rewrite nth_error_update. destruct (Nat.eqb_spec i' i) as [->|]; cbn [andb]; [|reflexivity].
  destruct (nth_error c i) as [l|]; cbn [option_map]; [|destruct (j' =? j); reflexivity]. rewrite nth_error_update. reflexivity.
Qed.
Lemma nth2_app A (c : list (list A)) p x l : nth_error c p = Some l -> forall i j,
  nth2 (update_nth c p (fun l => l ++ [x])) i j = if (i =? p) && (j =? length l) then Some x else nth2 c i j.
Proof.
  intros Hp i j. unfold nth2. rewrite nth_error_update. destruct (Nat.eqb_spec i p) as [->|]; cbn [andb]; [|reflexivity].
  rewrite Hp. cbn [option_map]. destruct (Nat.eqb_spec j (length l)) as [->|N].
  - rewrite nth_error_app2 by lia. rewrite Nat.sub_diag. reflexivity.
  - destruct (Nat.lt_ge_cases j (length l)); [apply nth_error_app1; assumption|]. rewrite nth_error_app2 by lia.
    destruct (j - length l) as [|[|m]] eqn:E; [lia|cbn..]; symmetry; apply nth_error_None; lia.
Qed.
Lemma map_length_upd A (c : list (list A)) i (f : list A -> list A) : map (@length A) (update_nth c i f) =
  update_nth (map (@length A) c) i (fun _ => match nth_error c i with Some l => length (f l) | None => 0 end).
Proof. revert i. induction c as [|l c IH]; intros [|i]; cbn; [reflexivity..|]. f_equal. rewrite IH. reflexivity. Qed.
Lemma update_nth_id A (l : list A) i f : (forall x, nth_error l i = Some x -> f x = x) -> update_nth l i f = l.
Proof. revert i. induction l as [|x l IH]; intros [|i] H; cbn; [reflexivity..| |]; f_equal; auto. Qed.
Lemma update_nth_ext A (l : list A) i f g : (forall x, nth_error l i = Some x -> f x = g x) -> update_nth l i f = update_nth l i g.
Proof. revert i. induction l as [|x l IH]; intros [|i] H; cbn; [reflexivity..| |]; f_equal; auto. Qed.
Lemma update_nth_app1 A (l r : list A) i f : i < length l -> update_nth (l ++ r) i f = update_nth l i f ++ r.
Proof. revert i. induction l as [|y l IH]; intros [|i] H; cbn in *; try lia; [reflexivity|]. f_equal. apply IH. lia. Qed.
Lemma Forall2_update A B (R : A -> B -> Prop) l l' i f g x y : Forall2 R l l' -> nth_error l i = Some x -> nth_error l' i = Some y ->
  R (f x) (g y) -> Forall2 R (update_nth l i f) (update_nth l' i g).
Proof.
  intros F. revert i. induction F as [|a b l l' H F IH]; intros [|i] H1 H2 H3; cbn in *; try discriminate.
  - injection H1 as ->. injection H2 as ->. constructor; assumption.
  - constructor; [assumption|]. apply IH; assumption.
Qed.
Lemma nth_map_length A (c : list (list A)) i : nth_error (map (@length A) c) i = option_map (@length A) (nth_error c i).
Proof. apply nth_error_map. Qed.

(** ** Rows *)
Definition row_ok (r : row) (l : list addr) : Prop := exists k, r = GSlice (map Some l ++ repeat None k) (length l).

Lemma clean_row_ok r : clean_row r <-> row_ok r [].
Proof.
  split.
  - intros [H1 H2]. destruct r as [arr len]. cbn in *. subst len. exists (length arr). cbn. f_equal.
    induction arr as [|x arr IH]; cbn; [reflexivity|]. rewrite (H2 x (or_introl eq_refl)). f_equal. apply IH. intros y Hy. apply H2. right. exact Hy.
  - intros (k & ->). split; cbn; [reflexivity|]. intros x Hx. apply repeat_spec in Hx. exact Hx.
Qed.
Lemma row_len r l : row_ok r l -> gs_len r = length l.
Proof. intros (k & ->). reflexivity. Qed.
Lemma row_list r l : row_ok r l -> gs_list r = map Some l.
Proof. intros (k & ->). unfold gs_list. cbn. rewrite <- (map_length Some l). apply firstn_app_exact || (rewrite firstn_app, Nat.sub_diag, firstn_all, firstn_O, app_nil_r; reflexivity). Qed.
Lemma row_index r l j a : row_ok r l -> nth_error l j = Some a -> gs_index r j = Ok (Some a).
Proof.
  intros (k & ->) H. unfold gs_index. cbn [gs_len gs_arr]. assert (j < length l) by (apply nth_error_Some; congruence).
  destruct (Nat.ltb_spec j (length l)); [|lia]. unfold index. rewrite nth_error_app1 by (rewrite map_length; lia).
  rewrite nth_error_map, H. reflexivity.
Qed.
Lemma update_app_mid A (l : list A) x r f : update_nth (l ++ x :: r) (length l) f = l ++ f x :: r.
Proof. induction l; cbn; [reflexivity|]. f_equal. assumption. Qed.
Lemma row_append r l a extra : row_ok r l -> row_ok (gs_append None extra r (Some a)) (l ++ [a]).
Proof.
  intros H. pose proof (row_list H) as Hl. destruct H as (k & ->). unfold gs_append. rewrite Hl. cbn [gs_len gs_arr].
  rewrite app_length, map_length, repeat_length. destruct k as [|k].
  - destruct (Nat.ltb_spec (length l) (length l + 0)); [lia|]. exists extra. rewrite map_app, app_length. cbn. rewrite <- app_assoc. cbn. f_equal. lia.
  - destruct (Nat.ltb_spec (length l) (length l + S k)); [|lia]. exists k. rewrite map_app, app_length. cbn [repeat map length]. f_equal; [|lia].
    rewrite <- (map_length Some l). rewrite update_app_mid, <- app_assoc. reflexivity.
Qed.
Lemma row_nil_repeat n : forall r, In r (repeat (@gs_nil (option addr)) n) -> row_ok r [].
Proof. intros r H. apply repeat_spec in H. subst. exists 0. reflexivity. Qed.

(** ** The lattice of a goroutine *)
Record lat_ok (hl : hlat) (d : dict) (u : option udict) (cells : list (list addr)) (outs : list addr) : Prop := {
  lo_dic : l_dic hl = Some d;
  lo_udic : l_udic hl = u;
  lo_list : exists rows tail, l_list hl = GSlice (rows ++ tail) (length rows) /\ Forall2 row_ok rows cells /\ Forall (fun r => row_ok r []) tail;
  lo_out : row_ok (l_output hl) outs
}.

Definition prev_ok (cells : list (list addr)) (hp : option addr) (np : option (nat * nat)) : Prop :=
  match hp, np with
  | None, None => True
  | Some b, Some (i, j) => nth2 cells i j = Some b
  | _, _ => False
  end.
Definition node_ok (s : lheap) (cells : list (list addr)) (a : addr) (n : node) : Prop :=
  exists h, ln s a = Some (true, h) /\ n = h_val h (n_prev n) /\ prev_ok cells (h_prev h) (n_prev n).

Record rep (s : lheap) (la : addr) (d : dict) (u : option udict) (cells : list (list addr)) (outs : list addr) (v : table) : Prop := {
  r_lat : exists hl, ll s la = Some hl /\ lat_ok hl d u cells outs;
  r_shape : map (@length addr) cells = map (@length node) v;
  r_nodes : forall i j a, nth2 cells i j = Some a -> exists n, nth2 v i j = Some n /\ node_ok s cells a n;
  r_inj : forall i j i' j' a, nth2 cells i j = Some a -> nth2 cells i' j' = Some a -> i = i' /\ j = j';
  r_own : forall a h, ln s a = Some (true, h) -> exists i j, nth2 cells i j = Some a;
  r_only : forall b, b <> la -> ll s b = None
}.

Section Rep.
Variables (la : addr) (d : dict) (u : option udict).

Lemma rep_rows s cells outs v i r : rep s la d u cells outs v -> nth_error cells i = Some r -> forall hl, ll s la = Some hl ->
  exists x, gs_index (l_list hl) i = Ok x /\ row_ok x r.
Proof.
  intros R Hi hl El. destruct (r_lat R) as (hl' & El' & L). rewrite El in El'. injection El' as <-.
  destruct (lo_list L) as (rows & tail & E & F & _). unfold gs_index. rewrite E. cbn [gs_len gs_arr].
  pose proof (Forall2_length F) as Hlen. assert (i < length cells) by (apply nth_error_Some; congruence).
  destruct (Nat.ltb_spec i (length rows)); [|lia]. unfold index. rewrite nth_error_app1 by lia.
  destruct (nth_error rows i) as [x|] eqn:Ex; [|apply nth_error_None in Ex; lia]. exists x. split; [reflexivity|].
  clear - F Hi Ex. revert i Hi Ex. induction F; intros [|i] H1 H2; cbn in *; try discriminate; [congruence|eauto].
Qed.

Lemma rep_len s cells outs v hl : rep s la d u cells outs v -> ll s la = Some hl -> gs_len (l_list hl) = length v.
Proof.
  intros R El. destruct (r_lat R) as (hl' & El' & L). rewrite El in El'. injection El' as <-.
  destruct (lo_list L) as (rows & tail & E & F & _). rewrite E. cbn. rewrite (Forall2_length F).
  pose proof (f_equal (@length _) (r_shape R)) as H. rewrite !map_length in H. exact H.
Qed.

Lemma rep_cell A (f : addr -> prog A) Q s cells outs v i j a : rep s la d u cells outs v -> nth2 cells i j = Some a -> wp (f a) Q s ->
  wp (pbind (h_cell la i j) f) Q s.
Proof.
  intros R Hc HQ. destruct (r_lat R) as (hl & El & L). unfold nth2 in Hc. destruct (nth_error cells i) as [r|] eqn:Ei; [|discriminate].
  destruct (rep_rows R Ei El) as (x & Ex & Hx). unfold h_cell. apply wp_bind. apply (wp_lat_read El). apply (wp_lift Ex).
  apply (wp_lift (row_index Hx Hc)). cbn. exact HQ.
Qed.

Lemma rep_get s cells outs v i j a : rep s la d u cells outs v -> nth2 cells i j = Some a ->
  exists h n, ln s a = Some (true, h) /\ nth2 v i j = Some n /\ n = h_val h (n_prev n) /\ prev_ok cells (h_prev h) (n_prev n).
Proof. intros R H. destruct (r_nodes R H) as (n & Hn & h & H1 & H2 & H3). exists h, n. auto. Qed.

Lemma rep_addr s cells outs v i j n : rep s la d u cells outs v -> nth2 v i j = Some n -> exists a, nth2 cells i j = Some a.
Proof.
  intros R H. unfold nth2 in *. destruct (nth_error v i) as [r|] eqn:Ev; [|discriminate].
  pose proof (f_equal (fun l => nth_error l i) (r_shape R)) as Hs. cbn beta in Hs. rewrite !nth_map_length, Ev in Hs. cbn in Hs.
  destruct (nth_error cells i) as [c|]; [|discriminate]. injection Hs as Hs.
  destruct (nth_error c j) as [a|] eqn:Ea; [eauto|]. apply nth_error_None in Ea. assert (j < length r) by (apply nth_error_Some; congruence). lia.
Qed.

(** Writing to one node. *)
Lemma rep_write s s' cells outs v i j a h h' f : rep s la d u cells outs v -> nth2 cells i j = Some a -> ln s a = Some (true, h) ->
  (forall x, ln s' x = set_at (ln s) a (Some (true, h')) x) -> (forall x, ll s' x = ll s x) ->
  (forall n, n = h_val h (n_prev n) -> prev_ok cells (h_prev h) (n_prev n) -> f n = h_val h' (n_prev (f n)) /\ prev_ok cells (h_prev h') (n_prev (f n))) ->
  rep s' la d u cells outs (update_nth v i (fun l => update_nth l j f)).
Proof.
  intros R Hc Eh Hs Hl Hf. split.
  - destruct (r_lat R) as (hl & El & L). exists hl. rewrite Hl. auto.
  - rewrite (r_shape R), map_length_upd. symmetry. apply update_nth_id. intros x Hx. rewrite nth_map_length in Hx.
    destruct (nth_error v i) as [r|]; [|discriminate]. rewrite update_nth_length. cbn in Hx. congruence.
  - intros i' j' a' Hc'. rewrite nth2_upd. destruct (r_nodes R Hc') as (n & Hn & hn & E1 & E2 & E3).
    destruct (Nat.eqb_spec i' i) as [->|Ni]; [destruct (Nat.eqb_spec j' j) as [->|Nj]|]; cbn [andb].
    + rewrite Hc in Hc'. injection Hc' as <-. rewrite Eh in E1. injection E1 as <-. rewrite Hn. cbn. eexists. split; [reflexivity|].
      exists h'. rewrite Hs, set_at_same. split; [reflexivity|]. apply Hf; assumption.
    + exists n. split; [exact Hn|]. exists hn. rewrite Hs, set_at_other; [auto|]. intros ->. destruct (r_inj R Hc Hc'). congruence.
    + exists n. split; [exact Hn|]. exists hn. rewrite Hs, set_at_other; [auto|]. intros ->. destruct (r_inj R Hc Hc'). congruence.
  - exact (r_inj R).
  - intros x hx. rewrite Hs. unfold set_at. destruct (Nat.eqb_spec x a) as [->|]; [eauto|apply (r_own R)].
  - intros b Hb. rewrite Hl. apply (r_only R). exact Hb.
Qed.

(** ** addNode *)
Lemma sim_add_node s cells outs v v' pos id position start class surface :
  add_node d v pos id position start class surface = Ok v' -> rep s la d u cells outs v ->
  wp (h_add_node la pos id position start class surface) (fun _ s' => exists cells', rep s' la d u cells' outs v') s.
Proof.
  intros E R. unfold add_node in E. apply ok_bind in E. destruct E as (m & Em & E). set (p := pos + rune_count surface) in *.
  unfold update in E. destruct (Nat.ltb_spec p (length v)) as [Hp|]; [|discriminate]. injection E as E.
  destruct (r_lat R) as (hl & El & L). unfold h_add_node. apply (wp_lat_read El). apply (wp_deref (lo_dic L)). apply (wp_lift Em).
  cbn [pbind node_get wp]. intros a h0 Ha.
  do 10 (eapply wp_node_set; [unfold lput_n; cbn [ln]; apply set_at_same|]).
  set (sn := lput_n _ _ _ _).
  assert (Hsn : forall x, ln sn x = set_at (ln s) a (Some (true, HNode id position start class 0 (m_left m) (m_right m) (m_weight m) surface None)) x).
  { intros x. unfold sn, lput_n. cbn [ln]. unfold set_at. destruct (x =? a); reflexivity. }
  assert (Hsl : forall x, ll sn x = ll s x) by (intros x; reflexivity). clearbody sn.
  assert (Eln : ll sn la = Some hl) by (rewrite Hsl; exact El). cbn zeta. apply (wp_lat_read Eln).
  assert (Hlen : length cells = length v) by (pose proof (f_equal (@length _) (r_shape R)) as H; rewrite !map_length in H; exact H).
  destruct (nth_error cells p) as [r|] eqn:Er; [|apply nth_error_None in Er; lia].
  destruct (rep_rows R Er El) as (x & Ex & Hx). apply (wp_lift Ex). apply wp_append. intros extra. apply (wp_lat_set0 Eln).
  exists (update_nth cells p (fun l => l ++ [a])).
  destruct (nth_error v p) as [rv|] eqn:Erv; [|apply nth_error_None in Erv; lia].
  assert (Hrv : length r = length rv).
  { pose proof (f_equal (fun l => nth_error l p) (r_shape R)) as Hs. cbn beta in Hs. rewrite !nth_map_length, Er, Erv in Hs. cbn in Hs. congruence. }
  assert (Hfresh : forall i j, nth2 cells i j <> Some a).
  { intros i j Hc. destruct (r_nodes R Hc) as (n & _ & h & Eh & _). congruence. }
  subst v'. split.
  - eexists. split; [cbn [ll lput_l]; apply set_at_same|]. split; try (apply L).
    destruct (lo_list L) as (rows & tail & E1 & F & T). cbn [l_list set_l_list]. rewrite E1. unfold gs_put. cbn [gs_arr gs_len].
    assert (Hpr : p < length rows) by (rewrite (Forall2_length F); lia).
    exists (update_nth rows p (fun _ => gs_append None extra x (Some a))), tail. split; [|split; [|exact T]].
    + rewrite update_nth_length. f_equal. apply update_nth_app1. exact Hpr.
    + assert (Exr : nth_error rows p = Some x).
      { unfold gs_index in Ex. rewrite E1 in Ex. cbn [gs_len gs_arr] in Ex. destruct (p <? length rows) eqn:Eq; [|discriminate].
        unfold index in Ex. rewrite nth_error_app1 in Ex by lia. destruct (nth_error rows p); congruence. }
      apply (Forall2_update F Exr Er). apply row_append. exact Hx.
  - rewrite !map_length_upd, (r_shape R), Er, Erv, !app_length, Hrv. reflexivity.
  - intros i j b. rewrite (nth2_app _ Er), (nth2_app _ Erv), Hrv.
    assert (K : forall hp np, prev_ok cells hp np -> prev_ok (update_nth cells p (fun l => l ++ [a])) hp np).
    { intros [b'|] [[i' j']|]; cbn; auto. intros Hc. rewrite (nth2_app _ Er). destruct (Nat.eqb_spec i' p) as [->|]; cbn [andb]; [|exact Hc].
      destruct (Nat.eqb_spec j' (length r)) as [->|]; [|exact Hc]. unfold nth2 in Hc. rewrite Er in Hc.
      assert (length r < length r) by (apply nth_error_Some; congruence). lia. }
    destruct (_ && _).
    + intros [= <-]. eexists. split; [reflexivity|]. eexists. split; [cbn [ln lput_l]; rewrite Hsn; apply set_at_same|]. split; reflexivity.
    + intros Hc. destruct (r_nodes R Hc) as (n & Hn & h & E1 & E2 & E3). exists n. split; [exact Hn|]. exists h.
      cbn [ln lput_l]. rewrite Hsn, set_at_other; [auto|]. intros ->. exact (Hfresh _ _ Hc).
  - intros i j i' j' b. rewrite !(nth2_app _ Er).
    destruct (Nat.eqb_spec i p), (Nat.eqb_spec j (length r)), (Nat.eqb_spec i' p), (Nat.eqb_spec j' (length r)); cbn [andb]; subst; intros H1 H2;
      try (split; reflexivity); try (injection H1 as <-; exfalso; exact (Hfresh _ _ H2)); try (injection H2 as <-; exfalso; exact (Hfresh _ _ H1));
      exact (r_inj R H1 H2).
  - intros b h. cbn [ln lput_l]. rewrite Hsn. unfold set_at. destruct (Nat.eqb_spec b a) as [->|].
    + intros _. exists p, (length r). rewrite (nth2_app _ Er), !Nat.eqb_refl. reflexivity.
    + intros Hb. destruct (r_own R Hb) as (i & j & Hc). exists i, j. rewrite (nth2_app _ Er).
      destruct (Nat.eqb_spec i p) as [->|]; cbn [andb]; [|exact Hc]. destruct (Nat.eqb_spec j (length r)) as [->|]; [|exact Hc].
      unfold nth2 in Hc. rewrite Er in Hc. assert (length r < length r) by (apply nth_error_Some; congruence). lia.
  - intros b Hb. cbn [ll lput_l]. rewrite set_at_other by exact Hb. rewrite Hsl. apply (r_only R). exact Hb.
Qed.

(** ** Build *)
Definition built_as (outs : list addr) (v : table) (s : lheap) : Prop := exists cells, rep s la d u cells outs v.

Lemma sim_add s outs v v' pos id position start class surface :
  add_node d v pos id position start class surface = Ok v' -> built_as outs v s ->
  wp (h_add_node la pos id position start class surface) (fun _ s' => built_as outs v' s') s.
Proof. intros E (cells & R). exact (sim_add_node E R). Qed.

Lemma sim_matches s outs inp runePos pos class ms v v' : add_matches d inp runePos pos class ms v = Ok v' -> built_as outs v s ->
  wp (h_add_matches la inp runePos pos class ms) (fun _ s' => built_as outs v' s') s.
Proof.
  intros E B. unfold h_add_matches, peach.
  refine (sim_fold (P := fun _ v s => built_as outs v s) (Forall2_same ms) _ E B).
  intros _ [id l] y w w' s0 <- Ey B0. cbn beta in Ey. apply ok_bind in Ey. destruct Ey as (sf & Es & Ey).
  apply (wp_lift Es). exact (sim_add Ey B0).
Qed.

Lemma sim_unknowns s outs inp runePos pos prev end_pos id dup v v' : add_unknowns d inp runePos pos prev end_pos id dup v = Ok v' -> built_as outs v s ->
  wp (h_add_unknowns la inp runePos pos prev end_pos id dup) (fun _ s' => built_as outs v' s') s.
Proof.
  intros E B. unfold h_add_unknowns, peach.
  refine (sim_fold (P := fun _ v s => built_as outs v s) (Forall2_same _) _ E B).
  intros _ x y w w' s0 <- Ey B0. cbn beta in Ey. apply ok_bind in Ey. destruct Ey as (w1 & E1 & Ey). apply ok_bind in Ey. destruct Ey as (sf & Es & Ey).
  apply wp_seq with (Q' := fun _ s' => built_as outs w1 s').
  - destruct (pos <? prev).
    + apply ok_bind in E1. destruct E1 as (sg & Eg & E1). apply (wp_lift Eg). exact (sim_add E1 B0).
    + injection E1 as <-. exact B0.
  - intros [] s1 B1. apply (wp_lift Es). exact (sim_add Ey B1).
Qed.

Lemma built_read A (f : hlat -> prog A) Q s outs v : built_as outs v s -> (forall hl, ll s la = Some hl -> l_dic hl = Some d -> l_udic hl = u -> wp (f hl) Q s) ->
  wp (pbind (lat_read la) f) Q s.
Proof. intros (cells & R) H. destruct (r_lat R) as (hl & El & L). apply (wp_lat_read El). apply H; [exact El|apply L|apply L]. Qed.

Lemma sim_build_unknown s outs inp runePos pos ch any v v' : build_unknown d inp runePos pos ch any v = Ok v' -> built_as outs v s ->
  wp (h_build_unknown la inp runePos pos ch any) (fun _ s' => built_as outs v' s') s.
Proof.
  intros E B. unfold h_build_unknown. apply (built_read B). intros hl _ Ed _. apply (wp_deref Ed). unfold build_unknown in E. cbn zeta in *.
  apply ok_bind in E. destruct E as (go & Eg & E). apply (wp_lift Eg). destruct go.
  - apply ok_bind in E. destruct E as (e & Ee & E). apply ok_bind in E. destruct E as (pv & Ep & E). apply (wp_lift Ee). apply (wp_lift Ep).
    exact (sim_unknowns E B).
  - injection E as <-. exact B.
Qed.

Lemma sim_build_step s outs inp runePos pos ch v v' : build_step d u inp v runePos pos ch = Ok v' -> built_as outs v s ->
  wp (h_build_step la inp runePos pos ch) (fun _ s' => built_as outs v' s') s.
Proof.
  intros E B. unfold build_step in E. unfold h_build_step. apply ok_bind in E. destruct E as (rest & Er & E). apply (wp_lift Er).
  apply (built_read B). intros hl _ _ Eu. cbn zeta in *. rewrite Eu. apply ok_bind in E. destruct E as (v1 & E1 & E).
  eapply wp_seq; [exact (sim_matches E1 B)|]. intros [] s1 B1. cbn beta in B1. destruct (negb _).
  - injection E as <-. exact B1.
  - apply ok_bind in E. destruct E as (v2 & E2 & E). apply (built_read B1). intros hl1 _ Ed _. apply (wp_deref Ed).
    eapply wp_seq; [exact (sim_matches E2 B1)|]. intros [] s2 B2. exact (sim_build_unknown E B2).
Qed.

Lemma sim_build_loop outs inp l : forall s runePos v v', build_loop d u inp runePos l v = Ok v' -> built_as outs v s ->
  wp (h_build_loop la inp runePos l) (fun _ s' => built_as outs v' s') s.
Proof.
  induction l as [|[pos ch] l IH]; intros s runePos v v' E B; cbn [build_loop h_build_loop] in *.
  - injection E as <-. exact B.
  - apply ok_bind in E. destruct E as (v1 & E1 & E). eapply wp_seq; [exact (sim_build_step E1 B)|]. intros [] s1 B1. exact (IH _ _ _ _ E B1).
Qed.

Lemma nth2_repeat A n i j : nth2 (repeat (@nil A) n) i j = None.
Proof.
  unfold nth2. destruct (nth_error (repeat [] n) i) eqn:E; [|reflexivity]. apply nth_error_In in E. apply repeat_spec in E. subst. destruct j; reflexivity.
Qed.
Lemma Forall_Forall2_nil rows : Forall (fun r : row => row_ok r []) rows -> Forall2 row_ok rows (repeat [] (length rows)).
Proof. intros H. induction H; cbn; constructor; auto. Qed.

(** A lattice just handed out. *)
Record fresh (s : lheap) : Prop := {
  f_lat : exists hl, ll s la = Some hl /\ l_dic hl = Some d /\ l_udic hl = u /\ clean_row (l_output hl) /\
     gs_len (l_list hl) = 0 /\ (forall r, In r (gs_arr (l_list hl)) -> clean_row r);
  f_none : forall a h, ln s a <> Some (true, h);
  f_only : forall b, b <> la -> ll s b = None
}.

Lemma sim_build s inp v : build d u inp = Ok v -> fresh s -> wp (h_build la inp) (fun _ s' => built_as [] v s') s.
Proof.
  intros E F. unfold build in E. unfold h_build. cbn zeta in *. set (rc := rune_count inp) in *.
  apply ok_bind in E. destruct E as (s0 & Es0 & E). apply ok_bind in E. destruct E as (v1 & E1 & E).
  apply ok_bind in E. destruct E as (s1 & Es1 & E). apply ok_bind in E. destruct E as (v2 & E2 & E).
  destruct (f_lat F) as (hl & El & Ed & Eu & Co & Cl & Cr).
  apply (wp_lat_set El). eapply wp_lat_read; [cbn [ll lput_l]; apply set_at_same|].
  apply wp_seq with (Q' := fun _ s' => (exists hl', ll s' la = Some hl' /\ l_dic hl' = Some d /\ l_udic hl' = u /\ clean_row (l_output hl') /\
     rc + 2 <= length (gs_arr (l_list hl')) /\ (forall r, In r (gs_arr (l_list hl')) -> clean_row r)) /\
     (forall a h, ln s' a <> Some (true, h)) /\ (forall b, b <> la -> ll s' b = None)).
  - cbn [l_list set_l_input]. destruct (Nat.ltb_spec (length (gs_arr (l_list hl))) (rc + 2)).
    + eapply wp_lat_set0; [cbn [ll lput_l]; apply set_at_same|]. cbn [ll lput_l ln]. split; [|split].
      * eexists. split; [apply set_at_same|]. cbn. rewrite repeat_length. repeat (split; [assumption || lia|]).
        intros r Hr. apply clean_row_ok. apply (row_nil_repeat Hr).
      * apply (f_none F).
      * intros b Hb. rewrite !set_at_other by exact Hb. apply (f_only F). exact Hb.
    + cbn. split; [|split].
      * eexists. split; [apply set_at_same|]. cbn. repeat (split; [assumption || lia|]). exact Cr.
      * apply (f_none F).
      * intros b Hb. rewrite !set_at_other by exact Hb. apply (f_only F). exact Hb.
  - clear s F El hl Ed Eu Co Cl Cr. intros [] s ((hl & El & Ed & Eu & Co & Cl & Cr) & Fn & Fo). apply (wp_lat_read El).
    eapply wp_lift; [unfold gs_reslice; destruct (Nat.leb_spec (rc + 2) (length (gs_arr (l_list hl)))); [reflexivity|lia]|].
    apply (wp_lat_set El). apply (wp_lift Es0).
    assert (B : built_as [] (repeat [] (rc + 2)) (lput_l s la (set_l_list (GSlice (gs_arr (l_list hl)) (rc + 2)) hl))).
    { exists (repeat [] (rc + 2)). split; cbn [ll ln lput_l].
      - eexists. split; [apply set_at_same|]. split; cbn; [assumption..| |apply clean_row_ok; assumption].
        exists (firstn (rc + 2) (gs_arr (l_list hl))), (skipn (rc + 2) (gs_arr (l_list hl))). rewrite firstn_skipn, firstn_length.
        split; [f_equal; lia|].
        assert (Fa : Forall (fun r => row_ok r []) (gs_arr (l_list hl))) by (apply Forall_forall; intros r Hr; apply clean_row_ok; auto).
        rewrite <- (firstn_skipn (rc + 2) (gs_arr (l_list hl))) in Fa. apply Forall_app in Fa. destruct Fa as [Fa1 Fa2]. split; [|exact Fa2].
        apply Forall_Forall2_nil in Fa1. rewrite firstn_length in Fa1. replace (Nat.min _ _) with (rc + 2) in Fa1 by lia. exact Fa1.
      - rewrite !map_repeat || (clear; induction (rc + 2); cbn; f_equal; assumption).
      - intros i j a0. rewrite nth2_repeat. discriminate.
      - intros i j i' j' a0. rewrite nth2_repeat. discriminate.
      - intros a0 h Ha. exfalso. exact (Fn _ _ Ha).
      - intros b Hb. rewrite set_at_other by exact Hb. auto. }
    eapply wp_seq; [exact (sim_add E1 B)|]. intros [] t1 B1. cbn beta in B1. apply (wp_lift Es1).
    eapply wp_seq; [exact (sim_add E2 B1)|]. intros [] t2 B2. exact (sim_build_loop E B2).
Qed.

(** ** Forward *)
Lemma total_cost_val ideo m n t hn ht pn pt : n = h_val hn pn -> t = h_val ht pt ->
  total_cost d ideo m (h_val hn None) (h_val ht None) = total_cost d ideo m n t.
Proof. intros -> ->. reflexivity. Qed.

Lemma upd2_ok v i j f v' : upd2 v i j f = Ok v' -> v' = update_nth v i (fun l => update_nth l j f).
Proof. unfold upd2, update. destruct (i <? length v); congruence. Qed.

Variable cells : list (list addr).
Variables (ideo : ideographic) (m : lmode).

Lemma sim_relax s outs v v' i idx ta start j a h n target total :
  rep s la d u cells outs v -> nth2 cells i idx = Some ta -> ln s ta = Some (true, h) -> start = h_start h ->
  nth2 cells start j = Some a ->
  get2 v start j = Ok n -> get2 v i idx = Ok target -> total_cost d ideo m n target = Ok total ->
  (if (j =? 0)%nat || (wrap32 total <? n_cost target)%Z then upd2 v i idx (set_cost_prev (wrap32 total) (Some (start, j))) else Ok v) = Ok v' ->
  wp (h_relax ideo m la i idx ta (j, Some a)) (fun _ s' => rep s' la d u cells outs v' /\ exists h', ln s' ta = Some (true, h') /\ h_start h' = start) s.
Proof.
  intros R Ht Eh -> Ha En Et Ec E. unfold h_relax. cbn [deref pbind].
  destruct (rep_get R Ha) as (hn & n' & E1 & E2 & E3 & E4). apply get2_nth2 in En. rewrite En in E2. injection E2 as <-.
  destruct (rep_get R Ht) as (ht & t' & T1 & T2 & T3 & T4). apply get2_nth2 in Et. rewrite Et in T2. injection T2 as <-.
  rewrite Eh in T1. injection T1 as <-.
  apply (wp_node_read E1). apply (wp_node_read Eh). destruct (r_lat R) as (hl & El & L). apply (wp_lat_read El). apply (wp_deref (lo_dic L)).
  rewrite <- (total_cost_val ideo m E3 T3) in Ec. apply (wp_lift Ec). apply (rep_cell R Ht). apply (wp_node_read Eh).
  rewrite T3 in E. cbn [n_cost h_val] in E. destruct ((j =? 0) || (wrap32 total <? h_cost h)%Z).
  - apply upd2_ok in E. subst v'. apply (wp_node_set Eh). eapply wp_node_read; [cbn [ln lput_n]; apply set_at_same|]. cbn [h_start set_h_cost].
    set (s1 := lput_n s ta true (set_h_cost (wrap32 total) h)).
    assert (R1 : rep s1 la d u cells outs (update_nth v i (fun l => update_nth l idx (set_cost (wrap32 total))))).
    { apply (rep_write R Ht Eh (s' := s1) (h' := set_h_cost (wrap32 total) h)); [reflexivity..|]. intros x -> Hp. cbn. split; [reflexivity|exact Hp]. }
    apply (rep_cell R1 Ha). eapply wp_node_set0; [cbn [ln lput_n s1]; apply set_at_same|]. split.
    + apply (rep_write R Ht Eh (h' := set_h_prev (Some a) (set_h_cost (wrap32 total) h))).
      * intros x. cbn [ln lput_n s1]. unfold set_at. destruct (x =? ta); reflexivity.
      * reflexivity.
      * intros x -> Hp. cbn. split; [reflexivity|exact Ha].
    + eexists. split; [cbn [ln lput_n]; apply set_at_same|reflexivity].
  - injection E as <-. split; [exact R|eauto].
Qed.

Lemma sim_relax_loop outs i idx ta start : nth2 cells i idx = Some ta -> forall l s j v v',
  (forall k, k < length l -> nth2 cells start (j + k) = nth_error l k) ->
  relax_loop d ideo m i idx start j (length l) v = Ok v' ->
  rep s la d u cells outs v /\ (exists h, ln s ta = Some (true, h) /\ h_start h = start) ->
  wp (peach (h_relax ideo m la i idx ta) (combine (seq j (length l)) (map Some l)))
     (fun _ s' => rep s' la d u cells outs v' /\ exists h', ln s' ta = Some (true, h') /\ h_start h' = start) s.
Proof.
  intros Ht l. induction l as [|a l IH]; intros s j v v' Hl E (R & h & Eh & Es); cbn [relax_loop length] in *.
  - injection E as <-. cbn. split; [exact R|]. exists h. auto.
  - apply ok_bind in E. destruct E as (n & En & E). apply ok_bind in E. destruct E as (t & Et & E).
    apply ok_bind in E. destruct E as (total & Ec & E). apply ok_bind in E. destruct E as (v1 & E1 & E).
    assert (Ha : nth2 cells start j = Some a) by (specialize (Hl 0 ltac:(lia)); rewrite Nat.add_0_r in Hl; exact Hl).
    cbn [seq map combine]. unfold peach. cbn [pfold]. eapply wp_seq.
    + exact (sim_relax R Ht Eh (eq_sym Es) Ha En Et Ec E1).
    + intros [] s1 R1. cbn beta in R1. apply IH with (v := v1); [|exact E|exact R1].
      intros k Hk. specialize (Hl (S k) ltac:(lia)). rewrite Nat.add_succ_r in Hl. exact Hl.
Qed.

Lemma combine_map_some l j : combine (seq j (length (map (@Some addr) l))) (map Some l) = combine (seq j (length l)) (map Some l).
Proof. rewrite map_length. reflexivity. Qed.

Lemma sim_forward_target s outs v v' i idx ta : rep s la d u cells outs v -> nth2 cells i idx = Some ta ->
  forward_target d ideo m i v idx = Ok v' -> wp (h_forward_target ideo m la i (idx, Some ta)) (fun _ s' => rep s' la d u cells outs v') s.
Proof.
  intros R Ht E. unfold forward_target in E. unfold h_forward_target. cbn [deref pbind].
  destruct (rep_get R Ht) as (h & t & Eh & T2 & T3 & T4). apply ok_bind in E. destruct E as (t' & Et & E). apply get2_nth2 in Et. rewrite T2 in Et. injection Et as <-.
  apply ok_bind in E. destruct E as (pl & Ep & E). apply (wp_node_read Eh). destruct (r_lat R) as (hl & El & L). apply (wp_lat_read El).
  assert (Hst : n_start t = h_start h) by (rewrite T3; reflexivity). rewrite Hst in *.
  unfold index in Ep. destruct (nth_error v (h_start h)) as [rv|] eqn:Ev; [|discriminate]. injection Ep as <-.
  destruct (nth_error cells (h_start h)) as [r|] eqn:Er.
  2:{ pose proof (f_equal (fun l => nth_error l (h_start h)) (r_shape R)) as Hs. cbn beta in Hs. rewrite !nth_map_length, Er, Ev in Hs. discriminate. }
  assert (Hlen : length r = length rv).
  { pose proof (f_equal (fun l => nth_error l (h_start h)) (r_shape R)) as Hs. cbn beta in Hs. rewrite !nth_map_length, Er, Ev in Hs. cbn in Hs. congruence. }
  destruct (rep_rows R Er El) as (x & Ex & Hx). apply (wp_lift Ex). rewrite (row_len Hx), Hlen. destruct (length rv =? 0).
  - apply (rep_cell R Ht). apply upd2_ok in E. subst v'. apply (wp_node_set0 Eh).
    apply (rep_write R Ht Eh (h' := set_h_cost maximum_cost h)); [reflexivity..|]. intros y -> Hp. cbn. split; [reflexivity|exact Hp].
  - unfold with_index. rewrite (row_list Hx), map_length. eapply wp_mono.
    + eapply sim_relax_loop with (v := v) (v' := v') (start := h_start h); [exact Ht| |rewrite Hlen; exact E|split; [exact R|eauto]].
      intros k Hk. cbn [Nat.add]. unfold nth2. rewrite Er. reflexivity.
    + intros _ s' [H _]. exact H.
Qed.

Lemma Forall2_combine (l : list addr) j : Forall2 (fun (x : nat * option addr) (k : nat) => fst x = k /\ exists a, snd x = Some a /\ nth_error l (k - j) = Some a /\ j <= k)
  (combine (seq j (length l)) (map Some l)) (seq j (length l)).
Proof.
  revert j. induction l as [|a l IH]; intros j; cbn; constructor.
  - cbn. split; [reflexivity|]. exists a. rewrite Nat.sub_diag. auto.
  - eapply Forall2_impl_in; [apply IH|]. intros [k' x] k _ [H1 (b & H2 & H3 & H4)]. cbn in *. subst. split; [reflexivity|].
    exists b. split; [reflexivity|]. split; [|lia]. replace (k - j) with (S (k - S j)) by lia. exact H3.
Qed.

Lemma sim_forward_pos s outs v v' i : rep s la d u cells outs v -> forward_pos d ideo m v i = Ok v' ->
  wp (h_forward_pos ideo m la i) (fun _ s' => rep s' la d u cells outs v') s.
Proof.
  intros R E. unfold forward_pos in E. unfold h_forward_pos. apply ok_bind in E. destruct E as (cur & Ec & E).
  unfold index in Ec. destruct (nth_error v i) as [rv|] eqn:Ev; [|discriminate]. injection Ec as <-.
  destruct (nth_error cells i) as [r|] eqn:Er.
  2:{ pose proof (f_equal (fun l => nth_error l i) (r_shape R)) as Hs. cbn beta in Hs. rewrite !nth_map_length, Er, Ev in Hs. discriminate. }
  assert (Hlen : length r = length rv).
  { pose proof (f_equal (fun l => nth_error l i) (r_shape R)) as Hs. cbn beta in Hs. rewrite !nth_map_length, Er, Ev in Hs. cbn in Hs. congruence. }
  destruct (r_lat R) as (hl & El & L). apply (wp_lat_read El). destruct (rep_rows R Er El) as (x & Ex & Hx). apply (wp_lift Ex).
  unfold with_index, peach. rewrite (row_list Hx), map_length. rewrite <- Hlen in E.
  refine (sim_fold (P := fun _ v s => rep s la d u cells outs v) (Forall2_combine r 0) _ E R).
  intros _ [k o] k' w w' s0 (Hk & a & Ho & Ha & _) Ek R0. cbn in Hk, Ho. subst. rewrite Nat.sub_0_r in Ha.
  refine (sim_forward_target R0 _ Ek). unfold nth2. rewrite Er. exact Ha.
Qed.

Lemma sim_forward s outs v v' : rep s la d u cells outs v -> forward d ideo m v = Ok v' ->
  wp (h_forward ideo m la) (fun _ s' => rep s' la d u cells outs v') s.
Proof.
  intros R E. unfold h_forward. destruct (r_lat R) as (hl & El & L). apply (wp_lat_read El). rewrite (rep_len R El). unfold peach.
  refine (sim_fold (P := fun _ v s => rep s la d u cells outs v) (Forall2_same _) _ E R).
  intros _ k k' w w' s0 <- Ek R0. exact (sim_forward_pos R0 Ek).
Qed.

(** ** Backward *)
Definition out_ok (s : lheap) (a : addr) (n : node) : Prop := exists b h p, ln s a = Some (b, h) /\ n = h_val h p.
(** Objects of s are still there, unchanged, in s'. *)
Definition keeps (s s' : lheap) : Prop := forall a x, ln s a = Some x -> ln s' a = Some x.

Lemma out_keeps s s' outs ns : keeps s s' -> Forall2 (out_ok s) outs ns -> Forall2 (out_ok s') outs ns.
Proof. intros K F. induction F as [|a n outs ns (b & h & p & E1 & E2) F IH]; constructor; [|assumption]. exists b, h, p. auto. Qed.
Lemma keeps_refl s : keeps s s.
Proof. intros a x H. exact H. Qed.
Lemma keeps_trans s s' s'' : keeps s s' -> keeps s' s'' -> keeps s s''.
Proof. intros H1 H2 a x H. auto. Qed.

(** The pointers of la.Output against those of [backward_ptrs]: a cell of la.list, or a node the
    goroutine has allocated itself. *)
Definition ptr_ok (s : lheap) (a : addr) (c : option coord) : Prop :=
  match c with Some c => nth2 cells (fst c) (snd c) = Some a | None => exists h, ln s a = Some (false, h) end.
Lemma ptr_keeps s s' outs cs : keeps s s' -> Forall2 (ptr_ok s) outs cs -> Forall2 (ptr_ok s') outs cs.
Proof. intros K F. induction F as [|a c outs cs E F IH]; constructor; [|assumption]. destruct c; cbn in *; [exact E|]. destruct E as (h & E). exists h. auto. Qed.

Lemma rep_new s outs v a n : rep s la d u cells outs v -> ln s a = None -> rep (lput_n s a false n) la d u cells outs v /\ keeps s (lput_n s a false n).
Proof.
  intros R Ha. assert (K : keeps s (lput_n s a false n)).
  { intros b x Hb. cbn. rewrite set_at_other; [exact Hb|]. intros ->. congruence. }
  split; [|exact K]. split.
  - exact (r_lat R).
  - exact (r_shape R).
  - intros i j b Hc. destruct (r_nodes R Hc) as (w & Hw & h & E1 & E2). exists w. split; [exact Hw|]. exists h. split; [apply K; exact E1|exact E2].
  - exact (r_inj R).
  - intros b h. cbn. unfold set_at. destruct (b =? a); [discriminate|]. apply (r_own R).
  - exact (r_only R).
Qed.

Lemma sim_output s outs v a (Q : unit -> lheap -> Prop) : rep s la d u cells outs v -> (forall s', keeps s s' -> rep s' la d u cells (outs ++ [a]) v -> Q tt s') -> wp (h_output la a) Q s.
Proof.
  intros R HQ. destruct (r_lat R) as (hl & El & L). unfold h_output. apply (wp_lat_read El). apply wp_append. intros extra.
  apply (wp_lat_set0 El). apply HQ; [intros b x Hb; exact Hb|]. split.
  - eexists. split; [cbn [ll lput_l]; apply set_at_same|]. split; cbn; try apply L. apply row_append. apply L.
  - exact (r_shape R).
  - intros i j b Hc. exact (r_nodes R Hc).
  - exact (r_inj R).
  - exact (r_own R).
  - intros b Hb. cbn. rewrite set_at_other by exact Hb. apply (r_only R). exact Hb.
Qed.

Lemma sim_stack outs v p pv h l : pv = h_val h p -> forall s i, rep s la d u cells outs v ->
  wp (h_stack h i l) (fun st s' => keeps s s' /\ rep s' la d u cells outs v /\ Forall2 (out_ok s') st (split_from pv i l) /\
    Forall (fun a => ptr_ok s' a None) st) s.
Proof.
  intros Hp. induction l as [|[k r] l IH]; intros s i R; cbn [h_stack split_from].
  - cbn. split; [apply keeps_refl|]. split; [exact R|split; constructor].
  - cbn [pbind node_new wp]. intros a Ha. set (nn := HNode _ _ _ _ _ _ _ _ _ _). destruct (rep_new nn R Ha) as (R1 & K1).
    eapply wp_seq; [exact (IH _ (S i) R1)|]. intros st s2 (K2 & R2 & F2 & P2). cbn. split; [eapply keeps_trans; eassumption|]. split; [exact R2|].
    split; (constructor; [|assumption]).
    + exists false, nn, None. split; [apply K2; cbn; apply set_at_same|]. rewrite Hp. reflexivity.
    + exists nn. apply K2. cbn. apply set_at_same.
Qed.

Lemma sim_pops v st sv r : forall js o s outs out cs, mapM (fun j => index sv (r - 1 - j)) js = Ok o -> rep s la d u cells outs v ->
  Forall2 (out_ok s) st sv -> Forall (fun a => ptr_ok s a None) st -> Forall2 (out_ok s) outs out -> Forall2 (ptr_ok s) outs cs ->
  wp (peach (fun j => do x <- lift (index st (r - 1 - j)); h_output la x) js)
     (fun _ s' => keeps s s' /\ exists outs', rep s' la d u cells outs' v /\ Forall2 (out_ok s') outs' (out ++ o) /\
        Forall2 (ptr_ok s') outs' (cs ++ map (fun _ => None) o)) s.
Proof.
  induction js as [|j js IH]; intros o s outs out cs E R Fs Ps Fo Fp; cbn [mapM] in E.
  - injection E as <-. cbn. split; [apply keeps_refl|]. exists outs. rewrite !app_nil_r. auto.
  - apply ok_bind in E. destruct E as (x & Ex & E). apply ok_bind in E. destruct E as (o' & Eo & E). injection E as <-.
    unfold peach. cbn [pfold]. unfold index in Ex. destruct (nth_error sv (r - 1 - j)) as [nv|] eqn:En; [|discriminate]. injection Ex as <-.
    assert (Hst : exists a, nth_error st (r - 1 - j) = Some a /\ out_ok s a nv).
    { clear - Fs En. revert En. generalize (r - 1 - j). induction Fs; intros [|k] H'; cbn in *; try discriminate; [|eauto].
      injection H' as ->. eauto. }
    destruct Hst as (a & Ea & Ha). apply wp_seq with (Q' := fun _ s' => keeps s s' /\ rep s' la d u cells (outs ++ [a]) v).
    + eapply wp_lift; [unfold index; rewrite Ea; reflexivity|]. eapply sim_output; [exact R|]. intros s' K R'. auto.
    + intros [] s1 (K1 & R1).
      assert (Fo1 : Forall2 (out_ok s1) (outs ++ [a]) (out ++ [nv])).
      { apply Forall2_app; [exact (out_keeps K1 Fo)|]. constructor; [|constructor]. destruct Ha as (b & h & p & E1 & E2). exists b, h, p. auto. }
      assert (Ps1 : Forall (fun a => ptr_ok s1 a None) st).
      { eapply Forall_impl; [|exact Ps]. intros b (h & Hh). exists h. auto. }
      assert (Fp1 : Forall2 (ptr_ok s1) (outs ++ [a]) (cs ++ [None])).
      { apply Forall2_app; [exact (ptr_keeps K1 Fp)|]. constructor; [|constructor]. rewrite Forall_forall in Ps1. apply Ps1. eapply nth_error_In. exact Ea. }
      eapply wp_mono; [exact (IH o' s1 _ _ _ Eo R1 (out_keeps K1 Fs) Ps1 Fo1 Fp1)|]. intros [] s2 (K2 & outs2 & R2 & F2 & P2).
      split; [eapply keeps_trans; eassumption|]. exists outs2. rewrite <- app_assoc in F2, P2. auto.
Qed.

Lemma sim_visit s outs out cs v i j a n o po : rep s la d u cells outs v -> nth2 cells i j = Some a -> nth2 v i j = Some n ->
  output_of m n = Ok o -> output_ptrs m (i, j) n = Ok po -> Forall2 (out_ok s) outs out -> Forall2 (ptr_ok s) outs cs ->
  wp (h_visit m la a) (fun _ s' => keeps s s' /\ exists outs', rep s' la d u cells outs' v /\ Forall2 (out_ok s') outs' (out ++ o) /\
    Forall2 (ptr_ok s') outs' (cs ++ po)) s.
Proof.
  intros R Hc Hn E Ep Fo Fp. destruct (rep_get R Hc) as (h & n' & E1 & E2 & E3 & E4). rewrite Hn in E2. injection E2 as <-.
  unfold h_visit. apply (wp_node_read E1). unfold output_ptrs in Ep. rewrite E in Ep. unfold output_of in E.
  assert (Ec : n_class n = h_class h) by (rewrite E3; reflexivity). rewrite Ec in E, Ep.
  assert (P : wp (h_output la a) (fun _ s' => keeps s s' /\ exists outs', rep s' la d u cells outs' v /\ Forall2 (out_ok s') outs' (out ++ [n]) /\
    Forall2 (ptr_ok s') outs' (cs ++ [Some (i, j)])) s).
  { eapply sim_output; [exact R|]. intros s' K R'. split; [exact K|]. exists (outs ++ [a]). split; [exact R'|]. split.
    - apply Forall2_app; [exact (out_keeps K Fo)|]. constructor; [|constructor]. exists true, h, (n_prev n). auto.
    - apply Forall2_app; [exact (ptr_keeps K Fp)|]. constructor; [exact Hc|constructor]. }
  destruct m, (h_class h); try (injection E as <-; injection Ep as <-; exact P).
  assert (Es : n_surface n = h_surface h) by (rewrite E3; reflexivity). rewrite Es in E. cbn zeta in *. injection Ep as <-.
  eapply wp_seq; [exact (sim_stack (range_string (h_surface h)) E3 0 R)|]. intros st s1 (K1 & R1 & F1 & P1). cbn beta.
  rewrite (Forall2_length F1). eapply wp_mono; [exact (sim_pops E R1 F1 P1 (out_keeps K1 Fo) (ptr_keeps K1 Fp))|].
  intros [] s2 (K2 & H2). split; [eapply keeps_trans; eassumption|exact H2].
Qed.

Lemma sim_walk v : forall fuel s outs out out' cs cs' i j a n, walk fuel m v n out = Ok out' -> walk_ptrs fuel m v (i, j) cs = Ok cs' ->
  rep s la d u cells outs v -> nth2 cells i j = Some a -> nth2 v i j = Some n -> Forall2 (out_ok s) outs out -> Forall2 (ptr_ok s) outs cs ->
  wp (h_walk fuel m la (Some a)) (fun _ s' => exists outs', rep s' la d u cells outs' v /\ Forall2 (out_ok s') outs' out' /\ Forall2 (ptr_ok s') outs' cs') s.
Proof.
  induction fuel as [|fuel IH]; intros s outs out out' cs cs' i j a n E Ec R Hc Hn Fo Fp; cbn [walk walk_ptrs] in E, Ec; [discriminate|]. cbn [h_walk].
  apply ok_bind in E. destruct E as (o & Eo & E). cbn [fst snd] in Ec. rewrite (proj2 (get2_nth2 _ _ _ _) Hn) in Ec. cbn [rbind] in Ec.
  apply ok_bind in Ec. destruct Ec as (po & Epo & Ec). eapply wp_seq; [exact (sim_visit R Hc Hn Eo Epo Fo Fp)|].
  intros [] s1 (K & outs1 & R1 & F1 & P1). destruct (rep_get R1 Hc) as (h & n' & E1 & E2 & E3 & E4). rewrite Hn in E2. injection E2 as <-.
  apply (wp_node_read E1). destruct (n_prev n) as [[i' j']|] eqn:Ep, (h_prev h) as [a'|]; cbn in E4; try contradiction.
  - apply ok_bind in E. destruct E as (q & Eq & E). apply get2_nth2 in Eq. exact (IH _ _ _ _ _ _ _ _ _ _ E Ec R1 E4 Eq F1 P1).
  - injection E as <-. injection Ec as <-. destruct fuel; cbn; exists outs1; auto.
Qed.

Lemma walk_ptrs_total v : forall fuel n c out out' cs, get2 v (fst c) (snd c) = Ok n -> walk fuel m v n out = Ok out' ->
  exists cs', walk_ptrs fuel m v c cs = Ok cs'.
Proof.
  induction fuel as [|fuel IH]; intros n c out out' cs Hn E; cbn [walk walk_ptrs] in *; [discriminate|]. rewrite Hn. cbn [rbind].
  apply ok_bind in E. destruct E as (o & Eo & E).
  assert (P : exists po, output_ptrs m c n = Ok po) by (unfold output_ptrs; rewrite Eo; destruct m, (n_class n); cbn; eauto).
  destruct P as (po & Ep). rewrite Ep. cbn [rbind]. destruct (n_prev n) as [[i' j']|]; [|eauto].
  apply ok_bind in E. destruct E as (q & Eq & E). exact (IH q (i', j') _ _ _ Eq E).
Qed.
Lemma backward_ptrs_total v out : backward m v = Ok out -> exists cs, backward_ptrs m v = Ok cs.
Proof.
  unfold backward, backward_ptrs. destruct (length v) as [|k]; [eauto|]. intros E. apply ok_bind in E. destruct E as (p & Ep & E).
  exact (walk_ptrs_total (c := (k, 0)) [] Ep E).
Qed.

Lemma sim_backward s v out cs : rep s la d u cells [] v -> backward m v = Ok out -> backward_ptrs m v = Ok cs ->
  wp (h_backward m la) (fun _ s' => exists outs', rep s' la d u cells outs' v /\ Forall2 (out_ok s') outs' out /\ Forall2 (ptr_ok s') outs' cs) s.
Proof.
  intros R E Ec. unfold h_backward. unfold backward in E. unfold backward_ptrs in Ec. destruct (r_lat R) as (hl & El & L). apply (wp_lat_read El).
  rewrite (rep_len R El). destruct (length v) as [|k].
  - injection E as <-. injection Ec as <-. cbn. exists []. auto.
  - apply ok_bind in E. destruct E as (p & Ep & E). apply get2_nth2 in Ep. destruct (rep_addr R Ep) as (a & Ha).
    apply (rep_cell R Ha). exact (sim_walk E Ec R Ha Ep (Forall2_nil _) (Forall2_nil _)).
Qed.

(** ** Tokens *)
Lemma sim_tokens t s outs v out ts : rep s la d u cells outs v -> Forall2 (out_ok s) outs out -> analyze_tokens t out = Ok ts ->
  wp (h_tokens t la) (fun r s' => r = ts /\ s' = s) s.
Proof.
  intros R F E. unfold h_tokens. destruct (r_lat R) as (hl & El & L). apply (wp_lat_read El). cbn zeta.
  rewrite (row_len (lo_out L)), (Forall2_length F). unfold analyze_tokens in E.
  refine (wp_mono (sim_fold (P := fun r w s' => r = w /\ s' = s) (Forall2_same _) _ E (conj eq_refl eq_refl)) _); [|auto].
  intros r i y w w' s0 <- Ei [-> ->]. apply ok_bind in Ei. destruct Ei as (n & En & Ei). apply (wp_lat_read El).
  unfold index in En. destruct (nth_error out (length out - 1 - i)) as [n'|] eqn:En'; [|discriminate]. injection En as ->.
  assert (Ho : exists a, nth_error outs (length out - 1 - i) = Some a /\ out_ok s a n).
  { clear - F En'. revert En'. generalize (length out - 1 - i). induction F; intros [|k] H'; cbn in *; try discriminate; [|eauto]. injection H' as ->. eauto. }
  destruct Ho as (a & Ea & b & h & p & E1 & E2). apply (wp_lift (row_index (lo_out L) Ea)). apply (wp_deref eq_refl). apply (wp_node_read E1).
  subst n. cbn [n_id h_val] in Ei. destruct (tk_omit t && (h_id h =? bos_eos_id)%Z); injection Ei as <-; cbn; split; reflexivity.
Qed.

Lemma sim_graph_tokens t s outs v out ts : rep s la d u cells outs v -> Forall2 (out_ok s) outs out ->
  foldM (fun tokens i => let* n := index out (length out - 1 - i) in Ok (tokens ++ [make_graph_token t i n])) (seq 0 (length out)) [] = Ok ts ->
  wp (h_graph_tokens t la) (fun r s' => r = ts /\ s' = s) s.
Proof.
  intros R F E. unfold h_graph_tokens. destruct (r_lat R) as (hl & El & L). apply (wp_lat_read El). cbn zeta.
  rewrite (row_len (lo_out L)), (Forall2_length F).
  refine (wp_mono (sim_fold (P := fun r w s' => r = w /\ s' = s) (Forall2_same _) _ E (conj eq_refl eq_refl)) _); [|auto].
  intros r i y w w' s0 <- Ei [-> ->]. apply ok_bind in Ei. destruct Ei as (n & En & Ei). apply (wp_lat_read El).
  unfold index in En. destruct (nth_error out (length out - 1 - i)) as [n'|] eqn:En'; [|discriminate]. injection En as ->.
  assert (Ho : exists a, nth_error outs (length out - 1 - i) = Some a /\ out_ok s a n).
  { clear - F En'. revert En'. generalize (length out - 1 - i). induction F; intros [|k] H'; cbn in *; try discriminate; [|eauto]. injection H' as ->. eauto. }
  destruct Ho as (a & Ea & b & h & p & E1 & E2). apply (wp_lift (row_index (lo_out L) Ea)). apply (wp_deref eq_refl). apply (wp_node_read E1).
  subst n. injection Ei as <-. cbn. split; reflexivity.
Qed.
End Rep.

(** ** Free *)
Lemma inj_NoDup (cells : list (list addr)) : (forall i j i' j' a, nth2 cells i j = Some a -> nth2 cells i' j' = Some a -> i = i' /\ j = j') -> NoDup (concat cells).
Proof.
  induction cells as [|r cells IH]; intros H; cbn [concat]; [constructor|].
  assert (Hr : NoDup r).
  { apply NoDup_nth_error. intros i j Hi E. destruct (nth_error r i) as [a|] eqn:Ei; [|apply nth_error_None in Ei; lia].
    destruct (H 0 i 0 j a); [exact Ei|symmetry; exact E|assumption]. }
  assert (Hc : NoDup (concat cells)) by (apply IH; intros i j i' j' a H1 H2; destruct (H (S i) j (S i') j' a H1 H2); split; congruence).
  assert (Hd : forall a, In a r -> ~ In a (concat cells)).
  { intros a Ha Hb. apply In_nth_error in Ha. destruct Ha as (j & Ha). apply in_concat in Hb. destruct Hb as (l & Hl & Hb).
    apply In_nth_error in Hl. destruct Hl as (i & Hl). apply In_nth_error in Hb. destruct Hb as (k & Hb).
    destruct (H 0 j (S i) k a) as [E _]; [exact Ha|unfold nth2; cbn; rewrite Hl; exact Hb|discriminate]. }
  clear H IH. revert Hr Hd. induction r as [|x r IHr]; intros Hr Hd; cbn [app]; [assumption|]. inversion Hr; subst. constructor.
  - rewrite in_app_iff. intros [H|H]; [contradiction|]. apply (Hd x); [left; reflexivity|assumption].
  - apply IHr; [assumption|]. intros a Ha. apply Hd. right. exact Ha.
Qed.

Section Free.
Variable la : addr.
(** The pooled nodes of s are exactly those in own. *)
Definition owns (s : lheap) (own : list addr) : Prop := NoDup own /\ forall a, In a own <-> exists h, ln s a = Some (true, h).

Record freeing (s : lheap) (dn rest tail : list row) (own : list addr) : Prop := {
  fr_lat : exists hl, ll s la = Some hl /\ l_input hl = [] /\ clean_row (l_output hl) /\
    l_list hl = GSlice (dn ++ rest ++ tail) (length dn + length rest);
  fr_dn : Forall clean_row dn;
  fr_tail : Forall clean_row tail;
  fr_own : owns s own;
  fr_only : forall b, b <> la -> ll s b = None
}.

Lemma owns_del s a own : owns s (a :: own) -> owns (ldel_n s a) own.
Proof.
  intros [N H]. inversion N; subst. split; [assumption|]. intros x. cbn. unfold set_at. destruct (Nat.eqb_spec x a) as [->|D].
  - split; [contradiction|intros (h & E); discriminate].
  - rewrite <- H. cbn. split; [auto|intros [E|E]; [congruence|assumption]].
Qed.

Lemma gs_index_mid (dn rest tail : list row) r : gs_index (GSlice (dn ++ (r :: rest) ++ tail) (length dn + length (r :: rest))) (length dn) = Ok r.
Proof.
  unfold gs_index. cbn [gs_len gs_arr length]. destruct (Nat.ltb_spec (length dn) (length dn + S (length rest))); [|lia].
  unfold index. rewrite nth_error_app2 by lia. rewrite Nat.sub_diag. reflexivity.
Qed.
Lemma gs_put_mid (dn rest tail : list row) r r' n : gs_put (GSlice (dn ++ (r :: rest) ++ tail) n) (length dn) r' = GSlice (dn ++ (r' :: rest) ++ tail) n.
Proof. unfold gs_put. cbn [gs_arr gs_len]. f_equal. apply update_app_mid. Qed.

Lemma sim_free_nodes dn rest tail own : forall l j k s, freeing s dn (GSlice (repeat None j ++ map Some l ++ repeat None k) (j + length l) :: rest) tail (l ++ own) ->
  wp (peach (fun j =>
           do l <- lat_read la;
           do s <- lift (gs_index (l_list l) (length dn));
           do p <- lift (gs_index s j);
           do a <- deref p;
           node_put a;;
           lat_set la (fun l => set_l_list (gs_put (l_list l) (length dn) (gs_put s j None)) l)) (seq j (length l)))
     (fun _ s' => freeing s' dn (GSlice (repeat None (j + length l) ++ repeat None k) (j + length l) :: rest) tail own) s.
Proof.
  induction l as [|a l IH]; intros j k s F; cbn [length seq].
  - cbn. rewrite Nat.add_0_r. rewrite Nat.add_0_r in F. cbn in F. exact F.
  - unfold peach. cbn [pfold]. destruct (fr_lat F) as (hl & El & Ei & Eo & Ell).
    apply wp_seq with (Q' := fun _ s' => freeing s' dn (GSlice (repeat None (S j) ++ map Some l ++ repeat None k) (S j + length l) :: rest) tail (l ++ own)).
    + apply (wp_lat_read El). eapply wp_lift; [rewrite Ell; apply gs_index_mid|].
      eapply wp_lift.
      { unfold gs_index. cbn [gs_len gs_arr length]. destruct (Nat.ltb_spec j (j + S (length l))); [|lia]. unfold index.
        rewrite nth_error_app2 by (rewrite repeat_length; lia). rewrite repeat_length, Nat.sub_diag. reflexivity. }
      apply (wp_deref eq_refl). cbn [pbind node_put wp]. split.
      { apply (proj2 (fr_own F)). left. reflexivity. }
      eapply wp_lat_set0; [exact El|]. cbn beta. rewrite Ell, gs_put_mid. split.
      * eexists. split; [cbn [ll lput_l]; apply set_at_same|]. cbn [l_input l_output l_list set_l_list]. split; [exact Ei|]. split; [exact Eo|].
        f_equal. f_equal. cbn [app]. f_equal. unfold gs_put. cbn [gs_arr gs_len map app]. f_equal; [|cbn; lia].
        rewrite <- (repeat_length (@None addr) j) at 2. rewrite update_app_mid. clear. induction j; cbn; [reflexivity|]. f_equal. exact IHj.
      * exact (fr_dn F).
      * exact (fr_tail F).
      * apply (owns_del (fr_own F)).
      * intros b Hb. cbn [ll lput_l ldel_n]. rewrite set_at_other by exact Hb. apply (fr_only F). exact Hb.
    + intros [] s' F'. rewrite Nat.add_succ_r. apply (IH (S j) k s'). exact F'.
Qed.

Lemma sim_free_row dn rest tail own s r l : row_ok r l -> freeing s dn (r :: rest) tail (l ++ own) ->
  wp (h_free_row la (length dn)) (fun _ s' => exists r', freeing s' (dn ++ [r']) rest tail own) s.
Proof.
  intros (k & ->) F. unfold h_free_row. destruct (fr_lat F) as (hl & El & Ei & Eo & Ell). apply (wp_lat_read El).
  eapply wp_lift; [rewrite Ell; apply gs_index_mid|]. cbn [gs_len].
  eapply wp_seq; [exact (sim_free_nodes (j := 0) (k := k) (l := l) (own := own) F)|]. clear s F hl El Ei Eo Ell. intros [] s F. cbn [Nat.add] in F.
  destruct (fr_lat F) as (hl & El & Ei & Eo & Ell). apply (wp_lat_read El). eapply wp_lift; [rewrite Ell; apply gs_index_mid|].
  apply (wp_lift (x := GSlice (repeat None (length l) ++ repeat None k) 0)); [reflexivity|]. apply (wp_lat_set0 El). cbn beta.
  rewrite Ell, gs_put_mid. exists (GSlice (repeat None (length l) ++ repeat None k) 0). split.
  - eexists. split; [cbn [ll lput_l]; apply set_at_same|]. cbn [l_input l_output l_list set_l_list]. split; [exact Ei|]. split; [exact Eo|].
    rewrite <- app_assoc. cbn [app]. rewrite app_length. cbn [length]. f_equal. lia.
  - apply Forall_app. split; [exact (fr_dn F)|]. constructor; [|constructor]. split; cbn; [reflexivity|].
    intros x. rewrite in_app_iff. intros [H|H]; apply repeat_spec in H; exact H.
  - exact (fr_tail F).
  - exact (fr_own F).
  - intros b Hb. cbn. rewrite set_at_other by exact Hb. apply (fr_only F). exact Hb.
Qed.

Lemma sim_free_rows tail : forall rest cells dn s, Forall2 row_ok rest cells -> freeing s dn rest tail (concat cells) ->
  wp (peach (h_free_row la) (seq (length dn) (length rest))) (fun _ s' => exists dn', freeing s' dn' [] tail []) s.
Proof.
  induction rest as [|r rest IH]; intros cells dn s F2 F; cbn [length seq].
  - inversion F2; subst. cbn. eauto.
  - inversion F2 as [|? l ? cells' Hr F2']; subst. unfold peach. cbn [pfold]. eapply wp_seq; [exact (sim_free_row Hr F)|].
    intros [] s1 (r' & F1). specialize (IH cells' (dn ++ [r']) s1 F2' F1). rewrite app_length in IH. cbn [length] in IH.
    replace (length dn + 1) with (S (length dn)) in IH by lia. exact IH.
Qed.

Lemma sim_free_outs : forall l j k s hl, ll s la = Some hl -> l_output hl = GSlice (repeat None j ++ map Some l ++ repeat None k) (j + length l) ->
  wp (peach (fun i => lat_set la (fun l => set_l_output (gs_put (l_output l) i None) l)) (seq j (length l)))
     (fun _ s' => (forall a, ln s' a = ln s a) /\ (forall b, b <> la -> ll s' b = ll s b) /\
        ll s' la = Some (set_l_output (GSlice (repeat None (j + length l) ++ repeat None k) (j + length l)) hl)) s.
Proof.
  induction l as [|a l IH]; intros j k s hl El Eo; cbn [length seq].
  - cbn. split; [reflexivity|]. split; [reflexivity|]. rewrite El. f_equal. rewrite Nat.add_0_r in *. cbn in Eo. rewrite <- Eo. destruct hl; reflexivity.
  - unfold peach. cbn [pfold]. eapply wp_lat_set; [exact El|]. eapply wp_mono.
    + apply (IH (S j) k); [cbn [ll lput_l]; apply set_at_same|]. cbn [l_output set_l_output]. rewrite Eo. unfold gs_put. cbn [gs_arr gs_len map app].
      f_equal; [|cbn; lia]. rewrite <- (repeat_length (@None addr) j) at 2. rewrite update_app_mid. clear. induction j; cbn; [reflexivity|]. f_equal. exact IHj.
    + intros [] s' (H1 & H2 & H3). split; [exact H1|]. split.
      * intros b Hb. rewrite (H2 b Hb). cbn. apply set_at_other. exact Hb.
      * rewrite H3. rewrite Nat.add_succ_r. reflexivity.
Qed.

Lemma sim_free s d u cells outs v : rep s la d u cells outs v -> wp (h_free la) (fun _ s' => empty s') s.
Proof.
  intros R. destruct (r_lat R) as (hl & El & L). unfold h_free. apply (wp_lat_set El). eapply wp_lat_read; [cbn [ll lput_l]; apply set_at_same|].
  cbn [l_output set_l_input]. destruct (lo_out L) as (k & Eo). destruct (lo_list L) as (rows & tail & Ell & F & T). rewrite Eo. cbn [gs_len].
  eapply wp_seq.
  { apply (sim_free_outs (l := outs) (j := 0) (k := k) (hl := set_l_input [] hl)); [cbn [ll lput_l]; apply set_at_same|exact Eo]. }
  intros [] s1 (H1 & H2 & H3). cbn [Nat.add] in H3. apply (wp_lat_read H3). eapply wp_lift; [reflexivity|]. cbn [l_output set_l_output gs_arr].
  apply (wp_lat_set H3). eapply wp_lat_read; [cbn [ll lput_l]; apply set_at_same|]. cbn [l_list set_l_output set_l_input]. rewrite Ell. cbn [gs_len].
  eapply wp_seq.
  { apply (sim_free_rows (tail := tail) (dn := []) (rest := rows) (cells := cells) F). split.
    - eexists. split; [cbn [ll lput_l]; apply set_at_same|]. cbn [l_input l_output l_list set_l_output set_l_input]. split; [reflexivity|]. split.
      + split; cbn; [reflexivity|]. intros x. rewrite in_app_iff. intros [H|H]; apply repeat_spec in H; exact H.
      + rewrite Ell. reflexivity.
    - constructor.
    - eapply Forall_impl; [|exact T]. intros r. apply clean_row_ok.
    - split; [apply inj_NoDup; exact (r_inj R)|]. intros a. cbn [ln lput_l]. rewrite H1. cbn [ln lput_l]. split.
      + intros Ha. apply in_concat in Ha. destruct Ha as (r & Hr & Ha). apply In_nth_error in Hr. destruct Hr as (i & Hr). apply In_nth_error in Ha. destruct Ha as (j & Ha).
        assert (Hc : nth2 cells i j = Some a) by (unfold nth2; rewrite Hr; exact Ha). destruct (rep_get R Hc) as (h & n & E1 & _). eauto.
      + intros (h & Eh). destruct (r_own R Eh) as (i & j & Hc). unfold nth2 in Hc. destruct (nth_error cells i) as [r|] eqn:Er; [|discriminate].
        apply in_concat. exists r. split; [eapply nth_error_In; exact Er|eapply nth_error_In; exact Hc].
    - intros b Hb. cbn [ll lput_l]. rewrite set_at_other by exact Hb. rewrite (H2 b Hb). cbn [ll lput_l]. rewrite set_at_other by exact Hb. apply (r_only R). exact Hb. }
  intros [] s2 (dn & Fr). destruct (fr_lat Fr) as (hl2 & El2 & Ei2 & Eo2 & Ell2). apply (wp_lat_read El2).
  eapply wp_lift; [reflexivity|]. apply (wp_lat_set El2). eapply wp_lat_set; [cbn [ll lput_l]; apply set_at_same|]. cbn [lat_put wp]. split.
  - eexists. split; [cbn [ll lput_l]; apply set_at_same|]. split; cbn; [exact Ei2|exact Eo2|reflexivity| |reflexivity].
    rewrite Ell2. cbn [gs_arr]. intros r. cbn [app]. rewrite in_app_iff. intros [H|H].
    + pose proof (fr_dn Fr) as Hf. rewrite Forall_forall in Hf. auto.
    + pose proof (fr_tail Fr) as Hf. rewrite Forall_forall in Hf. auto.
  - split.
    + intros a h Ha. cbn [ln ldel_l lput_l] in Ha. destruct (fr_own Fr) as (_ & Ho). destruct (proj2 (Ho a) (ex_intro _ h Ha)).
    + intros b. cbn [ll ldel_l lput_l]. unfold set_at. destruct (Nat.eqb_spec b la) as [->|D]; [reflexivity|]. apply (fr_only Fr). exact D.
Qed.
End Free.

(** ** Analyze *)
(** The common part of Analyze and AnalyzeGraph: New, Build, Forward, Backward, then the rest. *)
Lemma sim_run A ideo t inp mode v1 v2 out cs (f : addr -> prog A) (Q : A -> lheap -> Prop) s :
  build (tk_dict t) (tk_udict t) inp = Ok v1 -> forward (tk_dict t) ideo (to_lmode mode) v1 = Ok v2 ->
  backward (to_lmode mode) v2 = Ok out -> backward_ptrs (to_lmode mode) v2 = Ok cs -> empty s ->
  (forall la cells outs s', rep s' la (tk_dict t) (tk_udict t) cells outs v2 -> Forall2 (out_ok s') outs out -> Forall2 (ptr_ok cells s') outs cs ->
     wp (f la) Q s') ->
  wp (do la <- h_new (tk_dict t) (tk_udict t); h_build la inp;; h_forward ideo (to_lmode mode) la;; h_backward (to_lmode mode) la;; f la) Q s.
Proof.
  intros Eb Ef Eo Ec [Z1 Z2] Hf.
  apply wp_bind. unfold h_new. cbn [pbind lat_get wp]. intros la l Hla Hcl.
  eapply wp_lat_set; [cbn [ll lput_l]; apply set_at_same|]. eapply wp_lat_set; [cbn [ll lput_l]; apply set_at_same|]. apply wp_ret.
  set (s1 := lput_l _ _ _). assert (F : fresh la (tk_dict t) (tk_udict t) s1).
  { split.
    - eexists. split; [cbn [ll lput_l s1]; apply set_at_same|]. cbn. split; [reflexivity|]. split; [reflexivity|]. split; [apply Hcl|]. split; [apply Hcl|apply Hcl].
    - exact Z1.
    - intros b Hb. cbn. rewrite !set_at_other by exact Hb. apply Z2. }
  clearbody s1. eapply wp_seq; [exact (sim_build Eb F)|]. intros [] s2 (cells & R2). cbn beta.
  eapply wp_seq; [exact (sim_forward R2 Ef)|]. intros [] s3 R3. cbn beta in R3.
  eapply wp_seq; [exact (sim_backward R3 Eo Ec)|]. intros [] s4 (outs & R4 & F4 & P4). cbn beta.
  exact (Hf la cells outs s4 R4 F4 P4).
Qed.

Theorem sim_analyze ideo t inp mode ts s : analyze ideo t inp mode = Ok ts -> empty s ->
  wp (h_analyze ideo t inp mode) (fun r s' => r = ts /\ empty s') s.
Proof.
  intros E Hs. unfold analyze, run_lattice in E. apply ok_bind in E. destruct E as (lo & E & Et).
  cbn zeta in E. apply ok_bind in E. destruct E as (v1 & Eb & E). apply ok_bind in E. destruct E as (v2 & Ef & E).
  apply ok_bind in E. destruct E as (out & Eo & E). injection E as <-. cbn [snd] in Et. destruct (backward_ptrs_total Eo) as (cs & Ec).
  refine (sim_run Eb Ef Eo Ec Hs _). intros la cells outs s4 R4 F4 _.
  eapply wp_seq; [exact (sim_tokens R4 F4 Et)|]. intros r s5 [-> ->].
  eapply wp_seq; [exact (sim_free R4)|]. intros [] s6 H6. cbn. auto.
Qed.

Theorem sim_wakati ideo t inp ws s : wakati ideo t inp = Ok ws -> empty s ->
  wp (h_wakati ideo t inp) (fun r s' => r = ws /\ empty s') s.
Proof.
  intros E Hs. unfold wakati in E. apply ok_bind in E. destruct E as (ts & Et & E). injection E as <-. unfold h_wakati.
  eapply wp_seq; [exact (sim_analyze Et Hs)|]. intros r s1 [-> H1]. cbn. auto.
Qed.
