(** Facts about the filters over memory. *)
From Verif Require Import SpecInplace SpecFilter Slices FilterFacts BuildFacts.
From Coq Require Import Lia.
Set Implicit Arguments.
Unset Strict Implicit.

Definition okb (p : pass) (v : token) : bool := match ps_match p v with Ok _ => true | _ => false end.
Definition keepb (p : pass) (v : token) : bool := match ps_match p v with Ok b => negb (Bool.eqb b (ps_drop p)) | _ => false end.
Definition sel (p : pass) (l : list token) : list token := filter (keepb p) l.
Fixpoint finalp (base : list token) (len : nat) (ps : list pass) : option (list token * nat) :=
  match ps with
  | [] => Some (base, len)
  | p :: rest => if forallb (okb p) (firstn len base) then finalp (over (sel p (firstn len base)) base) (length (sel p (firstn len base))) rest else None
  end.

Lemma sel_length p l : length (sel p l) <= length l.
Proof. unfold sel. induction l as [|v l IH]; cbn [filter length]; [lia|]. destruct (keepb p v); cbn [length]; lia. Qed.
Lemma sel_firstn p i l : length (sel p (firstn i l)) <= i.
Proof. pose proof (sel_length p (firstn i l)). rewrite firstn_length in H. lia. Qed.
Lemma over_nth o b j : length o <= length b -> nth_error (over o b) j = if j <? length o then nth_error o j else nth_error b j.
Proof.
  intros L. unfold over. destruct (j <? length o) eqn:E.
  - apply Nat.ltb_lt in E. apply nth_error_app1. exact E.
  - apply Nat.ltb_ge in E. rewrite nth_error_app2 by exact E. rewrite <- (firstn_skipn (length o) b) at 2. rewrite nth_error_app2; rewrite firstn_length_le by lia; [reflexivity|lia].
Qed.
Lemma over_length o b : length o <= length b -> length (over o b) = length b.
Proof. intros L. unfold over. rewrite app_length, skipn_length. lia. Qed.
Lemma firstn_one {A} (l : list A) i v : nth_error l i = Some v -> firstn (S i) l = firstn i l ++ [v].
Proof.
  revert i. induction l as [|x l IH]; intros [|i] H; cbn in H; try discriminate; [injection H as ->; reflexivity|].
  change (firstn (S (S i)) (x :: l)) with (x :: firstn (S i) l). rewrite (IH _ H). reflexivity.
Qed.
Lemma sel_one p l i v : nth_error l i = Some v -> sel p (firstn (S i) l) = sel p (firstn i l) ++ if keepb p v then [v] else [].
Proof. intros H. rewrite (firstn_one H). unfold sel. rewrite filter_app. cbn. destruct (keepb p v); reflexivity. Qed.

(** ** Memory *)
Lemma get_cell m s i v : i < sl_len s -> cell m (sl_arr s) (sl_off s + i) = Some v -> t_get m s i = Ok v.
Proof.
  intros H C. unfold t_get, cell, index in *. rewrite (proj2 (Nat.ltb_lt _ _) H). destruct (nth_error m (sl_arr s)); [|discriminate]. cbn [rbind]. rewrite C. reflexivity.
Qed.
Lemma put_cell m s i v m' : t_put m s i v = Ok m' ->
  forall a j, cell m' a j = if (a =? sl_arr s) && (j =? sl_off s + i) then Some v else cell m a j.
Proof.
  unfold t_put, index. destruct (i <? sl_len s); [|discriminate]. destruct (nth_error m (sl_arr s)) as [l|] eqn:E; [|discriminate]. cbn [rbind].
  unfold update at 1. destruct (sl_off s + i <? length l) eqn:L; [|discriminate]. cbn [rbind]. unfold update. destruct (sl_arr s <? length m) eqn:M; [|discriminate].
  intros [= <-] a j. unfold cell. rewrite nth_error_update_nth. destruct (a =? sl_arr s) eqn:A; cbn [andb]; [|reflexivity].
  apply Nat.eqb_eq in A. subst a. rewrite E. cbn [option_map]. rewrite nth_error_update_nth. destruct (j =? sl_off s + i) eqn:J; [|reflexivity].
  apply Nat.eqb_eq in J. subst j. apply Nat.ltb_lt in L. destruct (nth_error l (sl_off s + i)) eqn:Z; [reflexivity|]. apply nth_error_None in Z. lia.
Qed.
Lemma put_ok m s i v x : i < sl_len s -> cell m (sl_arr s) (sl_off s + i) = Some x -> exists m', t_put m s i v = Ok m'.
Proof.
  intros H C. unfold t_put, cell, index in *. rewrite (proj2 (Nat.ltb_lt _ _) H). destruct (nth_error m (sl_arr s)) as [l|] eqn:E; [|discriminate]. cbn [rbind].
  unfold update. rewrite (proj2 (Nat.ltb_lt (sl_off s + i) (length l))) by (apply nth_error_Some; congruence). cbn [rbind].
  rewrite (proj2 (Nat.ltb_lt (sl_arr s) (length m))) by (apply nth_error_Some; congruence). eauto.
Qed.
Lemma holds_same m m' s ts : (forall a i, reaches s a i -> cell m' a i = cell m a i) -> holds m s ts -> holds m' s ts.
Proof. intros E (L & C & H). split; [exact L|]. split; [exact C|]. intros i I. rewrite E; [apply H; exact I|]. split; [reflexivity|lia]. Qed.

(** ** One goroutine *)
Definition shaped (s0 : sl) (g : gstate) : Prop :=
  match g with
  | GHead s i tail _ _ => s = shortened s0 (sl_len s) /\ sl_len s <= sl_len s0 /\ tail <= i <= sl_len s
  | GRead _ s i tail _ _ => s = shortened s0 (sl_len s) /\ sl_len s <= sl_len s0 /\ tail <= i /\ i < sl_len s
  | _ => True
  end.
Lemma next_shaped s0 s ps : s = shortened s0 (sl_len s) -> sl_len s <= sl_len s0 -> shaped s0 (g_next s ps).
Proof. intros E L. destruct ps; cbn; [exact I|]. split; [exact E|]. lia. Qed.
Lemma step_frame m s0 g : shaped s0 g -> forall a i, ~ reaches s0 a i -> cell (fst (g_step m g)) a i = cell m a i.
Proof.
  intros S a i N. destruct g as [s k tail p rest|v s k tail p rest|s|]; cbn [g_step]; try reflexivity.
  - destruct (k <? sl_len s); [destruct (t_get m s k); reflexivity|destruct (t_head s tail); reflexivity].
  - destruct (ps_match p v) as [b| |]; try reflexivity. destruct (Bool.eqb b (ps_drop p)); [reflexivity|]. destruct (negb (k =? tail)); [|reflexivity].
    destruct (t_put m s tail v) as [m'| |] eqn:E; try reflexivity. cbn [fst]. rewrite (put_cell E). destruct ((a =? sl_arr s) && (i =? sl_off s + tail)) eqn:Z; [|reflexivity].
    apply andb_true_iff in Z. destruct Z as (A & J). apply Nat.eqb_eq in A, J. cbn in S. destruct S as (S & L & T). exfalso. apply N. rewrite S in A, J. cbn in A, J. split; [congruence|]. lia.
Qed.
Lemma step_shaped m s0 g : shaped s0 g -> shaped s0 (snd (g_step m g)).
Proof.
  intros S. destruct g as [s k tail p rest|v s k tail p rest|s|]; cbn [g_step]; try exact S.
  - cbn in S. destruct (k <? sl_len s) eqn:E.
    + apply Nat.ltb_lt in E. destruct (t_get m s k); cbn; try exact I. intuition lia.
    + unfold t_head. destruct (tail <=? sl_cap s); [|exact I]. cbn [snd]. destruct S as (S & L & T). apply next_shaped; [|cbn; lia]. rewrite S. reflexivity.
  - cbn in S. destruct (ps_match p v) as [b| |]; try exact I. destruct (Bool.eqb b (ps_drop p)); [cbn; intuition lia|]. destruct (negb (k =? tail)); [|cbn; intuition lia].
    destruct (t_put m s tail v); [cbn; intuition lia|exact I..].
Qed.
Definition sound (s0 : sl) (fin : list token * nat) (m : tmemory) (g : gstate) : Prop :=
  match g with
  | GHead s i tail p rest => exists base, finalp base (sl_len s) (p :: rest) = Some fin /\ length base = sl_len s0 /\
      tail = length (sel p (firstn i base)) /\ holds m s0 (over (sel p (firstn i base)) base)
  | GRead v s i tail p rest => exists base, finalp base (sl_len s) (p :: rest) = Some fin /\ length base = sl_len s0 /\
      tail = length (sel p (firstn i base)) /\ holds m s0 (over (sel p (firstn i base)) base) /\ nth_error base i = Some v
  | GDone s => s = shortened s0 (snd fin) /\ holds m s0 (fst fin)
  | GPanic => False
  end.
Lemma next_sound s0 fin m s ps base : s = shortened s0 (sl_len s) -> finalp base (sl_len s) ps = Some fin -> length base = sl_len s0 -> holds m s0 base -> sound s0 fin m (g_next s ps).
Proof.
  intros E F L H. destruct ps as [|p rest]; cbn [g_next sound].
  - cbn in F. injection F as <-. split; [exact E|exact H].
  - exists base. split; [exact F|]. split; [exact L|]. split; [reflexivity|exact H].
Qed.
Lemma step_sound m s0 fin g : sl_len s0 <= sl_cap s0 -> shaped s0 g -> sound s0 fin m g -> sound s0 fin (fst (g_step m g)) (snd (g_step m g)).
Proof.
  intros Cap S A. destruct g as [s k tail p rest|v s k tail p rest|s|]; cbn [g_step]; try exact A.
  - destruct A as (base & F & L & T & H). cbn in S. destruct S as (S & SL & ST). pose proof (sel_firstn p k base) as Q. destruct (k <? sl_len s) eqn:E.
    + apply Nat.ltb_lt in E. destruct (nth_error base k) as [v|] eqn:V; [|apply nth_error_None in V; lia].
      assert (G : t_get m s k = Ok v). { apply get_cell; [exact E|]. destruct H as (_ & _ & H). specialize (H k ltac:(lia)). rewrite S. cbn. rewrite H, over_nth by lia. rewrite (proj2 (Nat.ltb_ge _ _) Q). exact V. }
      rewrite G. cbn. exists base. auto.
    + apply Nat.ltb_ge in E. assert (k = sl_len s) by lia. subst k. unfold t_head. assert (C : sl_cap s = sl_cap s0) by (rewrite S; reflexivity).
      rewrite (proj2 (Nat.leb_le tail (sl_cap s))) by lia. cbn [fst snd]. cbn [finalp] in F. destruct (forallb _ _); [|discriminate].
      apply next_sound with (base := over (sel p (firstn (sl_len s) base)) base); cbn [sl_len].
      * rewrite S. reflexivity.
      * rewrite T. exact F.
      * rewrite over_length; [exact L|lia].
      * exact H.
  - destruct A as (base & F & L & T & H & V). cbn in S. destruct S as (S & SL & ST & SK). pose proof (sel_firstn p k base) as Q. pose proof (sel_one p V) as O.
    assert (F' := F). cbn [finalp] in F'. destruct (forallb (okb p) (firstn (sl_len s) base)) eqn:B; [|discriminate].
    assert (K : okb p v = true). { rewrite forallb_forall in B. apply B. apply nth_error_In with k. rewrite <- (firstn_skipn (sl_len s) base) in V. rewrite nth_error_app1 in V; [exact V|]. rewrite firstn_length. lia. }
    unfold okb in K. unfold keepb in O. destruct (ps_match p v) as [b| |]; try discriminate. destruct (Bool.eqb b (ps_drop p)); cbn [negb] in O.
    + rewrite app_nil_r in O. cbn [fst snd sound]. exists base. rewrite O. auto.
    + set (o := sel p (firstn k base)) in *. assert (LO : length (o ++ [v]) <= length base) by (rewrite app_length; cbn; lia).
      assert (N : forall j, nth_error (over (o ++ [v]) base) j = if j =? length o then Some v else nth_error (over o base) j).
      { intros j. rewrite !over_nth by (rewrite ?app_length in *; cbn in *; lia). rewrite app_length. cbn [length]. destruct (j =? length o) eqn:J.
        - apply Nat.eqb_eq in J. subst j. rewrite (proj2 (Nat.ltb_lt _ _)) by lia. rewrite nth_error_app2, Nat.sub_diag by lia. reflexivity.
        - apply Nat.eqb_neq in J. destruct (j <? length o) eqn:JL.
          + apply Nat.ltb_lt in JL. rewrite (proj2 (Nat.ltb_lt _ _)) by lia. apply nth_error_app1. exact JL.
          + apply Nat.ltb_ge in JL. rewrite (proj2 (Nat.ltb_ge _ _)) by lia. reflexivity. }
      assert (TL : tail < sl_len s0) by lia.
      assert (D : forall m', (forall i, i < sl_len s0 -> cell m' (sl_arr s0) (sl_off s0 + i) = if i =? tail then Some v else cell m (sl_arr s0) (sl_off s0 + i)) -> holds m' s0 (over (o ++ [v]) base)).
      { intros m' M. destruct H as (H1 & H2 & H3). split; [rewrite over_length by exact LO; exact L|]. split; [exact H2|]. intros i I. rewrite M, N by exact I. rewrite T. destruct (i =? length o); [reflexivity|]. apply H3. exact I. }
      destruct (negb (k =? tail)) eqn:Z.
      * assert (X : exists x, cell m (sl_arr s) (sl_off s + tail) = Some x).
        { rewrite S. cbn. destruct H as (H1 & H2 & H3). rewrite (H3 tail TL). destruct (nth_error (over o base) tail) eqn:X; [eauto|]. apply nth_error_None in X. rewrite over_length in X by lia. lia. }
        destruct X as (x & X). assert (TS : tail < sl_len s) by lia. destruct (put_ok v TS X) as (m' & E). rewrite E. cbn [fst snd sound]. exists base. rewrite O. split; [exact F|]. split; [exact L|]. split; [rewrite app_length; cbn; lia|].
        apply D. intros i I. rewrite (put_cell E). rewrite S. cbn. rewrite Nat.eqb_refl. cbn. destruct (i =? tail) eqn:Y; [apply Nat.eqb_eq in Y; subst i; rewrite Nat.eqb_refl; reflexivity|].
        apply Nat.eqb_neq in Y. rewrite (proj2 (Nat.eqb_neq _ _)) by lia. reflexivity.
      * apply negb_false_iff, Nat.eqb_eq in Z. cbn [fst snd sound]. exists base. rewrite O. split; [exact F|]. split; [exact L|]. split; [rewrite app_length; cbn; lia|].
        apply D. intros i I. destruct (i =? tail) eqn:Y; [|reflexivity]. apply Nat.eqb_eq in Y. subst i. destruct H as (H1 & H2 & H3). rewrite H3 by exact TL. rewrite over_nth by lia.
        rewrite (proj2 (Nat.ltb_ge _ _)) by lia. rewrite <- Z. exact V.
Qed.

(** ** What the passes make of a value *)
Definition asking (p : pass) (u : unit) (t : token) : res (unit * bool) := let* b := ps_match p t in Ok (u, b).
Lemma select_sel p l out u : spec_select (asking p) (negb (ps_drop p)) tt l = Ok (u, out) -> forallb (okb p) l = true /\ out = sel p l.
Proof.
  destruct u. revert out. induction l as [|v l IH]; intros out H; cbn in H; [injection H as <-; split; reflexivity|]. unfold asking, okb, sel in *. cbn [forallb filter]. unfold keepb at 1.
  destruct (ps_match p v) as [b| |]; cbn [rbind] in H; try discriminate. destruct (spec_select _ _ _ _) as [[[] o]| |]; try discriminate. injection H as <-.
  destruct (IH o eq_refl) as (-> & ->). split; [reflexivity|]. destruct b, (ps_drop p); reflexivity.
Qed.
Lemma final_one p ts out : forallb (okb p) ts = true /\ out = sel p ts -> finalp ts (length ts) [p] = Some (over out ts, length out).
Proof. intros (A & ->). cbn [finalp]. rewrite firstn_all, A. reflexivity. Qed.
Lemma spec_select_ext {S A} (f g : S -> A -> res (S * bool)) w l : (forall s a, f s a = g s a) -> forall s, spec_select f w s l = spec_select g w s l.
Proof. intros E. induction l as [|a l IH]; intros s; cbn; [reflexivity|]. rewrite E. destruct (g s a) as [[s' b]| |]; [rewrite IH|..]; reflexivity. Qed.
Lemma pos_sel f d ts out : pos_apply f d (Some ts) = Ok (Some out) -> forallb (okb (Pass (ask_pos f) d)) ts = true /\ out = sel (Pass (ask_pos f) d) ts.
Proof.
  rewrite pos_apply_ok. intros H. destruct (spec_select _ _ _ _) as [[u o]| |] eqn:E; try discriminate. injection H as <-.
  apply (@select_sel (Pass (ask_pos f) d) ts o u). cbn [ps_drop]. rewrite <- E. apply spec_select_ext. intros [] t. unfold asking, ask_pos, pos_pred. cbn [ps_match]. destruct (token_pos t); reflexivity.
Qed.
Lemma word_sel f d ts out : word_apply f d (Some ts) = Ok (Some out) -> forallb (okb (Pass (ask_word f) d)) ts = true /\ out = sel (Pass (ask_word f) d) ts.
Proof.
  rewrite word_apply_ok. intros [= <-]. split; [apply forallb_forall; reflexivity|]. apply filter_ext. intros t. unfold keepb, ask_word. cbn. destruct (word_match _ _), d; reflexivity.
Qed.
Lemma by_sel q d ts out : (let* r := apply_filter (fun (_ : unit) t => Ok (tt, q t)) d (Some ts) tt in Ok (snd r)) = Ok (Some out) ->
  forallb (okb (Pass (fun v => Ok (q v)) d)) ts = true /\ out = sel (Pass (fun v => Ok (q v)) d) ts.
Proof.
  rewrite apply_filter_ok. intros H. destruct (spec_select _ _ _ _) as [[u o]| |] eqn:E; try discriminate. cbn in H. injection H as <-.
  apply (@select_sel (Pass (fun v => Ok (q v)) d) ts o u). cbn [ps_drop]. rewrite <- E. apply spec_select_ext. intros [] t. reflexivity.
Qed.
Lemma call_final c ts out : call_value c ts = Ok (Some out) -> finalp ts (length ts) (passes_of c) = Some (remains c ts out, length out).
Proof.
  destruct c as [q|q|f|f|f|f|f]; cbn [call_value passes_of remains]; intros H.
  - apply final_one, by_sel. exact H.
  - apply final_one, by_sel. exact H.
  - apply final_one, pos_sel. exact H.
  - apply final_one, pos_sel. exact H.
  - apply final_one, word_sel. exact H.
  - apply final_one, word_sel. exact H.
  - unfold ja_drop in H. destruct (pos_drop (jf_stop_tags f) (Some ts)) as [[mid|]| |] eqn:E; try discriminate. cbn [rbind] in H.
    apply pos_sel in E. apply word_sel in H. destruct E as (A & ->). destruct H as (B & ->). cbn [finalp]. rewrite firstn_all, A.
    set (mid := sel _ ts) in *. assert (M : firstn (length mid) (over mid ts) = mid) by (unfold over; rewrite firstn_app, firstn_all, Nat.sub_diag; cbn; apply app_nil_r).
    rewrite M, B. reflexivity.
Qed.

(** ** The work of a goroutine is bounded *)
Definition measure (g : gstate) : nat :=
  match g with
  | GHead s i _ _ rest => 2 * (sl_len s - i) + 1 + length rest * (2 * sl_len s + 1)
  | GRead _ s i _ _ rest => 2 * (sl_len s - i) + length rest * (2 * sl_len s + 1)
  | _ => 0
  end.
Lemma step_measure m s0 g : shaped s0 g -> stopped g = false -> measure (snd (g_step m g)) < measure g.
Proof.
  intros S N. destruct g as [s k tail p rest|v s k tail p rest|s|]; try discriminate; cbn [g_step shaped] in *.
  - destruct (k <? sl_len s) eqn:E.
    + apply Nat.ltb_lt in E. destruct (t_get m s k); cbn [snd measure]; lia.
    + unfold t_head. destruct (tail <=? sl_cap s); [|cbn [snd measure]; lia]. cbn [snd]. destruct rest as [|q rest]; cbn [g_next measure sl_len length]; [lia|].
      destruct S as (_ & _ & T). assert (length rest * (2 * tail + 1) <= length rest * (2 * sl_len s + 1)) by (apply Nat.mul_le_mono_l; lia). lia.
  - destruct (ps_match p v) as [b| |]; cbn [snd measure]; try lia. destruct (Bool.eqb b (ps_drop p)); [cbn [snd measure]; lia|]. destruct (negb (k =? tail)); [|cbn [snd measure]; lia].
    destruct (t_put m s tail v); cbn [snd measure]; lia.
Qed.
Definition work (gs : list gstate) : nat := fold_right (fun g n => measure g + n) 0 gs.
Lemma work_app l r : work (l ++ r) = work l + work r.
Proof. induction l as [|g l IH]; [reflexivity|]. cbn [app work fold_right]. fold (work (l ++ r)). fold (work l). lia. Qed.

(** ** All goroutines *)
Section All.
Variables (m0 : tmemory) (js : list job).
Hypothesis Sep : separate m0 js.
Definition good (x : tmemory * list gstate) : Prop :=
  length (snd x) = length js /\
  (forall a i, (forall j, In j js -> ~ reaches (fst j) a i) -> cell (fst x) a i = cell m0 a i) /\
  (forall k j g, nth_error js k = Some j -> nth_error (snd x) k = Some g ->
    shaped (fst j) g /\
    (forall ts out, holds m0 (fst j) ts -> call_value (snd j) ts = Ok (Some out) -> sound (fst j) (remains (snd j) ts out, length out) (fst x) g)).
Lemma good_start : good (m0, starts js).
Proof.
  split; [apply map_length|]. split; [reflexivity|]. intros k j g J G. cbn [snd] in G. unfold starts in G. rewrite nth_error_map in G. unfold option_map in G. fold job in G. rewrite J in G. injection G as <-.
  assert (E : fst j = shortened (fst j) (sl_len (fst j))) by (destruct (fst j); reflexivity). split; [apply next_shaped; [exact E|lia]|].
  intros ts out H V. apply next_sound with (base := ts); [exact E| |exact (proj1 H)|exact H]. rewrite <- (proj1 H). apply call_final. exact V.
Qed.
Lemma good_step x y : good x -> step_of x y -> good y.
Proof.
  intros (L & O & P) S. destruct S as [m l g r N]. cbn [fst snd] in *.
  assert (GK : nth_error (l ++ g :: r) (length l) = Some g) by (rewrite nth_error_app2, Nat.sub_diag by lia; reflexivity).
  assert (JK : exists j, nth_error js (length l) = Some j). { destruct (nth_error js (length l)) eqn:E; [eauto|]. apply nth_error_None in E. rewrite <- L, app_length in E. cbn in E. lia. }
  destruct JK as (j & JK). destruct (P _ _ _ JK GK) as (SH & SO). pose proof (@step_frame m _ _ SH) as FR.
  split; [cbn [snd]; rewrite <- L, !app_length; reflexivity|]. split; cbn [fst snd].
  - intros a i C. rewrite FR; [apply O; exact C|]. apply C. apply nth_error_In with (length l). exact JK.
  - intros k j' g' J' G'. destruct (Nat.eq_dec k (length l)) as [->|K].
    + rewrite nth_error_app2, Nat.sub_diag in G' by lia. injection G' as <-. rewrite JK in J'. injection J' as <-. split; [apply step_shaped; exact SH|].
      intros ts out H V. apply step_sound; [exact (proj1 (proj2 H))|exact SH|apply SO; assumption].
    + assert (G : nth_error (l ++ g :: r) k = Some g').
      { destruct (Nat.lt_ge_cases k (length l)) as [A|A]; [rewrite nth_error_app1 in G' |- * by exact A; exact G'|]. rewrite nth_error_app2 in G' |- * by exact A. destruct (k - length l) as [|d] eqn:D; [lia|exact G']. }
      destruct (P _ _ _ J' G) as (SH' & SO'). split; [exact SH'|]. intros ts out H V. specialize (SO' ts out H V).
      assert (E : forall a i, reaches (fst j') a i -> cell (fst (g_step m g)) a i = cell m a i) by (intros a i C; apply FR; intros C'; exact (proj2 Sep _ _ _ _ J' JK K a i C C')).
      destruct g' as [s i tail p rest|v s i tail p rest|s|]; cbn [sound] in *.
      * destruct SO' as (base & A & B & C & D). exists base. pose proof (holds_same E D). auto.
      * destruct SO' as (base & A & B & C & D & F). exists base. pose proof (holds_same E D). auto.
      * destruct SO' as (A & B). split; [exact A|exact (holds_same E B)].
      * exact SO'.
Qed.
Lemma good_runs n x : runs n (m0, starts js) x -> good x.
Proof. intros R. remember (m0, starts js) as x0 eqn:E. induction R as [|n x y z R IH S]; [subst; exact good_start|]. exact (good_step (IH E) S). Qed.

Theorem inplace n m gs : runs n (m0, starts js) (m, gs) ->
  (forall a i, (forall j, In j js -> ~ reaches (fst j) a i) -> cell m a i = cell m0 a i) /\
  (forall k s c g ts out, nth_error js k = Some (s, c) -> nth_error gs k = Some g -> holds m0 s ts -> call_value c ts = Ok (Some out) -> stopped g = true ->
    g = GDone (shortened s (length out)) /\ holds m s (remains c ts out)).
Proof.
  intros R. destruct (good_runs R) as (L & O & P). split; [exact O|]. intros k s c g ts out J G H V S. destruct (P _ _ _ J G) as (_ & SO). specialize (SO ts out H V).
  destruct g; try discriminate; [|destruct SO]. destruct SO as (-> & B). split; [reflexivity|exact B].
Qed.
Theorem inplace_bound n x : runs n (m0, starts js) x -> n <= fold_right (fun j k => 4 * sl_len (fst j) + 2 + k) 0 js.
Proof.
  intros R. assert (B : n + work (snd x) <= work (starts js)).
  { remember (m0, starts js) as x0 eqn:E. revert E. induction R as [x|n x y z R IH S]; intros E; [subst; reflexivity|]. specialize (IH E). subst x. destruct (good_runs R) as (L & O & P).
    destruct S as [m l g r N]. cbn [snd] in *. assert (GK : nth_error (l ++ g :: r) (length l) = Some g) by (rewrite nth_error_app2, Nat.sub_diag by lia; reflexivity).
    destruct (nth_error js (length l)) as [j|] eqn:JK; [|apply nth_error_None in JK; rewrite <- L, app_length in JK; cbn in JK; lia].
    pose proof (step_measure m (proj1 (P _ _ _ JK GK)) N). rewrite !work_app in *. cbn [work fold_right] in *. lia. }
  clear R. assert (W : work (starts js) <= fold_right (fun j k => 4 * sl_len (fst j) + 2 + k) 0 js); [|lia].
  clear. induction js as [|[s c] l IH]; [reflexivity|]. cbn [starts map work fold_right fst snd] in *. fold (starts l). fold (work (starts l)).
  assert (measure (g_start s c) <= 4 * sl_len s + 2); [|lia]. destruct c; cbn [g_start passes_of g_next measure length]; lia.
Qed.
Theorem inplace_race n m gs : runs n (m0, starts js) (m, gs) ->
  forall k k' g g' b b' a i a' i', k <> k' -> nth_error gs k = Some g -> nth_error gs k' = Some g' ->
  g_access g = Some (b, a, i) -> g_access g' = Some (b', a', i') -> (a, i) <> (a', i').
Proof.
  intros R k k' g g' b b' a i a' i' K G G' A A' E. injection E as <- <-. destruct (good_runs R) as (L & O & P). cbn [snd] in *.
  assert (Q : forall k g b, nth_error gs k = Some g -> g_access g = Some (b, a, i) -> exists j, nth_error js k = Some j /\ reaches (fst j) a i).
  { clear -L P. intros k g b G A. destruct (nth_error js k) as [j|] eqn:JK; [|apply nth_error_None in JK; rewrite <- L in JK; apply nth_error_None in JK; congruence]. exists j. split; [reflexivity|].
    destruct (P _ _ _ JK G) as (S & _). destruct g as [s x tail p rest|v s x tail p rest|s|]; cbn [g_access shaped] in *; try discriminate.
    - destruct (x <? sl_len s) eqn:X; [|discriminate]. apply Nat.ltb_lt in X. injection A as _ <- <-. destruct S as (S & SL & T). rewrite S. cbn. split; [reflexivity|lia].
    - destruct (ps_match p v) as [c| |]; try discriminate. destruct (Bool.eqb c (ps_drop p)); [discriminate|]. destruct (negb (x =? tail)); [|discriminate]. injection A as _ <- <-.
      destruct S as (S & SL & T). rewrite S. cbn. split; [reflexivity|lia]. }
  destruct (Q _ _ _ G A) as (j & J & C). destruct (Q _ _ _ G' A') as (j' & J' & C'). exact (proj2 Sep _ _ _ _ J J' K a i C C').
Qed.
End All.

(** A given order of steps *)
Fixpoint sched (ks : list nat) (x : tmemory * list gstate) : option (tmemory * list gstate) :=
  match ks with
  | [] => Some x
  | k :: ks' => match nth_error (snd x) k with
    | Some g => if stopped g then sched ks' x else sched ks' (fst (g_step (fst x) g), update_nth (snd x) k (fun _ => snd (g_step (fst x) g)))
    | None => None
    end
  end.
Lemma runs_first n x y z : step_of x y -> runs n y z -> runs (S n) x z.
Proof. intros S R. induction R as [y|n y z w R IH S']; [exact (@runs_more 0 x x y (runs_none x) S)|]. exact (@runs_more _ _ _ _ (IH S) S'). Qed.
Lemma sched_runs ks : forall x y, sched ks x = Some y -> exists n, runs n x y.
Proof.
  induction ks as [|k ks IH]; intros [m gs] y H; cbn [sched fst snd] in H; [injection H as <-; exists 0; constructor|].
  destruct (nth_error gs k) as [g|] eqn:G; [|discriminate]. destruct (stopped g) eqn:St; [exact (IH _ _ H)|]. destruct (IH _ _ H) as (n & R). exists (S n). refine (runs_first _ R).
  destruct (nth_error_split gs k G) as (l & r & -> & <-). rewrite update_nth_mid. constructor. exact St.
Qed.
Lemma inplace_result c ts out m s : call_value c ts = Ok (Some out) -> holds m s (remains c ts out) -> holds m (shortened s (length out)) out.
Proof.
  intros V (L & C & H). assert (P : exists r, remains c ts out = out ++ r).
  { destruct c; try (eexists; reflexivity). cbn [remains call_value] in *. unfold ja_drop in V. destruct (pos_drop _ _) as [[mid|]| |]; try discriminate. eexists. reflexivity. }
  destruct P as (r & P). rewrite P, app_length in L. split; [reflexivity|]. cbn [shortened sl_len sl_cap sl_arr sl_off]. split; [lia|].
  intros i I. rewrite H by lia. rewrite P. apply nth_error_app1. exact I.
Qed.
Lemma sched_ex ks x (f : tmemory * list gstate -> bool) : match sched ks x with Some y => f y | None => false end = true ->
  exists n m gs, runs n x (m, gs) /\ f (m, gs) = true.
Proof.
  intros H. destruct (sched ks x) as [[m gs]|] eqn:E; [|discriminate]. destruct (sched_runs E) as (n & R). exists n, m, gs. split; assumption.
Qed.

(** ** What g_access says is all that a step touches *)
Lemma get_alike m m' s i : cell m' (sl_arr s) (sl_off s + i) = cell m (sl_arr s) (sl_off s + i) -> t_get m' s i = t_get m s i.
Proof.
  intros C. unfold t_get, cell, index in *. destruct (i <? sl_len s); [|reflexivity].
  destruct (nth_error m' (sl_arr s)), (nth_error m (sl_arr s)); cbn [rbind]; rewrite ?C; try reflexivity; rewrite <- ?C; reflexivity.
Qed.
Lemma put_none m s i v : i < sl_len s -> cell m (sl_arr s) (sl_off s + i) = None -> t_put m s i v = Panic.
Proof.
  intros H C. unfold t_put, cell, index in *. rewrite (proj2 (Nat.ltb_lt _ _) H). destruct (nth_error m (sl_arr s)) as [l|] eqn:E; [|reflexivity]. cbn [rbind].
  unfold update at 1. rewrite (proj2 (Nat.ltb_ge (sl_off s + i) (length l))) by (apply nth_error_None; exact C). reflexivity.
Qed.
Theorem access_all m g :
  (forall a i, g_access g <> Some (true, a, i) -> cell (fst (g_step m g)) a i = cell m a i) /\
  (forall m', (forall b a i, g_access g = Some (b, a, i) -> cell m' a i = cell m a i) -> snd (g_step m' g) = snd (g_step m g)).
Proof.
  destruct g as [s i tail p rest|v s i tail p rest|s|]; cbn [g_step g_access]; try (split; reflexivity).
  - destruct (i <? sl_len s).
    + split; [intros a j _; destruct (t_get m s i); reflexivity|]. intros m' H. rewrite (get_alike (H _ _ _ eq_refl)). destruct (t_get m s i); reflexivity.
    + split; [intros a j _|intros m' _]; destruct (t_head s tail); reflexivity.
  - destruct (ps_match p v) as [b| |]; try (split; reflexivity). destruct (Bool.eqb b (ps_drop p)); try (split; reflexivity).
    destruct (negb (i =? tail)); [|split; reflexivity]. split.
    + intros a j H. destruct (t_put m s tail v) as [m'| |] eqn:E; try reflexivity. cbn [fst]. rewrite (put_cell E).
      destruct ((a =? sl_arr s) && (j =? sl_off s + tail)) eqn:Z; [|reflexivity]. exfalso. apply H. apply andb_prop in Z. destruct Z as (Z1 & Z2).
      apply Nat.eqb_eq in Z1. apply Nat.eqb_eq in Z2. subst. reflexivity.
    + intros m' H. specialize (H _ _ _ eq_refl). destruct (tail <? sl_len s) eqn:T.
      * apply Nat.ltb_lt in T. destruct (cell m (sl_arr s) (sl_off s + tail)) as [x|] eqn:C.
        -- destruct (put_ok v T C) as (m1 & ->). destruct (put_ok v T H) as (m2 & ->). reflexivity.
        -- rewrite (put_none v T C), (put_none v T H). reflexivity.
      * unfold t_put. rewrite T. reflexivity.
Qed.
