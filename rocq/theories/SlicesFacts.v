(** The memory version of the tokens' methods agrees with the version over values and shares nothing. *)
From Verif Require Import Slices SpecSlices.
From Coq Require Import Lia ZifyBool ZifyNat.
Set Implicit Arguments.
Unset Strict Implicit.
Open Scope Z_scope.

(** ** Reading *)
Lemma shows_len m s l : shows m s l -> g_len s = length l.
Proof. destruct s as [s|]; cbn; [intros (a & _ & E & _); exact E|intros ->; reflexivity]. Qed.
Lemma shows_more m s l x : shows m s l -> shows (m ++ x) s l.
Proof.
  destruct s as [s|]; cbn; [|auto]. intros (a & A & R). exists a. split; [|exact R]. rewrite nth_error_app1; [exact A|]. apply nth_error_Some. congruence.
Qed.
Lemma shows_read m s l : shows m s l -> g_read m s = Ok l.
Proof.
  destruct s as [s|]; cbn; [|intros ->; reflexivity]. intros (a & A & L & p & q & -> & O). unfold index. rewrite A. cbn [rbind]. unfold slice.
  rewrite O, L. replace (_ && _)%bool with true by (rewrite !app_length; lia). rewrite skipn_app, skipn_all, Nat.sub_diag. cbn [app skipn].
  replace (length p + length l - length p)%nat with (length l + 0)%nat by lia. rewrite firstn_app_2. cbn [firstn]. rewrite app_nil_r. reflexivity.
Qed.
Lemma shows_get m s l i : shows m s l -> g_get m s i = indexZ l i.
Proof.
  destruct s as [s|]; cbn.
  - intros (a & A & L & p & q & -> & O). unfold index. rewrite A, O, L. cbn [rbind]. unfold indexZ. destruct (i <? 0) eqn:N.
    + replace (0 <=? i) with false by lia. reflexivity.
    + replace (0 <=? i) with true by lia. cbn [andb]. destruct (i <? Z.of_nat (length l)) eqn:H.
      * rewrite nth_error_app2 by lia. replace (length p + Z.to_nat i - length p)%nat with (Z.to_nat i) by lia. rewrite nth_error_app1 by lia. reflexivity.
      * rewrite (proj2 (nth_error_None l (Z.to_nat i))) by lia. reflexivity.
  - intros ->. unfold indexZ. destruct (i <? 0); [reflexivity|]. destruct (Z.to_nat i); reflexivity.
Qed.
Lemma shows_dict_more m md d x : shows_dict m md d -> shows_dict (m ++ x) md d.
Proof.
  assert (F : forall a b, Forall2 (shows m) a b -> Forall2 (shows (m ++ x)) a b) by (intros a b H; induction H; constructor; auto using shows_more).
  intros (A & B & C & D & E & G). repeat (split; [solve [auto using shows_more]|]). destruct (md_contents md), (d_contents d); auto.
Qed.
Lemma shows_token_more m mt t x : shows_token m mt t -> shows_token (m ++ x) mt t.
Proof.
  intros (A & B & C & D). repeat (split; [solve [auto using shows_dict_more]|]). destruct (mt_udict mt), (t_udict t); auto.
  induction D as [|mc c l l' (X & Y & Z) D IH]; constructor; [|exact IH]. repeat split; auto using shows_more.
Qed.
Definition forall2_index {A B} (R : A -> B -> Prop) (i : Z) (x : res A) (y : res B) : Prop :=
  match x, y with Ok a, Ok b => R a b | Panic, Panic => True | _, _ => False end.
Lemma indexZ_2 {A B} (R : A -> B -> Prop) l l' i : Forall2 R l l' -> forall2_index R i (indexZ l i) (indexZ l' i).
Proof.
  intros F. unfold indexZ. destruct (i <? 0); [exact I|]. generalize (Z.to_nat i). induction F as [|a b l l' H F IH]; intros [|n]; cbn; try exact I; [exact H|apply IH].
Qed.

(** ** Building *)
Definition fmap {A B} (f : A -> B) (r : res A) : res B := match r with Ok x => Ok (f x) | Panic => Panic | Diverge => Diverge end.
Lemma nth_last {A} (m : list A) x : nth_error (m ++ [x]) (length m) = Some x.
Proof. rewrite nth_error_app2, Nat.sub_diag; [reflexivity|lia]. Qed.
Lemma update_last {A} (m : list A) x f : update (m ++ [x]) (length m) f = Ok (m ++ [f x]).
Proof.
  unfold update. replace (length m <? length (m ++ [x]))%nat with true by (rewrite app_length; cbn [length]; lia). f_equal. induction m as [|y m IH]; [reflexivity|]. cbn. rewrite IH. reflexivity.
Qed.
Lemma zeros_length k : length (zeros k) = k.
Proof. apply repeat_length. Qed.
Lemma zeros_app j k : zeros (j + k) = zeros j ++ zeros k.
Proof. apply repeat_app. Qed.
Lemma append_here grow (m : memory) (done xs : list bytes) k cap : cap = (length done + length xs + k)%nat ->
  g_append grow (m ++ [done ++ zeros (length xs + k)]) (Some (Sl (length m) 0 (length done) cap)) xs =
  Ok (m ++ [(done ++ xs) ++ zeros k], Some (Sl (length m) 0 (length (done ++ xs)) cap)).
Proof.
  intros ->. unfold g_append. cbn [g_len sl_len sl_cap sl_arr sl_off]. replace (_ <=? _)%nat with true by lia. unfold index. rewrite nth_last. cbn [rbind].
  unfold slice. cbn [Nat.add]. replace (_ && _)%bool with true by (rewrite app_length; lia). cbn [rbind].
  replace (_ && _)%bool with true by (rewrite app_length, zeros_length; lia). cbn [rbind]. rewrite update_last. cbn [rbind]. f_equal. f_equal; [|rewrite app_length; reflexivity].
  f_equal. f_equal. rewrite Nat.sub_0_r. cbn [skipn]. rewrite firstn_app, firstn_all, Nat.sub_diag. cbn [firstn]. rewrite app_nil_r, <- app_assoc. f_equal. f_equal.
  rewrite skipn_app, (skipn_all2 done) by lia. cbn [app]. replace (length done + length xs - length done)%nat with (length xs) by lia.
  rewrite zeros_app, skipn_app, skipn_all2 by (rewrite zeros_length; lia). rewrite zeros_length, Nat.sub_diag. cbn [app skipn].
  apply firstn_all2. rewrite app_length, !app_length, !zeros_length. lia.
Qed.
Lemma fold_append {A} grow (g : memory -> A -> res bytes) (f : A -> res bytes) (m : memory) k : (forall x id, g (m ++ [x]) id = f id) -> forall ids (done : list bytes) cap,
  cap = (length done + length ids + k)%nat ->
  foldM (fun ms id => let* x := g (fst ms) id in g_append grow (fst ms) (snd ms) [x]) ids
    (m ++ [done ++ zeros (length ids + k)], Some (Sl (length m) 0 (length done) cap)) =
  fmap (fun l => (m ++ [(done ++ l) ++ zeros k], Some (Sl (length m) 0 (length (done ++ l)) cap))) (mapM f ids).
Proof.
  intros G. induction ids as [|id ids IH]; intros done cap Ec; cbn [foldM mapM].
  - cbn [fmap]. rewrite app_nil_r. reflexivity.
  - cbn [fst snd]. rewrite G. destruct (f id) as [x| |]; [|reflexivity|reflexivity]. cbn [rbind].
    replace (length (id :: ids) + k)%nat with (length [x] + (length ids + k))%nat by (cbn; lia).
    rewrite (@append_here grow m done [x] (length ids + k)%nat cap) by (cbn in *; lia). cbn [rbind].
    rewrite IH by (rewrite app_length; cbn in *; lia). destruct (mapM f ids) as [l| |]; cbn [rbind fmap]; [|reflexivity|reflexivity].
    rewrite <- (app_assoc done [x] l). reflexivity.
Qed.
Lemma put_here (m : memory) (p : list bytes) x q len cap v : (length p < len)%nat ->
  g_put (m ++ [p ++ x :: q]) (Some (Sl (length m) 0 len cap)) (length p) v = Ok (m ++ [p ++ v :: q]).
Proof.
  intros H. unfold g_put. cbn [sl_len sl_arr sl_off]. replace (_ <? _)%nat with true by lia. unfold index. rewrite nth_last. cbn [rbind Nat.add].
  replace (update (p ++ x :: q) (length p) (fun _ => v)) with (Ok (p ++ v :: q)).
  - cbn [rbind]. rewrite update_last. reflexivity.
  - unfold update. replace (_ <? _)%nat with true by (rewrite app_length; cbn [length]; lia). f_equal. clear. induction p as [|y p IH]; [reflexivity|]. cbn. rewrite <- IH. reflexivity.
Qed.
Lemma fold_put (g : memory -> nat -> res bytes) (m : memory) (l : list bytes) cap : (forall x i, g (m ++ [x]) i = index l i) ->
  foldM (fun m' i => let* x := g m' i in g_put m' (Some (Sl (length m) 0 (length l) cap)) i x) (seq 0 (length l)) (m ++ [zeros (length l)]) = Ok (m ++ [l]).
Proof.
  intros G. assert (H : forall p q, l = p ++ q ->
    foldM (fun m' i => let* x := g m' i in g_put m' (Some (Sl (length m) 0 (length l) cap)) i x) (seq (length p) (length q)) (m ++ [p ++ zeros (length q)]) = Ok (m ++ [l])).
  { intros p q. revert p. induction q as [|v q IH]; intros p E.
    - cbn [length seq foldM]. change (zeros 0) with (@nil bytes). rewrite app_nil_r in E. subst p. rewrite app_nil_r. reflexivity.
    - cbn [length seq foldM]. change (zeros (S (length q))) with ((@nil byte : bytes) :: zeros (length q)). rewrite G. unfold index at 1. rewrite E, nth_error_app2, Nat.sub_diag by lia. cbn [nth_error rbind]. rewrite <- E.
      rewrite put_here by (rewrite E, app_length; cbn [length]; lia). cbn [rbind]. specialize (IH (p ++ [v])). rewrite app_length, Nat.add_1_r, <- !app_assoc in IH. apply IH. exact E. }
  exact (H [] l eq_refl).
Qed.

Lemma mapM_length {A B} (f : A -> res B) l : forall r, mapM f l = Ok r -> length l = length r.
Proof.
  induction l as [|x l IH]; intros r E; cbn in E; [injection E as <-; reflexivity|]. destruct (f x); try discriminate. cbn in E. destruct (mapM f l) as [r'| |]; try discriminate.
  cbn in E. injection E as <-. cbn. rewrite (IH r'); reflexivity.
Qed.
Lemma Forall2_length {A B} (R : A -> B -> Prop) l l' : Forall2 R l l' -> length l = length l'.
Proof. induction 1; cbn; congruence. Qed.

Lemma Forall2_impl' {A B} (R S : A -> B -> Prop) : (forall x y, R x y -> S x y) -> forall l l', Forall2 R l l' -> Forall2 S l l'.
Proof. intros I l l' F. induction F; constructor; auto. Qed.
Lemma NoDup_app_one {A} (l : list A) x : NoDup l -> ~ In x l -> NoDup (l ++ [x]).
Proof. intros N I. apply NoDup_rev in N. rewrite <- (rev_involutive (l ++ [x])), rev_app_distr. apply NoDup_rev. cbn. constructor; [rewrite <- in_rev; exact I|exact N]. Qed.

Lemma NoDup_app_two {A} (l l' : list A) : NoDup l -> NoDup l' -> (forall x, In x l -> In x l' -> False) -> NoDup (l ++ l').
Proof.
  intros N N' D. induction N as [|x l I N IH]; [exact N'|]. cbn. constructor; [rewrite in_app_iff; intros [J|J]; [auto|exact (D x (or_introl eq_refl) J)]|].
  apply IH. intros y J. apply D. right. exact J.
Qed.

(** ** The methods *)
Definition as_slice (m : memory) (r : res strings) : res (memory * gslice) :=
  match r with Ok (Some l) => Ok (g_lit m l) | Ok None => Ok (m, None) | Panic => Panic | Diverge => Diverge end.
Section Methods.
Variables (grow : nat -> nat -> nat) (m : memory) (mt : mtoken) (t : token).
Hypothesis H : shows_token m mt t.

Lemma names_ok (done : list bytes) k cap : (exists ids, indexZ (d_pos_ids (t_dict t)) (t_id t) = Ok ids /\ cap = (length done + length ids + k)%nat) ->
  forall ids, indexZ (d_pos_ids (t_dict t)) (t_id t) = Ok ids ->
  m_append_names grow (m ++ [done ++ zeros (length ids + k)]) mt (Some (Sl (length m) 0 (length done) cap)) =
  fmap (fun l => (m ++ [(done ++ l) ++ zeros k], Some (Sl (length m) 0 (length (done ++ l)) cap))) (pos_names_of t).
Proof.
  intros (i0 & E0 & Ec) ids E. rewrite E0 in E. injection E as <-. destruct H as (Ei & _ & (P & _ & _ & N & _) & _). unfold m_append_names, pos_names_of. rewrite P, Ei, E0. cbn [rbind].
  refine (@fold_append Z grow (fun m' id => g_get m' (md_names (mt_dict mt)) id) (fun id => indexZ (d_pos_names (t_dict t)) id) m k _ i0 done cap Ec). intros x id. apply shows_get. apply shows_more. exact N.
Qed.
Lemma names_length ids ns : indexZ (d_pos_ids (t_dict t)) (t_id t) = Ok ids -> pos_names_of t = Ok ns -> length ns = length ids.
Proof.
  intros E En. unfold pos_names_of in En. rewrite E in En. cbn [rbind] in En. clear - En. revert ns En. induction ids as [|i ids IH]; intros ns En; cbn in En; [injection En as <-; reflexivity|].
  destruct (indexZ _ i); try discriminate. cbn in En. destruct (mapM _ ids) as [l| |]; try discriminate. cbn in En. injection En as <-. cbn. rewrite (IH l); reflexivity.
Qed.
Lemma contents_ok : match md_contents (mt_dict mt), d_contents (t_dict t) with None, None => True | Some r, Some c => Forall2 (shows m) r c | _, _ => False end.
Proof. destruct H as (_ & _ & (_ & _ & _ & _ & _ & C) & _). exact C. Qed.
Lemma features_same : m_features grow m mt = as_slice m (features t).
Proof.
  pose proof H as (Ei & Ec & (P & _ & _ & N & U & _) & D). pose proof contents_ok as C. unfold m_features, features. rewrite Ec, Ei. destruct (t_class t).
  - reflexivity.
  - assert (K : forall c row, (forall x, g_read (m ++ [x]) row = Ok c) ->
      (let* ids := indexZ (md_pos_ids (mt_dict mt)) (t_id t) in
       let (m1, s) := g_make m 0 (length ids + length c) in
       let* ms := m_append_names grow m1 mt s in let (m2, s) := ms : memory * gslice in let* xs := g_read m2 row in g_append grow m2 s xs) =
      as_slice m (let* ns := pos_names_of t in Ok (Some (ns ++ c)))).
    { intros c row G. rewrite P. destruct (indexZ (d_pos_ids (t_dict t)) (t_id t)) as [ids| |] eqn:E; [|unfold pos_names_of; rewrite E; reflexivity|unfold pos_names_of; rewrite E; reflexivity].
      cbn [rbind g_make]. change (zeros (length ids + length c)) with ([] ++ zeros (length ids + length c)).
      change (Sl (length m) 0 0) with (Sl (length m) 0 (length (@nil bytes))).
      rewrite (@names_ok [] (length c) (length ids + length c)%nat) by (eauto || (exists ids; split; [exact E|reflexivity])). destruct (pos_names_of t) as [ns| |] eqn:En; cbn [rbind fmap as_slice]; [|reflexivity|reflexivity].
      cbn [app]. rewrite G. cbn [rbind]. rewrite <- (Nat.add_0_r (length c)) at 1.
      pose proof (names_length E En) as L.
      rewrite append_here by lia. unfold g_lit. cbn [repeat]. rewrite app_nil_r, app_length, L. reflexivity. }
    destruct (md_contents (mt_dict mt)) as [rows|], (d_contents (t_dict t)) as [cs|]; try contradiction.
    + pose proof (indexZ_2 (t_id t) C) as I. destruct (indexZ rows (t_id t)) as [row| |], (indexZ cs (t_id t)) as [c| |]; try contradiction; [|reflexivity].
      cbn [forall2_index rbind] in *. rewrite (shows_len I). rewrite <- (K c row); [|intros x; apply shows_read; apply shows_more; exact I].
      destruct (indexZ (md_pos_ids (mt_dict mt)) (t_id t)); reflexivity.
    + clear K. cbn [rbind]. rewrite P. destruct (indexZ (d_pos_ids (t_dict t)) (t_id t)) as [ids| |] eqn:E; [|unfold pos_names_of; rewrite E; reflexivity|unfold pos_names_of; rewrite E; reflexivity].
      cbn [rbind g_make]. change (zeros (length ids + 0)) with ([] ++ zeros (length ids + 0)).
      change (Sl (length m) 0 0) with (Sl (length m) 0 (length (@nil bytes))).
      rewrite (@names_ok [] 0 (length ids + 0)%nat) by (eauto || (exists ids; split; [exact E|reflexivity])). destruct (pos_names_of t) as [ns| |] eqn:En; cbn [rbind fmap as_slice]; [|reflexivity|reflexivity].
      cbn [app repeat]. rewrite !app_nil_r, Nat.add_0_r. unfold g_lit. rewrite (names_length E En). reflexivity.
  - pose proof (indexZ_2 (t_id t) U) as I. destruct (indexZ (md_unk (mt_dict mt)) (t_id t)) as [row| |], (indexZ (d_unk_contents (t_dict t)) (t_id t)) as [c| |]; try contradiction; [|reflexivity].
    cbn [forall2_index rbind g_make as_slice] in *. rewrite (shows_len I).
    rewrite (@fold_put (fun m' i => g_get m' row (Z.of_nat i)) m c (length c)); [reflexivity|]. intros x i. rewrite (@shows_get _ _ c) by (apply shows_more; exact I).
    unfold indexZ, index. replace (_ <? 0) with false by lia. rewrite Nat2Z.id. reflexivity.
  - unfold m_content_of, user_content_of. rewrite Ei. destruct (mt_udict mt) as [mu|], (t_udict t) as [u|]; try contradiction; [|reflexivity].
    pose proof (indexZ_2 (t_id t) D) as I. destruct (indexZ mu (t_id t)) as [mc| |], (indexZ (u_contents u) (t_id t)) as [c| |]; try contradiction; [|reflexivity].
    destruct I as (X & Y & Z). cbn [rbind]. rewrite (shows_read X), (shows_read Y), Z. reflexivity.
Qed.
Lemma pos_same : m_pos grow m mt = as_slice m (token_pos t).
Proof.
  pose proof H as (Ei & Ec & (P & _ & M & N & U & _) & D). unfold m_pos, token_pos. rewrite Ec, Ei. destruct (t_class t).
  - reflexivity.
  - rewrite P. destruct (indexZ (d_pos_ids (t_dict t)) (t_id t)) as [ids| |] eqn:E; [|unfold pos_names_of; rewrite E; reflexivity|unfold pos_names_of; rewrite E; reflexivity].
    cbn [rbind g_make]. rewrite <- (Nat.add_0_r (length ids)). change (zeros (length ids + 0)) with ([] ++ zeros (length ids + 0)).
    change (Sl (length m) 0 0) with (Sl (length m) 0 (length (@nil bytes))).
    rewrite (@names_ok [] 0 (length ids + 0)%nat) by (eauto || (exists ids; split; [exact E|reflexivity])). destruct (pos_names_of t) as [ns| |] eqn:En; cbn [rbind fmap as_slice]; [|reflexivity|reflexivity].
    cbn [app]. change (zeros 0) with (@nil bytes). rewrite !app_nil_r, Nat.add_0_r. unfold g_lit. rewrite (names_length E En). reflexivity.
  - rewrite M. unfold unk_pos_end, unk_pos_start. set (b := match meta_get (d_unk_meta (t_dict t)) key_pos_start with Some v => v | None => 0 end).
    set (e := match meta_get (d_unk_meta (t_dict t)) key_pos_hierarchy with Some v => b + v | None => 1 end).
    pose proof (indexZ_2 (t_id t) U) as I. destruct (indexZ (md_unk (mt_dict mt)) (t_id t)) as [row| |], (indexZ (d_unk_contents (t_dict t)) (t_id t)) as [c| |]; try contradiction; [|reflexivity].
    cbn [forall2_index rbind] in *. rewrite (shows_len I). destruct (_ || _)%bool; [reflexivity|]. cbn [g_make].
    set (n := Z.to_nat (e - b)). 
    pose proof (@fold_append nat grow (fun m' k => g_get m' row (b + Z.of_nat k)) (fun k => indexZ c (b + Z.of_nat k)) m 0) as F.
    specialize (F (fun x id => @shows_get _ _ c _ (shows_more [x] I)) (seq 0 n) [] n). cbn [length app] in F. rewrite seq_length, !Nat.add_0_r in F. etransitivity; [exact (F eq_refl)|]. clear F.
    destruct (mapM _ (seq 0 n)) as [l| |] eqn:E; cbn [fmap rbind as_slice]; [|reflexivity|reflexivity]. change (zeros 0) with (@nil bytes). rewrite app_nil_r. unfold g_lit.
    rewrite <- (mapM_length E), seq_length. reflexivity.
  - unfold m_content_of, user_content_of. rewrite Ei. destruct (mt_udict mt) as [mu|], (t_udict t) as [u|]; try contradiction; [|reflexivity].
    pose proof (indexZ_2 (t_id t) D) as I. destruct (indexZ mu (t_id t)) as [mc| |], (indexZ (u_contents u) (t_id t)) as [c| |]; try contradiction; [|reflexivity].
    destruct I as (X & Y & Z). cbn [rbind]. rewrite Z. reflexivity.
Qed.
Lemma feature_at_same i : m_feature_at m mt i = feature_at t i.
Proof.
  pose proof H as (Ei & Ec & (P & _ & M & N & U & _) & D). pose proof contents_ok as C. unfold m_feature_at, feature_at. rewrite Ec, Ei. destruct (i <? 0); [reflexivity|]. destruct (t_class t).
  - reflexivity.
  - rewrite P. destruct (indexZ (d_pos_ids (t_dict t)) (t_id t)) as [ids| |]; try reflexivity. cbn [rbind]. rewrite (shows_len N).
    destruct (i <? _); [destruct (indexZ ids i); try reflexivity; cbn [rbind]; rewrite (shows_get _ N); reflexivity|].
    destruct (md_contents (mt_dict mt)) as [rows|], (d_contents (t_dict t)) as [cs|]; try contradiction; [|destruct (Z.of_nat _ <=? _); [|unfold indexZ; destruct (t_id t <? 0), (Z.to_nat (t_id t))]; reflexivity].
    rewrite (Forall2_length C). destruct (_ <=? _); [reflexivity|].
    pose proof (indexZ_2 (t_id t) C) as I. destruct (indexZ rows (t_id t)) as [row| |], (indexZ cs (t_id t)) as [c| |]; try contradiction; [|reflexivity].
    cbn [forall2_index rbind] in *. rewrite (shows_len I), (shows_get _ I). reflexivity.
  - rewrite (Forall2_length U). destruct (_ <=? _); [reflexivity|].
    pose proof (indexZ_2 (t_id t) U) as I. destruct (indexZ _ (t_id t)) as [row| |], (indexZ (d_unk_contents (t_dict t)) (t_id t)) as [c| |]; try contradiction; [|reflexivity].
    cbn [forall2_index rbind] in *. rewrite (shows_len I), (shows_get _ I). reflexivity.
  - destruct (mt_udict mt) as [mu|], (t_udict t) as [u|]; try contradiction; [|reflexivity]. rewrite (Forall2_length D). destruct (_ <=? _); [reflexivity|].
    pose proof (indexZ_2 (t_id t) D) as I. destruct (indexZ mu (t_id t)) as [mc| |], (indexZ (u_contents u) (t_id t)) as [c| |]; try contradiction; [|reflexivity].
    destruct I as (X & Y & Z). cbn [rbind]. rewrite (shows_read X), (shows_read Y), Z. reflexivity.
Qed.
Lemma pickup_same key : m_pickup m mt key = pickup t key.
Proof.
  pose proof H as (_ & Ec & (_ & M & M' & _) & _). unfold m_pickup, pickup. rewrite Ec, M, M'. destruct (meta_get _ key); [apply feature_at_same|reflexivity].
Qed.
Lemma copy_same (x : memory) s l : shows m s l -> g_copy ((m ++ x) ++ [zeros (length l)]) (Some (Sl (length (m ++ x)) 0 (length l) (length l))) s = Ok ((m ++ x) ++ [l]).
Proof.
  intros S. assert (S' : forall y, shows ((m ++ x) ++ y) s l) by (intros y; apply shows_more, shows_more; exact S). unfold g_copy. rewrite (shows_read (S' _)). cbn [rbind g_len sl_len].
  rewrite (shows_len S), Nat.min_id. apply (@fold_put (fun _ i => index l i)). reflexivity.
Qed.
Lemma extra_same : m_user_extra m mt = match user_extra t with
  | Ok (Some (a, b)) => let (m1, s1) := g_lit m a in let (m2, s2) := g_lit m1 b in Ok (m2, Some (s1, s2))
  | Ok None => Ok (m, None) | Panic => Panic | Diverge => Diverge end.
Proof.
  pose proof H as (Ei & Ec & _ & D). unfold m_user_extra, user_extra. rewrite Ec. destruct (t_class t); try reflexivity.
  unfold m_content_of, user_content_of. rewrite Ei. destruct (mt_udict mt) as [mu|], (t_udict t) as [u|]; try contradiction; [|reflexivity].
  pose proof (indexZ_2 (t_id t) D) as I. destruct (indexZ mu (t_id t)) as [mc| |], (indexZ (u_contents u) (t_id t)) as [c| |]; try contradiction; [|reflexivity].
  destruct I as (X & Y & Z). cbn [rbind g_make]. rewrite (shows_len X), (shows_len Y). pose proof (copy_same [] X) as C1. rewrite app_nil_r in C1. rewrite C1. cbn [rbind].
  rewrite (copy_same [uc_tokens c] Y). reflexivity.
Qed.
End Methods.
Definition all_of (a : nat) (l : list bytes) : gslice := Some (Sl a 0 (length l) (length l)).
Lemma data_same grow m mt t : shows_token m mt t -> match new_token_data t with
  | Ok d => let p := strings_list (td_pos d) in let f := strings_list (td_features d) in exists m' a b,
    m_token_data grow m mt = Ok (m', (all_of a p, all_of b f), (td_base_form d, td_reading d, td_pronunciation d)) /\
    (m' = m ++ [p; f] /\ a = length m /\ b = S (length m) \/ m' = m ++ [f; p] /\ b = length m /\ a = S (length m))
  | r => m_token_data grow m mt = fmap (fun _ => (m, (None, None), ([], [], []))) r end.
Proof.
  intros H. unfold m_token_data, new_token_data. rewrite (pos_same grow H). destruct (token_pos t) as [[p|]| |]; cbn [as_slice rbind g_lit]; try reflexivity.
  - rewrite (features_same grow (shows_token_more [p] H)). destruct (features t) as [[f|]| |]; cbn [as_slice rbind g_lit g_not_nil]; try reflexivity.
    + assert (K : forall key, m_pickup ((m ++ [p]) ++ [f]) mt key = pickup t key) by (intros key; apply pickup_same; do 2 apply shows_token_more; exact H).
      rewrite !K. unfold base_form, reading, pronunciation.
      destruct (pickup t key_base); cbn [rbind fmap]; try reflexivity. destruct (pickup t key_reading); cbn [rbind fmap]; try reflexivity. destruct (pickup t key_pronunciation); cbn [rbind fmap]; try reflexivity.
      exists ((m ++ [p]) ++ [f]), (length m), (S (length m)). split; [rewrite app_length, Nat.add_1_r; reflexivity|]. left. rewrite <- app_assoc. auto.
    + assert (K : forall key, m_pickup ((m ++ [p]) ++ [[]]) mt key = pickup t key) by (intros key; apply pickup_same; do 2 apply shows_token_more; exact H).
      rewrite !K. unfold base_form, reading, pronunciation.
      destruct (pickup t key_base); cbn [rbind fmap]; try reflexivity. destruct (pickup t key_reading); cbn [rbind fmap]; try reflexivity. destruct (pickup t key_pronunciation); cbn [rbind fmap]; try reflexivity.
      exists ((m ++ [p]) ++ [[]]), (length m), (S (length m)). split; [rewrite app_length, Nat.add_1_r; reflexivity|]. left. rewrite <- app_assoc. auto.
  - rewrite (features_same grow H). destruct (features t) as [[f|]| |]; cbn [as_slice rbind g_lit g_not_nil]; try reflexivity.
    + assert (K : forall key, m_pickup ((m ++ [f]) ++ [[]]) mt key = pickup t key) by (intros key; apply pickup_same; do 2 apply shows_token_more; exact H).
      rewrite !K. unfold base_form, reading, pronunciation.
      destruct (pickup t key_base); cbn [rbind fmap]; try reflexivity. destruct (pickup t key_reading); cbn [rbind fmap]; try reflexivity. destruct (pickup t key_pronunciation); cbn [rbind fmap]; try reflexivity.
      exists ((m ++ [f]) ++ [[]]), (S (length m)), (length m). split; [rewrite app_length, Nat.add_1_r; reflexivity|]. right. rewrite <- app_assoc. auto.
    + assert (K : forall key, m_pickup ((m ++ [[]]) ++ [[]]) mt key = pickup t key) by (intros key; apply pickup_same; do 2 apply shows_token_more; exact H).
      rewrite !K. unfold base_form, reading, pronunciation.
      destruct (pickup t key_base); cbn [rbind fmap]; try reflexivity. destruct (pickup t key_reading); cbn [rbind fmap]; try reflexivity. destruct (pickup t key_pronunciation); cbn [rbind fmap]; try reflexivity.
      exists ((m ++ [[]]) ++ [[]]), (length m), (S (length m)). split; [rewrite app_length, Nat.add_1_r; reflexivity|]. left. rewrite <- app_assoc. auto.
Qed.

(** ** Programs *)
(** The memory begins with what was there before, and the slices kept are whole arrays of their own
    behind it. *)
Record owns (m0 : memory) (p : program) (kept : list (list bytes)) : Prop := Owns {
  ow_old : exists m, pg_mem p = m0 ++ m;
  ow_each : Forall2 (fun s v => s = Sl (sl_arr s) 0 (length v) (length v) /\ nth_error (pg_mem p) (sl_arr s) = Some v /\ (length m0 <= sl_arr s)%nat) (pg_kept p) kept;
  ow_apart : NoDup (map sl_arr (pg_kept p)) }.
Lemma owns_bound m0 p kept : owns m0 p kept -> forall a, In a (map sl_arr (pg_kept p)) -> (a < length (pg_mem p))%nat.
Proof.
  intros [_ E _] a I. apply in_map_iff in I. destruct I as (s & <- & I). apply nth_error_Some. induction E as [|s' v l l' (_ & N & _) E IH]; [destruct I|]. destruct I as [->|I]; [congruence|auto].
Qed.
Lemma owns_more m0 p kept new ss vs : owns m0 p kept ->
  Forall2 (fun s v => s = Sl (sl_arr s) 0 (length v) (length v) /\ nth_error (pg_mem p ++ new) (sl_arr s) = Some v /\ (length (pg_mem p) <= sl_arr s)%nat) ss vs -> NoDup (map sl_arr ss) ->
  owns m0 (Program (pg_mem p ++ new) (pg_kept p ++ ss)) (kept ++ vs).
Proof.
  intros O F Nn. pose proof (owns_bound O) as B. destruct O as [(m & Em) E N]. split; cbn [pg_mem pg_kept].
  - exists (m ++ new). rewrite Em, app_assoc. reflexivity.
  - apply Forall2_app.
    + revert E. apply Forall2_impl'. intros s v (A & X & Y). split; [exact A|]. split; [|exact Y]. rewrite nth_error_app1; [exact X|]. apply nth_error_Some. congruence.
    + revert F. apply Forall2_impl'. intros s v (A & X & Y). split; [exact A|]. split; [exact X|]. rewrite Em, app_length in Y. lia.
  - rewrite map_app. apply NoDup_app_two; [exact N|exact Nn|]. intros a I I'. apply B in I. apply in_map_iff in I'. destruct I' as (s & <- & I').
    clear - F I I'. induction F as [|s' v l l' (_ & _ & L) F IH]; [destruct I'|]. destruct I' as [->|I']; [lia|auto].
Qed.
Lemma owns_none m0 p kept : owns m0 p kept -> owns m0 (Program (pg_mem p) (pg_kept p)) kept.
Proof. destruct p. auto. Qed.
Lemma owns_one m0 p kept l : owns m0 p kept -> owns m0 (Program (pg_mem p ++ [l]) (pg_kept p ++ [Sl (length (pg_mem p)) 0 (length l) (length l)])) (kept ++ [l]).
Proof.
  intros O. apply owns_more; [exact O| |repeat constructor; intros []]. constructor; [|constructor]. split; [reflexivity|]. cbn [sl_arr]. split; [apply nth_last|lia].
Qed.
Lemma nth_two {A} (m : list A) x y : nth_error (m ++ [x; y]) (length m) = Some x /\ nth_error (m ++ [x; y]) (S (length m)) = Some y.
Proof. rewrite !nth_error_app2 by lia. rewrite Nat.sub_diag. replace (S (length m) - length m)%nat with 1%nat by lia. auto. Qed.
Lemma owns_two m0 p kept l l' : owns m0 p kept -> let n := length (pg_mem p) in
  owns m0 (Program (pg_mem p ++ [l; l']) (pg_kept p ++ [Sl n 0 (length l) (length l); Sl (S n) 0 (length l') (length l')])) (kept ++ [l; l']) /\
  owns m0 (Program (pg_mem p ++ [l'; l]) (pg_kept p ++ [Sl (S n) 0 (length l) (length l); Sl n 0 (length l') (length l')])) (kept ++ [l; l']).
Proof.
  intros O n. split; (apply owns_more; [exact O| |cbn [map sl_arr]; repeat constructor; [intros [E|[]]; lia|intros []]]);
    (constructor; [|constructor; [|constructor]]); (split; [reflexivity|]); cbn [sl_arr]; (split; [apply nth_two|unfold n; lia]).
Qed.
Lemma seen_at m a l : nth_error m a = Some l -> seen m (Some (Sl a 0 (length l) (length l))) = l.
Proof.
  intros E. unfold seen, g_read. cbn [sl_arr sl_off sl_len]. unfold index. rewrite E. cbn [rbind]. unfold slice. cbn [Nat.add]. replace (_ && _)%bool with true by lia.
  cbn [skipn]. rewrite Nat.sub_0_r. apply firstn_all.
Qed.
Lemma owns_nth m0 p kept h : owns m0 p kept -> match nth_error (pg_kept p) h, nth_error kept h with
  | Some s, Some v => s = Sl (sl_arr s) 0 (length v) (length v) /\ nth_error (pg_mem p) (sl_arr s) = Some v
  | None, None => True | _, _ => False end.
Proof.
  intros [_ E _]. revert h. induction E as [|s v l l' (A & X & _) E IH]; intros [|h]; cbn; auto. apply IH.
Qed.
Lemma update_split {A} (l : list A) i v : (i < length l)%nat -> update l i (fun _ => v) = Ok (firstn i l ++ v :: skipn (S i) l).
Proof.
  intros H. unfold update. replace (_ <? _)%nat with true by lia. f_equal. revert i H. induction l as [|x l IH]; intros [|i] H; cbn [length] in H; try lia; [reflexivity|]. cbn. rewrite IH by lia. reflexivity.
Qed.
Lemma nth_split_other {A} (l : list A) i j v : (i < length l)%nat -> nth_error (firstn i l ++ v :: skipn (S i) l) j = if (j =? i)%nat then Some v else nth_error l j.
Proof.
  revert i j. induction l as [|x l IH]; intros [|i] [|j] H; cbn [length] in H; try lia; try reflexivity. cbn [firstn skipn app nth_error]. rewrite IH by lia. reflexivity.
Qed.
Lemma owns_write m0 p kept h s v i x : owns m0 p kept -> nth_error (pg_kept p) h = Some s -> nth_error kept h = Some v -> (i < length v)%nat ->
  let v' := firstn i v ++ x :: skipn (S i) v in let a := sl_arr s in
  owns m0 (Program (firstn a (pg_mem p) ++ v' :: skipn (S a) (pg_mem p)) (pg_kept p)) (firstn h kept ++ v' :: skipn (S h) kept).
Proof.
  intros O Es Ev Li v' a. pose proof (owns_bound O) as B. destruct O as [(m & Em) E N].
  assert (La : (length m0 <= a)%nat /\ (a < length (pg_mem p))%nat).
  { split; [|apply B; apply in_map; eapply nth_error_In; exact Es]. subst a. clear - E Es. revert h Es. induction E as [|s' v' l l' (_ & _ & L) E IH]; intros [|h] Es; try discriminate; cbn in Es; [congruence|eauto]. }
  assert (Lv : length v' = length v). { unfold v'. rewrite app_length. cbn [length]. rewrite firstn_length, skipn_length. lia. }
  split; cbn [pg_mem pg_kept].
  - exists (firstn (a - length m0) m ++ v' :: skipn (S a - length m0) m). rewrite Em, firstn_app, skipn_app, firstn_all2, (skipn_all2 m0) by lia. rewrite <- app_assoc. reflexivity.
  - assert (G : forall ks vs h, Forall2 (fun s v => s = Sl (sl_arr s) 0 (length v) (length v) /\ nth_error (pg_mem p) (sl_arr s) = Some v /\ (length m0 <= sl_arr s)%nat) ks vs ->
      NoDup (map sl_arr ks) -> nth_error ks h = Some s -> nth_error vs h = Some v ->
      Forall2 (fun s v => s = Sl (sl_arr s) 0 (length v) (length v) /\ nth_error (firstn a (pg_mem p) ++ v' :: skipn (S a) (pg_mem p)) (sl_arr s) = Some v /\ (length m0 <= sl_arr s)%nat) ks (firstn h vs ++ v' :: skipn (S h) vs)).
    { clear h Es Ev E N B. intros ks vs h F. revert h. induction F as [|s1 v1 ks vs (X & Y & Z) F IH]; intros [|h] N Es Ev; try discriminate; cbn [nth_error] in Es, Ev; cbn [map] in N; apply NoDup_cons_iff in N; destruct N as (N1 & N2).
      - injection Es as ->. injection Ev as ->. change (firstn 0 (v :: vs) ++ v' :: skipn 1 (v :: vs)) with (v' :: vs). constructor.
        + rewrite Lv. split; [exact X|]. split; [|exact Z]. fold a. rewrite nth_split_other by lia. rewrite Nat.eqb_refl. reflexivity.
        + assert (K : forall s2, In s2 ks -> sl_arr s2 <> a) by (intros s2 I J; apply N1; unfold a in J; rewrite <- J; apply in_map; exact I). clear IH N1 N2 X Y Z. induction F as [|s2 v2 ks vs (X & Y & Z) F IH]; constructor.
          * split; [exact X|]. split; [|exact Z]. rewrite nth_split_other by lia. specialize (K s2 (or_introl eq_refl)). apply Nat.eqb_neq in K. rewrite K. exact Y.
          * apply IH. intros s3 I. apply K. right. exact I.
      - change (firstn (S h) (v1 :: vs) ++ v' :: skipn (S (S h)) (v1 :: vs)) with (v1 :: firstn h vs ++ v' :: skipn (S h) vs). constructor; [|apply IH; assumption]. split; [exact X|]. split; [|exact Z]. rewrite nth_split_other by lia.
        assert (K : sl_arr s1 <> a) by (intros J; apply N1; rewrite J; apply in_map; eapply nth_error_In; exact Es). apply Nat.eqb_neq in K. rewrite K. exact Y. }
    exact (G _ _ _ E N Es Ev).
  - exact N.
Qed.

Lemma tokens_nth m0 m mts ts : Forall2 (shows_token m0) mts ts -> forall k, match nth_error mts k, nth_error ts k with Some mt, Some t => shows_token (m0 ++ m) mt t | None, None => True | _, _ => False end.
Proof. intros F. induction F as [|mt t l l' H F IH]; intros [|k]; cbn; try exact I; [apply shows_token_more; exact H|apply IH]. Qed.
Section Run.
Variables (grow : nat -> nat -> nat) (m0 : memory) (mts : list mtoken) (ts : list token).
Hypothesis Ht : Forall2 (shows_token m0) mts ts.

Lemma token_nth p kept k : owns m0 p kept -> match nth_error mts k, nth_error ts k with Some mt, Some t => shows_token (pg_mem p) mt t | None, None => True | _, _ => False end.
Proof.
  intros [(m & Em) _ _]. rewrite Em. apply tokens_nth. exact Ht.
Qed.
Lemma slice_case p kept (r : res strings) (x : res (memory * gslice)) : owns m0 p kept -> x = as_slice (pg_mem p) r ->
  let a := match x with Ok (m', Some s) => (Program m' (pg_kept p ++ [s]), RVec (seen m' (Some s))) | Ok (m', None) => (Program m' (pg_kept p), RNil) | _ => (p, RPanic) end in
  let b := match r with Ok (Some l) => (kept ++ [l], RVec l) | Ok None => (kept, RNil) | _ => (kept, RPanic) end in
  owns m0 (fst a) (fst b) /\ snd a = snd b.
Proof.
  intros O ->. destruct r as [[l|]| |]; cbn [as_slice g_lit fst snd]; try (split; [auto using owns_none|reflexivity]). split; [apply owns_one; exact O|]. f_equal. apply seen_at. apply nth_last.
Qed.
Lemma call_ok p kept c : owns m0 p kept -> owns m0 (fst (m_call grow mts p c)) (fst (v_call ts kept c)) /\ snd (m_call grow mts p c) = snd (v_call ts kept c).
Proof.
  intros O. destruct c as [k|k|k|k|k i|k key|h i v|h i]; unfold m_call, v_call; try (pose proof (token_nth k O) as T; destruct (nth_error mts k) as [mt|], (nth_error ts k) as [t|]; try contradiction; [|split; [exact O|reflexivity]]).
  - apply slice_case; [exact O|]. apply features_same. exact T.
  - apply slice_case; [exact O|]. apply pos_same. exact T.
  - rewrite (extra_same T). destruct (user_extra t) as [[[a b]|]| |]; cbn [g_lit fst snd keep]; try (split; [auto using owns_none|reflexivity]).
    rewrite <- !app_assoc. cbn [app]. rewrite app_length, Nat.add_1_r. split; [apply (owns_two a b O)|]. f_equal; apply seen_at; apply nth_two.
  - pose proof (data_same grow T) as D. destruct (new_token_data t) as [d| |]; [|rewrite D; cbn [fmap]; split; [exact O|reflexivity]|rewrite D; cbn [fmap]; split; [exact O|reflexivity]].
    cbn zeta in D. destruct D as (m' & a & b & -> & D). unfold all_of. cbn [keep fst snd]. rewrite <- app_assoc. cbn [app].
    destruct D as [(-> & -> & ->)|(-> & -> & ->)]; (split; [apply (owns_two _ _ O)|]); f_equal; apply seen_at; apply nth_two.
  - rewrite (feature_at_same T). destruct (feature_at t i); split; auto.
  - rewrite (pickup_same T). destruct (pickup t key); split; auto.
  - pose proof (owns_nth h O) as N. destruct (nth_error (pg_kept p) h) as [s|] eqn:Es, (nth_error kept h) as [l|] eqn:El; try contradiction; [|split; [exact O|reflexivity]].
    destruct N as (-> & N). cbn [sl_arr sl_off sl_cap] in *. unfold g_put. cbn [sl_len sl_arr sl_off]. unfold index. rewrite N. cbn [rbind Nat.add].
    destruct (i <? length l)%nat eqn:L; [|split; [exact O|reflexivity]]. rewrite update_split by lia. cbn [rbind].
    assert (La : (sl_arr s < length (pg_mem p))%nat) by (apply nth_error_Some; congruence). rewrite update_split by exact La. cbn [fst snd]. split; [|reflexivity].
    apply (owns_write v O Es El). lia.
  - pose proof (owns_nth h O) as N. destruct (nth_error (pg_kept p) h) as [s|] eqn:Es, (nth_error kept h) as [l|] eqn:El; try contradiction; [|split; [exact O|reflexivity]].
    destruct N as (-> & N). cbn [sl_arr sl_off sl_cap] in *. unfold g_get. cbn [sl_len sl_arr sl_off]. unfold index. rewrite N. cbn [rbind Nat.add]. rewrite Nat2Z.id.
    destruct (nth_error l i) as [x|] eqn:X.
    + assert (i < length l)%nat by (apply nth_error_Some; congruence). replace (_ && _)%bool with true by lia. split; auto.
    + apply nth_error_None in X. replace (_ && _)%bool with false by lia. split; auto.
Qed.
Lemma calls_ok cs : forall p kept, owns m0 p kept -> owns m0 (fst (m_calls grow mts p cs)) (fst (v_calls ts kept cs)) /\ snd (m_calls grow mts p cs) = snd (v_calls ts kept cs).
Proof.
  induction cs as [|c cs IH]; intros p kept O; cbn [m_calls v_calls]; [split; [exact O|reflexivity]|].
  destruct (call_ok c O) as (O' & E). destruct (m_call grow mts p c) as [p' r], (v_call ts kept c) as [kept' r']. cbn [fst snd] in *. subst r'.
  destruct (IH p' kept' O') as (O'' & E'). destruct (m_calls grow mts p' cs), (v_calls ts kept' cs). cbn [fst snd] in *. subst. auto.
Qed.
End Run.
Lemma owns_start m0 : owns m0 (Program m0 []) [].
Proof. split; cbn; [exists []; rewrite app_nil_r; reflexivity|constructor|constructor]. Qed.
Theorem calls_own grow m mts ts cs : Forall2 (shows_token m) mts ts ->
  let p := fst (m_calls grow mts (Program m []) cs) in let v := v_calls ts [] cs in
  snd (m_calls grow mts (Program m []) cs) = snd v /\
  Forall2 (fun s l => shows (pg_mem p) (Some s) l /\ sl_cap s = length l) (pg_kept p) (fst v) /\
  (exists new, pg_mem p = m ++ new) /\ Forall2 (shows_token (pg_mem p)) mts ts.
Proof.
  intros F p v. destruct (@calls_ok grow m mts ts F cs (Program m []) [] (owns_start m)) as ([Em E N] & R). fold p v in Em, E, N, R. split; [exact R|]. split; [|split; [exact Em|]].
  - revert E. apply Forall2_impl'. intros s l (-> & X & _). cbn [sl_arr sl_off sl_len sl_cap] in *. split; [|reflexivity]. exists l. split; [exact X|]. split; [reflexivity|]. exists [], []. rewrite app_nil_r. auto.
  - destruct Em as (new & ->). revert F. apply Forall2_impl'. intros. apply shows_token_more. assumption.
Qed.
Definition is_write (c : call) : bool := match c with Write _ _ _ => true | _ => false end.
Theorem call_adds grow mts ts p c : Forall2 (shows_token (pg_mem p)) mts ts -> is_write c = false ->
  exists new ks, fst (m_call grow mts p c) = Program (pg_mem p ++ new) (pg_kept p ++ ks) /\ forall s, In s ks -> (length (pg_mem p) <= sl_arr s)%nat.
Proof.
  intros F W. assert (Z : exists new ks, p = Program (pg_mem p ++ new) (pg_kept p ++ ks) /\ forall s, In s ks -> (length (pg_mem p) <= sl_arr s)%nat).
  { exists [], []. rewrite !app_nil_r. split; [destruct p; reflexivity|intros s []]. }
  assert (S : forall r : res strings, exists new ks, fst (match as_slice (pg_mem p) r with Ok (m', Some s) => (Program m' (pg_kept p ++ [s]), RVec (seen m' (Some s))) | Ok (m', None) => (Program m' (pg_kept p), RNil) | _ => (p, RPanic) end) =
      Program (pg_mem p ++ new) (pg_kept p ++ ks) /\ forall s, In s ks -> (length (pg_mem p) <= sl_arr s)%nat).
  { intros [[l|]| |]; cbn [as_slice g_lit fst]; [|destruct p; exact Z|exact Z|exact Z]. exists [l], [Sl (length (pg_mem p)) 0 (length l) (length l)]. split; [reflexivity|]. intros s [<-|[]]. cbn. lia. }
  destruct c as [k|k|k|k|k i|k key|h i v|h i]; unfold m_call; try discriminate W;
    try (pose proof (tokens_nth [] F k) as T; rewrite app_nil_r in T; destruct (nth_error mts k) as [mt|], (nth_error ts k) as [t|]; try contradiction; [|exact Z]).
  - rewrite (features_same grow T). apply S.
  - rewrite (pos_same grow T). apply S.
  - rewrite (extra_same T). destruct (user_extra t) as [[[a b]|]| |]; cbn [g_lit fst keep]; [|destruct p; exact Z|exact Z|exact Z].
    exists [a; b]. eexists. split; [rewrite <- !app_assoc; reflexivity|]. intros s [<-|[<-|[]]]; cbn; rewrite ?app_length; lia.
  - pose proof (data_same grow T) as D. destruct (new_token_data t) as [d| |]; [|rewrite D; exact Z|rewrite D; exact Z].
    cbn zeta in D. destruct D as (m' & a & b & -> & D). unfold all_of. cbn [keep fst]. destruct D as [(-> & -> & ->)|(-> & -> & ->)]; do 2 eexists; (split; [rewrite <- !app_assoc; reflexivity|]); intros s [<-|[<-|[]]]; cbn; lia.
  - destruct (m_feature_at _ _ _); exact Z.
  - destruct (m_pickup _ _ _); exact Z.
  - destruct (nth_error (pg_kept p) h); [|exact Z]. destruct (g_get _ _ _); exact Z.
Qed.
(** Every dictionary can be laid out in memory. *)
Lemma lay_rows (ls : list (list bytes)) m : exists new ss, Forall2 (shows (m ++ new)) ss ls.
Proof.
  revert m. induction ls as [|l ls IH]; intros m; [exists [], []; constructor|]. destruct (IH (m ++ [l])) as (new & ss & F). exists (l :: new), (Some (Sl (length m) 0 (length l) (length l)) :: ss).
  rewrite <- app_assoc in F. constructor; [|exact F]. exists l. cbn [sl_arr sl_len sl_off]. split; [rewrite nth_error_app2, Nat.sub_diag by lia; reflexivity|]. split; [reflexivity|]. exists [], []. rewrite app_nil_r. auto.
Qed.
Lemma shows_rows_more m x ss ls : Forall2 (shows m) ss ls -> Forall2 (shows (m ++ x)) ss ls.
Proof. apply Forall2_impl'. intros. apply shows_more. assumption. Qed.
Theorem lay_token t : exists m mt, shows_token m mt t.
Proof.
  destruct (lay_rows [d_pos_names (t_dict t)] []) as (m1 & s1 & F1). cbn [app] in F1. inversion F1 as [|names ? r1 ? N F1' E1 E2]; subst.
  destruct (lay_rows (d_unk_contents (t_dict t)) m1) as (m2 & unk & F2).
  destruct (lay_rows (match d_contents (t_dict t) with Some cs => cs | None => [] end) (m1 ++ m2)) as (m3 & rows & F3).
  destruct (lay_rows (map uc_tokens (match t_udict t with Some u => u_contents u | None => [] end)) ((m1 ++ m2) ++ m3)) as (m4 & tk & F4).
  destruct (lay_rows (map uc_yomi (match t_udict t with Some u => u_contents u | None => [] end)) (((m1 ++ m2) ++ m3) ++ m4)) as (m5 & ym & F5).
  set (m := (((m1 ++ m2) ++ m3) ++ m4) ++ m5) in *.
  exists m. exists (MToken (t_index t) (t_id t) (t_class t) (t_position t) (t_start t) (t_end t) (t_surface t)
    (MDict (d_pos_ids (t_dict t)) names (match d_contents (t_dict t) with Some _ => Some rows | None => None end) (d_meta (t_dict t)) unk (d_unk_meta (t_dict t)))
    (match t_udict t with Some u => Some (map (fun x => MContent (fst (fst x)) (snd (fst x)) (snd x)) (combine (combine tk ym) (map uc_pos (u_contents u)))) | None => None end)).
  split; [reflexivity|]. split; [reflexivity|]. cbn [mt_dict mt_udict]. split.
  - unfold shows_dict. cbn [md_pos_ids md_meta md_unk_meta md_names md_unk md_contents]. repeat (split; [reflexivity|]). split; [unfold m; do 4 apply shows_more; exact N|].
    split; [unfold m; do 3 apply shows_rows_more; exact F2|]. destruct (d_contents (t_dict t)); [|exact I]. unfold m. do 2 apply shows_rows_more. exact F3.
  - destruct (t_udict t) as [u|]; [|exact I]. apply (@shows_rows_more _ m5) in F4. fold m in F4. clearbody m. revert tk ym F4 F5. induction (u_contents u) as [|c l IH]; intros tk ym F4 F5; cbn [map] in F4, F5; inversion F4; subst; inversion F5; subst; cbn [combine map]; constructor.
    + split; [|split]; [assumption|assumption|reflexivity].
    + apply IH; assumption.
Qed.
