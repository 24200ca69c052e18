(** Facts about the JSON encoder: every output is a JSON text, with the value it should have. *)
From Verif Require Import Utf8Facts Json SpecJson DotSyntax.
From Coq Require Import Lia ZifyBool ZifyNat ZifyN.
Open Scope N_scope.
Set Implicit Arguments.
Unset Strict Implicit.

(** ** The reader *)
Lemma read_mono f :
  (forall s r, read_value f s = Some r -> read_value (S f) s = Some r) /\
  (forall s r, read_elems f s = Some r -> read_elems (S f) s = Some r) /\
  (forall s r, read_members f s = Some r -> read_members (S f) s = Some r).
Proof.
  induction f as [|f (IHv & IHe & IHm)]; [repeat split; discriminate|]. repeat split.
  - intros s r H. cbn [read_value] in H. remember (S f) as f1. cbn [read_value]. subst f1. set (s0 := skip_ws s) in *.
    destruct (read_opening x22 s0); [assumption|].
    destruct (read_opening x5b s0) as [s1|].
    { destruct (read_opening x5d s1); [assumption|]. destruct (read_elems f s1) as [[l r']|] eqn:E; [|discriminate].
      rewrite (IHe _ _ E). assumption. }
    destruct (read_opening x7b s0) as [s1|]; [|assumption].
    destruct (read_opening x7d s1); [assumption|]. destruct (read_members f s1) as [[l r']|] eqn:E; [|discriminate].
    rewrite (IHm _ _ E). assumption.
  - intros s r H. cbn [read_elems] in H. remember (S f) as f1. cbn [read_elems]. subst f1.
    destruct (read_value f s) as [[v s1]|] eqn:E; [|discriminate]. rewrite (IHv _ _ E).
    destruct (read_opening x2c s1) as [s2|]; [|assumption].
    destruct (read_elems f s2) as [[l r']|] eqn:E2; [|discriminate]. rewrite (IHe _ _ E2). assumption.
  - intros s r H. cbn [read_members] in H. remember (S f) as f1. cbn [read_members]. subst f1.
    destruct (read_opening x22 s) as [s1|]; [|discriminate]. destruct (read_string s1) as [[k s2]|]; [|discriminate].
    destruct (read_opening x3a s2) as [s3|]; [|discriminate].
    destruct (read_value f s3) as [[v s4]|] eqn:E; [|discriminate]. rewrite (IHv _ _ E).
    destruct (read_opening x2c s4) as [s5|]; [|assumption].
    destruct (read_members f s5) as [[l r']|] eqn:E2; [|discriminate]. rewrite (IHm _ _ E2). assumption.
Qed.
Lemma read_value_le f g s r : (f <= g)%nat -> read_value f s = Some r -> read_value g s = Some r.
Proof. intros H E. induction H as [|g H IH]; [assumption|]. apply (proj1 (read_mono g)). assumption. Qed.

(** A text has at most one value. *)
Theorem json_text_fun s v w : json_text s v -> json_text s w -> v = w.
Proof.
  intros (_ & f & r & E & _) (_ & g & r' & E' & _).
  apply (@read_value_le _ (Nat.max f g)) in E; [|lia]. apply (@read_value_le _ (Nat.max f g)) in E'; [|lia]. congruence.
Qed.

Lemma skip_ws_idem s : skip_ws (skip_ws s) = skip_ws s.
Proof.
  induction s as [|c s IH]; [reflexivity|]. cbn [skip_ws].
  destruct (_ || _) eqn:E; [assumption|]. cbn [skip_ws]. rewrite E. reflexivity.
Qed.
Lemma skip_ws_app w s : Forall (fun b => In b [x20; x09; x0a; x0d]) w -> skip_ws (w ++ s) = skip_ws s.
Proof.
  induction 1 as [|b w Hb _ IH]; [reflexivity|]. cbn [app skip_ws].
  destruct Hb as [<-|[<-|[<-|[<-|[]]]]]; assumption.
Qed.
Lemma read_value_ws f w s : Forall (fun b => In b [x20; x09; x0a; x0d]) w -> read_value f (w ++ s) = read_value f s.
Proof. intros H. destruct f; [reflexivity|]. cbn [read_value]. rewrite skip_ws_app by assumption. reflexivity. Qed.
Lemma read_opening_app b w s : Forall (fun b => In b [x20; x09; x0a; x0d]) w -> read_opening b (w ++ s) = read_opening b s.
Proof. intros H. unfold read_opening. rewrite skip_ws_app by assumption. reflexivity. Qed.

(** No value begins with a closing bracket. *)
Lemma read_value_open f s r : read_value f s = Some r -> read_opening x5d s = None.
Proof.
  destruct f; [discriminate|]. cbn [read_value]. unfold read_opening. rewrite !skip_ws_idem.
  destruct (skip_ws s) as [|c t] eqn:E; [reflexivity|].
  destruct (Byte.eqb x5d c) eqn:Ec; [|reflexivity]. apply byte_eqb_spec in Ec. subst c. discriminate.
Qed.

(** What may follow a value in the outputs. *)
Definition sep (rest : bytes) : Prop := match rest with [] => True | b :: _ => In b [x2c; x5d; x7d; x0a] end.
Definition denotes (s : bytes) (v : json) : Prop :=
  exists f, forall rest, sep rest -> read_value f (s ++ rest) = Some (v, rest).

(** ** Strings *)
Lemma n2b_lt c : c < 256 -> b2n (n2b c) = c.
Proof. apply b2n_n2b. Qed.

Lemma hex_ok n : n < 16 -> hex_value (hex_digit n) = Some n.
Proof.
  intros H. assert (X : forallb (fun k => match hex_value (hex_digit (N.of_nat k)) with Some m => m =? N.of_nat k | None => false end) (seq 0 16) = true) by reflexivity.
  rewrite forallb_forall in X. specialize (X (N.to_nat n) ltac:(apply in_seq; lia)). rewrite N2Nat.id in X.
  destruct (hex_value (hex_digit n)) as [m|]; [|discriminate]. apply N.eqb_eq in X. congruence.
Qed.
Lemma hex_ascii n : n < 16 -> b2n (hex_digit n) < 128.
Proof. intros H. unfold hex_digit. destruct (N.ltb_spec n 10); rewrite b2n_n2b; lia. Qed.

Lemma read_copy b t : b <> x22 -> b <> x5c -> 32 <= b2n b -> read_string (b :: t) = prepend [b] (read_string t).
Proof.
  intros H1 H2 H3. cbn [read_string]. rewrite !byte_eqb_neq by assumption. destruct (N.ltb_spec (b2n b) 32); [lia|reflexivity].
Qed.
Lemma prepend_app p q r : prepend p (prepend q r) = prepend (p ++ q) r.
Proof. destruct r as [[v s]|]; [|reflexivity]. cbn. rewrite app_assoc. reflexivity. Qed.
Lemma high_not b : 128 <= b2n b -> b <> x22 /\ b <> x5c.
Proof. intros H. split; intros ->; vm_compute in H; apply H; reflexivity. Qed.
Lemma read_copies raw t : Forall (fun b => 128 <= b2n b) raw -> read_string (raw ++ t) = prepend raw (read_string t).
Proof.
  induction 1 as [|b raw Hb _ IH]; cbn [app].
  - destruct (read_string t) as [[v s]|]; reflexivity.
  - destruct (high_not Hb). rewrite read_copy, IH, prepend_app by (assumption || lia). reflexivity.
Qed.

Lemma read_hex (h1 h2 h3 h4 : byte) c t : hex4 h1 h2 h3 h4 = Some c -> c < 55296 \/ 57343 < c ->
  read_string (x5c :: x75 :: h1 :: h2 :: h3 :: h4 :: t) = prepend (encode_rune c) (read_string t).
Proof.
  intros E H. cbn [read_string]. rewrite E. cbn [Byte.eqb]. 
  change (Byte.eqb x5c x22) with false. change (Byte.eqb x5c x5c) with true. change (Byte.eqb x75 x75) with true. cbv iota.
  destruct (N.leb_spec 55296 c); [|reflexivity]. destruct (N.leb_spec c 57343); [lia|reflexivity].
Qed.
Lemma encode_ascii c : c < 128 -> encode_rune c = [n2b c].
Proof. intros H. unfold encode_rune. destruct (N.ltb_spec c 128); [reflexivity|lia]. Qed.

Lemma valid_ascii s : Forall (fun b => b2n b < 128) s -> valid_utf8 s = true.
Proof.
  unfold valid_utf8. induction 1 as [|b s Hb Hs IH]; [reflexivity|].
  rewrite segs_unfold by discriminate. rewrite decode_ascii by assumption. cbn [fst snd firstn skipn forallb]. rewrite IH, andb_true_r.
  unfold seg_ok. cbn [fst snd]. unfold rune_error. destruct (N.eqb_spec (b2n b) 65533); [lia|reflexivity].
Qed.
Lemma valid_app a b : valid_utf8 a = true -> valid_utf8 b = true -> valid_utf8 (a ++ b) = true.
Proof. intros Ha Hb. unfold valid_utf8 in *. rewrite segs_valid_app by assumption. rewrite forallb_app, Ha, Hb. reflexivity. Qed.
Lemma valid_concat l : Forall (fun s => valid_utf8 s = true) l -> valid_utf8 (concat l) = true.
Proof. induction 1; cbn [concat]; [reflexivity|]. apply valid_app; assumption. Qed.
Lemma valid_seg c raw : raw <> [] -> decode_rune raw = (c, length raw) -> ~ (c = rune_error /\ length raw = 1%nat) -> valid_utf8 raw = true.
Proof.
  intros Hn E H. unfold valid_utf8. rewrite segs_unfold by assumption. rewrite E. cbn [fst snd forallb].
  rewrite firstn_all, skipn_all. cbn [forallb]. rewrite segs_nil. cbn. unfold seg_ok. cbn [fst snd].
  destruct (N.eqb_spec c rune_error); [|reflexivity]. destruct (Nat.eqb_spec (length raw) 1); [exfalso; auto|reflexivity].
Qed.

(** One rune of a string. *)
Lemma json_rune_unsafe nw b t : b2n b < 128 -> html_safe (b2n b) = false ->
  read_string (json_rune nw (b2n b, [b]) ++ t) = prepend [b] (read_string t) /\ valid_utf8 (json_rune nw (b2n b, [b])) = true.
Proof.
  intros Hb Hs. apply N.ltb_lt in Hb.
  destruct b; try discriminate Hs; try discriminate Hb; destruct nw; (split; [reflexivity|vm_compute; reflexivity]).
Qed.

Lemma json_rune_ok nw c raw t : raw <> [] -> decode_rune raw = (c, length raw) ->
  read_string (json_rune nw (c, raw) ++ t) = prepend (encode_rune c) (read_string t) /\ valid_utf8 (json_rune nw (c, raw)) = true.
Proof.
  intros Hn E. pose proof (decode_dec Hn) as D. rewrite E in D. cbn [fst snd] in D.
  inversion D as [b t0 Hs Hb Hr Hlb|b t0 Hs Hb Hr Hlb|b0 b1 t0 Hs H0 H1 Hr Hlb|b0 b1 b2 t0 Hs H0 H1 H2 Hr Hlb|b0 b1 b2 b3 t0 Hs H0 H1 H2 H3 Hr Hlb];
    rewrite Hs in Hlb; cbn [length] in Hlb; assert (t0 = []) as -> by (destruct t0; [reflexivity|cbn [length] in Hlb; lia]).
  - (* ASCII *)
    rewrite Hs. rewrite encode_ascii, n2b_b2n by assumption. destruct (html_safe (b2n b)) eqn:Esafe; [|apply json_rune_unsafe; assumption].
    assert (Hv : valid_utf8 [b] = true) by (apply valid_ascii; constructor; [assumption|constructor]).
    unfold json_rune. destruct (N.ltb_spec (b2n b) 128) as [_|]; [|lia]. rewrite Esafe. split; [|assumption].
    cbn [app]. apply (@read_copy b t); [intros ->; discriminate Esafe|intros ->; discriminate Esafe|].
    unfold html_safe in Esafe. lia.
  - (* an invalid byte *)
    rewrite Hs. split; reflexivity.
  - assert (Hr2 : 128 <= c < 2048) by lia. rewrite Hr in *.
    assert (Hok : ~ (c = rune_error /\ length raw = 1%nat)) by (rewrite Hs; cbn; lia).
    rewrite (encode_decode E Hn Hok). unfold json_rune. destruct (N.ltb_spec c 128) as [|_]; [lia|].
    destruct (N.eqb_spec c rune_error) as [|_]; [unfold rune_error in *; lia|]. cbn [andb].
    destruct (N.eqb_spec c 8232); [lia|]. destruct (N.eqb_spec c 8233); [lia|]. cbn [orb].
    split; [|apply (valid_seg Hn E Hok)]. apply read_copies. rewrite Hs. repeat constructor; lia.
  - pose proof (second_lo_bounds (b2n b0)). pose proof (second_hi_bounds (b2n b0)).
    assert (Hok : ~ (c = rune_error /\ length raw = 1%nat)) by (rewrite Hs; cbn; lia).
    assert (Hc : 128 <= c).
    { rewrite <- Hr. destruct (N.eq_dec (b2n b0) 224) as [E0|E0]; [|lia].
      unfold second_lo in H1. rewrite E0 in *. cbn in H1. lia. }
    rewrite Hr in *. rewrite (encode_decode E Hn Hok). unfold json_rune. destruct (N.ltb_spec c 128) as [|_]; [lia|].
    replace ((c =? rune_error) && (length raw =? 1)%nat) with false by (rewrite Hs; cbn [length]; destruct (c =? rune_error); reflexivity).
    assert (Hraw : Forall (fun b => 128 <= b2n b) raw) by (rewrite Hs; repeat constructor; lia).
    destruct (N.eqb_spec c 8232) as [E8|_]; [|destruct (N.eqb_spec c 8233) as [E9|_]]; cbn [orb].
    + pose proof (encode_decode E Hn Hok) as Ee. rewrite E8 in Ee |- *. rewrite <- Ee. split; reflexivity.
    + pose proof (encode_decode E Hn Hok) as Ee. rewrite E9 in Ee |- *. rewrite <- Ee. split; reflexivity.
    + split; [|apply (valid_seg Hn E Hok)]. apply read_copies. assumption.
  - pose proof (second_lo_bounds (b2n b0)). pose proof (second_hi_bounds (b2n b0)).
    assert (Hok : ~ (c = rune_error /\ length raw = 1%nat)) by (rewrite Hs; cbn; lia).
    assert (Hc : 65536 <= c).
    { rewrite <- Hr. destruct (N.eq_dec (b2n b0) 240) as [E0|E0]; [|lia].
      unfold second_lo in H1. rewrite E0 in *. cbn in H1. lia. }
    rewrite Hr in *. rewrite (encode_decode E Hn Hok). unfold json_rune. destruct (N.ltb_spec c 128) as [|_]; [lia|].
    replace ((c =? rune_error) && (length raw =? 1)%nat) with false by (rewrite Hs; cbn [length]; destruct (c =? rune_error); reflexivity).
    destruct (N.eqb_spec c 8232); [lia|]. destruct (N.eqb_spec c 8233); [lia|]. cbn [orb].
    split; [|apply (valid_seg Hn E Hok)]. apply read_copies. rewrite Hs. repeat constructor; lia.
Qed.

Lemma json_runes_ok nw l t : Forall (fun g => snd g <> [] /\ decode_rune (snd g) = (fst g, length (snd g))) l ->
  read_string (concat (map (json_rune nw) l) ++ t) = prepend (concat (map (fun g => encode_rune (fst g)) l)) (read_string t) /\
  valid_utf8 (concat (map (json_rune nw) l)) = true.
Proof.
  induction 1 as [|[c raw] l [H1 H2] _ [IH1 IH2]]; cbn [map concat].
  - cbn [app]. split; [|reflexivity]. destruct (read_string t) as [[v s]|]; reflexivity.
  - cbn [fst snd] in *. rewrite <- app_assoc. destruct (json_rune_ok nw (concat (map (json_rune nw) l) ++ t) H1 H2) as [A B].
    rewrite A, IH1, prepend_app. split; [reflexivity|]. apply valid_app; assumption.
Qed.
Lemma segs_good s : Forall (fun g => snd g <> [] /\ decode_rune (snd g) = (fst g, length (snd g))) (segs s).
Proof.
  rewrite Forall_forall. intros g Hg. split; [|apply (segs_decode Hg)].
  pose proof (segs_nonempty_seg Hg) as H. intros E. unfold bytes in *. rewrite E in H. cbn [length] in H. lia.
Qed.
Lemma read_json_string nw s t : read_string (skipn 1 (json_string nw s) ++ t) = Some (as_text s, t).
Proof.
  unfold json_string, quote. cbn [skipn app]. rewrite <- app_assoc.
  rewrite (proj1 (json_runes_ok nw _ (segs_good s))). cbn. rewrite app_nil_r. reflexivity.
Qed.
Lemma json_string_cons nw s : json_string nw s = x22 :: skipn 1 (json_string nw s).
Proof. reflexivity. Qed.
Lemma valid_json_string nw s : valid_utf8 (json_string nw s) = true.
Proof.
  unfold json_string. apply valid_app; [reflexivity|]. apply valid_app; [|reflexivity]. apply (@json_runes_ok nw _ []), segs_good.
Qed.
Lemma den_string nw s : denotes (json_string nw s) (JStr (as_text s)).
Proof.
  exists 1%nat. intros rest _. rewrite json_string_cons. cbn [app read_value skip_ws]. unfold read_opening. cbn [skip_ws].
  change (Byte.eqb x22 x20 || Byte.eqb x22 x09 || Byte.eqb x22 x0a || Byte.eqb x22 x0d) with false. cbv iota. cbn [skip_ws].
  change (Byte.eqb x22 x20 || Byte.eqb x22 x09 || Byte.eqb x22 x0a || Byte.eqb x22 x0d) with false. cbv iota.
  change (Byte.eqb x22 x22) with true. cbv iota. rewrite read_json_string. reflexivity.
Qed.

(** A string in UTF-8 is its own text. *)
Lemma as_text_valid s : valid_utf8 s = true -> as_text s = s.
Proof.
  intros H. unfold as_text, valid_utf8 in *. rewrite <- (segs_concat s) at 2. unfold segs_text. f_equal. apply map_ext_in. intros g Hg.
  pose proof (segs_good s) as G. rewrite Forall_forall in G. destruct (G _ Hg) as [G1 G2].
  rewrite forallb_forall in H. specialize (H _ Hg). unfold seg_ok in H.
  apply encode_decode; [assumption|assumption|]. intros [E1 E2]. rewrite E1, E2 in H. discriminate.
Qed.

(** ** Numbers *)
Lemma digit_val k : k < 10 -> digit_value (digit k) = Some k.
Proof. intros H. unfold digit_value, digit. rewrite b2n_n2b by lia. destruct (N.leb_spec 48 (48 + k)); [|lia]. destruct (N.leb_spec (48 + k) 57); [|lia]. cbn [andb]. f_equal. lia. Qed.
Lemma digits_form fuel : forall n acc, n < 2 ^ N.of_nat fuel -> (1 <= fuel)%nat ->
  exists k ds, digits fuel n acc = map digit (k :: ds) ++ acc /\ Forall (fun d => d < 10) (k :: ds) /\
    fold_left (fun a d => a * 10 + d) ds k = n /\ (k = 0 -> ds = []).
Proof.
  induction fuel as [|f IH]; intros n acc Hn Hf; [lia|]. cbn [digits].
  assert (Hm : n mod 10 < 10) by (apply N.mod_lt; lia).
  destruct (N.ltb_spec n 10) as [Hs|Hs].
  - exists n, []. rewrite N.mod_small by assumption. cbn. repeat split; auto.
  - destruct (IH (n / 10) (digit (n mod 10) :: acc)) as (k & ds & E & F & V & Z).
    + rewrite Nat2N.inj_succ, N.pow_succ_r' in Hn. lia.
    + destruct f; [cbn in Hn; lia|lia].
    + exists k, (ds ++ [n mod 10]). rewrite E. repeat split.
      * rewrite app_comm_cons, map_app, <- app_assoc. reflexivity.
      * rewrite app_comm_cons. apply Forall_app. split; [assumption|]. constructor; [assumption|constructor].
      * rewrite fold_left_app, V. cbn. lia.
      * intros ->. specialize (Z eq_refl). subst ds. cbn in V. lia.
Qed.
Lemma read_digits_ok ds : forall acc rest, Forall (fun d => d < 10) ds ->
  match rest with [] => True | b :: _ => digit_value b = None end ->
  read_digits acc (map digit ds ++ rest) = (fold_left (fun a d => a * 10 + d) ds acc, rest).
Proof.
  induction ds as [|d ds IH]; intros acc rest H Hr; cbn [map app fold_left].
  - destruct rest as [|b rest]; [reflexivity|]. cbn [read_digits]. rewrite Hr. reflexivity.
  - inversion H; subst. cbn [read_digits]. rewrite digit_val by assumption. apply IH; assumption.
Qed.
Lemma sep_digit rest : sep rest -> match rest with [] => True | b :: _ => digit_value b = None end.
Proof. destruct rest as [|b rest]; [trivial|]. intros [<-|[<-|[<-|[<-|[]]]]]; reflexivity. Qed.
Lemma read_nat_digits n rest : sep rest -> exists k ds, digits (S (N.to_nat (N.log2 n))) n [] = map digit (k :: ds) /\ k < 10 /\
  read_nat (map digit (k :: ds) ++ rest) = Some (n, rest).
Proof.
  intros Hr. destruct (@digits_form (S (N.to_nat (N.log2 n))) n []) as (k & ds & E & F & V & Z); [|lia|].
  - rewrite Nat2N.inj_succ, N2Nat.id. destruct (N.eq_dec n 0) as [->|Hn]; [reflexivity|]. apply N.log2_spec. lia.
  - exists k, ds. rewrite app_nil_r in E. inversion F as [|? ? F1 F2]; subst. split; [assumption|]. split; [assumption|].
    cbn [map app]. unfold read_nat. rewrite digit_val by assumption. rewrite read_digits_ok by (assumption || apply sep_digit; assumption).
    destruct (N.eqb_spec k 0) as [Ek|Ek]; cbn [andb].
    + rewrite (Z Ek). cbn [map app]. rewrite Nat.eqb_refl. cbn [negb].
      destruct rest as [|b rest]; [reflexivity|]. destruct Hr as [<-|[<-|[<-|[<-|[]]]]]; reflexivity.
    + destruct rest as [|b rest]; [reflexivity|]. destruct Hr as [<-|[<-|[<-|[<-|[]]]]]; reflexivity.
Qed.
Lemma digit_cases k : k < 10 -> In (digit k) (map digit [0;1;2;3;4;5;6;7;8;9]).
Proof. intros H. apply in_map. cbn [In]. lia. Qed.
Lemma den_int z : denotes (itoa z) (JInt z).
Proof.
  exists 1%nat. intros rest Hr. destruct (read_nat_digits (Z.abs_N z) Hr) as (k & ds & E & Hk & R).
  unfold itoa. rewrite E. destruct (Z.ltb_spec z 0) as [Hz|Hz].
  - change (s2b "-") with [x2d]. cbn [app].
    transitivity (match read_nat (map digit (k :: ds) ++ rest) with Some (n, r) => Some (JInt (Z.opp (Z.of_N n)), r) | None => None end).
    + generalize (map digit (k :: ds) ++ rest). intros t.
      transitivity (match read_int (x2d :: t) with Some (z, r) => Some (JInt z, r) | None => None end); [reflexivity|].
      transitivity (match (match read_nat t with Some (n, r) => Some (Z.opp (Z.of_N n), r) | None => None end) with Some (z, r) => Some (JInt z, r) | None => None end); [reflexivity|].
      destruct (read_nat t) as [[? ?]|]; reflexivity.
    + rewrite R. f_equal. f_equal. f_equal. lia.
  - cbn [app]. 
    transitivity (match read_nat (map digit (k :: ds) ++ rest) with Some (n, r) => Some (JInt (Z.of_N n), r) | None => None end).
    + cbn [map app]. generalize (map digit ds ++ rest). intros t.
      pose proof (digit_cases Hk) as C. cbn [map In] in C.
      assert (Q : forall c, In c [x30;x31;x32;x33;x34;x35;x36;x37;x38;x39] -> read_value 1 (c :: t) = match read_nat (c :: t) with Some (n, r) => Some (JInt (Z.of_N n), r) | None => None end).
      { intros c Hc. assert (Q : read_value 1 (c :: t) = match read_int (c :: t) with Some (z, r) => Some (JInt z, r) | None => None end).
        { repeat destruct Hc as [<-|Hc]; try reflexivity. destruct Hc. }
        rewrite Q. assert (Q' : read_int (c :: t) = match read_nat (c :: t) with Some (n, r) => Some (Z.of_N n, r) | None => None end).
        { repeat destruct Hc as [<-|Hc]; try reflexivity. destruct Hc. }
        rewrite Q'. destruct (read_nat (c :: t)) as [[? ?]|]; reflexivity. }
      apply Q. exact C.
    + rewrite R. f_equal. f_equal. f_equal. lia.
Qed.
Lemma valid_itoa z : valid_utf8 (itoa z) = true.
Proof.
  unfold itoa. apply valid_app; [destruct (z <? 0)%Z; reflexivity|].
  destruct (@read_nat_digits (Z.abs_N z) []) as (k & ds & E & _ & _); [exact I|].
  destruct (@digits_form (S (N.to_nat (N.log2 (Z.abs_N z)))) (Z.abs_N z) []) as (k' & ds' & E' & F & _); [|lia|].
  - rewrite Nat2N.inj_succ, N2Nat.id. destruct (N.eq_dec (Z.abs_N z) 0) as [->|Hn]; [reflexivity|]. apply N.log2_spec. lia.
  - rewrite E', app_nil_r. apply valid_ascii. rewrite Forall_map. eapply Forall_impl; [|exact F]. cbv beta. intros d Hd.
    unfold digit. rewrite b2n_n2b; lia.
Qed.

(** ** Words, arrays, objects *)
Lemma den_true : denotes (s2b "true") (JBool true).
Proof. exists 1%nat. reflexivity. Qed.
Lemma den_false : denotes (s2b "false") (JBool false).
Proof. exists 1%nat. reflexivity. Qed.
Lemma den_null : denotes (s2b "null") JNull.
Proof. exists 1%nat. reflexivity. Qed.

Definition blank (w : bytes) : Prop := Forall (fun b => In b [x20; x09; x0a; x0d]) w.

Lemma Forall2_weaken {A B} (P Q : A -> B -> Prop) l m : (forall a b, P a b -> Q a b) -> Forall2 P l m -> Forall2 Q l m.
Proof. intros H. induction 1; constructor; auto. Qed.

(** Fuel for a list of values. *)
Lemma den_list l vs : Forall2 denotes l vs -> exists f, Forall2 (fun s v => forall rest, sep rest -> read_value f (s ++ rest) = Some (v, rest)) l vs.
Proof.
  induction 1 as [|s v l vs [f Hf] _ [g Hg]]; [exists 0%nat; constructor|]. exists (Nat.max f g). constructor.
  - intros rest Hr. apply (@read_value_le f); [lia|auto].
  - eapply Forall2_weaken; [|exact Hg]. cbv beta. intros s' v' H rest Hr. apply (@read_value_le g); [lia|auto].
Qed.

Lemma read_elems_ok f w w3 : blank w -> blank w3 -> sep (w3 ++ [x5d]) -> forall l vs,
  Forall2 (fun s v => forall rest, sep rest -> read_value f (s ++ rest) = Some (v, rest)) l vs -> l <> [] ->
  forall rest, read_elems (f + length l) (join (x2c :: w) l ++ w3 ++ x5d :: rest) = Some (vs, rest).
Proof.
  intros Hw Hw3 Hs l vs H. induction H as [|s v l vs Hv Hl IH]; intros Hn rest; [congruence|].
  cbn [length]. rewrite Nat.add_succ_r. cbn [read_elems].
  destruct l as [|s2 l].
  - inversion Hl; subst. cbn [join length]. rewrite Nat.add_0_r.
    assert (Hsep : sep (w3 ++ x5d :: rest)) by (destruct w3; exact Hs).
    rewrite (Hv _ Hsep). rewrite !read_opening_app by assumption. reflexivity.
  - replace (join (x2c :: w) (s :: s2 :: l)) with (s ++ (x2c :: w) ++ join (x2c :: w) (s2 :: l)) by reflexivity.
    rewrite <- !app_assoc. cbn [app].
    rewrite (@read_value_le f _ _ (v, x2c :: w ++ join (x2c :: w) (s2 :: l) ++ w3 ++ x5d :: rest)); [|lia|apply Hv; left; reflexivity].
    change (read_opening x2c (x2c :: w ++ join (x2c :: w) (s2 :: l) ++ w3 ++ x5d :: rest)) with (Some (w ++ join (x2c :: w) (s2 :: l) ++ w3 ++ x5d :: rest)).
    cbv iota.
    assert (X : forall g t, read_elems g (w ++ t) = read_elems g t).
    { intros g t. destruct g; [reflexivity|]. cbn [read_elems]. unfold blank in Hw. rewrite read_value_ws by assumption. reflexivity. }
    rewrite X, IH by discriminate. reflexivity.
Qed.

(** Arrays, with any white space after the opening bracket, after the commas and (a line feed or
    nothing) before the closing bracket. *)
Lemma den_array w1 w w3 l vs : blank w1 -> blank w -> blank w3 -> sep (w3 ++ [x5d]) -> Forall2 denotes l vs ->
  denotes (x5b :: w1 ++ join (x2c :: w) l ++ w3 ++ [x5d]) (JArr vs).
Proof.
  intros H1 H2 H3 Hs HF. destruct (den_list HF) as [f Hf]. exists (S (f + length l)). intros rest Hr.
  assert (E0 : (x5b :: w1 ++ join (x2c :: w) l ++ w3 ++ [x5d]) ++ rest = x5b :: w1 ++ join (x2c :: w) l ++ w3 ++ x5d :: rest).
  { cbn [app]. rewrite <- !app_assoc. reflexivity. }
  rewrite E0. clear E0. set (body := w1 ++ join (x2c :: w) l ++ w3 ++ x5d :: rest).
  transitivity (match read_opening x5d body with
                | Some r => Some (JArr [], r)
                | None => match read_elems (f + length l) body with Some (l, r) => Some (JArr l, r) | None => None end
                end); [reflexivity|].
  unfold body, blank in *. rewrite read_opening_app by assumption.
  assert (X : read_elems (f + length l) (w1 ++ join (x2c :: w) l ++ w3 ++ x5d :: rest) = read_elems (f + length l) (join (x2c :: w) l ++ w3 ++ x5d :: rest)).
  { destruct (f + length l)%nat; [reflexivity|]. cbn [read_elems]. rewrite read_value_ws by assumption. reflexivity. }
  rewrite X. clear X body. destruct l as [|s l].
  - inversion HF; subst. cbn [join app]. rewrite read_opening_app by assumption. reflexivity.
  - rewrite (read_elems_ok H2 H3 Hs Hf) by discriminate.
    assert (O : read_opening x5d (join (x2c :: w) (s :: l) ++ w3 ++ x5d :: rest) = None).
    { inversion Hf as [|? v ? vs' Hv Hl]; subst.
      assert (exists t, join (x2c :: w) (s :: l) ++ w3 ++ x5d :: rest = s ++ t /\ sep t) as (t & -> & Ht).
      { destruct l as [|s2 l].
        - exists (w3 ++ x5d :: rest). split; [reflexivity|]. destruct w3; exact Hs.
        - exists ((x2c :: w) ++ join (x2c :: w) (s2 :: l) ++ w3 ++ x5d :: rest). split; [|left; reflexivity].
          replace (join (x2c :: w) (s :: s2 :: l)) with (s ++ (x2c :: w) ++ join (x2c :: w) (s2 :: l)) by reflexivity.
          rewrite <- !app_assoc. reflexivity. }
      apply (read_value_open (Hv _ Ht)). }
    rewrite O. reflexivity.
Qed.
Lemma den_json_array l vs : Forall2 denotes l vs -> denotes (json_array l) (JArr vs).
Proof. intros H. apply (@den_array [] [] [] l vs); [constructor|constructor|constructor|right; left; reflexivity|assumption]. Qed.

Lemma valid_join sp l : valid_utf8 sp = true -> Forall (fun s => valid_utf8 s = true) l -> valid_utf8 (join sp l) = true.
Proof.
  intros Hs. induction 1 as [|x l Hx Hl IH]; [reflexivity|]. destruct l as [|y l]; [assumption|].
  change (join sp (x :: y :: l)) with (x ++ sp ++ join sp (y :: l)). repeat apply valid_app; assumption.
Qed.
Lemma valid_json_array l : Forall (fun s => valid_utf8 s = true) l -> valid_utf8 (json_array l) = true.
Proof. intros H. unfold json_array. repeat apply valid_app; try reflexivity. apply valid_join; [reflexivity|assumption]. Qed.

Definition member (nw : bool) (kv : bytes * bytes) : bytes := json_string nw (fst kv) ++ s2b ":" ++ snd kv.
Lemma read_members_ok nw f : forall l vs,
  Forall2 (fun kv v => forall rest, sep rest -> read_value f (snd kv ++ rest) = Some (v, rest)) l vs -> l <> [] ->
  forall rest, read_members (f + length l) (join (s2b ",") (map (member nw) l) ++ x7d :: rest) = Some (combine (map (fun kv => as_text (fst kv)) l) vs, rest).
Proof.
  assert (ST : forall t, read_opening x22 (x22 :: t) = Some t) by reflexivity.
  intros l vs H. induction H as [|[k s] v l vs Hv Hl IH]; intros Hn rest; [congruence|]. cbn [fst snd] in *.
  cbn [length map combine]. rewrite Nat.add_succ_r. cbn [read_members].
  destruct l as [|kv2 l].
  - inversion Hl; subst. cbn [join map length combine]. rewrite Nat.add_0_r. unfold member. cbn [fst snd]. rewrite <- !app_assoc.
    rewrite json_string_cons. cbn [app]. rewrite ST, read_json_string.
    change (read_opening x3a (s2b ":" ++ s ++ x7d :: rest)) with (Some (s ++ x7d :: rest)). cbv iota.
    rewrite Hv by (right; right; left; reflexivity).
    reflexivity.
  - replace (join (s2b ",") (member nw (k, s) :: map (member nw) (kv2 :: l))) with (member nw (k, s) ++ s2b "," ++ join (s2b ",") (map (member nw) (kv2 :: l))) by reflexivity.
    set (more := join (s2b ",") (map (member nw) (kv2 :: l)) ++ x7d :: rest).
    replace ((member nw (k, s) ++ s2b "," ++ join (s2b ",") (map (member nw) (kv2 :: l))) ++ x7d :: rest) with (member nw (k, s) ++ x2c :: more)
      by (unfold more; rewrite <- !app_assoc; reflexivity).
    change (member nw (k, s)) with (json_string nw k ++ s2b ":" ++ s). rewrite <- !app_assoc.
    rewrite json_string_cons. cbn [app]. rewrite ST, read_json_string.
    change (read_opening x3a (s2b ":" ++ s ++ x2c :: more)) with (Some (s ++ x2c :: more)). cbv iota.
    rewrite (@read_value_le f _ _ (v, x2c :: more)); [|lia|apply Hv; left; reflexivity].
    change (read_opening x2c (x2c :: more)) with (Some more). cbv iota. unfold more. rewrite IH by discriminate. reflexivity.
Qed.
Lemma den_object nw l vs : Forall2 (fun kv v => denotes (snd kv) v) l vs -> l <> [] ->
  denotes (json_object nw l) (JObj (combine (map (fun kv => as_text (fst kv)) l) vs)).
Proof.
  intros HF Hn.
  assert (exists f, Forall2 (fun kv v => forall rest, sep rest -> read_value f (snd kv ++ rest) = Some (v, rest)) l vs) as [f Hf].
  { clear Hn. induction HF as [|kv v l vs [f Hf] _ [g Hg]]; [exists 0%nat; constructor|]. exists (Nat.max f g). constructor.
    - intros rest Hr. apply (@read_value_le f); [lia|auto].
    - eapply Forall2_weaken; [|exact Hg]. cbv beta. intros s' v' H rest Hr. apply (@read_value_le g); [lia|auto]. }
  exists (S (f + length l)). intros rest Hr. unfold json_object. change (map (fun kv => json_string nw (fst kv) ++ s2b ":" ++ snd kv) l) with (map (member nw) l).
  rewrite <- !app_assoc. change (s2b "}" ++ rest) with (x7d :: rest). change (s2b "{") with [x7b]. cbn [app].
  set (body := join (s2b ",") (map (member nw) l) ++ x7d :: rest).
  transitivity (match read_opening x7d body with
                | Some r => Some (JObj [], r)
                | None => match read_members (f + length l) body with Some (l, r) => Some (JObj l, r) | None => None end
                end); [reflexivity|].
  unfold body. rewrite (read_members_ok nw Hf) by assumption.
  destruct l as [|kv l]; [congruence|].
  assert (exists t, join (s2b ",") (map (member nw) (kv :: l)) ++ x7d :: rest = x22 :: t) as (t & ->).
  { destruct l as [|kv2 l]; cbn [map join]; unfold member; rewrite (json_string_cons nw (fst kv)), <- ?app_assoc; cbn [app]; eexists; reflexivity. }
  reflexivity.
Qed.
Lemma valid_json_object nw l : Forall (fun kv => valid_utf8 (snd kv) = true) l -> valid_utf8 (json_object nw l) = true.
Proof.
  intros H. unfold json_object. repeat apply valid_app; try reflexivity. apply valid_join; [reflexivity|].
  rewrite Forall_map. eapply Forall_impl; [|exact H]. cbv beta. intros kv Hkv. apply valid_app; [apply valid_json_string|]. apply valid_app; [reflexivity|assumption].
Qed.

(** ** The two structs *)
Lemma den_strings nw l : denotes (json_strings nw l) (strings_value l).
Proof.
  destruct l as [l|]; [|apply den_null]. apply den_json_array. induction l; cbn [map]; constructor; [apply den_string|assumption].
Qed.
Lemma valid_strings nw l : valid_utf8 (json_strings nw l) = true.
Proof. destruct l as [l|]; [|reflexivity]. apply valid_json_array. rewrite Forall_map. apply Forall_forall. intros s _. apply valid_json_string. Qed.
Lemma den_token nw td : denotes (marshal_token nw td) (token_value td).
Proof.
  unfold marshal_token.
  match goal with |- denotes (json_object nw ?l) _ => assert (X : exists vs, Forall2 (fun kv v => denotes (snd kv) v) l vs /\ combine (map (fun kv => as_text (fst kv)) l) vs =
    match token_value td with JObj m => m | _ => [] end) end.
  { eexists. split; [repeat (constructor; [first [apply den_int|apply den_string|apply den_strings]|]); constructor|].
    unfold token_value. cbn [map combine fst snd].
    repeat match goal with |- context [as_text (s2b ?k)] => replace (as_text (s2b k)) with (s2b k) by (vm_compute; reflexivity) end. reflexivity. }
  destruct X as (vs & X1 & X2). pose proof (den_object nw X1 ltac:(discriminate)) as X. rewrite X2 in X. exact X.
Qed.
Lemma valid_token nw td : valid_utf8 (marshal_token nw td) = true.
Proof.
  apply valid_json_object. repeat (constructor; [cbn [snd]; first [apply valid_itoa|apply valid_json_string|apply valid_strings]|]). constructor.
Qed.
Lemma den_tokens nw l : Forall2 denotes (map (marshal_token nw) l) (map token_value l).
Proof. induction l; cbn [map]; constructor; [apply den_token|assumption]. Qed.
Lemma den_response nw st l : denotes (marshal_response nw st l) (response_value st l).
Proof.
  unfold marshal_response, response_value.
  assert (Hl : denotes (match l with None => s2b "null" | Some l => json_array (map (marshal_token nw) l) end)
                 (match l with None => JNull | Some l => JArr (map token_value l) end)).
  { destruct l as [l|]; [|apply den_null]. apply den_json_array, den_tokens. }
  assert (Hs : denotes (if st then s2b "true" else s2b "false") (JBool st)) by (destruct st; [apply den_true|apply den_false]).
  match goal with |- denotes (json_object nw ?l) _ => refine (@den_object nw l [_; _] _ _) end; [|discriminate].
  constructor; [exact Hs|]. constructor; [exact Hl|constructor].
Qed.
Lemma denotes_text s v : denotes s v -> valid_utf8 s = true -> json_text s v.
Proof. intros [f H] Hv. split; [assumption|]. exists f, []. split; [|reflexivity]. rewrite <- (app_nil_r s) at 1. apply H. exact I. Qed.
Lemma denotes_line s v : denotes s v -> valid_utf8 s = true -> json_text (s ++ [x0a]) v.
Proof.
  intros [f H] Hv. split; [apply valid_app; [assumption|reflexivity]|]. exists f, [x0a]. split; [|reflexivity]. apply H. right; right; right; left; reflexivity.
Qed.
Lemma response_text nw st l : json_text (marshal_response nw st l) (response_value st l).
Proof.
  apply denotes_text; [apply den_response|]. apply valid_json_object. constructor; [destruct st; reflexivity|]. constructor; [|constructor].
  cbn [snd]. destruct l as [l|]; [|reflexivity]. apply valid_json_array. rewrite Forall_map. apply Forall_forall. intros td _. apply valid_token.
Qed.
Lemma token_text nw td : json_text (marshal_token nw td) (token_value td).
Proof. apply denotes_text; [apply den_token|apply valid_token]. Qed.
