(** From lattices to token lists. *)
From Verif Require Export PathFacts SpecOut.
From Coq Require Import ZifyBool ZifyNat ZifyN.
Set Implicit Arguments.
Unset Strict Implicit.
Open Scope nat_scope.

(** ** The expected tokens *)
Section Out.
Variables (t : tokenizer) (inp : bytes).

Definition bos_token : token := Token 0 (-1)%Z DUMMY 0 0 0 (s2b "BOS") (tk_dict t) (tk_udict t).
Definition eos_token : token :=
  Token 0 (-1)%Z DUMMY (length inp) (rcount inp) (rcount inp) (s2b "EOS") (tk_dict t) (tk_udict t).

(** Surface of a word: its text, except the one-byte surface of a literal U+FFFD whose category is
    not grouped. *)
Definition word_surface (w : word) : bytes :=
  match w_class w with
  | UNKNOWN =>
    if bytes_eqb (text inp (w_start w) (S (w_start w))) [xef; xbf; xbd] &&
       negb (groups (tk_dict t) (cat (tk_dict t) inp (w_start w)))
    then [xef] else word_text inp w
  | _ => word_text inp w
  end.

Definition word_token (w : word) : token :=
  Token 0 (w_id w) (w_class w) (offset inp (w_start w)) (w_start w) (w_stop w) (word_surface w)
        (tk_dict t) (tk_udict t).

(** Extended mode: one DUMMY token per rune of an unknown word. *)
Definition rune_token (w : word) (k : nat) : token :=
  Token 0 (w_id w) DUMMY (offset inp k) k (S k) (encode_rune (rune_at inp k)) (tk_dict t) (tk_udict t).

Definition word_tokens (m : lmode) (w : word) : list token :=
  match m, w_class w with
  | LExtended, UNKNOWN => map (rune_token w) (seq (w_start w) (w_stop w - w_start w))
  | _, _ => [word_token w]
  end.

(** The tokens for the words ws from rune i on (i is 0 unless the beginning was lost). *)
Definition raw_tokens (m : lmode) (i : nat) (ws : list word) : list token :=
  (if (i =? 0)%nat then [bos_token] else []) ++ flat_map (word_tokens m) ws ++ [eos_token].

Definition final_tokens (m : lmode) (i : nat) (ws : list word) : list token :=
  renumber 0 (filter (fun tk => negb (tk_omit t && is_marker tk)) (raw_tokens m i ws)).
End Out.

(** ** The token loop as a function *)
Fixpoint imap {A B} (f : nat -> A -> B) (i : nat) (l : list A) : list B :=
  match l with [] => [] | x :: l' => f i x :: imap f (S i) l' end.

Lemma imap_app {A B} (f : nat -> A -> B) l1 l2 : forall i, imap f i (l1 ++ l2) = imap f i l1 ++ imap f (i + length l1) l2.
Proof.
  induction l1 as [|x l1 IH]; intros i; cbn [app imap length]; [rewrite Nat.add_0_r; reflexivity|].
  rewrite IH. do 2 f_equal. f_equal. lia.
Qed.

Lemma imap_map {A B} (f : A -> B) l : forall i, imap (fun _ => f) i l = map f l.
Proof. induction l as [|x l IH]; intros i; cbn; [reflexivity|f_equal; apply IH]. Qed.

Lemma imap_ext_in {A B} (f g : nat -> A -> B) l : forall i, (forall k x, i <= k < i + length l -> In x l -> f k x = g k x) ->
  imap f i l = imap g i l.
Proof.
  induction l as [|x l IH]; intros i H; cbn [imap]; [reflexivity|].
  f_equal; [apply H; [cbn; lia|left; reflexivity]|]. apply IH. intros k y Hk Hy. apply H; [cbn; lia|right; assumption].
Qed.

Lemma renumber_app ts us : forall k, renumber k (ts ++ us) = renumber k ts ++ renumber (k + length ts) us.
Proof.
  induction ts as [|t ts IH]; intros k; cbn [app renumber length]; [rewrite Nat.add_0_r; reflexivity|].
  rewrite IH. do 2 f_equal. f_equal. lia.
Qed.

Lemma renumber_length ts : forall k, length (renumber k ts) = length ts.
Proof. induction ts as [|t ts IH]; intros k; cbn; auto. Qed.

Lemma foldM_rev_index {A B} (out : list B) (g : A -> nat -> B -> res A) a0 :
  foldM (fun a i => let* x := index out (length out - 1 - i) in g a i x) (seq 0 (length out)) a0 =
  foldM (fun a p => g a (fst p) (snd p)) (combine (seq 0 (length out)) (rev out)) a0.
Proof.
  assert (G : forall k s a (f : nat -> res B) ys, length ys = k ->
     (forall x, x < k -> f (s + x) = index ys x) ->
     foldM (fun a i => let* x := f i in g a i x) (seq s k) a =
     foldM (fun a p => g a (fst p) (snd p)) (combine (seq s k) ys) a).
  { induction k as [|k IH]; intros s a f ys Hl H; cbn [seq foldM combine]; [reflexivity|].
    destruct ys as [|y ys]; [discriminate|]. cbn [combine foldM fst snd].
    assert (E := H 0). rewrite Nat.add_0_r in E. rewrite E by lia. cbn [index nth_error rbind].
    destruct (g a s y); cbn [rbind]; [|reflexivity|reflexivity].
    apply IH; [cbn in Hl; lia|]. intros x Hx. specialize (H (S x)). replace (s + S x) with (S s + x) in H by lia.
    apply H. lia. }
  apply (G (length out) 0 a0 (fun i => index out (length out - 1 - i)) (rev out)).
  - apply rev_length.
  - intros x Hx. cbn [Nat.add]. unfold index.
    assert (E : nth_error (rev out) x = nth_error out (length out - 1 - x)); [|rewrite E; reflexivity].
    assert (Hd : exists dflt : B, True) by (destruct out as [|b out]; [cbn in Hx; lia|exists b; trivial]).
    destruct Hd as [dflt _].
    rewrite (nth_error_nth' (rev out) dflt) by (rewrite rev_length; lia).
    rewrite (nth_error_nth' out dflt) by lia. f_equal. rewrite rev_nth by lia. f_equal. lia.
Qed.

Definition keep (t : tokenizer) (tk : token) : bool := negb (tk_omit t && is_marker tk).

Lemma analyze_tokens_ok t out :
  analyze_tokens t out = Ok (renumber 0 (filter (keep t) (imap (fun i n => make_token t i 0 n) 0 (rev out)))).
Proof.
  unfold analyze_tokens.
  rewrite (@foldM_rev_index (list token) node out (fun tokens i n =>
     if tk_omit t && (n_id n =? bos_eos_id)%Z then Ok tokens else Ok (tokens ++ [make_token t i (length tokens) n])) []).
  rewrite <- (rev_length out). generalize (rev out). clear out. intros ns.
  assert (G : forall ns i acc,
     foldM (fun a p => if tk_omit t && (n_id (snd p) =? bos_eos_id)%Z then Ok a
                       else Ok (a ++ [make_token t (fst p) (length a) (snd p)])) (combine (seq i (length ns)) ns) acc =
     Ok (acc ++ renumber (length acc) (filter (keep t) (imap (fun i n => make_token t i 0 n) i ns)))).
  { induction ns0 as [|nd ns0 IH]; intros i acc; cbn [length seq combine foldM imap filter renumber fst snd].
    - rewrite app_nil_r. reflexivity.
    - unfold keep at 1. unfold is_marker. cbn [make_token t_id].
      change (bos_eos_id) with (-1)%Z.
      destruct (tk_omit t && (n_id nd =? -1)%Z); cbn [rbind negb].
      + apply IH.
      + rewrite IH. rewrite <- app_assoc, app_length. cbn [length app renumber]. rewrite Nat.add_1_r. reflexivity. }
  apply G.
Qed.

Lemma graph_tokens_ok t (out : list node) :
  foldM (fun tokens i => let* n := index out (length out - 1 - i) in Ok (tokens ++ [make_graph_token t i n]))
    (seq 0 (length out)) [] = Ok (imap (make_graph_token t) 0 (rev out)).
Proof.
  rewrite (@foldM_rev_index (list token) node out (fun tokens i n => Ok (tokens ++ [make_graph_token t i n])) []).
  rewrite <- (rev_length out). generalize (rev out). clear out. intros ns.
  assert (G : forall ns i acc,
     foldM (fun a p => Ok (a ++ [make_graph_token t (fst p) (snd p)])) (combine (seq i (length ns)) ns) acc =
     Ok (acc ++ imap (make_graph_token t) i ns)).
  { induction ns0 as [|nd ns0 IH]; intros i acc; cbn [length seq combine foldM imap fst snd rbind].
    - rewrite app_nil_r. reflexivity.
    - rewrite IH. rewrite <- app_assoc. reflexivity. }
  apply G.
Qed.

(** Tokens do not see costs and predecessors. *)
Lemma make_token_core t i idx n : make_token t i idx (core n) = make_token t i idx n.
Proof. reflexivity. Qed.

Lemma core_idem n : core (core n) = core n.
Proof. reflexivity. Qed.

Lemma split_core p l : forall i, map core (split_from p i l) = split_from (core p) i l.
Proof. induction l as [|[k r] l IH]; intros i; cbn [split_from map]; [reflexivity|]. rewrite IH. reflexivity. Qed.

Lemma output_core m p : map core (output_fun m p) = output_fun m (core p).
Proof.
  unfold output_fun. change (n_class (core p)) with (n_class p). change (n_surface (core p)) with (n_surface p).
  destruct m; try reflexivity. destruct (n_class p); try reflexivity.
  rewrite map_rev, split_core. reflexivity.
Qed.

Lemma map_core_flat m l : map core (flat_map (output_fun m) l) = flat_map (output_fun m) (map core l).
Proof.
  induction l as [|x l IH]; cbn [flat_map map]; [reflexivity|]. rewrite map_app, output_core, IH. reflexivity.
Qed.

Lemma imap_core t l : forall i, imap (fun i n => make_token t i 0 n) i (map core l) = imap (fun i n => make_token t i 0 n) i l.
Proof. induction l as [|x l IH]; intros i; cbn [map imap]; [reflexivity|]. rewrite IH. reflexivity. Qed.

Lemma rev_flat_map {A B} (f : A -> list B) l : rev (flat_map f l) = flat_map (fun x => rev (f x)) (rev l).
Proof.
  induction l as [|x l IH]; cbn [flat_map rev]; [reflexivity|].
  rewrite rev_app_distr, IH, flat_map_app. cbn. rewrite app_nil_r. reflexivity.
Qed.

(** ** Runes of a word *)
Section Runes.
Variable inp : bytes.
Let n := rcount inp.

Lemma range_text_from i k x : i <= x -> x + k <= n ->
  range_from (offset inp x - offset inp i) (firstn k (skipn x (segs inp))) =
  map (fun y => (offset inp y - offset inp i, rune_at inp y)) (seq x k).
Proof.
  revert x; induction k as [|k IH]; intros x Hix Hx; [reflexivity|].
  assert (Hxn : x < n) by lia. rewrite (skipn_seg Hxn). cbn [firstn range_from seq map]. f_equal.
  rewrite <- IH by lia. f_equal. rewrite (offset_S Hxn). pose proof (@offset_mono inp i x Hix). lia.
Qed.

Lemma range_string_text i j : i <= j <= n ->
  range_string (text inp i j) = map (fun y => (offset inp y - offset inp i, rune_at inp y)) (seq i (j - i)).
Proof.
  intros H. unfold range_string. rewrite text_segs by assumption.
  rewrite <- (@range_text_from i (j - i) i) by lia. rewrite Nat.sub_diag. reflexivity.
Qed.

Lemma encode_rune_at k : k < n -> rune_count (encode_rune (rune_at inp k)) = 1 /\
  (seg_ok (rune_at inp k, text inp k (S k)) = true -> encode_rune (rune_at inp k) = text inp k (S k)).
Proof.
  intros Hk. pose proof (rune_decoded Hk) as D.
  assert (Hne : text inp k (S k) <> []) by (apply text_pos; fold n; lia).
  assert (Hrc : rune_count (text inp k (S k)) = 1) by (rewrite text_rcount by (fold n; lia); lia).
  destruct (rune_kind Hk) as [(Hr & Hl & _)|[(Hr & Ht & _)|(Hr & Hl & _)]].
  - assert (E : encode_rune (rune_at inp k) = text inp k (S k)) by (apply encode_decode; [exact D|assumption|tauto]).
    rewrite E. auto.
  - rewrite Hr, Ht. split; reflexivity.
  - rewrite Hr. split; [reflexivity|]. unfold seg_ok. cbn [fst snd]. rewrite Hl. discriminate.
Qed.
End Runes.

(** ** The nodes of a segmentation give the specified tokens *)
Section Shape.
Variables (d : dict) (u : option udict) (inp : bytes).
Hypothesis Hd : wf_dict d.
Hypothesis Hu : wf_udict u.
Variable omit : bool.
Let t := Tokenizer d u omit.
Let n := rcount inp.

Lemma candidate_id_pos w : candidate d u inp w -> (0 <= w_id w)%Z.
Proof.
  intros H. destruct H as [ud id i j Eu Hk|id i j Hn Hk|id i j e Hn Hor He Hj Hid]; cbn [w_id].
  - destruct Hk as [_ Hk]. rewrite Eu in Hu. apply (Hu _ _ Hk).
  - destruct Hk as [_ Hk]. apply (wf_idx Hd _ _ Hk).
  - pose proof (wf_unk Hd (rune_at inp i)) as W. cbv zeta in W. unfold cat in Hid. lia.
Qed.

Lemma odd_stop w : candidate d u inp w -> odd_b d inp w = true -> w_stop w = S (w_start w).
Proof.
  intros H Ho. unfold odd_b in Ho.
  destruct H as [ud id i j Eu Hk|id i j Hn Hk|id i j e Hn Hor He Hj Hid]; cbn [w_class w_start w_stop] in *; try discriminate.
  apply andb_true_iff in Ho. destruct Ho as [_ Ho]. destruct He as [_ He].
  destruct (groups d (cat d inp i)); [discriminate|]. lia.
Qed.

Lemma surface_of_word_surface w : surface_of d inp w = word_surface t inp w.
Proof.
  unfold surface_of, word_surface, odd_b. cbn [tk_dict t]. destruct (w_class w); reflexivity.
Qed.

Lemma surface_count w : candidate d u inp w -> w_start w + rune_count (surface_of d inp w) = w_stop w.
Proof.
  intros H. pose proof (candidate_range H) as R. unfold surface_of. destruct (odd_b d inp w) eqn:Ho.
  - rewrite (odd_stop H Ho). cbn. lia.
  - unfold word_text. rewrite text_rcount; lia.
Qed.

Lemma split_tokens id p0 : forall l s i k0, (id <> -1)%Z ->
  (forall y, In y l -> y < n /\ p0 <= offset inp y) -> l = seq (s + i) (length l) ->
  imap (fun i n => make_token t i 0 n) k0
    (split_from (Node id p0 s UNKNOWN 0 0 0 0 [] None) i (map (fun y => (offset inp y - p0, rune_at inp y)) l)) =
  map (fun k => Token 0 id DUMMY (offset inp k) k (S k) (encode_rune (rune_at inp k)) d u) l.
Proof.
  induction l as [|y l IH]; intros s i k0 Hid Hl Hseq; cbn [map split_from imap]; [reflexivity|].
  cbn [length seq] in Hseq. injection Hseq as Hy Hseq.
  destruct (Hl y) as [H1 H2]; [left; reflexivity|].
  f_equal.
  - unfold make_token. cbn [n_id n_class n_position n_start n_surface tk_dict tk_udict t].
    destruct (encode_rune_at H1) as [-> _].
    assert (Z.eqb id bos_eos_id = false) as ->. { apply Z.eqb_neq. exact Hid. }
    f_equal; lia.
  - apply IH; [assumption|intros; apply Hl; right; assumption|].
    rewrite Hseq at 1. f_equal. lia.
Qed.

Lemma split_from_fields p q l : n_id p = n_id q -> n_position p = n_position q -> n_start p = n_start q ->
  forall i, split_from p i l = split_from q i l.
Proof. intros H1 H2 H3. induction l as [|[k r] l IH]; intros i; cbn; [reflexivity|]. rewrite H1, H2, H3, IH. reflexivity. Qed.

Lemma word_output m w k0 : candidate d u inp w ->
  imap (fun i n => make_token t i 0 n) k0 (rev (output_fun m (node_of d inp w))) = word_tokens t inp m w.
Proof.
  intros H. pose proof (candidate_range H) as R. fold n in R. pose proof (candidate_id_pos H) as Hid.
  assert (Hone : imap (fun i n => make_token t i 0 n) k0 [node_of d inp w] = [word_token t inp w]).
  { cbn [imap]. unfold make_token, word_token. cbn [node_of n_id n_class n_position n_start n_surface].
    rewrite (surface_count H). assert (Z.eqb (w_id w) bos_eos_id = false) as ->. { apply Z.eqb_neq. unfold bos_eos_id. lia. }
    rewrite surface_of_word_surface. reflexivity. }
  unfold output_fun, word_tokens. change (n_class (node_of d inp w)) with (w_class w).
  destruct m; try exact Hone. destruct (w_class w) eqn:Ec; try exact Hone.
  rewrite rev_involutive. cbn [n_surface node_of].
  assert (Hrs : range_string (surface_of d inp w) =
     map (fun y => (offset inp y - offset inp (w_start w), rune_at inp y)) (seq (w_start w) (w_stop w - w_start w))).
  { unfold surface_of. destruct (odd_b d inp w) eqn:Ho.
    - rewrite (odd_stop H Ho). replace (S (w_start w) - w_start w) with 1 by lia. cbn [seq map]. rewrite Nat.sub_diag.
      unfold odd_b in Ho. rewrite Ec in Ho. apply andb_true_iff in Ho. destruct Ho as [Ho _]. apply bytes_eqb_eq in Ho.
      apply literal_text in Ho; [|fold n; lia].
      destruct (@rune_kind inp (w_start w)) as [(_ & _ & C)|[(Hr & _)|(_ & _ & C)]]; [fold n; lia|tauto| |tauto].
      rewrite Hr. reflexivity.
    - apply range_string_text. fold n. lia. }
  change (n_surface (node_of d inp w)) with (surface_of d inp w). rewrite Hrs.
  rewrite (@split_from_fields _ (Node (w_id w) (offset inp (w_start w)) (w_start w) UNKNOWN 0 0 0 0 [] None)) by reflexivity.
  rewrite split_tokens.
  - reflexivity.
  - lia.
  - intros y Hy. apply in_seq in Hy. split; [lia|]. apply offset_mono. lia.
  - rewrite seq_length. f_equal. lia.
Qed.

Lemma word_tokens_nonempty m w : candidate d u inp w -> 1 <= length (word_tokens t inp m w).
Proof.
  intros H. pose proof (candidate_range H). unfold word_tokens.
  destruct m; cbn; try lia. destruct (w_class w); cbn; try lia. rewrite map_length, seq_length. lia.
Qed.

Lemma words_output m ws : forall i j k0, chain d u inp i ws j ->
  imap (fun i n => make_token t i 0 n) k0 (flat_map (fun x => rev (output_fun m x)) (map (node_of d inp) ws)) =
  flat_map (word_tokens t inp m) ws.
Proof.
  induction ws as [|w ws IH]; intros i j k0 H; cbn [map flat_map]; [reflexivity|].
  inversion H as [|w0 ws0 j0 Hc Hch]; subst. rewrite imap_app, word_output by assumption. f_equal. eapply IH; eassumption.
Qed.

(** Length of the nodes emitted for the words. *)
Lemma words_output_length m ws i j : chain d u inp i ws j -> ws <> [] ->
  0 < length (flat_map (fun x => rev (output_fun m x)) (map (node_of d inp) ws)).
Proof.
  intros H Hne. pose proof (words_output m 0 H) as E. apply (f_equal (@length _)) in E.
  assert (L : forall (l : list node) k, length (imap (fun i n => make_token t i 0 n) k l) = length l).
  { induction l; intros k; cbn; auto. }
  rewrite L in E. rewrite E. destruct ws as [|w ws]; [congruence|]. inversion H; subst.
  cbn [flat_map]. rewrite app_length. pose proof (word_tokens_nonempty m (w := w)). specialize (H0 ltac:(assumption)). lia.
Qed.

(** The token list for a walk. *)
Lemma tokens_of_walk m l i ws tail :
  chain d u inp i ws n ->
  map core l = eos_node inp :: rev (map (node_of d inp) ws) ++ tail ->
  (i = 0 /\ tail = [bos_node] \/ 0 < i /\ tail = [] /\ ws <> []) ->
  analyze_tokens t (flat_map (output_fun m) l) = Ok (final_tokens t inp m i ws).
Proof.
  intros Hch Hl Htail. rewrite analyze_tokens_ok. f_equal. unfold final_tokens. fold (keep t). f_equal. f_equal.
  rewrite <- imap_core. rewrite map_rev, map_core_flat, Hl.
  rewrite rev_flat_map. cbn [rev]. rewrite rev_app_distr, rev_involutive, !flat_map_app.
  assert (He : forall k, 0 < k -> imap (fun i n => make_token t i 0 n) k (flat_map (fun x => rev (output_fun m x)) [eos_node inp]) = [eos_token t inp]).
  { intros k Hk. assert (E : flat_map (fun x => rev (output_fun m x)) [eos_node inp] = [eos_node inp]) by (destruct m; reflexivity).
    rewrite E. cbn [imap]. unfold make_token, eos_token. cbn [eos_node n_id n_class n_position n_start n_surface].
    change (rune_count []) with 0. rewrite Nat.add_0_r. destruct (Nat.eqb_spec k 0); [lia|]. reflexivity. }
  unfold raw_tokens. destruct Htail as [[-> ->]|(Hi & -> & Hne)].
  - cbn [Nat.eqb rev app].
    assert (E : flat_map (fun x => rev (output_fun m x)) [bos_node] = [bos_node]) by (destruct m; reflexivity).
    rewrite E. cbn [app imap]. rewrite imap_app. rewrite He by lia. rewrite (words_output m _ Hch). reflexivity.
  - destruct (Nat.eqb_spec i 0); [lia|]. cbn [rev app flat_map].
    rewrite imap_app. rewrite (words_output m _ Hch). f_equal. apply He.
    pose proof (words_output_length m Hch Hne). lia.
Qed.

(** ** Results of Analyze *)
Lemma built_conn la : built d u inp la -> exists rows,
  (Z.of_nat (length (d_conn_vec d)) = rows * d_conn_col d)%Z /\
  forall i nd, In nd (nth i la []) -> conn_node d rows nd.
Proof.
  intros Hb. destruct (@entry_wf d inp Hd) as (rows & (H1 & H2 & H3) & H4). exists rows. split; [assumption|].
  intros i nd Hin. destruct (built_node Hb Hin) as [[_ ->]|[[_ ->]|(_ & w & Hc & _ & ->)]];
    [unfold conn_node; cbn; lia|unfold conn_node; cbn; lia|].
  destruct (H4 _ _ (candidate_id Hd Hc)) as (A & B & _). unfold conn_node. cbn. auto.
Qed.

(** Whatever the length: the walk ends and yields a chain of candidates up to the end. *)
Lemma walk_chain ideo m la la' : built d u inp la -> forwarded d ideo m la la' ->
  forall s, s <= n -> forall j p, nth_error (nth s la' []) j = Some p ->
  exists l i ws tail, back la' p l /\ chain d u inp i ws s /\
    map core l = rev (map (node_of d inp) ws) ++ tail /\
    (i = 0 /\ tail = [bos_node] \/ 0 < i /\ tail = [] /\ ws <> [] /\ forall w, candidate d u inp w -> w_stop w <> i).
Proof.
  intros Hb Hf. induction s as [s IH] using lt_wf_ind. intros Hs j p Hp.
  destruct (Nat.eq_dec s 0) as [->|H0].
  - rewrite (fw_0 Hf), (b_bos Hb) in Hp. destruct j as [|j]; [|destruct j; discriminate]. injection Hp as <-.
    exists [bos_node], 0, [], [bos_node]. repeat split; try (constructor; reflexivity). left. auto.
  - assert (Hsr : 0 < s < n + 2) by lia.
    destruct (@fw_node d u inp ideo m la la' Hb Hf s j p Hsr Hp) as (t0 & Ht & Hpn & Hr).
    destruct (built_node Hb Ht) as [[? _]|[[? _]|(_ & w & Hc & Hst & ->)]]; [lia|lia|].
    pose proof (candidate_range Hc) as R. fold n in R.
    assert (Hcore : core p = node_of d inp w) by (destruct Hr as [[_ ->]|(j0 & q & _ & _ & ->)]; reflexivity).
    destruct Hr as [[Hem ->]|(j0 & q & Hq & _ & ->)].
    + assert (Hw0 : 0 < w_start w).
      { destruct (Nat.eq_dec (w_start w) 0) as [E|]; [|lia]. cbn [node_of n_start] in Hem. rewrite E, (fw_0 Hf), (b_bos Hb) in Hem. discriminate. }
      eexists [_], (w_start w), [w], []. split; [apply back_end; reflexivity|]. split.
      { rewrite <- Hst. constructor; [assumption|constructor]. }
      split; [reflexivity|]. right. repeat split; [assumption|discriminate|].
      intros w' Hc' Ew'. pose proof (candidate_range Hc') as R'. fold n in R'.
      assert (Hin : In (node_of d inp w') (nth (w_start w) la [])).
      { apply (b_mid Hb); [fold n; lia|]. exists w'. auto. }
      apply In_nth_error in Hin. destruct Hin as (j1 & Hj1).
      assert (F := fw_step Hf (i := w_start w)). rewrite (b_len Hb) in F. specialize (F ltac:(fold n; lia)).
      destruct (Forall2_nth_l F Hj1) as (t' & Hj' & _). cbn [node_of n_start] in Hem. rewrite Hem in Hj'. destruct j1; discriminate.
    + cbn [node_of n_start] in Hq. destruct (IH (w_start w) ltac:(lia) ltac:(lia) j0 q Hq) as (l & i & ws & tail & B & C & E & T).
      eexists (_ :: l), i, (ws ++ [w]), tail. split.
      { eapply back_step; [reflexivity| |exact B]. cbn [n_start node_of]. apply (get2_la' Hb Hf); [unfold n in *; lia|exact Hq]. }
      split; [rewrite <- Hst; eapply chain_snoc; eauto|]. split.
      { cbn [map]. rewrite E. rewrite map_app, rev_app_distr. cbn [map rev app]. rewrite core_set, core_node_of. reflexivity. }
      destruct T as [T|(T1 & T2 & T3 & T4)]; [left; assumption|right]. repeat split; try assumption. destruct ws; discriminate.
Qed.

Lemma lattice_ok ideo m : exists la la', build d u inp = Ok la /\ built d u inp la /\
  forward d ideo m la = Ok la' /\ forwarded d ideo m la la'.
Proof.
  destruct (@build_spec d u inp Hd Hu) as (la & E1 & Hb).
  destruct (built_conn Hb) as (rows & Hrc & Hcn).
  destruct (@forward_ok d rows ideo m la Hrc Hcn) as (la' & E2 & Hf).
  { intros i nd Hi Hin. apply (built_start Hb (proj1 Hi) Hin). }
  exists la, la'. auto.
Qed.

Lemma back_det la' p l1 : back la' p l1 -> forall l2, back la' p l2 -> l1 = l2.
Proof.
  induction 1 as [p Hp|p i j q l Hp Hg Hb IH]; intros l2 H2; inversion H2; subst; try congruence.
  f_equal. apply IH. congruence.
Qed.

Lemma backward_ok ideo m m2 la la' eos l : built d u inp la -> forwarded d ideo m la la' ->
  nth_error (nth (S n) la' []) 0 = Some eos -> back la' eos l ->
  backward m2 la' = Ok (flat_map (output_fun m2) l).
Proof.
  intros Hb Hf He Hl. unfold backward.
  assert (L : length la' = n + 2) by (rewrite (fw_len Hf); apply (b_len Hb)).
  rewrite L. replace (n + 2) with (S (S n)) by lia. cbv iota.
  rewrite (@get2_la' d u inp ideo m la la' Hb Hf (S n) 0 eos) by (fold n; lia || assumption). cbn [rbind].
  assert (Hx : S n < n + 2) by lia.
  destruct (@back_exists d u inp ideo m la la' Hb Hf (S n) Hx 0 eos He) as (l' & B & Hlen).
  rewrite (back_det Hl B). rewrite (walk_back m2 B) by lia. reflexivity.
Qed.

Lemma eos_at ideo m la la' : built d u inp la -> forwarded d ideo m la la' ->
  exists eos, nth_error (nth (S n) la' []) 0 = Some eos /\ relaxed d ideo m la' (eos_node inp) eos.
Proof.
  intros Hb Hf. assert (F := fw_step Hf (i := S n)). rewrite (b_len Hb) in F. specialize (F ltac:(fold n; lia)).
  unfold n in F. rewrite (b_eos Hb) in F.
  destruct (@Forall2_nth_l _ _ _ _ _ 0 (eos_node inp) F eq_refl) as (eos & He & Hr). exists eos. auto.
Qed.

End Shape.

Lemma chain_head d u inp i ws j : chain d u inp i ws j -> ws <> [] -> exists w, candidate d u inp w /\ w_start w = i.
Proof. intros [|w ws' j' Hc Hch] H; [congruence|eauto]. Qed.

(** Any length: the nodes on the path, the same for every way of printing them. *)
Theorem run_path d u inp ideo m : wf_dict d -> wf_udict u -> exists la la' l i ws,
  build d u inp = Ok la /\ forward d ideo m la = Ok la' /\
  (forall m2, backward m2 la' = Ok (flat_map (output_fun m2) l)) /\
  chain d u inp i ws (rcount inp) /\ (i = 0 \/ 0 < i /\ ws <> [] /\ forall w, candidate d u inp w -> w_stop w <> i) /\
  (forall m2 omit, analyze_tokens (Tokenizer d u omit) (flat_map (output_fun m2) l) =
     Ok (final_tokens (Tokenizer d u omit) inp m2 i ws)) /\
  ((Z.of_nat (rcount inp) <= limit m)%Z -> i = 0) /\
  ((Z.of_nat (rcount inp) <= limit m)%Z -> (Z.of_nat (rcount inp) <= 32767)%Z ->
    forall ws', segmentation d u inp ws' -> (seg_cost m ideo d inp ws <= seg_cost m ideo d inp ws')%Z).
Proof.
  intros Hd Hu. set (n := rcount inp).
  destruct (lattice_ok inp Hd Hu ideo m) as (la & la' & E1 & Hb & E2 & Hf).
  assert (W : exists eos l i ws tail, nth_error (nth (S n) la' []) 0 = Some eos /\ back la' eos (eos :: l) /\ chain d u inp i ws n /\
      map core (eos :: l) = eos_node inp :: rev (map (node_of d inp) ws) ++ tail /\
      (i = 0 /\ tail = [bos_node] \/ 0 < i /\ tail = [] /\ ws <> [] /\ forall w, candidate d u inp w -> w_stop w <> i) /\
      ((Z.of_nat n <= limit m)%Z -> i = 0) /\
      ((Z.of_nat n <= limit m)%Z -> (Z.of_nat n <= 32767)%Z ->
       forall ws', segmentation d u inp ws' -> (seg_cost m ideo d inp ws <= seg_cost m ideo d inp ws')%Z)).
  { assert (NR : nreach la n <= n) by (eapply nreach_bound; eassumption).
    assert (Hcase : (Z.of_nat n <= limit m)%Z /\ (Z.of_nat (nreach la n) <= 32767)%Z \/
                    ((Z.of_nat n <= limit m)%Z -> n <= nreach la n) /\ ~ ((Z.of_nat n <= limit m)%Z /\ (Z.of_nat n <= 32767)%Z)).
    { clear -NR. unfold limit in *. destruct m; lia. }
    destruct Hcase as [[Hlen Hr]|[Hall Hlen]].
    - destruct (best_path Hd Hu Hb Hf Hlen Hr) as (eos & ws & l & He & B & Hc & Hs & Hm).
      exists eos, l, 0, ws, [bos_node]. repeat split; try assumption; [left; auto|intros; apply Hm; assumption].
    - assert (Hpos : 0 < n) by (clear -Hlen; unfold limit in Hlen; destruct m; lia).
      destruct (eos_at Hb Hf) as (eos & He & Hr).
      enough (W : exists l i ws tail, back la' eos (eos :: l) /\ chain d u inp i ws n /\
      map core (eos :: l) = eos_node inp :: rev (map (node_of d inp) ws) ++ tail /\
      (i = 0 /\ tail = [bos_node] \/ 0 < i /\ tail = [] /\ ws <> [] /\ forall w, candidate d u inp w -> w_stop w <> i)).
      { destruct W as (l & i & ws & tail & W1 & W2 & W3 & W4). exists eos, l, i, ws, tail.
        split; [assumption|]. split; [assumption|]. split; [assumption|]. split; [assumption|]. split; [assumption|]. split; [|intros; tauto].
        intros Hlim. destruct W4 as [[? _]|(Hi & _ & Hws & Hg)]; [assumption|]. exfalso.
        destruct (chain_head W2 Hws) as (w & Hc & <-). pose proof (candidate_range Hc) as R. fold n in R.
        destruct (@all_reach d u inp la Hb (Hall Hlim) (w_start w)) as (w' & Hc' & E); [fold n; lia|]. exact (Hg _ Hc' E). }
      destruct Hr as [[Hem ->]|(j & p & Hp & _ & ->)].
      + (* impossible: some segmentation ends at n *)
        exfalso. cbn [n_start eos_node] in Hem. fold n in Hem.
        destruct (@segmentation_from d u inp Hd Hu la Hb n 0 eq_refl) as (ws & Hws).
        destruct ws as [|w ws _] using rev_ind.
        * assert (Hx : n = 0) by (inversion Hws; unfold n; congruence). lia.
        * apply chain_inv_snoc in Hws. destruct Hws as (_ & Hc & Hst). fold n in Hst.
          pose proof (candidate_range Hc) as R. fold n in R.
          assert (Hin : In (node_of d inp w) (nth n la [])).
          { apply (b_mid Hb); [fold n; lia|]. exists w. auto. }
          apply In_nth_error in Hin. destruct Hin as (j & Hj).
          assert (F := fw_step Hf (i := n)). rewrite (b_len Hb) in F. specialize (F ltac:(fold n; lia)).
          destruct (Forall2_nth_l F Hj) as (t' & Hj' & _). rewrite Hem in Hj'. destruct j; discriminate.
      + cbn [n_start eos_node] in Hp |- *. fold n in Hp.
        destruct (walk_chain Hb Hf (Nat.le_refl n) Hp) as (l & i & ws & tail & B & C & E & T).
        exists l, i, ws, tail. split.
        * eapply back_step; [reflexivity| |exact B]. fold n. apply (get2_la' Hb Hf); [fold n; lia|exact Hp].
        * split; [assumption|]. split; [cbn [map]; rewrite E; reflexivity|assumption]. }
  destruct W as (eos & l & i & ws & tail & He & B & C & E & T & Hopt).
  exists la, la', (eos :: l), i, ws. split; [assumption|]. split; [assumption|].
  split; [intros m2; eapply backward_ok; eassumption|].
  split; [assumption|]. split; [tauto|]. split; [|assumption].
  intros m2 omit. eapply tokens_of_walk; try eassumption. tauto.
Qed.
