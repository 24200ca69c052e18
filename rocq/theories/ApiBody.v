(** Lemmas for C128: the request that a body asks for and the errors of the decoder are not long. *)
From Verif Require Import Utf8Facts TokFacts AnalyzeFacts TokenFacts ServerFacts TextFacts CmdWork ApiWork DecodeErrors.
From Coq Require Import ZifyBool ZifyNat ZifyN.
Set Implicit Arguments. Unset Strict Implicit.
Open Scope nat_scope.

(** ** The sentence *)
Lemma raw_size b raw tail r : decode_rune ((b :: raw) ++ tail) = (r, length (b :: raw)) -> length (encode_rune r) <= 3 * length (b :: raw).
Proof.
  intros E. pose proof (encode_le4 r) as L. destruct raw as [|b1 raw]; [|cbn [length]; lia].
  cbn [length Nat.mul Nat.add app] in E |- *. unfold decode_rune in E.
  assert (Q : (r < 128)%N \/ r = rune_error).
  { repeat match type of E with
    | (if ?b then _ else _) = _ => destruct b eqn:?
    | (match ?x with [] => _ | _ :: _ => _ end) = _ => destruct x
    end; try discriminate E; injection E as <-; auto. left. lia. }
  destruct Q as [Q | ->]; [|vm_compute; lia]. unfold encode_rune. destruct (r <? 128)%N eqn:Z; [cbn; lia|lia].
Qed.
Lemma u_size s c tail : u_escape s c tail -> length s = 6 + length tail.
Proof. intros (h1 & h2 & h3 & h4 & -> & _). reflexivity. Qed.
Lemma text_size s v : str_text s v -> length v <= 3 * length s.
Proof.
  induction 1 as [|b raw tail r v D _ _ _ _ IH|e c tail v _ _ IH|s c tail v U _ _ _ IH|s c s2 c2 tail v U _ U2 _ _ IH|s c tail v U _ _ IH]; rewrite ?app_length.
  - cbn. lia.
  - pose proof (raw_size D). lia.
  - cbn [length]. lia.
  - pose proof (u_size U). pose proof (encode_le4 c). lia.
  - pose proof (u_size U). pose proof (u_size U2). pose proof (encode_le4 (65536 + (c - 55296) * 1024 + (c2 - 56320))). lia.
  - pose proof (u_size U). pose proof (encode_le4 65533). lia.
Qed.
Lemma value_size t s : reads t (TStr s) -> length s <= 3 * length t.
Proof. intros H. inversion H as [| | | |x v S Q1 Q2| | | |]; subst. apply text_size in S. cbn [length]. rewrite app_length. lia. Qed.
Lemma members_size m l : members m l -> forall k s, In (k, TStr s) l -> length s <= 3 * length m.
Proof.
  assert (One : forall m kv, member m kv -> forall k s, kv = (k, TStr s) -> length s <= 3 * length m).
  { intros m' kv [w1 k w2 w3 t w4 kt v _ _ _ _ R _] k' s E. injection E as -> ->. apply value_size in R. repeat (rewrite app_length; cbn [length]). lia. }
  induction 1 as [m kv M|m kv s l M _ IH]; intros k x [Q|Q].
  - exact (One _ _ M _ _ Q).
  - destruct Q.
  - pose proof (One _ _ M _ _ Q). rewrite app_length. lia.
  - specialize (IH _ _ Q). rewrite app_length. cbn [length]. lia.
Qed.
Lemma texts_in f l s : In s (texts f l) -> exists k, In (k, TStr s) l.
Proof.
  unfold texts. intros H. apply in_flat_map in H. destruct H as ((k & v) & I & H). cbn [fst snd] in H. destruct (names k f); [|destruct H].
  destruct v as [| | |x| |]; cbn [In] in H; try contradiction. destruct H as [<-|Z]; [eauto|contradiction].
Qed.
Lemma last_in (l : list bytes) : last l [] = [] \/ In (last l []) l.
Proof. induction l as [|a [|b l] IH]; [auto|right; left; reflexivity|]. destruct IH as [IH|IH]; [left; exact IH|right; right; exact IH]. Qed.
Lemma asked_size body r : body_asks body r -> length (rq_input r) <= 3 * length body.
Proof.
  intros (v & (w & t & rest & -> & _ & R & _) & A). rewrite !app_length. destruct A as [|l _ _]; cbn [rq_input]; [cbn; lia|].
  unfold text_of. destruct (last_in (texts "sentence" l)) as [-> |H]; [cbn; lia|]. apply texts_in in H. destruct H as (k & H).
  inversion R; subst; [destruct H|]. match goal with M : members _ _ |- _ => pose proof (members_size M H) end. cbn [length]. rewrite app_length. lia.
Qed.

(** ** The errors *)
Lemma looking_size p c x : looking p c x -> length (s2b x) <= 60.
Proof.
  intros H. destruct H; try (vm_compute; lia).
  match goal with W : In w _ |- _ => destruct W as [<-|[<-|[<-|[]]]] end; cbn; lia.
Qed.
Lemma escaped_size pr r : length (escaped_rune pr r) <= 10.
Proof.
  unfold escaped_rune. pose proof (encode_le4 r).
  repeat match goal with |- context [if ?b then _ else _] => destruct b end; try (cbn; lia).
Qed.
Lemma shown_size pr c : length (quote_char pr c) <= 12.
Proof.
  rewrite escape_here. destruct (Byte.eqb c x27); [cbn; lia|]. destruct (Byte.eqb c x22); [cbn; lia|]. rewrite !app_length. pose proof (escaped_size pr (b2n c)).
  change (length (s2b "'")) with 1. lia.
Qed.
Lemma type_size v t : length (type_error (kind v) t) <= 200.
Proof. destruct v, t; vm_compute; lia. Qed.
Lemma error_size pr body e : the_decoder pr body = inr e -> length e <= 200.
Proof.
  intros Q. unfold the_decoder, json_decode in Q. change (Scan SBeginValue []) with top in Q. destruct (read_loop pr top 0 false body) as [n|e'] eqn:L.
  - destruct (read_shapes pr body) as [(w & tx & v & rest & Eb & B & R & D & Mx & L')|(e' & L')]; [|congruence]. rewrite L in L'. injection L' as ->.
    rewrite Eb in Q. rewrite app_assoc, firstn_app, firstn_all, Nat.sub_diag in Q. cbn [firstn] in Q. rewrite app_nil_r, (unmarshal_run B R D) in Q.
    unfold result in Q. destruct (pg_err (outcome v)) as [e'|] eqn:E; [|discriminate]. injection Q as ->.
    assert (C : (exists l, v = TObj l) \/ (forall l, v <> TObj l)) by (destruct v; [right..|left]; try discriminate; eauto). destruct C as [(l & ->)|C].
    + cbn [outcome] in E. destruct (@put_wrong l start e eq_refl E) as (l1 & k & v & l2 & t & -> & N & F & K & ->). apply type_size.
    + assert (G : e = type_error (kind v) TgStruct).
      { destruct v; cbn [outcome store save_error start pg_err] in E; try discriminate E; try (exfalso; eapply C; reflexivity); injection E as <-; reflexivity. }
      rewrite G. apply type_size.
  - injection Q as ->. destruct (@read_errors pr body top 0%nat false e ltac:(discriminate) L) as [(p & c & q & s1 & s2 & Eb & F & Es & ->)|(Ee & s' & F)].
    + pose proof (@scan_failed s1 c ltac:(eapply feed_sane; [|exact F]; exact I)) as Fl. rewrite Es in Fl. destruct Fl as [(_ & Fl)|(Z & _)]; [|congruence].
      destruct Fl as (ctx & Ec & _). unfold scan_error. rewrite Ec.
      destruct (expected F Es Ec) as (x & Lk & ->). pose proof (looking_size Lk). pose proof (shown_size pr c). rewrite !app_length.
      change (length (s2b "invalid character ")) with 18. change (length (s2b " ")) with 1. lia.
    + rewrite Ee. match goal with |- context [if ?b then _ else _] => destruct b end; vm_compute; lia.
Qed.

(** ** The endpoint *)
Theorem body_size d u : wf_dict d -> wf_udict u -> wf_data d -> exists a, forall pr omit ideo nw body r,
  serve_tokenize (the_decoder pr) nw ideo (Tokenizer d u omit) body = Ok r ->
  let n := length body in length (rs_body r) <= a * (n * (Nat.log2 n + 1) + 1).
Proof.
  intros Hd Hu Hw. destruct (@answer_size d u Hd Hu Hw) as (a & H). exists (9 * a + 300). intros pr omit ideo nw body r E n.
  destruct (the_decoder pr body) as [req|e] eqn:Q.
  - specialize (H omit ideo nw (the_decoder pr) body req r Q E). cbv zeta in H. apply decode_asks in Q. apply asked_size in Q. fold n in Q.
    set (m := length (rq_input req)) in *.
    assert (L : Nat.log2 m <= Nat.log2 n + 2).
    { etransitivity; [apply Nat.log2_le_mono; exact Q|]. destruct n as [|n']; [cbn; lia|]. transitivity (Nat.log2 (2 ^ 2 * S n')); [apply Nat.log2_le_mono; change (2 ^ 2) with 4; lia|].
      rewrite Nat.mul_comm, Nat.log2_mul_pow2; lia. }
    assert (m * (Nat.log2 m + 1) <= 9 * (n * (Nat.log2 n + 1))) by nia. nia.
  - unfold serve_tokenize in E. rewrite Q in E. injection E as <-. pose proof (error_size Q) as B. cbn [rs_body http_error]. unfold error_body. rewrite !app_length.
    assert (length (s2b "{""status"":false,""error"":""") + length (s2b """}") + length [x0a] <= 60) by (vm_compute; lia). nia.
Qed.
Theorem wrong_size pr ideo nw t body r : (forall req, ~ body_asks body req) ->
  serve_tokenize (the_decoder pr) nw ideo t body = Ok r -> length (rs_body r) <= 260.
Proof.
  intros N E. destruct (the_decoder pr body) as [req|e] eqn:Q; [apply decode_asks in Q; destruct (N _ Q)|].
  unfold serve_tokenize in E. rewrite Q in E. injection E as <-. pose proof (error_size Q) as B. cbn [rs_body http_error]. unfold error_body. rewrite !app_length.
  assert (length (s2b "{""status"":false,""error"":""") + length (s2b """}") + length [x0a] <= 60) by (vm_compute; lia). lia.
Qed.
