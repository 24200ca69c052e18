(** Proofs about bodies that arrive in pieces. *)
From Verif Require Import Utf8Facts SpecStream Stream DecodeErrors DecodeServe.
From Coq Require Import Lia ZifyBool ZifyNat ZifyN.
Set Implicit Arguments. Unset Strict Implicit.
Open Scope N_scope.

(** ** Feeding and scanning *)
Lemma scan_fed pr t : forall s s' n, feed 0 s t = Some s' -> scan_buf pr s n t = More s' (n + length t).
Proof.
  induction t as [|c t IH]; intros s s' n H; [injection H as <-; cbn; rewrite Nat.add_0_r; reflexivity|].
  cbn [feed] in H. cbn [scan_buf]. pose proof (scan_ops s c) as O. destruct (json_scan s c) as [s1 o] eqn:E.
  assert (F : quiet o = true /\ inside (sc_step s1) = true /\ feed 0 s1 t = Some s').
  { destruct o; try discriminate H; destruct (sc_step s1); try discriminate H; auto. }
  destruct F as (Q & I & F). replace (n + length (c :: t))%nat with (S n + length t)%nat by (cbn; lia).
  assert (G : (o = OEndObject \/ o = OEndArray) -> end_value (sc_stack s1) x20 = (s1, OSkipSpace)).
  { intros H1. specialize (O H1). destruct s1 as [q1 st1]. cbn [sc_stack sc_step] in *. unfold jpop in O. destruct st1 as [|p st]; injection O as ->; [discriminate I|reflexivity]. }
  destruct o; try discriminate Q; try (apply IH; exact F).
  - rewrite (G (or_introl eq_refl)). apply IH; exact F.
  - rewrite (G (or_intror eq_refl)). apply IH; exact F.
Qed.
(** What is not fed stops the scan, with what [read_loop] says, whatever follows. *)
Lemma scan_unfed pr t : forall s n, sc_step s <> SEndTop -> feed 0 s t = None ->
  (exists m, scan_buf pr s n t = Found m /\ (m <= n + length t)%nat /\ forall seen rest, read_loop pr s n seen (t ++ rest) = inl m) \/
  (exists e, scan_buf pr s n t = Wrong e /\ forall seen rest, read_loop pr s n seen (t ++ rest) = inr e).
Proof.
  induction t as [|c t IH]; intros s n Nt H; [discriminate H|].
  cbn [feed] in H. cbn [scan_buf app read_loop]. pose proof (@scan_top s c Nt) as T. pose proof (scan_ops s c) as P. destruct (json_scan s c) as [s1 o] eqn:E.
  assert (G : o <> OError -> o <> OEnd -> sc_step s1 <> SEndTop -> feed 0 s1 t = None).
  { intros N1 N2 N3. destruct o; try congruence; destruct (sc_step s1); try congruence; exact H. }
  assert (Q : (o = OEndObject \/ o = OEndArray) -> sc_stack s1 <> [] -> sc_step s1 <> SEndTop /\ end_value (sc_stack s1) x20 = (s1, OSkipSpace)).
  { intros O Ns. specialize (P O). destruct s1 as [q1 st1]. cbn [sc_stack sc_step] in *. unfold jpop in P. destruct st1 as [|p st]; [congruence|]. injection P as ->. split; [discriminate|reflexivity]. }
  assert (IH' : forall n, o <> OError -> o <> OEnd -> sc_step s1 <> SEndTop ->
    (exists m, scan_buf pr s1 n t = Found m /\ (m <= n + length t)%nat /\ forall seen rest, read_loop pr s1 n (seen || negb (json_space c)) (t ++ rest) = inl m) \/
    (exists e, scan_buf pr s1 n t = Wrong e /\ forall seen rest, read_loop pr s1 n (seen || negb (json_space c)) (t ++ rest) = inr e)).
  { intros n' N1 N2 N3. destruct (IH s1 n' N3 (G N1 N2 N3)) as [(m & A & L & B)|(e & A & B)]; [left; exists m|right; exists e]; auto. }
  replace (n + length (c :: t))%nat with (S n + length t)%nat by (cbn; lia).
  destruct o; try (apply IH'; [discriminate|discriminate|]; intros Z; destruct (T Z) as [Z'|[Z'|([Z'|Z'] & _)]]; discriminate Z').
  - destruct (sc_stack s1) as [|p st] eqn:Es; [left; eexists; split; [reflexivity|split; [lia|intros; reflexivity]]|]. destruct Q as (Q1 & Q2); [auto|discriminate|]. rewrite Q2. apply IH'; [discriminate|discriminate|exact Q1].
  - destruct (sc_stack s1) as [|p st] eqn:Es; [left; eexists; split; [reflexivity|split; [lia|intros; reflexivity]]|]. destruct Q as (Q1 & Q2); [auto|discriminate|]. rewrite Q2. apply IH'; [discriminate|discriminate|exact Q1].
  - left. eexists. split; [reflexivity|split; [lia|intros; reflexivity]].
  - right. eexists. split; [reflexivity|intros; reflexivity].
Qed.

(** ** Settled bodies *)
Lemma feed_none_app k a b s : feed k s a = None -> feed k s (a ++ b) = None.
Proof. intros H. rewrite feed_app, H. reflexivity. Qed.
Lemma fed_blank w : blank w -> feed 0 top w = Some top.
Proof. intros B. apply feed_blank; [reflexivity|right; discriminate|cbn; lia|assumption]. Qed.
(** A value that is no object or array leaves the scanner ready for its end. *)
Lemma fed_simple t v : reads t v -> ~ In (kind v) ["object"; "array"]%string -> exists q, feed 0 top t = Some (Scan q []) /\ done q = true /\ (v <> TNum -> q = SEndValue).
Proof.
  intros [| | |t' H|s v' H|w H|t' l H|w H|t' l H] N; try (exfalso; apply N; cbn; auto; fail).
  - exists SEndValue. split; [|auto]. apply (@feed_word 0 [] SBeginValue OBeginLiteral x6e (s2b "ull") (s2b "null")); [cbn; lia|reflexivity|discriminate|reflexivity].
  - exists SEndValue. split; [|auto]. apply (@feed_word 0 [] SBeginValue OBeginLiteral x74 (s2b "rue") (s2b "true")); [cbn; lia|reflexivity|discriminate|reflexivity].
  - exists SEndValue. split; [|auto]. apply (@feed_word 0 [] SBeginValue OBeginLiteral x66 (s2b "alse") (s2b "false")); [cbn; lia|reflexivity|discriminate|reflexivity].
  - destruct (@feed_number 0 [] t' (le_n _) H) as (q & Dq & F). exists q. split; [exact F|]. split; [exact Dq|congruence].
  - exists SEndValue. split; [|auto]. assert (E1 : json_scan top x22 = (Scan SInString [], OBeginLiteral)) by reflexivity.
    erewrite feed_cons; [|exact E1|reflexivity|reflexivity|cbn; lia]. eapply feed_quoted; [cbn; lia|eassumption].
Qed.
Lemma feed_mono k t : forall s s', feed k s t = Some s' -> feed 0 s t = Some s'.
Proof.
  induction t as [|c t IH]; intros s s'; [auto|]. cbn [feed]. destruct (json_scan s c) as [s1 o]. destruct o; try discriminate; destruct (sc_step s1); try discriminate; destruct (k <=? length (sc_stack s1))%nat; try discriminate; cbn [Nat.leb]; apply IH.
Qed.
Lemma unfed_array t l : array_inside t l -> N.of_nat (nesting (TArr l)) <= 10000 -> feed 0 top (x5b :: t ++ [x5d]) = None.
Proof.
  intros H D. destruct (@feed_array 1 [] t l (proj1 (proj2 grammar_fed) t l) H) as (q & F & E); [cbn; lia|cbn [length]; lia|].
  erewrite feed_cons; [|apply open_array; cbn; lia|reflexivity|reflexivity|cbn; lia]. rewrite feed_app, (feed_mono F). cbn [feed]. rewrite E. reflexivity.
Qed.
Lemma unfed_object t l : object_inside t l -> N.of_nat (nesting (TObj l)) <= 10000 -> feed 0 top (x7b :: t ++ [x7d]) = None.
Proof.
  intros H D. destruct (@feed_object 1 [] t l (proj1 (proj2 (proj2 grammar_fed)) t l) H) as (q & p & F & E); [cbn; lia|cbn [length]; lia|].
  erewrite feed_cons; [|apply open_object; cbn; lia|reflexivity|reflexivity|cbn; lia]. rewrite feed_app, (feed_mono F). cbn [feed]. rewrite E. reflexivity.
Qed.
Lemma whole_unfed b : whole b -> feed 0 top b = None.
Proof.
  intros (w & t & v & rest & -> & B & R & D & K). rewrite feed_app, (fed_blank B).
  assert (C : In (kind v) ["object"; "array"]%string \/ ~ In (kind v) ["object"; "array"]%string) by (destruct v; cbn; intuition discriminate).
  destruct C as [C|C].
  - apply feed_none_app. destruct R as [| | |t' H|s v' H|w' H|t' l H|w' H|t' l H]; try (exfalso; cbn in C; intuition discriminate; fail).
    + apply (@unfed_array w' []); [left; auto|exact D].
    + apply (@unfed_array t' l); [right; exact H|exact D].
    + apply (@unfed_object w' []); [left; auto|exact D].
    + apply (@unfed_object t' l); [right; exact H|exact D].
  - destruct K as [K|(c & r & -> & Mx)]; [contradiction|]. destruct (fed_simple R C) as (q & F & Dq & Eq). rewrite feed_app, F. cbn [feed].
    assert (Dc : json_scan (Scan q []) c = end_value [] c \/ json_scan (Scan q []) c <> end_value [] c).
    { destruct q; try discriminate Dq; unfold json_scan, state_0; cbn [sc_step sc_stack]; break_ifs; auto; right; rewrite end_value_end; intros Q; injection Q as _ Q; discriminate Q. }
    destruct Dc as [Dc|Dc]; [rewrite Dc, end_value_end; reflexivity|]. exfalso.
    assert (Kn : v = TNum \/ v <> TNum) by (destruct v; (left; reflexivity) || (right; discriminate)). destruct Kn as [->|Kn].
    + inversion R as [| | |t0 Hn| | | | |]. subst t0. destruct (number_goes_on Hn F Dq Dc) as (q2 & Hq). exact (Mx eq_refl _ Hq).
    + rewrite (Eq Kn) in Dc. apply Dc. reflexivity.
Qed.
Lemma settled_unfed b : settled b <-> feed 0 top b = None.
Proof.
  split.
  - intros [W|(p & c & O)]; [apply whole_unfed; exact W|]. destruct (feed 0 top b) as [s|] eqn:F; [|reflexivity]. exfalso. exact (viable_no_offence (fed_viable F) O).
  - intros F. pose (pr := fun _ : N => true). destruct (read_shapes pr b) as [(w & t & v & rest & -> & B & R & D & Mx & _)|(e & E)].
    + left. exists w, t, v, rest. repeat (split; [solve [auto]|]).
      assert (C : In (kind v) ["object"; "array"]%string \/ ~ In (kind v) ["object"; "array"]%string) by (destruct v; cbn; intuition discriminate).
      destruct C as [C|C]; [left; exact C|right]. destruct rest as [|c r].
      * exfalso. rewrite app_nil_r in F. destruct (fed_simple R C) as (q & F' & _). rewrite feed_app, (fed_blank B), F' in F. discriminate F.
      * exists c, r. split; [reflexivity|]. intros Ev q. exact (Mx Ev c r q eq_refl).
    + right. destruct (@read_errors pr b top 0 false e) as [(p & c & q & s1 & s2 & -> & F1 & E1 & _)|(_ & s & F1)]; [discriminate|exact E| |congruence].
      exists p, c. split; [exists q; reflexivity|]. split; [exact (fed_viable F1)|]. apply (not_viable F1). rewrite E1. reflexivity.
Qed.
Lemma begins_object_settled b l : begins b (TObj l) -> settled b.
Proof. intros (w & t & rest & E & B & R & D & _). left. exists w, t, (TObj l), rest. repeat (split; [assumption|]). left. cbn. auto. Qed.

(** ** The stream *)
Definition nonspace (b : bytes) : bool := existsb (fun c => negb (json_space c)) b.
Lemma nonspace_all b : nonspace b = negb (forallb json_space b).
Proof. unfold nonspace. induction b as [|c b IH]; [reflexivity|]. cbn [existsb forallb]. rewrite IH. destruct (json_space c); reflexivity. Qed.
Lemma fed_inside t s s' : sc_step s <> SEndTop -> feed 0 s t = Some s' -> sc_step s' <> SEndTop.
Proof. intros N F. destruct (feed_step F) as [(_ & ->)|H]; assumption. Qed.
Definition eof_outcome (s : jscan) (b : bytes) : Stream.outcome :=
  match snd (json_scan s x20) with OEnd => Value (length b) b | _ => Fails (if nonspace b then s2b "unexpected EOF" else s2b "EOF") end.
Definition end_outcome (s : jscan) (b : bytes) (e : option read_error) : Stream.outcome :=
  match e with None => Waits | Some REof => eof_outcome s b | Some (RFail x) => Fails x end.
Lemma stream_run pr script : forall b e, delivers script b e -> forall s buf, sc_step s <> SEndTop ->
  match feed 0 s b with
  | Some s' => read_stream pr s (length buf) buf script = end_outcome s' (buf ++ b) e
  | None =>
    (exists n p q, b = p ++ q /\ read_stream pr s (length buf) buf script = Value n (buf ++ p) /\ (n <= length (buf ++ p))%nat /\
       forall seen, read_loop pr s (length buf) seen b = inl n) \/
    (exists x, read_stream pr s (length buf) buf script = Fails x /\ forall seen, read_loop pr s (length buf) seen b = inr x)
  end.
Proof.
  induction 1 as [|c script b e D IH|c e script]; intros s buf N; cbn [read_stream].
  - cbn [feed end_outcome]. reflexivity.
  - rewrite feed_app. destruct (feed 0 s c) as [s1|] eqn:F.
    + rewrite (scan_fed pr _ F). pose proof (fed_inside N F) as N1. rewrite <- app_length. specialize (IH s1 (buf ++ c) N1).
      destruct (feed 0 s1 b) as [s2|]; [rewrite IH, <- app_assoc; reflexivity|].
      assert (T : forall seen, exists seen', read_loop pr s (length buf) seen (c ++ b) = read_loop pr s1 (length (buf ++ c)) seen' b).
      { intros seen. destruct (read_fed pr (length buf) seen b F) as (seen' & E). exists seen'. rewrite E, app_length. reflexivity. }
      destruct IH as [(n & p & q & -> & A & L & B)|(x & A & B)].
      * left. exists n, (c ++ p), q. rewrite <- !app_assoc in *. repeat (split; [solve [auto]|]). intros seen. destruct (T seen) as (seen' & ->). apply B.
      * right. exists x. split; [exact A|]. intros seen. destruct (T seen) as (seen' & ->). apply B.
    + destruct (@scan_unfed pr c s (length buf) N F) as [(m & E & L & R)|(x & E & R)]; rewrite E.
      * left. exists m, c, b. split; [reflexivity|]. split; [reflexivity|]. split; [rewrite app_length; exact L|]. intros seen. apply R.
      * right. exists x. split; [reflexivity|]. intros seen. apply R.
  - destruct (feed 0 s c) as [s1|] eqn:F.
    + rewrite (scan_fed pr _ F), <- app_length. destruct e; reflexivity.
    + destruct (@scan_unfed pr c s (length buf) N F) as [(m & E & L & R)|(x & E & R)]; rewrite E.
      * left. exists m, c, []. rewrite app_nil_r. split; [reflexivity|]. split; [reflexivity|]. split; [rewrite app_length; exact L|]. intros seen. rewrite <- (app_nil_r c). apply R.
      * right. exists x. split; [reflexivity|]. intros seen. rewrite <- (app_nil_r c). apply R.
Qed.
Lemma decoder_here pr body : json_decode pr body = Ok (the_decoder pr body).
Proof. unfold the_decoder. destruct (decode_ok pr body) as (r & ->). reflexivity. Qed.
Theorem stream_same pr script b e : delivers script b e -> e = Some REof \/ settled b -> stream_decode pr script = Some (Ok (the_decoder pr b)).
Proof.
  intros D H. rewrite <- decoder_here. unfold stream_decode, json_decode. fold top.
  pose proof (@stream_run pr script b e D top [] (fun Z => ltac:(discriminate Z))) as R. cbn [length app] in R.
  destruct (feed 0 top b) as [s'|] eqn:F.
  - destruct H as [->|H]; [|apply settled_unfed in H; congruence]. rewrite R. cbn [end_outcome]. unfold eof_outcome.
    destruct (read_fed pr 0 false [] F) as (seen & E). rewrite app_nil_r in E. cbn [read_loop Nat.add] in E.
    destruct (read_loop pr top 0 false b) as [n|x] eqn:L.
    + destruct (snd (json_scan s' x20)); try discriminate E. injection E as ->. reflexivity.
    + destruct (@read_errors pr b top 0 false x) as [(p & c & q & s1 & s2 & -> & F1 & E1 & _)|(Hx & _)]; [discriminate|exact L| |].
      * exfalso. rewrite feed_app, F1 in F. cbn [feed] in F. rewrite E1 in F. discriminate F.
      * cbn [orb] in Hx. rewrite <- nonspace_all in Hx. rewrite Hx. destruct (snd (json_scan s' x20)); try discriminate E; reflexivity.
  - destruct R as [(n & p & q & -> & A & Ln & B)|(x & A & B)]; rewrite A, B; [|reflexivity].
    f_equal. f_equal. rewrite firstn_app. replace (n - length p)%nat with 0%nat by lia. cbn [firstn]. rewrite app_nil_r. reflexivity.
Qed.
Theorem stream_other pr script b e : delivers script b e -> ~ settled b ->
  match e with None => stream_decode pr script = None | Some (RFail x) => stream_decode pr script = Some (Ok (inr x)) | Some REof => True end.
Proof.
  intros D H. unfold stream_decode. fold top. pose proof (@stream_run pr script b e D top [] (fun Z => ltac:(discriminate Z))) as R. cbn [length app] in R.
  destruct (feed 0 top b) as [s'|] eqn:F; [|exfalso; apply H; apply settled_unfed; exact F]. rewrite R. destruct e as [[|x]|]; [exact I|reflexivity|reflexivity].
Qed.

(** ** The handler *)
Lemma serve_decoded newer ideo t decode body : serve_tokenize decode newer ideo t body = serve_tokenize (fun _ => decode body) newer ideo t [].
Proof. reflexivity. Qed.
Theorem arriving_same pr newer ideo t script b e : delivers script b e -> e = Some REof \/ settled b ->
  serve_arriving pr newer ideo t script = Some (serve_tokenize (the_decoder pr) newer ideo t b).
Proof. intros D H. unfold serve_arriving. rewrite (stream_same pr D H). reflexivity. Qed.
Theorem arriving_other pr newer ideo t script b e : delivers script b e -> ~ settled b ->
  match e with
  | None => serve_arriving pr newer ideo t script = None
  | Some (RFail x) => exists r, serve_arriving pr newer ideo t script = Some (Ok r) /\ rs_status r = 400%Z /\ rs_body r = s2b "{""status"":false,""error"":""" ++ x ++ s2b """}" ++ [x0a]
  | Some REof => True
  end.
Proof.
  intros D H. pose proof (stream_other pr D H) as R. unfold serve_arriving. destruct e as [[|x]|]; [exact I| |]; rewrite R; [|reflexivity].
  cbn [rbind]. eexists. split; [reflexivity|]. split; [reflexivity|]. cbn. rewrite <- app_assoc. reflexivity.
Qed.
(** What has settled the answer stays, whatever follows. *)
Theorem settled_app b q : settled b -> settled (b ++ q).
Proof. rewrite !settled_unfed. apply feed_none_app. Qed.
Theorem settled_stays pr b q : settled b -> the_decoder pr (b ++ q) = the_decoder pr b.
Proof.
  intros H. assert (D1 : delivers [(b, None); (q, None)] (b ++ q) None) by (rewrite <- (app_nil_r q) at 2; repeat constructor).
  assert (D0 : delivers [(b, None)] b None) by (rewrite <- (app_nil_r b) at 2; repeat constructor).
  pose proof (stream_same pr D1 (or_intror (settled_app q H))) as E1. pose proof (stream_same pr D0 (or_intror H)) as E0.
  unfold stream_decode in *. cbn [read_stream] in E0, E1. fold top in E0, E1.
  destruct (@scan_unfed pr b top 0 (fun Z => ltac:(discriminate Z)) (proj1 (settled_unfed b) H)) as [(m & E & _)|(x & E & _)]; rewrite E in E0, E1; congruence.
Qed.
Theorem unsettled_viable b : ~ settled b -> viable b.
Proof. intros H. destruct (feed 0 top b) as [s|] eqn:F; [exact (fed_viable F)|]. exfalso. apply H. apply settled_unfed. exact F. Qed.
Theorem stream_pieces pr newer ideo t script script' b e : delivers script b e -> delivers script' b e ->
  stream_decode pr script = stream_decode pr script' /\ serve_arriving pr newer ideo t script = serve_arriving pr newer ideo t script'.
Proof.
  intros D D'. assert (E : stream_decode pr script = stream_decode pr script').
  { destruct (feed 0 top b) as [s|] eqn:F.
    - assert (H : ~ settled b) by (rewrite settled_unfed; congruence). pose proof (stream_other pr D H) as A. pose proof (stream_other pr D' H) as A'.
      destruct e as [[|x]|]; [|congruence|congruence]. rewrite (stream_same pr D), (stream_same pr D'); auto.
    - apply settled_unfed in F. rewrite (stream_same pr D (or_intror F)), (stream_same pr D' (or_intror F)). reflexivity. }
  split; [exact E|]. unfold serve_arriving. rewrite E. reflexivity.
Qed.
Theorem delivers_total script : exists b e, delivers script b e.
Proof. induction script as [|[c [e|]] s (b & e' & D)]; eauto using delivers. Qed.
Theorem delivers_one script b e : delivers script b e -> forall b' e', delivers script b' e' -> b = b' /\ e = e'.
Proof. induction 1 as [|c s b e D IH|c e s]; intros b' e' D'; inversion D'; subst; auto. edestruct IH as (-> & ->); eauto. Qed.
Lemma settled_here b : match feed 0 top b with None => true | _ => false end = true -> settled b.
Proof. intros H. apply settled_unfed. destruct (feed 0 top b); [discriminate|reflexivity]. Qed.
Lemma unsettled_here b : match feed 0 top b with None => false | _ => true end = true -> ~ settled b.
Proof. intros H Z. apply settled_unfed in Z. rewrite Z in H. discriminate. Qed.
