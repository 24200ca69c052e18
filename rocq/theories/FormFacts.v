(** Facts about the form values of a request. *)
From Coq Require Import Lia ZifyBool ZifyN.
From Verif Require Import Utf8Facts SpecForm Form.
Open Scope N_scope.
Set Implicit Arguments.
Unset Strict Implicit.

(** ** Totality *)
Lemma cut_length sep s : (length (fst (cut_at sep s)) + length (snd (cut_at sep s)) <= length s)%nat.
Proof.
  induction s as [|b s IH]; [reflexivity|]. cbn [cut_at]. destruct (Byte.eqb b sep); [cbn; lia|].
  destruct (cut_at sep s) as [x y]. cbn [fst snd length] in *. lia.
Qed.
Lemma cut_shorter sep b s : (length (snd (cut_at sep (b :: s))) <= length s)%nat.
Proof. cbn [cut_at]. destruct (Byte.eqb b sep); [cbn; lia|]. pose proof (cut_length sep s). destruct (cut_at sep s) as [x y]. cbn [fst snd length] in *. lia. Qed.
Lemma parse_loop_total : forall fuel q, (length q < fuel)%nat -> exists l, parse_query_loop fuel q = Ok l.
Proof.
  induction fuel as [|f IH]; intros q H; [lia|]. cbn [parse_query_loop]. destruct q as [|b q]; [eexists; reflexivity|].
  pose proof (cut_shorter x26 b q) as C. destruct (cut_at x26 (b :: q)) as [key rest]. cbn [snd length] in *.
  destruct (IH rest) as (l & E); [lia|]. rewrite E. cbn [rbind]. destruct (existsb _ key); [eexists; reflexivity|].
  destruct key as [|k key]; [eexists; reflexivity|]. destruct (cut_at x3d (k :: key)) as [x y].
  destruct (query_unescape x), (query_unescape y); eexists; reflexivity.
Qed.
Lemma parse_query_total q : exists l, parse_query q = Ok l.
Proof. apply parse_loop_total. lia. Qed.
Lemma net_request_total method path query url body : exists s r l, net_request method path query url body = Ok (HttpRequest method path path query s r l body).
Proof.
  unfold net_request, parse_form, parse_post_form. destruct (parse_query_total query) as (q & Eq). destruct (parse_query_total body) as (p & Ep).
  destruct (existsb (bytes_eqb method) [s2b "POST"; s2b "PUT"; s2b "PATCH"]), url, (max_form_size <? N.of_nat (length body)); rewrite ?Eq, ?Ep; cbn [rbind]; eexists; eexists; eexists; reflexivity.
Qed.

(** ** What a browser sends is read back *)
Lemma hex_read n b : hex_of n b -> unhex b = Some n.
Proof.
  intros [n' b' H E|n' b' H E|n' b' H E]; unfold unhex; cbv zeta; rewrite E.
  - replace ((48 <=? 48 + n') && (48 + n' <=? 57)) with true by lia. f_equal. lia.
  - replace ((48 <=? 65 + (n' - 10)) && (65 + (n' - 10) <=? 57)) with false by lia.
    replace ((97 <=? 65 + (n' - 10)) && (65 + (n' - 10) <=? 102)) with false by lia.
    replace ((65 <=? 65 + (n' - 10)) && (65 + (n' - 10) <=? 70)) with true by lia. f_equal. lia.
  - replace ((48 <=? 97 + (n' - 10)) && (97 + (n' - 10) <=? 57)) with false by lia.
    replace ((97 <=? 97 + (n' - 10)) && (97 + (n' - 10) <=? 102)) with true by lia. f_equal. lia.
Qed.
Lemma read_sent_byte b w r : sent_byte b w -> query_unescape (w ++ r) = match query_unescape r with Some s => Some (b :: s) | None => None end.
Proof.
  intros [b' H| |b' h l Hh Hl]; cbn [app query_unescape].
  - assert (N1 : b' <> x25) by (intros ->; cbv in H; intuition congruence). assert (N2 : b' <> x2b) by (intros ->; cbv in H; intuition congruence).
    destruct (Byte.eqb b' x25) eqn:E1; [apply byte_eqb_spec in E1; contradiction|].
    destruct (Byte.eqb b' x2b) eqn:E2; [apply byte_eqb_spec in E2; contradiction|]. reflexivity.
  - reflexivity.
  - replace (Byte.eqb x25 x25) with true by reflexivity. rewrite (hex_read Hh), (hex_read Hl). destruct (query_unescape r); [|reflexivity].
    replace (b2n b' / 16 * 16 + b2n b' mod 16) with (b2n b') by (pose proof (N.div_mod' (b2n b') 16); lia). rewrite n2b_b2n. reflexivity.
Qed.
Lemma read_sent s w : sent_as s w -> query_unescape w = Some s.
Proof.
  intros (ws & F & ->). induction F as [|b w s ws H F IH]; [reflexivity|]. cbn [concat]. rewrite (read_sent_byte _ H), IH. reflexivity.
Qed.
(** Nothing that separates stands in it. *)
Definition special (b : byte) : Prop := b = x26 \/ b = x3b \/ b = x3d.
Lemma hex_plain n b : hex_of n b -> ~ special b.
Proof. intros [n' b' H E|n' b' H E|n' b' H E] [-> |[-> | ->]]; change (b2n x26) with 38 in E; change (b2n x3b) with 59 in E; change (b2n x3d) with 61 in E; lia. Qed.
Lemma sent_plain b w c : sent_byte b w -> In c w -> ~ special c.
Proof.
  intros [b' H| |b' h l Hh Hl].
  - intros [<-|[]] [-> |[-> | ->]]; cbv in H; intuition congruence.
  - intros [<-|[]] [E|[E|E]]; discriminate E.
  - intros [<-|[<-|[<-|[]]]]; [intros [E|[E|E]]; discriminate E|exact (hex_plain Hh)|exact (hex_plain Hl)].
Qed.
Lemma sent_as_plain s w c : sent_as s w -> In c w -> ~ special c.
Proof.
  intros (ws & F & ->). induction F as [|b w s ws H F IH]; [intros []|]. cbn [concat]. intros I. apply in_app_or in I. destruct I as [I|I]; [exact (sent_plain H I)|exact (IH I)].
Qed.
Lemma cut_here sep a r : ~ In sep a -> cut_at sep (a ++ sep :: r) = (a, r).
Proof.
  induction a as [|b a IH]; intros H; cbn [app cut_at].
  - replace (Byte.eqb sep sep) with true by (symmetry; apply byte_eqb_spec; reflexivity). reflexivity.
  - destruct (Byte.eqb b sep) eqn:E; [apply byte_eqb_spec in E; exfalso; apply H; left; exact E|]. rewrite IH by (intros I; apply H; right; exact I). reflexivity.
Qed.
Lemma cut_none sep a : ~ In sep a -> cut_at sep a = (a, []).
Proof.
  induction a as [|b a IH]; intros H; cbn [cut_at]; [reflexivity|].
  destruct (Byte.eqb b sep) eqn:E; [apply byte_eqb_spec in E; exfalso; apply H; left; exact E|]. rewrite IH by (intros I; apply H; right; exact I). reflexivity.
Qed.
(** A pair, and what follows it *)
Lemma parse_pair f k v sk sv q rest : sent_as sk k -> sent_as sv v -> q = k ++ x3d :: v \/ q = (k ++ x3d :: v) ++ x26 :: rest -> (q = k ++ x3d :: v -> rest = []) ->
  parse_query_loop (S f) q = let* l := parse_query_loop f rest in Ok ((sk, sv) :: l).
Proof.
  intros Hk Hv Hq Hr. assert (P : forall c, In c (k ++ x3d :: v) -> c <> x26 /\ c <> x3b).
  { intros c I. apply in_app_or in I. destruct I as [I|[<-|I]]; [|split; discriminate|]; [pose proof (sent_as_plain Hk I) as N|pose proof (sent_as_plain Hv I) as N];
      split; intros E; apply N; [left|right; left|left|right; left]; exact E. }
  assert (C : cut_at x26 q = (k ++ x3d :: v, rest)).
  { destruct Hq as [Hq|Hq].
    - rewrite (Hr Hq), Hq. apply cut_none. intros I. exact (proj1 (P _ I) eq_refl).
    - rewrite Hq. apply cut_here. intros I. exact (proj1 (P _ I) eq_refl). }
  cbn [parse_query_loop]. destruct q as [|b q]; [destruct Hq as [Hq|Hq]; destruct k; discriminate Hq|]. rewrite C. clear C Hq Hr.
  destruct (parse_query_loop f rest) as [l| |]; cbn [rbind]; [|reflexivity|reflexivity].
  replace (existsb (Byte.eqb x3b) (k ++ x3d :: v)) with false.
  2:{ symmetry. destruct (existsb (Byte.eqb x3b) (k ++ x3d :: v)) eqn:E; [|reflexivity]. apply existsb_exists in E. destruct E as (c & I & E). apply byte_eqb_spec in E. exfalso. exact (proj2 (P c I) (eq_sym E)). }
  rewrite cut_here by (intros I; apply (sent_as_plain Hk I); right; right; reflexivity).
  rewrite (read_sent Hk), (read_sent Hv). destruct (k ++ x3d :: v) eqn:E; [destruct k; discriminate E|reflexivity].
Qed.
Lemma plain_name w : Forall unreserved w -> sent_as w w.
Proof.
  intros F. exists (map (fun b => [b]) w). split; [induction F; constructor; [apply sb_self; assumption|assumption]|]. induction w as [|b w IH]; [reflexivity|]. cbn [map concat app]. f_equal. apply IH. inversion F; assumption.
Qed.
Lemma form_names : sent_as (s2b "s") (s2b "s") /\ sent_as (s2b "r") (s2b "r") /\ sent_as (s2b "lattice") (s2b "lattice") /\ sent_as (s2b "Lattice") (s2b "Lattice").
Proof. repeat split; apply plain_name; repeat (constructor; [cbv; intuition discriminate|]); constructor. Qed.
Theorem form_read s r body : form_body s r body -> parse_query body = Ok [(s2b "s", form_lines s); (s2b "r", r); (s2b "lattice", s2b "Lattice")].
Proof.
  intros (ws & wr & Hs & Hr & E). destruct form_names as (N1 & N2 & N3 & N4).
  assert (exists f, length body = S (S f)) as (f & L) by (rewrite E; cbn [app length s2b]; eexists; reflexivity).
  unfold parse_query. rewrite L.
  rewrite (@parse_pair (S (S f)) (s2b "s") ws (s2b "s") (form_lines s) body (s2b "r=" ++ wr ++ s2b "&lattice=Lattice") N1 Hs).
  2:{ right. rewrite E. cbn [s2b app]. rewrite <- ?app_assoc. reflexivity. }
  2:{ intros E'. exfalso. rewrite E' in E. apply (f_equal (@length byte)) in E. repeat (rewrite app_length in E || cbn [length] in E). cbn in E. lia. }
  rewrite (@parse_pair (S f) (s2b "r") wr (s2b "r") r _ (s2b "lattice=Lattice") N2 Hr).
  2:{ right. cbn [s2b app]. rewrite <- ?app_assoc. reflexivity. }
  2:{ intros E'. exfalso. apply (f_equal (@length byte)) in E'. repeat (rewrite app_length in E' || cbn [length] in E'). cbn in E'. lia. }
  rewrite (@parse_pair f (s2b "lattice") (s2b "Lattice") (s2b "lattice") (s2b "Lattice") _ [] N3 N4); [|left; reflexivity|reflexivity].
  assert (Z : exists g, f = S g) by (destruct f as [|g]; [exfalso; rewrite E in L; repeat (rewrite app_length in L || cbn [length] in L); cbn in L; lia|eexists; reflexivity]).
  destruct Z as (g & ->). reflexivity.
Qed.
