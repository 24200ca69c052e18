(** What the decoder of [Decode] makes of a body. *)
From Verif Require Import Utf8Facts.
From Verif Require Export DecodeSound.
From Coq Require Import ZifyBool ZifyNat ZifyN.
Set Implicit Arguments. Unset Strict Implicit.
Open Scope N_scope.

(** ** The first pass *)
Lemma end_value_ops st c : let (s', o) := end_value st c in (o = OEndObject \/ o = OEndArray) -> s' = jpop (sc_stack s').
Proof.
  unfold end_value, end_top, jfail. destruct st as [|p st]; [destruct (json_space c); intros [H|H]; discriminate H|].
  destruct (json_space c); [intros [H|H]; discriminate H|].
  destruct p; repeat (destruct (Byte.eqb c _)); try (intros [H|H]; discriminate H); intros _; unfold jpop; reflexivity.
Qed.
Ltac break_ifs := repeat match goal with |- context [if ?b then _ else _] => destruct b end.
Lemma scan_ops s c : let (s', o) := json_scan s c in (o = OEndObject \/ o = OEndArray) -> s' = jpop (sc_stack s').
Proof.
  assert (V : forall st, let (s', o) := end_value st c in (o = OEndObject \/ o = OEndArray) -> s' = jpop (sc_stack s')) by (intros st; apply end_value_ops).
  destruct s as [q st]. unfold json_scan. cbn [sc_step sc_stack].
  destruct q; unfold begin_value, begin_string, state_0, state_esign, state_hex, jpush, jfail, end_top in *; try apply V;
    break_ifs; try apply V; try (intros [H|H]; discriminate H).
  destruct rest; [apply V|]. destruct (Byte.eqb c b); intros [H|H]; discriminate H.
Qed.
Lemma read_fed pr k t : forall s s' n seen rest, feed k s t = Some s' ->
  exists seen', read_loop pr s n seen (t ++ rest) = read_loop pr s' (n + length t) seen' rest.
Proof.
  induction t as [|c t IH]; intros s s' n seen rest H; [injection H as <-; exists seen; rewrite Nat.add_0_r; reflexivity|].
  cbn [feed] in H. cbn [app read_loop]. pose proof (scan_ops s c) as O. destruct (json_scan s c) as [s1 o] eqn:E.
  assert (F : quiet o = true /\ inside (sc_step s1) = true /\ feed k s1 t = Some s').
  { destruct o; try discriminate H; destruct (sc_step s1); try discriminate H; destruct (k <=? length (sc_stack s1))%nat; try discriminate H; auto. }
  destruct F as (Q & I & F). replace (n + length (c :: t))%nat with (S n + length t)%nat by (cbn; lia).
  assert (G : (o = OEndObject \/ o = OEndArray) -> end_value (sc_stack s1) x20 = (s1, OSkipSpace)).
  { intros H1. specialize (O H1). destruct s1 as [q1 st1]. cbn [sc_stack sc_step] in *. unfold jpop in O. destruct st1 as [|p st]; injection O as ->; [discriminate I|reflexivity]. }
  destruct o; try discriminate Q; try (eapply IH; exact F).
  - rewrite (G (or_introl eq_refl)). eapply IH; exact F.
  - rewrite (G (or_intror eq_refl)). eapply IH; exact F.
Qed.
Lemma read_bad pr k s s0 n seen : bad k s0 s -> exists e, read_loop pr s0 n seen s = inr e.
Proof.
  intros [(p & c & r & s' & -> & F & O)|(s' & F & O)].
  - destruct (read_fed pr n seen (c :: r) F) as (seen' & ->). cbn [read_loop]. destruct (json_scan s' c) as [s2 o]. cbn [snd] in O. subst o. eexists. reflexivity.
  - destruct (read_fed pr n seen [] F) as (seen' & E). rewrite app_nil_r in E. rewrite E. cbn [read_loop]. destruct (snd (json_scan s' x20)); try congruence; eexists; reflexivity.
Qed.
Lemma end_top_op st c : snd (end_top st c) = OEnd.
Proof. unfold end_top. destruct (json_space c); reflexivity. Qed.
Lemma read_stops pr q n seen rest : done q = true -> stops q [] rest -> read_loop pr (Scan q []) n seen rest = inl n.
Proof.
  intros D S. destruct rest as [|c r]; cbn [read_loop].
  - rewrite (scan_done _ D) by reflexivity. cbn [end_value]. rewrite end_top_op. reflexivity.
  - rewrite (S c r eq_refl). cbn [end_value]. pose proof (end_top_op [] c) as E. destruct (end_top [] c) as [s o]. cbn [snd] in E. subst o. reflexivity.
Qed.
Definition top : jscan := Scan SBeginValue [].
Lemma read_blank pr w n seen rest : blank w -> exists seen', read_loop pr top n seen (w ++ rest) = read_loop pr top (n + length w) seen' rest.
Proof. intros B. apply (@read_fed pr 0). apply feed_blank; [reflexivity|right; discriminate|cbn; lia|assumption]. Qed.
Lemma read_array pr t l n seen rest : array_inside t l -> N.of_nat (nesting (TArr l)) <= 10000 ->
  read_loop pr top n seen (x5b :: t ++ x5d :: rest) = inl (n + length (x5b :: t ++ [x5d]))%nat.
Proof.
  intros H D. destruct (@feed_array 1 [] t l (proj1 (proj2 grammar_fed) t l) H) as (q & F & E); [cbn; lia|cbn [length]; lia|].
  cbn [read_loop]. unfold top. rewrite open_array by (cbn; lia). cbn iota.
  destruct (read_fed pr (S n) (seen || negb (json_space x5b)) (x5d :: rest) F) as (seen' & ->). cbn [read_loop]. rewrite E. cbn [jpop sc_stack].
  cbn [end_value]. cbn [end_top]. change (json_space x20) with true. cbn iota. apply f_equal. cbn [length]. rewrite app_length. cbn [length]. lia.
Qed.
Lemma read_object pr t l n seen rest : object_inside t l -> N.of_nat (nesting (TObj l)) <= 10000 ->
  read_loop pr top n seen (x7b :: t ++ x7d :: rest) = inl (n + length (x7b :: t ++ [x7d]))%nat.
Proof.
  intros H D. destruct (@feed_object 1 [] t l (proj1 (proj2 (proj2 grammar_fed)) t l) H) as (q & p & F & E); [cbn; lia|cbn [length]; lia|].
  cbn [read_loop]. unfold top. rewrite open_object by (cbn; lia). cbn iota.
  destruct (read_fed pr (S n) (seen || negb (json_space x7b)) (x7d :: rest) F) as (seen' & ->). cbn [read_loop]. rewrite E. cbn [jpop sc_stack].
  cbn [end_value]. cbn [end_top]. change (json_space x20) with true. cbn iota. apply f_equal. cbn [length]. rewrite app_length. cbn [length]. lia.
Qed.
Lemma read_plain pr q t n seen rest : feed 0 top t = Some (Scan q []) -> done q = true -> stops q [] rest -> read_loop pr top n seen (t ++ rest) = inl (n + length t)%nat.
Proof. intros F D S. destruct (read_fed pr n seen rest F) as (seen' & ->). apply read_stops; assumption. Qed.
Lemma read_string_top pr s v n seen rest : str_text s v -> read_loop pr top n seen (x22 :: s ++ x22 :: rest) = inl (n + length (x22 :: s ++ [x22]))%nat.
Proof.
  intros H. replace (x22 :: s ++ x22 :: rest) with ((x22 :: s ++ [x22]) ++ rest) by (cbn [app]; rewrite <- app_assoc; reflexivity).
  apply (@read_plain pr SEndValue); [|reflexivity|apply stops_value].
  assert (E1 : json_scan top x22 = (Scan SInString [], OBeginLiteral)) by reflexivity.
  erewrite feed_cons; [|exact E1|reflexivity|reflexivity|cbn; lia]. eapply feed_quoted; [cbn; lia|eassumption].
Qed.
Lemma read_word_top pr c w word n seen rest : w <> [] -> json_scan top c = (Scan (STr w word) [], OBeginLiteral) ->
  read_loop pr top n seen (c :: w ++ rest) = inl (n + length (c :: w))%nat.
Proof.
  intros N E. change (c :: w ++ rest) with ((c :: w) ++ rest). apply (@read_plain pr SEndValue); [|reflexivity|apply stops_value].
  apply (@feed_word 0 [] SBeginValue OBeginLiteral c w word); [cbn; lia|reflexivity|assumption|exact E].
Qed.
(** A value that is no number is found, whatever follows it. *)
Lemma read_value_found pr t v n seen rest : reads t v -> N.of_nat (nesting v) <= 10000 -> v <> TNum ->
  read_loop pr top n seen (t ++ rest) = inl (n + length t)%nat.
Proof.
  intros [| | |t' H|s v' H|w H|t' l H|w H|t' l H] D N.
  - apply (@read_word_top pr x6e (s2b "ull") (s2b "null")); [discriminate|reflexivity].
  - apply (@read_word_top pr x74 (s2b "rue") (s2b "true")); [discriminate|reflexivity].
  - apply (@read_word_top pr x66 (s2b "alse") (s2b "false")); [discriminate|reflexivity].
  - congruence.
  - cbn [app]. rewrite <- app_assoc. cbn [app]. eapply read_string_top. eassumption.
  - cbn [app]. rewrite <- app_assoc. cbn [app]. apply (@read_array pr w []); [left; auto|assumption].
  - cbn [app]. rewrite <- app_assoc. cbn [app]. apply (@read_array pr t' l); [right; assumption|assumption].
  - cbn [app]. rewrite <- app_assoc. cbn [app]. apply (@read_object pr w []); [left; auto|assumption].
  - cbn [app]. rewrite <- app_assoc. cbn [app]. apply (@read_object pr t' l); [right; assumption|assumption].
Qed.
(** A number that ends is not continued. *)
Lemma number_longest q t c r q2 : feed 0 top t = Some (Scan q []) -> stops q [] (c :: r) -> number_text (t ++ c :: q2) -> False.
Proof.
  intros F S H. destruct (@feed_number 0 [] (t ++ c :: q2) (le_n _) H) as (q' & _ & F'). unfold top in F. rewrite feed_app, F in F'. cbn [feed] in F'.
  rewrite (S c r eq_refl) in F'. cbn [end_value] in F'. pose proof (end_top_op [] c) as O. destruct (end_top [] c) as [s o]. cbn [snd] in O. subst o. discriminate F'.
Qed.
(** Any body: a value is found, or an error. *)
Theorem read_shapes pr body :
  (exists w t v rest, body = w ++ t ++ rest /\ blank w /\ reads t v /\ N.of_nat (nesting v) <= 10000 /\
     (v = TNum -> forall c r q, rest = c :: r -> ~ number_text (t ++ c :: q)) /\
     read_loop pr top 0 false body = inl (length (w ++ t))) \/
  (exists e, read_loop pr top 0 false body = inr e).
Proof.
  destruct (blank_span body) as (w & r & -> & B & Hr). destruct (read_blank pr 0 false r B) as (seen & E). rewrite E. cbn [Nat.add].
  destruct r as [|c r]; [right; cbn [read_loop]; eexists; reflexivity|]. pose proof (Hr c r eq_refl) as Sc.
  assert (Found : forall t v rest, c :: r = t ++ rest -> reads t v -> N.of_nat (nesting v) <= 10000 -> v <> TNum ->
    (exists w0 t v rest, w ++ c :: r = w0 ++ t ++ rest /\ blank w0 /\ reads t v /\ N.of_nat (nesting v) <= 10000 /\
      (v = TNum -> forall c r q, rest = c :: r -> ~ number_text (t ++ c :: q)) /\ read_loop pr top (length w) seen (c :: r) = inl (length (w0 ++ t))) \/
    (exists e, read_loop pr top (length w) seen (c :: r) = inr e)).
  { intros t v rest Er R D N. left. exists w, t, v, rest. rewrite Er. repeat split; try assumption; [intros ->; congruence|]. rewrite app_length. apply (read_value_found pr _ _ _ R D N). }
  assert (Bad : bad 0 top (c :: r) -> exists e, read_loop pr top (length w) seen (c :: r) = inr e) by (intros H; eapply read_bad; exact H).
  assert (Bad1 : bad 1 top (c :: r) -> exists e, read_loop pr top (length w) seen (c :: r) = inr e) by (intros H; eapply read_bad; exact H).
  destruct (begin_shapes c) as [S|[->|[->|[->|[Hnum|[->|[->|[->|He]]]]]]]].
  - congruence.
  - destruct (grammar_shapes (length r)) as (_ & G).
    destruct (@object_shapes 1 [] r) as [(t & l & rest & -> & Hi & Dl)|Bd]; [cbn; lia|cbn; lia|intros s' Ls; apply G; [assumption|cbn; lia|cbn; lia]| |].
    + apply (Found (x7b :: t ++ [x7d]) (TObj l) rest); [cbn [app]; rewrite <- app_assoc; reflexivity| |cbn [length] in Dl; lia|discriminate].
      destruct Hi as [(Bt & ->)|Hm]; [apply rd_obj0; assumption|apply rd_obj; assumption].
    + right. apply Bad1. eapply bad_cons; [apply open_object; cbn; lia|reflexivity|reflexivity|cbn; lia|exact Bd].
  - destruct (grammar_shapes (length r)) as (_ & G).
    destruct (@array_shapes 1 [] r) as [(t & l & rest & -> & Hi & Dl)|Bd]; [cbn; lia|cbn; lia|intros s' Ls; apply G; [assumption|cbn; lia|cbn; lia]| |].
    + apply (Found (x5b :: t ++ [x5d]) (TArr l) rest); [cbn [app]; rewrite <- app_assoc; reflexivity| |cbn [length] in Dl; lia|discriminate].
      destruct Hi as [(Bt & ->)|Hm]; [apply rd_arr0; assumption|apply rd_arr; assumption].
    + right. apply Bad1. eapply bad_cons; [apply open_array; cbn; lia|reflexivity|reflexivity|cbn; lia|exact Bd].
  - destruct (@string_shapes 0 [] (le_n _) (length r) r (le_n _)) as [(b & v & rest & -> & Hs)|Bd].
    + apply (Found (x22 :: b ++ [x22]) (TStr v) rest); [cbn [app]; rewrite <- app_assoc; reflexivity|apply rd_str; assumption|cbn; lia|discriminate].
    + right. apply Bad. eapply bad_cons; [reflexivity|reflexivity|reflexivity|cbn; lia|exact Bd].
  - destruct (@number_shapes 0 [] c r (le_n _) Hnum) as [(t & rest & q & Er & Hn & Dq & F & S)|Bd]; [|right; auto].
    left. exists w, t, TNum, rest. rewrite Er. repeat split; [assumption|apply rd_num; assumption|cbn; lia| |rewrite app_length; eapply read_plain; eassumption].
    intros _ c' r' q' -> Hn'. eapply number_longest; eassumption.
  - destruct (@word_shapes 0 [] (s2b "true") (le_n _) (s2b "rue") r) as [(rest & ->)|Bd]; [discriminate| |right; apply Bad; eapply bad_cons; [reflexivity|reflexivity|reflexivity|cbn; lia|exact Bd]].
    apply (Found (s2b "true") (TBool true) rest); [reflexivity|constructor|cbn; lia|discriminate].
  - destruct (@word_shapes 0 [] (s2b "false") (le_n _) (s2b "alse") r) as [(rest & ->)|Bd]; [discriminate| |right; apply Bad; eapply bad_cons; [reflexivity|reflexivity|reflexivity|cbn; lia|exact Bd]].
    apply (Found (s2b "false") (TBool false) rest); [reflexivity|constructor|cbn; lia|discriminate].
  - destruct (@word_shapes 0 [] (s2b "null") (le_n _) (s2b "ull") r) as [(rest & ->)|Bd]; [discriminate| |right; apply Bad; eapply bad_cons; [reflexivity|reflexivity|reflexivity|cbn; lia|exact Bd]].
    apply (Found (s2b "null") TNull rest); [reflexivity|constructor|cbn; lia|discriminate].
  - right. apply Bad. apply bad_now. apply He.
Qed.
