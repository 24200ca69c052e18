(** Facts about the scanner, for any split function obeying the SplitFunc contract. *)
From Verif Require Import Scanner.
From Coq Require Import List Arith Lia ZifyBool ZifyNat ZifyN.
Import ListNotations.
Set Implicit Arguments.
Unset Strict Implicit.

(** ** The contract of split functions *)
Record split_step_ok (data : bytes) (at_eof : bool) (data' : bytes) (adv : nat) (tok : option bytes) : Prop := {
  so_len : length data' = length data;
  so_adv : (adv <= length data)%nat;
  so_progress : tok <> None -> (1 <= adv)%nat;
  so_eof : at_eof = true -> data <> [] -> tok <> None
}.
Definition split_contract (split : split_func) : Prop := forall data at_eof,
  exists data' adv tok, split data at_eof = Ok (data', adv, tok) /\ split_step_ok data at_eof data' adv tok.

(** ** Reading *)
Lemma read_ok r cap chunk err r' : read r cap = (chunk, err, r') ->
  rd_rest r = chunk ++ rd_rest r' /\ (length chunk <= cap)%nat /\ rd_end r' = rd_end r /\ rd_log r' = rd_log r ++ [chunk] /\
  (forall e, err = Some e -> e = rd_end r /\ rd_rest r' = []).
Proof.
  unfold read. destruct (match rd_script r with [] => (S cap, false) | op :: _ => op end) as [limit eager].
  intros [= <- <- <-]. cbn [rd_rest rd_end rd_log]. rewrite firstn_skipn, firstn_length. repeat split; try lia;
    destruct limit as [|limit]; cbn beta iota in *; try discriminate; destruct (rd_rest r) as [|b rest] eqn:E.
  - congruence.
  - destruct (skipn _ (b :: rest)), eager; congruence.
  - apply skipn_nil.
  - destruct (skipn _ (b :: rest)), eager; congruence.
Qed.

Lemma read_loop_ok tries r cap chunk err r' : read_loop tries r cap = (chunk, err, r') ->
  rd_rest r = chunk ++ rd_rest r' /\ (length chunk <= cap)%nat /\ rd_end r' = rd_end r /\
  concat (rd_log r') = concat (rd_log r) ++ chunk /\
  (forall P : bytes -> Prop, Forall P (rd_log r') -> Forall P (rd_log r) /\ (chunk = [] \/ P chunk)) /\
  (err = None -> chunk <> []) /\
  (forall e, err = Some e -> (e = ErrNoProgress /\ chunk = []) \/ (e = rd_end r /\ rd_rest r' = [])).
Proof.
  revert r. induction tries as [|t IH]; intros r; cbn [read_loop].
  - intros [= <- <- <-]. cbn. rewrite app_nil_r. repeat split; try lia; try congruence; auto.
    intros e [= <-]. auto.
  - destruct (read r cap) as [[c e] r1] eqn:E. pose proof (read_ok E) as (H1 & H2 & H3 & H4 & H5).
    assert (Hc : concat (rd_log r1) = concat (rd_log r) ++ c) by (rewrite H4, concat_app; cbn; rewrite app_nil_r; reflexivity).
    assert (HP : forall P : bytes -> Prop, Forall P (rd_log r1) -> Forall P (rd_log r) /\ (c = [] \/ P c)).
    { intros P HP. rewrite H4 in HP. apply Forall_app in HP. destruct HP as [HP1 HP2]. inversion HP2; auto. }
    destruct e as [e|].
    + intros [= <- <- <-]. split; [assumption|]. split; [assumption|]. split; [assumption|]. split; [assumption|].
      split; [assumption|]. split; [congruence|]. intros x [= <-]. right. apply H5. reflexivity.
    + destruct c as [|b c].
      * intros H. apply IH in H. destruct H as (G1 & G2 & G3 & G4 & G5 & G6 & G7). cbn [app] in H1.
        split; [congruence|]. split; [assumption|]. split; [congruence|].
        split; [rewrite G4, Hc, app_nil_r; reflexivity|].
        split; [intros P HP'; destruct (G5 P HP') as [G51 G52]; split; [apply HP; assumption|assumption]|].
        split; [assumption|]. intros e He. destruct (G7 e He) as [?|[? ?]]; [auto|]. right. split; congruence.
      * intros [= <- <- <-]. split; [assumption|]. split; [assumption|]. split; [assumption|]. split; [assumption|].
        split; [assumption|]. split; congruence.
Qed.

(** The chunks logged by the loop. *)
Lemma read_loop_log tries r cap chunk err r' : read_loop tries r cap = (chunk, err, r') ->
  exists n, rd_log r' = rd_log r ++ repeat [] n ++ match chunk with [] => [] | _ :: _ => [chunk] end.
Proof.
  revert r. induction tries as [|t IH]; intros r; cbn [read_loop].
  - intros [= <- <- <-]. exists 0%nat. cbn. rewrite app_nil_r. reflexivity.
  - destruct (read r cap) as [[c e] r1] eqn:E. pose proof (read_ok E) as (_ & _ & _ & H4 & _).
    assert (Hone : forall c : bytes, exists n, [c] = repeat [] n ++ match c with [] => [] | _ :: _ => [c] end).
    { intros [|b c0]; [exists 1%nat|exists 0%nat]; reflexivity. }
    destruct e as [e|].
    + intros [= <- <- <-]. rewrite H4. destruct (Hone c) as [n Hn]. exists n. rewrite <- Hn. reflexivity.
    + destruct c as [|b c].
      * intros H. apply IH in H. destruct H as [n Hn]. exists (S n). rewrite Hn, H4, <- app_assoc. reflexivity.
      * intros [= <- <- <-]. exists 0%nat. exact H4.
Qed.

Lemma read_lively r cap chunk err r' : read r cap = (chunk, err, r') -> lively r ->
  lively r' /\ ((1 <= cap)%nat -> err = None -> chunk <> []).
Proof.
  unfold read, lively. destruct (rd_script r) as [|[limit eager] sc].
  - intros [= <- <- <-] _. cbn [rd_script tl]. split; [constructor|]. intros Hc.
    destruct (rd_rest r); [discriminate|]. intros _. destruct cap; [lia|]. discriminate.
  - intros [= <- <- <-] Hl. inversion Hl as [|? ? Hlim Hsc]; subst. cbn in Hlim. split; [assumption|]. intros Hc.
    destruct limit; [lia|]. destruct (rd_rest r); [discriminate|]. intros _. destruct cap; [lia|]. discriminate.
Qed.
Lemma read_loop_lively tries r cap chunk err r' : read_loop tries r cap = (chunk, err, r') -> lively r ->
  lively r' /\ ((1 <= tries)%nat -> (1 <= cap)%nat -> forall e, err = Some e -> e = rd_end r /\ rd_rest r' = []).
Proof.
  destruct tries as [|t]; cbn [read_loop].
  - intros [= <- <- <-] Hl. split; [assumption|lia].
  - destruct (read r cap) as [[c e] r1] eqn:E. intros H Hl. destruct (read_lively E Hl) as [Hl1 Hc]. pose proof (read_ok E) as (_ & _ & _ & _ & H5).
    destruct e as [e|].
    + injection H as <- <- <-. split; [assumption|]. intros _ _ x [= <-]. apply H5. reflexivity.
    + destruct c as [|b c].
      * split.
        -- clear -H Hl1. revert r1 Hl1 H. induction t as [|t IH]; intros r1 Hl1; cbn [read_loop].
           ++ intros [= <- <- <-]. assumption.
           ++ destruct (read r1 cap) as [[c e] r2] eqn:E. destruct (read_lively E Hl1) as [Hl2 _].
              destruct e as [e|]; [intros [= <- <- <-]; assumption|]. destruct c as [|b c]; [apply IH; assumption|].
              intros [= <- <- <-]. assumption.
        -- intros _ Hcap. exfalso. apply Hc; auto.
      * injection H as <- <- <-. split; [assumption|]. intros _ _ x. discriminate.
Qed.

(** ** Running the scanner *)
Section Run.
Variable split : split_func.
Hypothesis Hsplit : split_contract split.
(** An invariant of the texts collected, the unread bytes, the reader and the error. *)
Variable I : list bytes -> bytes -> reader -> option scan_err -> Prop.
Hypothesis I_token : forall acc data r e data' adv t, I acc data r e ->
  split data (match e with Some _ => true | None => false end) = Ok (data', adv, Some t) ->
  I (acc ++ [t]) (skipn adv data') r e.
Hypothesis I_skip : forall acc data r data' adv, data <> [] -> I acc data r None ->
  split data false = Ok (data', adv, None) -> I acc (skipn adv data') r None.
(** The unread bytes when the split function asked for more. *)
Definition waiting (acc : list bytes) (data : bytes) (r : reader) : Prop :=
  data = [] \/ exists data0 data' adv, data0 <> [] /\ I acc data0 r None /\ split data0 false = Ok (data', adv, None) /\ data = skipn adv data'.
Hypothesis I_read : forall acc data r tries cap chunk err r', I acc data r None -> waiting acc data r ->
  read_loop tries r cap = (chunk, err, r') -> (N.of_nat (length (data ++ chunk)) <= max_token_size)%N ->
  I acc (data ++ chunk) r' err.

Definition eof_of (e : option scan_err) : bool := match e with Some _ => true | None => false end.

(** What holds when the scanner stops. *)
Definition stopped (acc : list bytes) (err : option scan_err) (r0 r : reader) : Prop :=
  (exists e, I acc [] r (Some e) /\ err = scanner_err (Some e) /\ ((e = ErrNoProgress /\ ~ lively r0) \/ (e = rd_end r0 /\ rd_rest r = []))) \/
  (exists data, I acc data r None /\ waiting acc data r /\ err = Some ErrTooLong /\ (max_token_size <= N.of_nat (length data))%N).

Definition measure (s : scanner) (r : reader) : nat :=
  (2 * length (rd_rest r) + length (sc_data s) + (if eof_of (sc_err s) then 0 else 1))%nat.

Definition err_ok (s : scanner) (r0 r : reader) : Prop :=
  rd_end r = rd_end r0 /\ (lively r0 -> lively r) /\ (sc_start s + N.of_nat (length (sc_data s)) <= sc_len s)%N /\ (sc_len s <= max_token_size)%N /\
  forall e, sc_err s = Some e -> (e = ErrNoProgress /\ ~ lively r0) \/ (e = rd_end r0 /\ rd_rest r = []).

Lemma make_room_none s : make_room s = None -> (max_token_size <= N.of_nat (length (sc_data s)))%N.
Proof.
  unfold make_room. set (n := N.of_nat (length (sc_data s))).
  destruct ((0 <? sc_start s) && ((sc_start s + n =? sc_len s) || (sc_len s / 2 <? sc_start s)))%N eqn:E.
  - destruct (0 + n =? sc_len s)%N eqn:E2; [|discriminate].
    destruct (max_token_size <=? sc_len s)%N eqn:E3; [|discriminate]. intros _. lia.
  - destruct (sc_start s + n =? sc_len s)%N eqn:E2; [|discriminate].
    destruct (max_token_size <=? sc_len s)%N eqn:E3; [|discriminate]. intros _.
    destruct (0 <? sc_start s)%N eqn:E4; [cbn in E; discriminate|]. lia.
Qed.
Lemma make_room_some s s' : make_room s = Some s' -> (sc_start s + N.of_nat (length (sc_data s)) <= sc_len s)%N -> (sc_len s <= max_token_size)%N ->
  sc_data s' = sc_data s /\ sc_err s' = sc_err s /\ (sc_start s' + N.of_nat (length (sc_data s)) < sc_len s')%N /\ (sc_len s' <= max_token_size)%N.
Proof.
  unfold make_room. intros H Hroom Hmax.
  set (start := if ((0 <? sc_start s) && ((sc_start s + N.of_nat (length (sc_data s)) =? sc_len s) || (sc_len s / 2 <? sc_start s)))%N then 0%N else sc_start s) in *.
  assert (Hs : (start <= sc_start s)%N) by (unfold start; destruct (_ && _); lia).
  destruct (start + N.of_nat (length (sc_data s)) =? sc_len s)%N eqn:E.
  - destruct (max_token_size <=? sc_len s)%N eqn:E2; [discriminate|]. injection H as <-. cbn [sc_data sc_err sc_start sc_len].
    split; [reflexivity|]. split; [reflexivity|]. unfold max_token_size, start_buf_size in *.
    destruct (sc_len s * 2 =? 0)%N eqn:E3; lia.
  - injection H as <-. cbn [sc_data sc_err sc_start sc_len]. split; [reflexivity|]. split; [reflexivity|]. lia.
Qed.

Lemma fill_ok acc s r r0 : I acc (sc_data s) r (sc_err s) -> err_ok s r0 r ->
  (sc_err s <> None -> sc_data s = []) -> waiting acc (sc_data s) r ->
  match scan_fill s r with
  | ScanToken _ _ => False
  | ScanMore s' r' => I acc (sc_data s') r' (sc_err s') /\ err_ok s' r0 r' /\ (measure s' r' < measure s r)%nat
  | ScanStop e => stopped acc (scanner_err e) r0 r
  end.
Proof.
  intros HI [He1 [He3 [He4 [He5 He2]]]] Hd Hw. unfold scan_fill. destruct (sc_err s) as [e|] eqn:Ee.
  - left. exists e. rewrite Hd in HI by discriminate. repeat split; auto.
  - destruct (make_room s) as [s1|] eqn:Em.
    + apply make_room_some in Em; [|assumption|assumption]. destruct Em as [E1 [E2 [E3 E4]]].
      destruct (read_loop (S max_empty_reads) r _) as [[chunk err] r'] eqn:Er. cbn [sc_data sc_err].
      assert (Hb : (N.of_nat (length (sc_data s ++ chunk)) <= max_token_size)%N)
        by (rewrite E1 in Er; apply read_loop_ok in Er; destruct Er as (_ & G2 & _); rewrite app_length; lia).
      pose proof (I_read HI Hw Er Hb) as HI'. rewrite E1 in *. split; [assumption|].
      pose proof (fun H => read_loop_lively Er H) as Gl.
      apply read_loop_ok in Er. destruct Er as (G1 & G2 & G3 & _ & _ & G6 & G7). split.
      * split; [congruence|]. split; [intros Hl; apply Gl; auto|]. split; [cbn; rewrite app_length; lia|]. split; [assumption|].
        cbn. intros e ->. destruct (G7 e eq_refl) as [[-> _]|[-> H]]; [|right; split; congruence].
        destruct (Forall_dec (fun op => (1 <= fst op)%nat) (fun op => le_dec 1 (fst op)) (rd_script r0)) as [Hl|Hl]; [|left; split; [reflexivity|exact Hl]].
        right. destruct (Gl (He3 Hl)) as [_ G]. destruct (G ltac:(lia) ltac:(lia) _ eq_refl) as [-> ->]. split; congruence.
      * unfold measure. cbn [sc_data sc_err]. rewrite Ee, app_length, G1, app_length. cbn [eof_of].
        destruct err as [e|]; cbn [eof_of]; [lia|]. specialize (G6 eq_refl). destruct chunk; [congruence|]. cbn [length]. lia.
    + right. exists (sc_data s). repeat split; [assumption|assumption|apply make_room_none; assumption].
Qed.

Lemma step_ok acc s r r0 : I acc (sc_data s) r (sc_err s) -> err_ok s r0 r ->
  exists o, scan_step split s r = Ok o /\
  match o with
  | ScanToken t s' => I (acc ++ [t]) (sc_data s') r (sc_err s') /\ err_ok s' r0 r /\ (measure s' r < measure s r)%nat
  | ScanMore s' r' => I acc (sc_data s') r' (sc_err s') /\ err_ok s' r0 r' /\ (measure s' r' < measure s r)%nat
  | ScanStop e => stopped acc (scanner_err e) r0 r
  end.
Proof.
  intros HI He. unfold scan_step.
  assert (Hmain : exists o, (let* x := split (sc_data s) (match sc_err s with Some _ => true | None => false end) in
    let '(data, adv, tok) := x in
    if (length data <? adv)%nat then Ok (ScanStop (set_err (sc_err s) ErrAdvanceTooFar))
    else
      let s' := Scanner (skipn adv data) (sc_start s + N.of_nat adv) (sc_len s) (sc_err s) (sc_empties s) in
      match tok with
      | Some t =>
        match sc_err s, adv with
        | Some _, O =>
          if (max_empty_reads <? S (sc_empties s))%nat then Panic
          else Ok (ScanToken t (Scanner (skipn adv data) (sc_start s + N.of_nat adv) (sc_len s) (sc_err s) (S (sc_empties s))))
        | _, _ => Ok (ScanToken t (Scanner (skipn adv data) (sc_start s + N.of_nat adv) (sc_len s) (sc_err s) 0))
        end
      | None => Ok (scan_fill s' r)
      end) = Ok o /\
      match o with
      | ScanToken t s' => I (acc ++ [t]) (sc_data s') r (sc_err s') /\ err_ok s' r0 r /\ (measure s' r < measure s r)%nat
      | ScanMore s' r' => I acc (sc_data s') r' (sc_err s') /\ err_ok s' r0 r' /\ (measure s' r' < measure s r)%nat
      | ScanStop e => stopped acc (scanner_err e) r0 r
      end \/ (sc_data s = [] /\ sc_err s = None)).
  { destruct (Hsplit (sc_data s) (match sc_err s with Some _ => true | None => false end)) as (data' & adv & tok & E & [S1 S2 S3 S4]).
    rewrite E. cbn [rbind]. rewrite S1. destruct (length (sc_data s) <? adv)%nat eqn:El; [lia|].
    destruct tok as [t|].
    - pose proof (I_token HI E) as HI'. specialize (S3 ltac:(discriminate)).
      exists (ScanToken t (Scanner (skipn adv data') (sc_start s + N.of_nat adv) (sc_len s) (sc_err s) 0)). left. split.
      { destruct (sc_err s); [destruct adv; [lia|]|]; reflexivity. }
      cbn [sc_data sc_err]. split; [assumption|]. split; [destruct He as (? & ? & ? & ? & ?); repeat split; auto; cbn; rewrite skipn_length, S1; lia|].
      unfold measure. cbn [sc_data sc_err]. rewrite skipn_length, S1. lia.
    - destruct (sc_data s) as [|b l] eqn:Ed.
      + destruct (sc_err s) as [e|] eqn:Ee.
        * eexists. left. split; [reflexivity|]. cbn [scan_fill sc_err]. left. exists e.
          destruct He as (He1 & _ & _ & _ & He2). repeat split; auto.
        * exists (ScanStop None). right. auto.
      + destruct (sc_err s) as [e|] eqn:Ee; [exfalso; apply S4; [reflexivity|discriminate|reflexivity]|].
        eexists. left. split; [reflexivity|].
        assert (HI' : I acc (skipn adv data') r None) by (eapply I_skip; [|exact HI|exact E]; discriminate).
        set (s1 := Scanner (skipn adv data') (sc_start s + N.of_nat adv) (sc_len s) None (sc_empties s)).
        assert (Hf := @fill_ok acc s1 r r0 HI'). cbn [sc_err s1] in Hf.
        assert (He' : err_ok s1 r0 r) by (destruct He as (? & ? & He4 & ? & ?); rewrite Ed in He4; repeat split; auto; [unfold s1; cbn [sc_data sc_start sc_len]; rewrite skipn_length, S1; lia|discriminate]). specialize (Hf He').
        specialize (Hf ltac:(congruence)). specialize (Hf ltac:(right; exists (b :: l), data', adv; repeat split; [discriminate|assumption|assumption])). destruct (scan_fill s1 r) as [t s2|s2 r2|e2]; [contradiction| |assumption].
        destruct Hf as (F1 & F2 & F3). split; [assumption|]. split; [assumption|].
        assert (measure s1 r <= measure s r)%nat; [|lia].
        unfold measure, s1. cbn [sc_data sc_err]. rewrite Ed, Ee, skipn_length, S1. cbn [eof_of]. lia. }
  destruct (sc_data s) as [|b l] eqn:Ed; destruct (sc_err s) as [e|] eqn:Ee.
  - destruct Hmain as (o & [H|[_ H]]); [eauto|discriminate].
  - eexists. split; [reflexivity|].
    assert (Hf := @fill_ok acc s r r0). rewrite Ed, Ee in Hf. specialize (Hf HI He ltac:(congruence) ltac:(left; reflexivity)).
    destruct (scan_fill s r) as [t s2|s2 r2|e2]; [contradiction|assumption|assumption].
  - destruct Hmain as (o & [H|[H _]]); [eauto|discriminate].
  - destruct Hmain as (o & [H|[H _]]); [eauto|discriminate].
Qed.

Lemma scan_all_ok fuel : forall s r r0 acc, (measure s r < fuel)%nat -> I acc (sc_data s) r (sc_err s) -> err_ok s r0 r ->
  exists acc' err r', scan_all fuel split s r acc = Ok (acc', err, r') /\ stopped acc' err r0 r'.
Proof.
  induction fuel as [|f IH]; intros s r r0 acc Hm HI He; [lia|]. cbn [scan_all].
  destruct (step_ok HI He) as (o & -> & H). cbn [rbind]. destruct o as [t s'|s' r'|e].
  - destruct H as (H1 & H2 & H3). apply IH; [lia|assumption|assumption].
  - destruct H as (H1 & H2 & H3). apply IH; [lia|assumption|assumption].
  - eauto.
Qed.

Theorem scan_texts_ok r : I [] [] r None ->
  exists toks err r', scan_texts split r = Ok (toks, err, r') /\ stopped toks err r r'.
Proof.
  intros HI. unfold scan_texts. apply scan_all_ok.
  - unfold measure, scan_fuel. cbn. lia.
  - assumption.
  - repeat split; auto; [cbn; lia|cbn; unfold max_token_size; lia|discriminate].
Qed.
End Run.
