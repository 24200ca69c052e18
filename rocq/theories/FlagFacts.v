(** FlagSet.Parse implements the documented syntax. *)
From Verif Require Import SpecCmd Utf8Facts.
From Coq Require Import List Arith Lia.
Import ListNotations.
Set Implicit Arguments.
Unset Strict Implicit.

(** Names of flags: not empty, no equals sign, no leading dash. *)
Definition name_ok (n : bytes) : bool :=
  match n with [] => false | b :: _ => negb (Byte.eqb b x2d) && forallb (fun c => negb (Byte.eqb c x3d)) n end.
Definition flags_ok (flags : list (bytes * flag_kind)) : Prop :=
  forallb (fun p => name_ok (fst p)) flags = true /\ NoDup (map fst flags).

Lemma byte_eqb_eq a b : Byte.eqb a b = true <-> a = b.
Proof. split; [apply Byte.byte_dec_bl|apply Byte.byte_dec_lb]. Qed.

Lemma cut_equals_eq n v : forallb (fun c => negb (Byte.eqb c x3d)) n = true -> cut_equals (n ++ x3d :: v) = (n, Some v).
Proof.
  induction n as [|b n IH]; cbn [forallb app cut_equals]; [intros _; reflexivity|].
  destruct (Byte.eqb b x3d); [discriminate|]. cbn [negb andb]. intros H. rewrite (IH H). reflexivity.
Qed.
Lemma cut_equals_none n : forallb (fun c => negb (Byte.eqb c x3d)) n = true -> cut_equals n = (n, None).
Proof.
  induction n as [|b n IH]; cbn [forallb cut_equals]; [intros _; reflexivity|].
  destruct (Byte.eqb b x3d); [discriminate|]. cbn [negb andb]. intros H. rewrite (IH H). reflexivity.
Qed.
Lemma cut_equals_inv s n o : cut_equals s = (n, o) -> s = match o with Some v => n ++ x3d :: v | None => n end.
Proof.
  revert n o. induction s as [|b s IH]; cbn [cut_equals]; intros n o; [intros [= <- <-]; reflexivity|].
  destruct (Byte.eqb b x3d) eqn:E.
  - intros [= <- <-]. apply byte_eqb_eq in E. subst. reflexivity.
  - destruct (cut_equals s) as [n' v] eqn:Ec. intros [= <- <-]. rewrite (IH _ _ eq_refl). destruct v; reflexivity.
Qed.

(** The shape of an argument. *)
Lemma shape_plain a : plain_arg a -> arg_shape_of a = ANotFlag.
Proof.
  intros [->|H]; [reflexivity|]. destruct a as [|b0 [|b1 a]]; try reflexivity. unfold arg_shape_of.
  destruct (Byte.eqb b0 x2d) eqn:E; [|reflexivity]. apply byte_eqb_eq in E. subst. exfalso. apply H. eauto.
Qed.
Lemma shape_notflag a : arg_shape_of a = ANotFlag -> plain_arg a.
Proof.
  destruct a as [|b0 [|b1 a]].
  - intros _. right. intros (a' & H). discriminate.
  - intros _. destruct (Byte.eqb b0 x2d) eqn:E; [apply byte_eqb_eq in E; subst; left; reflexivity|].
    right. intros (a' & [= -> _]). cbn in E. discriminate.
  - unfold arg_shape_of. destruct (Byte.eqb b0 x2d) eqn:E; cbn [negb].
    + destruct (Byte.eqb b1 x2d); cbn [andb].
      * destruct a as [|c a]; cbn [length Nat.eqb]; [discriminate|]. destruct (_ || _); [discriminate|]. destruct (split_name (c :: a)). discriminate.
      * destruct (_ || _); [discriminate|]. destruct (split_name (b1 :: a)). discriminate.
    + intros _. right. intros (a' & [= -> _]). cbn in E. discriminate.
Qed.
Lemma shape_terminator a : arg_shape_of a = ATerminator -> a = s2b "--".
Proof.
  destruct a as [|b0 [|b1 a]]; [discriminate|discriminate|]. unfold arg_shape_of.
  destruct (Byte.eqb b0 x2d) eqn:E0; [|discriminate]. cbn [negb]. destruct (Byte.eqb b1 x2d) eqn:E1; cbn [andb].
  - apply byte_eqb_eq in E0, E1. subst. destruct a as [|c a]; cbn [length Nat.eqb]; [intros _; reflexivity|].
    destruct (_ || _); [discriminate|]. destruct (split_name (c :: a)). discriminate.
  - destruct (_ || _); [discriminate|]. destruct (split_name (b1 :: a)). discriminate.
Qed.
Lemma split_name_inv s n o : split_name s = (n, o) -> s = match o with Some v => n ++ x3d :: v | None => n end.
Proof.
  destruct s as [|b s]; cbn [split_name]; [intros [= <- <-]; reflexivity|].
  destruct (cut_equals s) as [n' v] eqn:E. intros [= <- <-]. rewrite (cut_equals_inv E). destruct v; reflexivity.
Qed.
Lemma shape_flag_inv a n o : arg_shape_of a = AFlag n o -> dashed a (match o with Some v => n ++ s2b "=" ++ v | None => n end).
Proof.
  destruct a as [|b0 [|b1 a]]; [discriminate|discriminate|]. unfold arg_shape_of.
  destruct (Byte.eqb b0 x2d) eqn:E0; [|discriminate]. apply byte_eqb_eq in E0. subst b0. cbn [negb].
  destruct (Byte.eqb b1 x2d) eqn:E1; cbn [andb].
  - apply byte_eqb_eq in E1. subst b1. destruct a as [|c a]; cbn [length Nat.eqb]; [discriminate|].
    destruct (_ || _); [discriminate|]. destruct (split_name (c :: a)) as [n' v] eqn:E. intros [= -> ->].
    right. apply split_name_inv in E. rewrite E. destruct o; reflexivity.
  - destruct (_ || _); [discriminate|]. destruct (split_name (b1 :: a)) as [n' v] eqn:E. intros [= -> ->].
    left. apply split_name_inv in E. rewrite E. destruct o; reflexivity.
Qed.
Lemma shape_flag a n o : name_ok n = true -> dashed a (match o with Some v => n ++ s2b "=" ++ v | None => n end) -> arg_shape_of a = AFlag n o.
Proof.
  destruct n as [|b n]; [discriminate|]. unfold name_ok. destruct (Byte.eqb b x2d) eqn:Eb; [discriminate|]. cbn [negb andb]. intros Hn.
  assert (Eq : Byte.eqb b x3d = false) by (cbn [forallb] in Hn; destruct (Byte.eqb b x3d); [discriminate|reflexivity]).
  assert (Hn' : forallb (fun c => negb (Byte.eqb c x3d)) n = true) by (cbn [forallb] in Hn; rewrite Eq in Hn; exact Hn).
  assert (Hs : split_name (match o with Some v => (b :: n) ++ s2b "=" ++ v | None => b :: n end) = (b :: n, o)).
  { destruct o as [v|]; cbn [app split_name].
    - change (n ++ s2b "=" ++ v) with (n ++ x3d :: v). rewrite (cut_equals_eq v Hn'). reflexivity.
    - rewrite (cut_equals_none Hn'). reflexivity. }
  set (body := match o with Some v => (b :: n) ++ s2b "=" ++ v | None => b :: n end) in *.
  assert (Hb : exists t, body = b :: t) by (unfold body; destruct o; eexists; reflexivity).
  destruct Hb as (t & Hb). intros Hd. change (dashed a body) in Hd. change (split_name body = (b :: n, o)) in Hs. clearbody body. subst body. destruct Hd as [->| ->]; unfold arg_shape_of.
  - change (Byte.eqb x2d x2d) with true. cbn [negb]. cbv iota. rewrite Eb. cbn [andb]. cbv iota zeta. rewrite Eb, Eq. cbn [orb]. cbv iota. rewrite Hs. reflexivity.
  - change (Byte.eqb x2d x2d) with true. cbn [negb length Nat.eqb andb]. cbv iota zeta. rewrite Eb, Eq. cbn [orb]. cbv iota. rewrite Hs. reflexivity.
Qed.

(** Looking a flag up. *)
Lemma assoc_in (flags : list (bytes * flag_kind)) n k : NoDup (map fst flags) -> In (n, k) flags -> assoc bytes_eqb flags n = Some k.
Proof.
  induction flags as [|[n' k'] flags IH]; cbn [assoc map In fst]; [contradiction|]. intros Hnd [[= -> ->]|H].
  - rewrite bytes_eqb_refl. reflexivity.
  - inversion Hnd as [|x l Hx Hl]; subst. destruct (bytes_eqb n n') eqn:E; [|auto]. apply bytes_eqb_eq in E. subst.
    exfalso. apply Hx. apply in_map_iff. exists (n', k). auto.
Qed.
Lemma assoc_some (flags : list (bytes * flag_kind)) n k : assoc bytes_eqb flags n = Some k -> In (n, k) flags.
Proof.
  induction flags as [|[n' k'] flags IH]; cbn [assoc]; [discriminate|].
  destruct (bytes_eqb n n') eqn:E; [|right; auto]. intros [= ->]. apply bytes_eqb_eq in E. subst. left. reflexivity.
Qed.
Lemma name_ok_in flags n (k : flag_kind) : flags_ok flags -> In (n, k) flags -> name_ok n = true.
Proof. intros [H _] Hin. rewrite forallb_forall in H. apply (H _ Hin). Qed.

Lemma parse_bool_ok v b : parse_bool v = Some b <-> bool_word v b.
Proof.
  unfold parse_bool, bool_word.
  assert (He : forall l, existsb (bytes_eqb v) l = true <-> In v l).
  { intros l. rewrite existsb_exists. split.
    - intros (x & Hx & E). apply bytes_eqb_eq in E. subst. assumption.
    - intros H. exists v. split; [assumption|apply bytes_eqb_refl]. }
  destruct (existsb (bytes_eqb v) [s2b "1"; s2b "t"; s2b "T"; s2b "true"; s2b "TRUE"; s2b "True"]) eqn:E1.
  - apply He in E1. split; [intros [= <-]; assumption|]. destruct b; [reflexivity|]. intros H. exfalso.
    cbn in E1, H. repeat (destruct E1 as [<-|E1]; [repeat (destruct H as [H|H]; [discriminate|]); contradiction|]). contradiction.
  - destruct (existsb (bytes_eqb v) [s2b "0"; s2b "f"; s2b "F"; s2b "false"; s2b "FALSE"; s2b "False"]) eqn:E2.
    + apply He in E2. split; [intros [= <-]; assumption|]. destruct b; [|reflexivity]. intros H. apply He in H. congruence.
    + split; [discriminate|]. destruct b; intros H; apply He in H; congruence.
Qed.

(** ** The parser and the syntax *)
Lemma parse_sound flags args l rest : parse_flags flags args = (l, inl rest) -> command_line flags args l rest.
Proof.
  revert l rest. induction args as [args IH] using (induction_ltof1 _ (@length bytes)). unfold ltof in IH.
  destruct args as [|a args]; intros l rest; cbn [parse_flags].
  - intros [= <- <-]. constructor.
  - destruct (arg_shape_of a) as [| | |n o] eqn:Es.
    + intros [= <- <-]. constructor. apply shape_notflag. assumption.
    + intros [= <- <-]. rewrite (shape_terminator Es). constructor.
    + discriminate.
    + apply shape_flag_inv in Es. destruct (assoc bytes_eqb flags n) as [[|]|] eqn:Ea; [| |discriminate]; apply assoc_some in Ea.
      * destruct o as [v|].
        -- destruct (parse_flags flags args) as [l' r'] eqn:Ep. intros [= <- ->]. eapply cl_str_eq; [eassumption|eassumption|].
           apply IH; [cbn; lia|assumption].
        -- destruct args as [|v args]; [discriminate|]. destruct (parse_flags flags args) as [l' r'] eqn:Ep. intros [= <- ->].
           eapply cl_str; [eassumption|eassumption|]. apply IH; [cbn; lia|assumption].
      * destruct (parse_bool _) as [b|] eqn:Eb; [|discriminate]. apply parse_bool_ok in Eb.
        destruct (parse_flags flags args) as [l' r'] eqn:Ep. intros [= <- ->]. assert (Hl : command_line flags args l' rest) by (apply IH; [cbn; lia|assumption]).
        destruct o as [v|].
        -- eapply cl_bool_eq; eassumption.
        -- assert (b = true) by (destruct b; [reflexivity|]; cbn in Eb; repeat (destruct Eb as [Eb|Eb]; [discriminate|]); contradiction).
           subst. eapply cl_bool; eassumption.
Qed.
Lemma parse_complete flags args l rest : flags_ok flags -> command_line flags args l rest -> parse_flags flags args = (l, inl rest).
Proof.
  intros Hf H. induction H as [|a args Ha|args|n a v args l rest Hin Hd H IH|n a v args l rest Hin Hd H IH|n a args l rest Hin Hd H IH|n a v b args l rest Hin Hd Hb H IH];
    cbn [parse_flags].
  - reflexivity.
  - rewrite (shape_plain Ha). reflexivity.
  - reflexivity.
  - rewrite (@shape_flag a n None (name_ok_in Hf Hin) Hd), (assoc_in (proj2 Hf) Hin), IH. reflexivity.
  - rewrite (@shape_flag a n (Some v) (name_ok_in Hf Hin) Hd), (assoc_in (proj2 Hf) Hin), IH. reflexivity.
  - rewrite (@shape_flag a n None (name_ok_in Hf Hin) Hd), (assoc_in (proj2 Hf) Hin), IH. reflexivity.
  - rewrite (@shape_flag a n (Some v) (name_ok_in Hf Hin) Hd), (assoc_in (proj2 Hf) Hin).
    rewrite (proj2 (parse_bool_ok v b) Hb), IH. reflexivity.
Qed.

(** The order in which the flags are defined does not matter. *)
Lemma command_line_incl flags flags' args l rest : incl flags flags' -> command_line flags args l rest -> command_line flags' args l rest.
Proof.
  intros Hi H. induction H; [constructor|constructor; assumption|constructor|eapply cl_str|eapply cl_str_eq|eapply cl_bool|eapply cl_bool_eq]; eauto.
Qed.

(** ** Settings *)
Lemma setting_snoc l a name default v : setting (l ++ [a]) name default v <->
  (fst a = name /\ v = snd a) \/ (fst a <> name /\ setting l name default v).
Proof.
  destruct a as [n x]. cbn [fst snd]. unfold setting. split.
  - intros [(l1 & l2 & E & H)|(-> & H)].
    + destruct (@exists_last _ ((name, v) :: l2)) as (l' & y & Ey); [discriminate|].
      destruct l2 as [|z l2].
      * apply app_inj_tail in E. destruct E as [-> E]. injection E as -> ->. left. auto.
      * right. destruct (@exists_last _ (z :: l2)) as (l3 & y' & Ez); [discriminate|].
        rewrite Ez in E, H. rewrite app_comm_cons, app_assoc in E. apply app_inj_tail in E. destruct E as [-> <-].
        split; [intros ->; apply (H x); apply in_or_app; right; left; reflexivity|].
        left. exists l1, l3. split; [reflexivity|]. intros z' Hz. apply (H z'). apply in_or_app. left. assumption.
    + right. split; [intros ->; apply (H x); apply in_or_app; right; left; reflexivity|].
      right. split; [reflexivity|]. intros y Hy. apply (H y). apply in_or_app. left. assumption.
  - intros [(-> & ->)|(Hn & [(l1 & l2 & -> & H)|(-> & H)])].
    + left. exists l, []. split; [reflexivity|]. intros y [].
    + left. exists l1, (l2 ++ [(n, x)]). split; [rewrite <- app_assoc; reflexivity|].
      intros y Hy. apply in_app_or in Hy. destruct Hy as [Hy|[[= ->]|[]]]; [apply (H y Hy)|congruence].
    + right. split; [reflexivity|]. intros y Hy. apply in_app_or in Hy. destruct Hy as [Hy|[[= ->]|[]]]; [apply (H y Hy)|congruence].
Qed.
Lemma setting_fun l name default v v' : setting l name default v -> setting l name default v' -> v = v'.
Proof.
  revert v v'. induction l as [|a l IH] using rev_ind; intros v v'.
  - intros [(l1 & l2 & E & _)|(-> & _)]; [destruct l1; discriminate|]. intros [(l1 & l2 & E & _)|(-> & _)]; [destruct l1; discriminate|reflexivity].
  - rewrite !setting_snoc. intros [(E & ->)|(E & H)] [(E' & ->)|(E' & H')]; try congruence. eapply IH; eassumption.
Qed.
Lemma setting_nil name default : setting [] name default default.
Proof. right. split; [reflexivity|]. intros x []. Qed.
