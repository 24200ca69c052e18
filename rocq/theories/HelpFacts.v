(** The error and help texts of the commands. *)
From Verif Require Import SpecHelp Utf8Facts FlagFacts OptFacts CmdFacts CmdRuns CmdMain TextFacts.
From Coq Require Import List Arith Lia ZifyBool ZifyNat ZifyN.
Import ListNotations.
Set Implicit Arguments.
Unset Strict Implicit.

(** ** Faults of the syntax *)
Lemma name_ok_iff n : name_ok n = true <-> flag_name n.
Proof.
  unfold flag_name. destruct n as [|b n]; cbn [name_ok].
  - split; [discriminate|]. intros (H & _). congruence.
  - rewrite andb_true_iff, negb_true_iff, forallb_forall. split.
    + intros [H1 H2]. split; [discriminate|]. split.
      * intros n' [= -> _]. rewrite (proj2 (byte_eqb_eq _ _) eq_refl) in H1. discriminate.
      * intros H. specialize (H2 _ H). rewrite (proj2 (byte_eqb_eq _ _) eq_refl) in H2. discriminate.
    + intros (_ & H1 & H2). split.
      * destruct (Byte.eqb b x2d) eqn:E; [|reflexivity]. apply byte_eqb_eq in E. subst. exfalso. apply (H1 n eq_refl).
      * intros c Hc. destruct (Byte.eqb c x3d) eqn:E; [|reflexivity]. apply byte_eqb_eq in E. subst. contradiction.
Qed.
Lemma cut_equals_name s n o : cut_equals s = (n, o) -> forallb (fun c => negb (Byte.eqb c x3d)) n = true.
Proof.
  revert n o. induction s as [|b s IH]; cbn [cut_equals]; intros n o; [intros [= <- <-]; reflexivity|].
  destruct (Byte.eqb b x3d) eqn:E; [intros [= <- <-]; reflexivity|].
  destruct (cut_equals s) as [n' v] eqn:Ec. intros [= <- <-]. cbn [forallb]. rewrite E. apply (IH _ _ eq_refl).
Qed.
Lemma shape_flag_name a n o : arg_shape_of a = AFlag n o -> name_ok n = true.
Proof.
  destruct a as [|b0 [|b1 a]]; [discriminate|discriminate|]. unfold arg_shape_of.
  destruct (negb (Byte.eqb b0 x2d)); [discriminate|].
  assert (K : forall c t, Byte.eqb c x2d || Byte.eqb c x3d = false -> split_name (c :: t) = (n, o) -> name_ok n = true).
  { intros c t Hc. apply orb_false_iff in Hc. destruct Hc as [H1 H2]. cbn [split_name]. destruct (cut_equals t) as [n' v] eqn:E. intros [= <- <-].
    unfold name_ok. rewrite H1. cbn [forallb negb andb]. rewrite H2. cbn [negb andb]. apply (cut_equals_name E). }
  destruct (Byte.eqb b1 x2d) eqn:E1; cbn [andb].
  - destruct a as [|c a]; cbn [length Nat.eqb]; [discriminate|]. destruct (_ || _) eqn:Ec; [discriminate|].
    destruct (split_name (c :: a)) as [n' v] eqn:E. intros [= -> ->]. exact (K _ _ Ec E).
  - destruct (_ || _) eqn:Ec; [discriminate|]. destruct (split_name (b1 :: a)) as [n' v] eqn:E. intros [= -> ->]. exact (K _ _ Ec E).
Qed.
Lemma shape_bad a : arg_shape_of a = ABad -> exists s, a = s2b "-=" ++ s \/ a = s2b "--=" ++ s \/ a = s2b "---" ++ s.
Proof.
  destruct a as [|b0 [|b1 a]]; [discriminate|discriminate|]. unfold arg_shape_of.
  destruct (Byte.eqb b0 x2d) eqn:E0; [|discriminate]. apply byte_eqb_eq in E0. subst b0. cbn [negb].
  destruct (Byte.eqb b1 x2d) eqn:E1; cbn [andb].
  - apply byte_eqb_eq in E1. subst b1. destruct a as [|c a]; cbn [length Nat.eqb]; [discriminate|].
    destruct (Byte.eqb c x2d) eqn:E2; cbn [orb].
    + apply byte_eqb_eq in E2. subst c. intros _. exists a. right. right. reflexivity.
    + destruct (Byte.eqb c x3d) eqn:E3; [|destruct (split_name (c :: a)); discriminate]. apply byte_eqb_eq in E3. subst c. intros _. exists a. right. left. reflexivity.
  - rewrite ?E1. destruct (Byte.eqb b1 x3d) eqn:E3; cbn [orb]; [|destruct (split_name (b1 :: a)); discriminate].
    apply byte_eqb_eq in E3. subst b1. intros _. exists a. left. reflexivity.
Qed.
Lemma assoc_none (flags : list (bytes * flag_kind)) n : assoc bytes_eqb flags n = None -> forall k, ~ In (n, k) flags.
Proof.
  induction flags as [|[n' k'] flags IH]; cbn [assoc]; [intros _ k []|]. destruct (bytes_eqb n n') eqn:E; [discriminate|].
  intros H k [[= -> ->]|Hk]; [rewrite bytes_eqb_refl in E; discriminate|]. exact (IH H k Hk).
Qed.
Lemma assoc_absent (flags : list (bytes * flag_kind)) n : (forall k, ~ In (n, k) flags) -> assoc bytes_eqb flags n = None.
Proof. intros H. destruct (assoc bytes_eqb flags n) as [k|] eqn:E; [|reflexivity]. apply assoc_some in E. destruct (H k E). Qed.
Lemma parse_bool_none v : parse_bool v = None <-> forall b, ~ bool_word v b.
Proof.
  split.
  - intros H b Hb. apply parse_bool_ok in Hb. congruence.
  - intros H. destruct (parse_bool v) as [b|] eqn:E; [|reflexivity]. apply parse_bool_ok in E. destruct (H b E).
Qed.

Lemma misread_sound flags args l e : parse_flags flags args = (l, inr e) -> misread flags args e.
Proof.
  revert l. induction args as [args IH] using (induction_ltof1 _ (@length bytes)). unfold ltof in IH.
  destruct args as [|a args]; intros l; cbn [parse_flags]; [discriminate|].
  destruct (arg_shape_of a) as [| | |n o] eqn:Es; [discriminate|discriminate| |].
  - intros [= _ <-]. destruct (shape_bad Es) as (s & H). eapply mr_syntax; exact H.
  - pose proof (shape_flag_name Es) as Hn. apply shape_flag_inv in Es.
    assert (Na : names a n).
    { split; [apply name_ok_iff; exact Hn|]. destruct o as [v|]; [right; exists v; exact Es|left; exact Es]. }
    destruct (assoc bytes_eqb flags n) as [[|]|] eqn:Ea.
    + apply assoc_some in Ea. destruct o as [v|].
      * destruct (parse_flags flags args) as [l' r'] eqn:Ep. intros [= _ ->]. eapply mr_str_eq; [eassumption|eassumption|]. eapply IH; [cbn; lia|eassumption].
      * destruct args as [|v args]; [intros [= _ <-]; eapply mr_missing; [exact Ea|exact Es]|].
        destruct (parse_flags flags args) as [l' r'] eqn:Ep. intros [= _ ->]. eapply mr_str; [eassumption|eassumption|]. eapply IH; [cbn; lia|eassumption].
    + apply assoc_some in Ea. destruct (parse_bool _) as [b|] eqn:Eb.
      * destruct (parse_flags flags args) as [l' r'] eqn:Ep. intros [= _ ->].
        assert (M : misread flags args e) by (eapply IH; [cbn; lia|eassumption]). destruct o as [v|].
        -- apply parse_bool_ok in Eb. eapply mr_bool_eq; eassumption.
        -- eapply mr_bool_on; eassumption.
      * destruct o as [v|].
        -- intros [= _ <-]. apply mr_bool; [assumption|assumption|apply parse_bool_none; assumption].
        -- vm_compute in Eb. discriminate Eb.
    + pose proof (assoc_none Ea) as Hk. destruct (bytes_eqb n (s2b "help") || bytes_eqb n (s2b "h")) eqn:Eh; intros [= _ <-].
      * apply orb_true_iff in Eh. eapply mr_help; [exact Na|exact Hk|]. destruct Eh as [E|E]; apply bytes_eqb_eq in E; auto.
      * apply orb_false_iff in Eh. destruct Eh as [E1 E2]. eapply mr_unknown; [exact Na|exact Hk| |]; intros ->; rewrite bytes_eqb_refl in *; discriminate.
Qed.
Lemma shape_names a n : names a n -> exists o, arg_shape_of a = AFlag n o.
Proof.
  intros [Hn [H|(v & H)]]; apply name_ok_iff in Hn.
  - exists None. apply shape_flag; assumption.
  - exists (Some v). apply shape_flag; assumption.
Qed.
Lemma misread_complete flags args e : flags_ok flags -> misread flags args e -> exists l, parse_flags flags args = (l, inr e).
Proof.
  intros Hf H. induction H as [a s args Ha|a n args Hn Hk Hh|a n args Hn Hk H1 H2|a n v args Hin Hd Hv|a n Hin Hd|a n v args e Hin Hd H [l IH]|a n v args e Hin Hd H [l IH]|a n args e Hin Hd H [l IH]|a n v b args e Hin Hd Hb H [l IH]];
    cbn [parse_flags].
  - exists []. destruct Ha as [->|[->| ->]]; reflexivity.
  - destruct (shape_names Hn) as (o & ->). rewrite (assoc_absent Hk). exists []. destruct Hh as [->| ->]; reflexivity.
  - destruct (shape_names Hn) as (o & ->). rewrite (assoc_absent Hk). exists []. rewrite (proj2 (bytes_eqb_neq _ _) H1), (proj2 (bytes_eqb_neq _ _) H2). reflexivity.
  - rewrite (@shape_flag a n (Some v) (name_ok_in Hf Hin) Hd), (assoc_in (proj2 Hf) Hin), (proj2 (parse_bool_none v) Hv). exists []. reflexivity.
  - rewrite (@shape_flag a n None (name_ok_in Hf Hin) Hd), (assoc_in (proj2 Hf) Hin). exists []. reflexivity.
  - rewrite (@shape_flag a n None (name_ok_in Hf Hin) Hd), (assoc_in (proj2 Hf) Hin), IH. eexists. reflexivity.
  - rewrite (@shape_flag a n (Some v) (name_ok_in Hf Hin) Hd), (assoc_in (proj2 Hf) Hin), IH. eexists. reflexivity.
  - rewrite (@shape_flag a n None (name_ok_in Hf Hin) Hd), (assoc_in (proj2 Hf) Hin). change (parse_bool (s2b "true")) with (Some true). rewrite IH. eexists. reflexivity.
  - rewrite (@shape_flag a n (Some v) (name_ok_in Hf Hin) Hd), (assoc_in (proj2 Hf) Hin), (proj2 (parse_bool_ok v b) Hb), IH. eexists. reflexivity.
Qed.
Theorem misread_one flags args e e' : flags_ok flags -> misread flags args e -> misread flags args e' -> e = e'.
Proof. intros Hf H H'. destruct (misread_complete Hf H) as (l & E), (misread_complete Hf H') as (l' & E'). congruence. Qed.
Theorem misread_not_read flags args e l rest : flags_ok flags -> misread flags args e -> ~ command_line flags args l rest.
Proof. intros Hf H Hc. destruct (misread_complete Hf H) as (l' & E). rewrite (parse_complete Hf Hc) in E. discriminate. Qed.
Theorem misread_or_read flags args : (exists e, misread flags args e) \/ exists l rest, command_line flags args l rest.
Proof.
  destruct (parse_flags flags args) as [l [rest|e]] eqn:E; [right; exists l, rest; exact (parse_sound E)|left; exists e; exact (misread_sound E)].
Qed.
Lemma misread_incl flags flags' args e : (forall x, In x flags <-> In x flags') -> misread flags args e -> misread flags' args e.
Proof.
  intros Hi H.
  assert (K : forall n, (forall k, ~ In (n, k) flags) -> forall k : flag_kind, ~ In (n, k) flags') by (intros n Hn k Hk; apply Hi in Hk; exact (Hn k Hk)).
  assert (I : forall x, In x flags -> In x flags') by (intros x; apply Hi).
  induction H; [eapply mr_syntax|eapply mr_help|eapply mr_unknown|eapply mr_bool|eapply mr_missing|eapply mr_str|eapply mr_str_eq|eapply mr_bool_on|eapply mr_bool_eq]; eauto.
Qed.

Lemma fault_text pr e : sober pr -> fault_words e (flag_text pr e).
Proof.
  intros Hs. destruct e as [a|n| |v n|n]; try reflexivity. cbn [fault_words flag_text].
  exists (skipn 1 (go_quote pr v)). split; [rewrite <- (app_nil_r (skipn 1 _)); apply quote_read; exact Hs|].
  reflexivity.
Qed.

(** ** The help texts *)
Lemma quote_ipa pr : letters_printable pr -> go_quote pr (s2b "ipa") = s2b """ipa""".
Proof.
  intros H. unfold go_quote. replace (segs (s2b "ipa")) with [(105, [x69]); (112, [x70]); (97, [x61])]%N by (vm_compute; reflexivity).
  cbn [map quoted_rune]. unfold escaped_rune. rewrite !H by lia. vm_compute. reflexivity.
Qed.
Lemma quote_normal pr : letters_printable pr -> go_quote pr (s2b "normal") = s2b """normal""".
Proof.
  intros H. unfold go_quote. replace (segs (s2b "normal")) with [(110, [x6e]); (111, [x6f]); (114, [x72]); (109, [x6d]); (97, [x61]); (108, [x6c])]%N by (vm_compute; reflexivity).
  cbn [map quoted_rune]. unfold escaped_rune. rewrite !H by lia. vm_compute. reflexivity.
Qed.
Lemma quote_http pr : letters_printable pr -> go_quote pr (s2b ":6060") = s2b """:6060""".
Proof.
  intros H. unfold go_quote. replace (segs (s2b ":6060")) with [(58, [x3a]); (54, [x36]); (48, [x30]); (54, [x36]); (48, [x30])]%N by (vm_compute; reflexivity).
  cbn [map quoted_rune]. unfold escaped_rune. rewrite !H by lia. vm_compute. reflexivity.
Qed.
(** The text with the quotation done. *)
Definition plain_default (d : flag_def) : bytes :=
  let head := s2b "  -" ++ fd_name d ++ match fd_default d with VString _ => s2b " string" | VBool _ => [] end in
  head ++ (if (length head <=? 4)%nat then tab else nl ++ s2b "    " ++ tab) ++ fd_usage d ++
  match fd_default d with
  | VString [] => []
  | VString s => s2b " (default " ++ (s2b """" ++ s ++ s2b """") ++ s2b ")"
  | VBool false => []
  | VBool true => s2b " (default true)"
  end ++ nl.
Definition quotes (pr : N -> bool) (d : flag_def) : Prop :=
  match fd_default d with VString [] => True | VString s => go_quote pr s = s2b """" ++ s ++ s2b """" | _ => True end.
Lemma plain_defaults pr l : Forall (quotes pr) l -> map (default_text pr) l = map plain_default l.
Proof.
  intros F. induction F as [|d l H F IH]; [reflexivity|]. cbn [map]. f_equal; [|exact IH]. unfold default_text, plain_default.
  unfold quotes in H. destruct (fd_default d) as [[|b s]|b]; [reflexivity| |reflexivity]. rewrite H. reflexivity.
Qed.
Ltac quotations H := repeat (constructor; [first [exact I | exact (quote_ipa H) | exact (quote_normal H) | exact (quote_http H)]|]); constructor.
Lemma tok_quotes pr : letters_printable pr -> Forall (quotes pr) (sort_flags tok_defs).
Proof. intros H. quotations H. Qed.
Lemma lat_quotes pr : letters_printable pr -> Forall (quotes pr) (sort_flags lat_defs).
Proof. intros H. quotations H. Qed.
Lemma srv_quotes pr : letters_printable pr -> Forall (quotes pr) (sort_flags srv_defs).
Proof. intros H. quotations H. Qed.
Lemma sen_quotes pr : letters_printable pr -> Forall (quotes pr) (sort_flags sen_defs).
Proof. intros H. quotations H. Qed.

(** ** Giving a flag its default *)
Lemma parse_written flags n v args : flags_ok flags -> In (n, kind_of v) flags ->
  parse_flags flags (written n v :: args) = ((n, v) :: fst (parse_flags flags args), snd (parse_flags flags args)).
Proof.
  intros Hf Hin. cbn [parse_flags]. rewrite (@shape_flag (written n v) n (Some (value_word v)) (name_ok_in Hf Hin)); [|left; reflexivity].
  rewrite (assoc_in (proj2 Hf) Hin). destruct v as [s|b]; cbn [kind_of value_word].
  - destruct (parse_flags flags args). reflexivity.
  - destruct b; [change (parse_bool (s2b "true")) with (Some true)|change (parse_bool (s2b "false")) with (Some false)]; cbv iota;
      destruct (parse_flags flags args); reflexivity.
Qed.
Lemma fst_snd A B C (p : A * B) (f : A -> B -> C) : (let (a, b) := p in f a b) = f (fst p) (snd p).
Proof. destruct p. reflexivity. Qed.
Lemma tok_parse_written n v args : In (n, kind_of v) tok_formal -> tok_set tok_default (n, v) = tok_default ->
  tok_parse (written n v :: args) = tok_parse args.
Proof.
  intros Hin E. unfold tok_parse. rewrite (parse_written _ tok_flags_ok Hin). rewrite (fst_snd (parse_flags tok_formal args)). cbn [fold_left fst snd]. rewrite E. reflexivity.
Qed.
Lemma lat_parse_written n v args : In (n, kind_of v) lat_formal -> lat_set lat_default (n, v) = lat_default ->
  lat_parse (written n v :: args) = lat_parse args.
Proof.
  intros Hin E. unfold lat_parse. rewrite (parse_written _ lat_flags_ok Hin). rewrite (fst_snd (parse_flags lat_formal args)). cbn [fold_left fst snd]. rewrite E. reflexivity.
Qed.
Lemma srv_parse_written n v args : In (n, kind_of v) srv_formal -> srv_set srv_default (n, v) = srv_default ->
  srv_parse (written n v :: args) = srv_parse args.
Proof.
  intros Hin E. unfold srv_parse. rewrite (parse_written _ srv_flags_ok Hin). rewrite (fst_snd (parse_flags srv_formal args)). cbn [fold_left fst snd]. rewrite E. reflexivity.
Qed.
Lemma sen_parse_written n v args : In (n, kind_of v) sen_formal -> sen_set sen_default (n, v) = sen_default ->
  sen_parse (written n v :: args) = sen_parse args.
Proof.
  intros Hin E. unfold sen_parse. rewrite (parse_written _ sen_flags_ok Hin). rewrite (fst_snd (parse_flags sen_formal args)). cbn [fold_left fst snd]. rewrite E. reflexivity.
Qed.
(** A flag that is not defined is refused. *)
Lemma parse_unlisted flags a n args : names a n -> ~ In n (map fst flags) -> exists e, parse_flags flags (a :: args) = ([], inr e).
Proof.
  intros Hn Hk. destruct (shape_names Hn) as (o & E). cbn [parse_flags]. rewrite E, assoc_absent; [eexists; reflexivity|].
  intros k H. apply Hk. apply in_map_iff. exists (n, k). auto.
Qed.
Ltac messages := repeat (constructor; [exact I|]); constructor.

Definition shown (defs : list flag_def) : list (bytes * flag_value) := map flag_preset (sort_flags defs).
Lemma insert_in d l x : In x (insert_flag d l) <-> x = d \/ In x l.
Proof.
  induction l as [|e l IH]; cbn [insert_flag]; [cbn; intuition|]. destruct (bytes_ltb _ _); cbn [In]; [rewrite IH|]; intuition.
Qed.
Lemma sort_in l x : In x (sort_flags l) <-> In x l.
Proof. induction l as [|d l IH]; [reflexivity|]. change (sort_flags (d :: l)) with (insert_flag d (sort_flags l)). rewrite insert_in, IH. cbn. intuition. Qed.
Lemma shown_formal defs n v : In (n, v) (shown defs) -> In (n, kind_of v) (map flag_formal defs).
Proof.
  unfold shown. rewrite !in_map_iff. intros (d & E & H). apply (proj1 (sort_in _ _)) in H. exists d. split; [|exact H]. unfold flag_preset in E. injection E as <- <-.
  unfold flag_formal, kind_of. destruct (fd_default d); reflexivity.
Qed.
Lemma shown_names defs n : In n (map fst (map flag_formal defs)) -> In n (map fst (shown defs)).
Proof.
  unfold shown. rewrite !map_map. rewrite !in_map_iff. intros (d & <- & H). exists d. split; [reflexivity|]. apply sort_in. exact H.
Qed.
Lemma describes_by defs pr (run : world -> list bytes -> cmd (option cmd_err)) : flags_ok (map flag_formal defs) ->
  Forall (quotes pr) (sort_flags defs) -> read_help (concat (map plain_default (sort_flags defs))) = Some (shown defs) ->
  NoDup (map fst (shown defs)) ->
  (forall n v w args, In (n, v) (shown defs) -> run w (written n v :: args) = run w args) ->
  (forall w args e, parse_flags (map flag_formal defs) args = ([], inr e) -> exists tr x, run w args = (tr, Ok (Some x)) /\ only_messages tr) ->
  describes (print_defaults pr defs) run.
Proof.
  intros Hf Hq Hr Hn Hw Hm. exists (shown defs). unfold print_defaults. rewrite (plain_defaults Hq). split; [exact Hr|]. split; [exact Hn|]. split; [exact Hw|]. split.
  - intros a n w args Ha Hx. destruct (@parse_unlisted (map flag_formal defs) a n args Ha) as (e & E); [|exact (Hm w _ e E)].
    intros H. apply Hx. apply shown_names. exact H.
  - intros n v H. apply name_ok_iff. eapply name_ok_in; [exact Hf|]. apply shown_formal. exact H.
Qed.
Ltac nodup := repeat (constructor; [cbn; intuition discriminate|]); constructor.
Ltac each_default H := cbn in H; repeat (destruct H as [H|H]; [injection H as <- <-; reflexivity|]); contradiction.

Theorem tok_describes pr : letters_printable pr -> describes (help_text pr (s2b "tokenize")) tok_run.
Proof.
  intros Hp. change (help_text pr (s2b "tokenize")) with (print_defaults pr tok_defs). apply describes_by.
  - exact tok_flags_ok.
  - exact (tok_quotes Hp).
  - vm_compute. reflexivity.
  - nodup.
  - intros n v w args H. unfold tok_run. rewrite tok_parse_written; [reflexivity|exact (shown_formal H)|each_default H].
  - intros w args e E. unfold tok_run, tok_parse, tok_formal. rewrite E. eexists. eexists. split; [reflexivity|]. messages.
Qed.
Theorem lat_describes pr : letters_printable pr -> describes (help_text pr (s2b "lattice")) lat_run.
Proof.
  intros Hp. change (help_text pr (s2b "lattice")) with (print_defaults pr lat_defs). apply describes_by.
  - exact lat_flags_ok.
  - exact (lat_quotes Hp).
  - vm_compute. reflexivity.
  - nodup.
  - intros n v w args H. unfold lat_run. rewrite lat_parse_written; [reflexivity|exact (shown_formal H)|each_default H].
  - intros w args e E. unfold lat_run, lat_parse, lat_formal. rewrite E. eexists. eexists. split; [reflexivity|]. messages.
Qed.
Theorem srv_describes pr : letters_printable pr -> describes (help_text pr (s2b "server")) srv_run.
Proof.
  intros Hp. change (help_text pr (s2b "server")) with (print_defaults pr srv_defs). apply describes_by.
  - exact srv_flags_ok.
  - exact (srv_quotes Hp).
  - vm_compute. reflexivity.
  - nodup.
  - intros n v w args H. unfold srv_run. rewrite srv_parse_written; [reflexivity|exact (shown_formal H)|each_default H].
  - intros w args e E. unfold srv_run, srv_parse, srv_formal. rewrite E. eexists. eexists. split; [reflexivity|]. messages.
Qed.
Theorem sen_describes pr : letters_printable pr -> describes (help_text pr (s2b "sentence")) sen_run.
Proof.
  intros Hp. change (help_text pr (s2b "sentence")) with (print_defaults pr sen_defs). apply describes_by.
  - exact sen_flags_ok.
  - exact (sen_quotes Hp).
  - vm_compute. reflexivity.
  - nodup.
  - intros n v w args H. unfold sen_run. rewrite sen_parse_written; [reflexivity|exact (shown_formal H)|each_default H].
  - intros w args e E. unfold sen_run, sen_parse, sen_formal. rewrite E. eexists. eexists. split; [reflexivity|]. messages.
Qed.
