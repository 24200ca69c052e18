(** The options of the commands are what the arguments say. *)
From Verif Require Import SpecCmd Utf8Facts FlagFacts.
From Coq Require Import List Arith Lia.
Import ListNotations.
Set Implicit Arguments.
Unset Strict Implicit.

Definition kind_of (v : flag_value) : flag_kind := match v with VString _ => FString | VBool _ => FBool end.
Definition typed (flags : list (bytes * flag_kind)) (l : list (bytes * flag_value)) : Prop :=
  Forall (fun a => In (fst a, kind_of (snd a)) flags) l.
Lemma command_line_typed flags args l rest : command_line flags args l rest -> typed flags l.
Proof. intros H. induction H; constructor; auto. Qed.
Lemma typed_snoc flags l n v : typed flags (l ++ [(n, v)]) -> typed flags l /\ In (n, kind_of v) flags.
Proof. unfold typed. rewrite Forall_app. intros [H1 H2]. inversion H2; subst. auto. Qed.

Ltac flag_cases H := repeat (destruct H as [H|H]; [injection H as <- ?; subst|]); [..|contradiction].
Ltac settings := rewrite setting_snoc; cbn [fst snd];
  first [ left; split; [reflexivity|reflexivity] | right; split; [discriminate|assumption] ].

Lemma in_words (l : list bytes) (m : bytes) : existsb (bytes_eqb m) l = true <-> In m l.
Proof.
  rewrite existsb_exists. split.
  - intros (x & Hx & E). apply bytes_eqb_eq in E. subst. assumption.
  - intros H. exists m. split; [assumption|apply bytes_eqb_refl].
Qed.
Lemma bempty_eqb m : bempty m = bytes_eqb m [].
Proof. destruct m; reflexivity. Qed.
Lemma bempty_true m : bempty m = true <-> m = [].
Proof. rewrite bempty_eqb. apply bytes_eqb_eq. Qed.
Lemma bempty_false m : bempty m = false <-> m <> [].
Proof. rewrite bempty_eqb. apply bytes_eqb_neq. Qed.
Lemma bad_mode_ok m : bad_mode m = false <-> In m mode_words.
Proof.
  rewrite <- in_words. unfold bad_mode, mode_words. rewrite bempty_eqb. cbn [existsb].
  destruct (bytes_eqb m []), (bytes_eqb m (s2b "normal")), (bytes_eqb m (s2b "search")), (bytes_eqb m (s2b "extended")); cbn; split; congruence.
Qed.
Lemma bad_sysdict_ok m : bad_sysdict m = false <-> In m dict_words.
Proof.
  rewrite <- in_words. unfold bad_sysdict, dict_words. rewrite bempty_eqb. cbn [existsb].
  destruct (bytes_eqb m []), (bytes_eqb m (s2b "ipa")), (bytes_eqb m (s2b "uni")); cbn; split; congruence.
Qed.

(** ** tokenize *)
Lemma tok_flags_ok : flags_ok tok_formal.
Proof. split; [reflexivity|]. repeat constructor; cbn; intuition discriminate. Qed.
Lemma tok_line_flags args l rest : command_line tok_flags args l rest <-> command_line tok_formal args l rest.
Proof. split; apply command_line_incl; intros x Hx; cbn in *; intuition. Qed.

Definition tok_settings (l : list (bytes * flag_value)) (o : tok_opt) : Prop :=
  setting l (s2b "file") (VString []) (VString (to_file o)) /\
  setting l (s2b "dict") (VString []) (VString (to_dict o)) /\
  setting l (s2b "udict") (VString []) (VString (to_udict o)) /\
  setting l (s2b "sysdict") (VString (s2b "ipa")) (VString (to_sysdict o)) /\
  setting l (s2b "mode") (VString (s2b "normal")) (VString (to_mode o)) /\
  setting l (s2b "simple") (VBool false) (VBool (to_simple o)) /\
  setting l (s2b "split") (VBool false) (VBool (to_split o)) /\
  setting l (s2b "json") (VBool false) (VBool (to_json o)).
Lemma tok_fold l : typed tok_flags l -> tok_settings l (fold_left tok_set l tok_default).
Proof.
  induction l as [|[n v] l IH] using rev_ind; intros Ht.
  - unfold tok_settings. repeat split; apply setting_nil.
  - apply typed_snoc in Ht. destruct Ht as [Ht Hin]. specialize (IH Ht). rewrite fold_left_app. cbn [fold_left].
    destruct (fold_left tok_set l tok_default) as [file dict udict sysdict simple mode split json].
    unfold tok_settings in *. cbn [to_file to_dict to_udict to_sysdict to_mode to_simple to_split to_json] in IH.
    destruct IH as (H1 & H2 & H3 & H4 & H5 & H6 & H7 & H8).
    destruct v as [s|b]; cbn [kind_of] in Hin; cbn in Hin;
      repeat (destruct Hin as [Hin|Hin]; [first [discriminate Hin | injection Hin as <-]; cbn; repeat split; settings|]); contradiction.
Qed.
Lemma tok_settings_fun l o o' : tok_settings l o -> tok_settings l o' -> o = o'.
Proof.
  destruct o as [a1 a2 a3 a4 a5 a6 a7 a8], o' as [b1 b2 b3 b4 b5 b6 b7 b8]. unfold tok_settings. cbn [to_file to_dict to_udict to_sysdict to_mode to_simple to_split to_json].
  intros (H1 & H2 & H3 & H4 & H5 & H6 & H7 & H8) (G1 & G2 & G3 & G4 & G5 & G6 & G7 & G8).
  pose proof (setting_fun H1 G1). pose proof (setting_fun H2 G2). pose proof (setting_fun H3 G3). pose proof (setting_fun H4 G4).
  pose proof (setting_fun H5 G5). pose proof (setting_fun H6 G6). pose proof (setting_fun H7 G7). pose proof (setting_fun H8 G8). congruence.
Qed.
Lemma tok_parse_ok args o : tok_parse args = inl o <-> tok_args args o.
Proof.
  unfold tok_parse. split.
  - destruct (parse_flags tok_formal args) as [l [rest|e]] eqn:E; [|discriminate]. apply parse_sound in E. apply tok_line_flags in E.
    destruct rest as [|a rest]; cbn [length Nat.eqb negb]; [|discriminate].
    destruct (bad_mode _) eqn:Em; [discriminate|]. destruct (bad_sysdict _) eqn:Es; [discriminate|]. intros [= <-].
    apply bad_mode_ok in Em. apply bad_sysdict_ok in Es. destruct (tok_fold (command_line_typed E)) as (? & ? & ? & ? & ? & ? & ? & ?).
    exists l. repeat split; assumption.
  - intros (l & Hl & H1 & H2 & H3 & H4 & H5 & H6 & H7 & H8 & Hm & Hs).
    assert (Ho : fold_left tok_set l tok_default = o).
    { eapply tok_settings_fun; [apply tok_fold; eapply command_line_typed; eassumption|]. repeat split; assumption. }
    apply tok_line_flags in Hl. rewrite (parse_complete tok_flags_ok Hl), Ho. cbn [length Nat.eqb negb].
    rewrite (proj2 (bad_mode_ok _) Hm), (proj2 (bad_sysdict_ok _) Hs). reflexivity.
Qed.
Lemma tok_args_fun args o o' : tok_args args o -> tok_args args o' -> o = o'.
Proof. rewrite <- !tok_parse_ok. congruence. Qed.

(** ** lattice *)
Lemma lat_flags_ok : flags_ok lat_formal.
Proof. split; [reflexivity|]. repeat constructor; cbn; intuition discriminate. Qed.
Definition lat_settings (l : list (bytes * flag_value)) (o : lat_opt) : Prop :=
  setting l (s2b "udict") (VString []) (VString (lo_udict o)) /\
  setting l (s2b "dict") (VString (s2b "ipa")) (VString (lo_dict o)) /\
  setting l (s2b "mode") (VString (s2b "normal")) (VString (lo_mode o)) /\
  setting l (s2b "output") (VString []) (VString (lo_output o)) /\
  setting l (s2b "v") (VBool false) (VBool (lo_verbose o)).
Lemma lat_fold l : typed lat_flags l -> lat_settings l (fold_left lat_set l lat_default).
Proof.
  induction l as [|[n v] l IH] using rev_ind; intros Ht.
  - unfold lat_settings. repeat split; apply setting_nil.
  - apply typed_snoc in Ht. destruct Ht as [Ht Hin]. specialize (IH Ht). rewrite fold_left_app. cbn [fold_left].
    destruct (fold_left lat_set l lat_default) as [udict dict mode output verbose input].
    unfold lat_settings in *. cbn [lo_udict lo_dict lo_mode lo_output lo_verbose] in IH.
    destruct IH as (H1 & H2 & H3 & H4 & H5).
    destruct v as [s|b]; cbn [kind_of] in Hin; cbn in Hin;
      repeat (destruct Hin as [Hin|Hin]; [first [discriminate Hin | injection Hin as <-]; cbn; repeat split; settings|]); contradiction.
Qed.
Lemma join_spaces l : join (s2b " ") l = spaces l.
Proof.
  destruct l as [|a l]; [reflexivity|]. cbn [spaces]. revert a. induction l as [|b l IH]; intros a; [cbn; rewrite app_nil_r; reflexivity|].
  change (join (s2b " ") (a :: b :: l)) with (a ++ s2b " " ++ join (s2b " ") (b :: l)). rewrite IH. cbn [map concat]. rewrite <- app_assoc. reflexivity.
Qed.
Lemma join_commas l : join (s2b ",") l = commas l.
Proof.
  destruct l as [|a l]; [reflexivity|]. cbn [commas]. revert a. induction l as [|b l IH]; intros a; [cbn; rewrite app_nil_r; reflexivity|].
  change (join (s2b ",") (a :: b :: l)) with (a ++ s2b "," ++ join (s2b ",") (b :: l)). rewrite IH. cbn [map concat]. rewrite <- app_assoc. reflexivity.
Qed.
Lemma lat_parse_ok args o : lat_parse args = inl o <-> lat_args args o.
Proof.
  unfold lat_parse. split.
  - destruct (parse_flags lat_formal args) as [l [rest|e]] eqn:E; [|discriminate]. apply parse_sound in E.
    destruct rest as [|a rest]; cbn [length Nat.eqb]; [discriminate|].
    destruct (bad_sysdict _) eqn:Es; [discriminate|]. destruct (bad_mode _) eqn:Em; [discriminate|]. intros [= <-].
    apply bad_mode_ok in Em. apply bad_sysdict_ok in Es. destruct (lat_fold (command_line_typed E)) as (? & ? & ? & ? & ?).
    exists l, (a :: rest). split; [assumption|]. split; [discriminate|]. split; [apply (join_spaces (a :: rest))|]. repeat split; assumption.
  - intros (l & rest & Hl & Hr & Hi & H1 & H2 & H3 & H4 & H5 & Hm & Hs).
    destruct (lat_fold (command_line_typed Hl)) as (G1 & G2 & G3 & G4 & G5).
    change lat_flags with lat_formal in Hl. rewrite (parse_complete lat_flags_ok Hl). destruct rest as [|a rest]; [congruence|]. cbn [length Nat.eqb].
    destruct (fold_left lat_set l lat_default) as [udict dict mode output verbose input]. destruct o as [udict' dict' mode' output' verbose' input'].
    cbn [lo_udict lo_dict lo_mode lo_output lo_verbose lo_input] in *.
    pose proof (setting_fun H1 G1). pose proof (setting_fun H2 G2). pose proof (setting_fun H3 G3). pose proof (setting_fun H4 G4). pose proof (setting_fun H5 G5).
    assert (dict' = dict) by congruence. assert (mode' = mode) by congruence. subst dict' mode'.
    rewrite (proj2 (bad_mode_ok _) Hm), (proj2 (bad_sysdict_ok _) Hs), join_spaces. congruence.
Qed.

(** ** server *)
Lemma srv_flags_ok : flags_ok srv_formal.
Proof. split; [reflexivity|]. repeat constructor; cbn; intuition discriminate. Qed.
Lemma srv_fold l : typed srv_flags l -> let o := fold_left srv_set l srv_default in
  setting l (s2b "http") (VString (s2b ":6060")) (VString (so_http o)) /\
  setting l (s2b "userdict") (VString []) (VString (so_udict o)) /\
  setting l (s2b "dict") (VString (s2b "ipa")) (VString (so_dict o)).
Proof.
  cbv zeta. induction l as [|[n v] l IH] using rev_ind; intros Ht.
  - repeat split; apply setting_nil.
  - apply typed_snoc in Ht. destruct Ht as [Ht Hin]. specialize (IH Ht). rewrite fold_left_app. cbn [fold_left].
    destruct (fold_left srv_set l srv_default) as [http dict udict]. cbn [so_http so_dict so_udict] in IH. destruct IH as (H1 & H2 & H3).
    destruct v as [s|b]; cbn [kind_of] in Hin; cbn in Hin;
      repeat (destruct Hin as [Hin|Hin]; [first [discriminate Hin | injection Hin as <-]; cbn; repeat split; settings|]); contradiction.
Qed.
Lemma srv_parse_ok args o : srv_parse args = inl o <-> srv_args args o.
Proof.
  unfold srv_parse. split.
  - destruct (parse_flags srv_formal args) as [l [rest|e]] eqn:E; [|discriminate]. apply parse_sound in E.
    destruct rest as [|a rest]; cbn [length Nat.eqb negb]; [|discriminate].
    destruct (bad_sysdict _) eqn:Es; [discriminate|]. intros [= <-].
    apply bad_sysdict_ok in Es. destruct (srv_fold (command_line_typed E)) as (? & ? & ?). exists l. repeat split; assumption.
  - intros (l & Hl & H1 & H2 & H3 & Hs). destruct (srv_fold (command_line_typed Hl)) as (G1 & G2 & G3).
    change srv_flags with srv_formal in Hl. rewrite (parse_complete srv_flags_ok Hl). cbn [length Nat.eqb negb].
    destruct (fold_left srv_set l srv_default) as [http dict udict]. destruct o as [http' dict' udict']. cbn [so_http so_dict so_udict] in *.
    pose proof (setting_fun H1 G1). pose proof (setting_fun H2 G2). pose proof (setting_fun H3 G3).
    assert (dict' = dict) by congruence. subst dict'. rewrite (proj2 (bad_sysdict_ok _) Hs). congruence.
Qed.

(** ** sentence *)
Lemma sen_flags_ok : flags_ok sen_formal.
Proof. split; [reflexivity|]. repeat constructor; cbn; intuition discriminate. Qed.
Lemma sen_fold l : typed sen_formal l -> setting l (s2b "file") (VString []) (VString (fold_left sen_set l sen_default)).
Proof.
  induction l as [|[n v] l IH] using rev_ind; intros Ht; [apply setting_nil|].
  apply typed_snoc in Ht. destruct Ht as [Ht Hin]. specialize (IH Ht). rewrite fold_left_app. cbn [fold_left].
  destruct v as [s|b]; cbn [kind_of] in Hin; cbn in Hin;
    repeat (destruct Hin as [Hin|Hin]; [first [discriminate Hin | injection Hin as <-]; cbn; settings|]); contradiction.
Qed.
Lemma sen_parse_ok args f : sen_parse args = inl f <-> sen_args args f.
Proof.
  unfold sen_parse. split.
  - destruct (parse_flags sen_formal args) as [l [rest|e]] eqn:E; [|discriminate]. apply parse_sound in E.
    destruct rest as [|a rest]; cbn [length Nat.eqb negb]; [|discriminate]. intros [= <-].
    exists l. split; [assumption|]. apply sen_fold. apply (command_line_typed E).
  - intros (l & Hl & H1). pose proof (sen_fold (command_line_typed Hl)) as G1. change [(s2b "file", FString)] with sen_formal in Hl.
    rewrite (parse_complete sen_flags_ok Hl). cbn [length Nat.eqb negb]. pose proof (setting_fun H1 G1). congruence.
Qed.
