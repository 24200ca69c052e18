(** How requests are routed. *)
From Verif Require Import Route SpecRoute Utf8Facts ServerFacts.
From Coq Require Import Lia ZifyBool ZifyNat.
Set Implicit Arguments.
Unset Strict Implicit.
Open Scope nat_scope.

Lemma eqb_slash b : Byte.eqb b slash = true <-> b = x2f.
Proof. apply byte_eqb_spec. Qed.
Lemma eqb_slash_no b : Byte.eqb b slash = false <-> b <> x2f.
Proof. rewrite <- eqb_slash. destruct (Byte.eqb b slash); split; congruence. Qed.
Lemma eqb_dot b : Byte.eqb b dot = true <-> b = x2e.
Proof. apply byte_eqb_spec. Qed.

Definition root_or (names : list bytes) : bytes := match names with [] => [x2f] | _ => rendered names end.
Definition boundary (s : bytes) : Prop := s = [] \/ exists r, s = x2f :: r.
Lemma at_end_ok s : at_end s = true <-> boundary s.
Proof.
  destruct s as [|b s]; cbn [at_end]; [split; [left; reflexivity|reflexivity]|]. rewrite eqb_slash. split.
  - intros ->. right. eauto.
  - intros [H|[r [= -> _]]]; [discriminate H|reflexivity].
Qed.
Lemma rendered_app a b : rendered (a ++ b) = rendered a ++ rendered b.
Proof. unfold rendered. rewrite map_app, concat_app. reflexivity. Qed.
Lemma rendered_last l e : rendered (l ++ [e]) = rendered l ++ [x2f] ++ e.
Proof. rewrite rendered_app. cbn. rewrite app_nil_r. reflexivity. Qed.
Lemma rendered_long names : Forall path_name names -> names <> [] -> 2 <= length (rendered names).
Proof.
  intros F H. destruct F as [|[|b n] l [A _] F]; [congruence|congruence|]. cbn. lia.
Qed.
Lemma root_or_last l e : root_or (l ++ [e]) = rendered l ++ [x2f] ++ e.
Proof. rewrite <- rendered_last. destruct l; reflexivity. Qed.

Lemma copy_spec s out : exists e r, copy_element s out = (r, rev e ++ out) /\ s = e ++ r /\ ~ In x2f e /\ boundary r.
Proof.
  revert out. induction s as [|b s IH]; intros out; cbn [copy_element].
  - exists [], []. repeat split; [tauto|left; reflexivity].
  - destruct (Byte.eqb b slash) eqn:E.
    + apply eqb_slash in E. subst. exists [], (x2f :: s). repeat split; [tauto|right; eauto].
    + destruct (IH (b :: out)) as (e & r & E1 & E2 & E3 & E4). exists (b :: e), r. rewrite E1. cbn. rewrite <- app_assoc. cbn.
      split; [reflexivity|]. split; [congruence|]. split; [|exact E4]. intros [H|H]; [apply eqb_slash_no in E; congruence|exact (E3 H)].
Qed.
Lemma remove_spec e out : ~ In x2f e -> remove_last (e ++ x2f :: out) = match out with [] => [x2f] | _ => out end.
Proof.
  intros H. induction e as [|b e IH].
  - cbn [app remove_last]. destruct out; reflexivity.
  - cbn [app]. assert (Hb : b <> x2f) by (intros ->; apply H; left; reflexivity). apply eqb_slash_no in Hb.
    cbn [remove_last]. rewrite Hb. rewrite <- IH by (intros H'; apply H; right; exact H'). destruct e; reflexivity.
Qed.
Lemma names_split (names : list bytes) : names = [] \/ exists l e, names = l ++ [e].
Proof. destruct (rev names) as [|e l] eqn:E; apply (f_equal (@rev _)) in E; rewrite rev_involutive in E; [left|right; exists (rev l), e]; exact E. Qed.
Lemma remove_names names : Forall path_name names -> remove_last (rev (root_or names)) = rev (root_or (removelast names)).
Proof.
  intros F. destruct (names_split names) as [->|(l & e & ->)]; [reflexivity|].
  rewrite removelast_last, root_or_last, !rev_app_distr, <- app_assoc. cbn [rev app].
  apply Forall_app in F. destruct F as [F1 F2]. inversion_clear F2 as [|? ? (_ & _ & _ & H) _].
  rewrite remove_spec; [|rewrite <- in_rev; exact H]. destruct l as [|n l]; [reflexivity|]. cbn [root_or].
  pose proof (rendered_long F1 ltac:(discriminate)) as L. rewrite <- rev_length in L. destruct (rev (rendered (n :: l))); [cbn in L; lia|reflexivity].
Qed.
Lemma push_name names e : Forall path_name names ->
  rev e ++ (if length (rev (root_or names)) =? 1 then rev (root_or names) else slash :: rev (root_or names)) = rev (root_or (names ++ [e])).
Proof.
  intros F. rewrite root_or_last, !rev_app_distr, <- app_assoc. f_equal. destruct names as [|n l]; [reflexivity|].
  pose proof (rendered_long F ltac:(discriminate)) as L. rewrite rev_length. cbn [root_or].
  destruct (Nat.eqb_spec (length (rendered (n :: l))) 1); [lia|reflexivity].
Qed.
Lemma leads_names p names : leads p names -> Forall path_name names.
Proof.
  induction 1; [constructor|assumption| |apply Forall_app; split; [assumption|constructor; [assumption|constructor]]].
  destruct (names_split names) as [->|(l & e & ->)]; [constructor|]. rewrite removelast_last. apply Forall_app in IHleads. apply IHleads.
Qed.

Lemma loop_spec fuel :
  (forall s p names, length s < fuel -> leads p names -> boundary s ->
    exists names', clean_loop fuel s (rev (root_or names)) = Ok (root_or names') /\ leads (p ++ s) names') /\
  (forall s p names, length s < fuel -> leads p names ->
    exists names', clean_loop fuel s (rev (root_or names)) = Ok (root_or names') /\ leads (p ++ x2f :: s) names').
Proof.
  induction fuel as [|f [IHa IHb]]; [split; intros; lia|]. split.
  - intros s p names Hl Hp [->|[r ->]]; cbn [clean_loop].
    + exists names. rewrite rev_involutive, app_nil_r. auto.
    + cbn [length] in Hl. change (Byte.eqb x2f slash) with true. cbv iota. apply IHb; [lia|exact Hp].
  - intros s p names Hl Hp. pose proof (leads_names Hp) as F. destruct s as [|b s]; cbn [clean_loop length] in *.
    + exists names. rewrite rev_involutive. split; [reflexivity|]. exact (ld_stay p names [] Hp (or_introl eq_refl)).
    + destruct (Byte.eqb b slash) eqn:Eb.
      { apply eqb_slash in Eb. subst b. destruct (IHb s (p ++ [x2f]) names) as (names' & E1 & E2); [lia|exact (ld_stay p names [] Hp (or_introl eq_refl))|].
        exists names'. split; [exact E1|]. rewrite <- app_assoc in E2. exact E2. }
      apply eqb_slash_no in Eb. destruct (Byte.eqb b dot && at_end s) eqn:E1.
      { apply andb_true_iff in E1. destruct E1 as [E1 E2]. apply eqb_dot in E1. apply at_end_ok in E2. subst b.
        destruct (IHa s (p ++ [x2f] ++ [x2e]) names) as (names' & E3 & E4); [lia|exact (ld_stay p names [x2e] Hp (or_intror eq_refl))|exact E2|].
        exists names'. split; [exact E3|]. rewrite <- app_assoc in E4. exact E4. }
      match goal with |- context [if ?c then _ else _] => destruct c eqn:E2 end.
      { apply andb_true_iff in E2. destruct E2 as [E2 E3]. apply eqb_dot in E2. destruct s as [|c s]; [discriminate E3|].
        apply andb_true_iff in E3. destruct E3 as [E3 E4]. apply eqb_dot in E3. apply at_end_ok in E4. subst b c. rewrite (remove_names F). cbn [length] in Hl.
        destruct (IHa s (p ++ [x2f] ++ s2b "..") (removelast names)) as (names' & E5 & E6); [lia|exact (ld_back p names Hp)|exact E4|].
        exists names'. split; [exact E5|]. rewrite <- app_assoc in E6. exact E6. }
      destruct (copy_spec (b :: s) (if length (rev (root_or names)) =? 1 then rev (root_or names) else slash :: rev (root_or names))) as (e & r & C1 & C2 & C3 & C4).
      rewrite C1. assert (He : path_name e).
      { destruct e as [|b' e]; [cbn in C2; destruct C4 as [->|[r' ->]]; congruence|]. injection C2 as <- C2. repeat split; [discriminate| | |exact C3].
        - intros [= -> ->]. cbn in C2. subst r. apply at_end_ok in C4. rewrite C4 in E1. discriminate E1.
        - intros [= -> ->]. cbn in C2. subst s. apply at_end_ok in C4. rewrite C4 in E2. discriminate E2. }
      destruct (IHa r (p ++ [x2f] ++ e) (names ++ [e])) as (names' & E5 & E6); [|exact (ld_name p names e Hp He)|exact C4|].
      { apply (f_equal (@length _)) in C2. rewrite app_length in C2. cbn [length] in C2. destruct e; [destruct He; congruence|]. cbn [length] in C2. lia. }
      exists names'. split; [rewrite <- E5; f_equal; exact (push_name e F)|]. rewrite <- !app_assoc in E6. cbn [app] in E6. rewrite <- C2 in E6. exact E6.
Qed.

(** The names a path leads through are determined. *)
Lemma last_element_one (p q e f : bytes) : p ++ [x2f] ++ e = q ++ [x2f] ++ f -> ~ In x2f e -> ~ In x2f f -> p = q /\ e = f.
Proof.
  revert q. induction p as [|b p IH]; intros [|c q] H He Hf; cbn in H.
  - injection H as ->. auto.
  - injection H as <- ->. exfalso. apply He. rewrite in_app_iff. right. left. reflexivity.
  - injection H as -> <-. exfalso. apply Hf. rewrite in_app_iff. right. left. reflexivity.
  - injection H as <- H. destruct (IH q H He Hf) as [-> ->]. auto.
Qed.
Lemma nil_end (p e : bytes) : [] = p ++ [x2f] ++ e -> False.
Proof. destruct p; discriminate. Qed.
Theorem leads_one p a : leads p a -> forall b, leads p b -> a = b.
Proof.
  assert (N0 : forall e, e = [] \/ e = s2b "." -> ~ In x2f e) by (intros e [->| ->]; cbn; intuition discriminate).
  assert (N1 : ~ In x2f (s2b "..")) by (cbn; intuition discriminate).
  assert (N2 : forall e, path_name e -> ~ In x2f e) by (intros e (_ & _ & _ & H); exact H).
  assert (D : forall e, path_name e -> ~ (e = [] \/ e = s2b ".") /\ e <> s2b "..") by (intros e (H1 & H2 & H3 & _); tauto).
  induction 1 as [|p names e H IH He|p names H IH|p names e H IH He]; intros c Hc; inversion Hc as [E|q n f Hq Hf E|q n Hq E|q n f Hq Hf E]; subst;
    try (exfalso; eapply nil_end; (exact E || (symmetry; exact E))).
  all: try (apply last_element_one in E; [|eauto; fail|eauto; fail]; destruct E as [<- E]).
  - reflexivity.
  - apply IH; exact Hq.
  - subst. destruct He as [|]; discriminate.
  - subst. destruct (D _ Hf) as [X _]. contradiction.
  - subst. destruct Hf; discriminate.
  - f_equal. apply IH. exact Hq.
  - subst. destruct (D _ Hf) as [_ X]. congruence.
  - subst. destruct (D _ He) as [X _]. contradiction.
  - subst. destruct (D _ He) as [_ X]. congruence.
  - subst. f_equal. apply IH. exact Hq.
Qed.

(** ** The cleaned path *)
Lemma root_or_root names : Forall path_name names -> root_or names = [x2f] -> names = [].
Proof.
  intros F H. destruct names as [|n l]; [reflexivity|]. pose proof (rendered_long F ltac:(discriminate)) as L. cbn [root_or] in H. rewrite H in L. cbn in L. lia.
Qed.
Lemma ends_last p : p <> [] -> (last p slash = x2f <-> ends_in_slash p).
Proof.
  intros H. destruct (exists_last H) as (r & b & ->). rewrite last_last. unfold ends_in_slash. split.
  - intros ->. eauto.
  - intros (r' & E). apply app_inj_tail in E. apply E.
Qed.
Lemma clean_spec p : exists q names, with_slash p q /\ leads q names /\
  ((ends_in_slash q /\ names <> [] /\ clean_path p = Ok (rendered names ++ [x2f])) \/
   ((ends_in_slash q -> names = []) /\ clean_path p = Ok (root_or names))).
Proof.
  set (q := match p with [] => [slash] | b :: _ => if Byte.eqb b slash then p else slash :: p end).
  assert (Hq : with_slash p q).
  { unfold q. destruct p as [|b p]; [right; split; [discriminate|reflexivity]|]. destruct (Byte.eqb b slash) eqn:E.
    - apply eqb_slash in E. subst. left. eauto.
    - apply eqb_slash_no in E. right. split; [intros r [= -> _]; congruence|reflexivity]. }
  assert (Hs : exists s, q = x2f :: s).
  { destruct Hq as [(r & -> & ->)|[_ ->]]; eauto. }
  destruct Hs as [s Es]. destruct (proj2 (loop_spec (S (length s))) s [] []) as (names & E1 & E2); [lia|constructor|].
  change (rev (root_or [])) with [slash] in E1. cbn [app] in E2. rewrite <- Es in E2. pose proof (leads_names E2) as F.
  exists q, names. split; [exact Hq|]. split; [exact E2|]. unfold clean_path. fold q.
  assert (El := ends_last (p := q) ltac:(rewrite Es; discriminate)).
  assert (Ec : path_clean (skipn 1 q) = Ok (root_or names)) by (rewrite Es; exact E1). rewrite Ec. cbn [rbind].
  destruct (Byte.eqb (last q slash) slash) eqn:E3.
  - apply eqb_slash, El in E3. cbn [andb]. destruct (bytes_eqb (root_or names) [slash]) eqn:E4.
    + apply bytes_eqb_eq, root_or_root in E4; [|exact F]. subst. right. auto.
    + apply bytes_eqb_neq in E4. assert (Hn : names <> []) by (intros ->; apply E4; reflexivity). left. split; [exact E3|]. split; [exact Hn|]. cbn [negb].
      assert (Er : root_or names = rendered names) by (destruct names; [congruence|reflexivity]). rewrite Er.
      match goal with |- context [if ?c then _ else _] => destruct c eqn:E5 end; [|reflexivity].
      apply andb_true_iff in E5. destruct E5 as [E5 E6]. apply bytes_eqb_eq in E6. apply Nat.eqb_eq in E5. destruct E3 as [r E3]. rewrite E3, app_length in E5. cbn in E5.
      rewrite E3 in E6. replace (length (rendered names)) with (length r) in E6 by lia. rewrite firstn_app, Nat.sub_diag, firstn_all in E6. cbn in E6. rewrite app_nil_r in E6. congruence.
  - right. split; [|reflexivity]. intros H. apply El, eqb_slash in H. congruence.
Qed.
Lemma leads_rendered names : Forall path_name names -> leads (rendered names) names.
Proof.
  intros F. induction names as [|e l IH] using rev_ind; [constructor|]. rewrite rendered_last. apply Forall_app in F. destruct F as [F1 F2]. inversion_clear F2.
  apply ld_name; auto.
Qed.
Lemma root_or_leads names : Forall path_name names -> leads (root_or names) names.
Proof. intros F. destruct names; [exact (ld_stay [] [] [] ld_root (or_introl eq_refl))|]. apply leads_rendered. exact F. Qed.
Lemma clean_plain p : exists r, clean_path p = Ok r /\ plain r /\ exists q names, with_slash p q /\ leads q names /\ leads r names /\
  (ends_in_slash q -> ends_in_slash r) /\ (ends_in_slash r -> ends_in_slash q \/ r = s2b "/").
Proof.
  destruct (clean_spec p) as (q & names & H1 & H2 & [(H3 & H4 & H5)|[H3 H4]]); pose proof (leads_names H2) as F.
  - exists (rendered names ++ [x2f]). split; [exact H5|]. split; [right; exists names, [x2f]; auto|]. exists q, names. split; [exact H1|]. split; [exact H2|].
    split; [exact (ld_stay _ names [] (leads_rendered F) (or_introl eq_refl))|]. split; [intros _; exists (rendered names); reflexivity|auto].
  - exists (root_or names). split; [exact H4|]. destruct (names_split names) as [->|(l & e & E)].
    + split; [left; reflexivity|]. exists q, []. split; [exact H1|]. split; [exact H2|]. split; [exact (ld_stay [] [] [] ld_root (or_introl eq_refl))|].
      split; [intros _; exists []; reflexivity|auto].
    + assert (Hn : names <> []) by (intros ->; destruct l; discriminate E).
      assert (Er : root_or names = rendered names) by (destruct names; [congruence|reflexivity]). rewrite Er.
      split; [right; exists names, []; rewrite app_nil_r; auto|]. exists q, names. split; [exact H1|]. split; [exact H2|]. split; [exact (leads_rendered F)|].
      split; [intros H; exfalso; exact (Hn (H3 H))|]. intros [r H]. exfalso. rewrite E, rendered_last in H. subst names. apply Forall_app in F. destruct F as [_ F].
      inversion_clear F as [|? ? (A & _ & _ & B) _]. destruct (exists_last A) as (e' & b & ->). rewrite !app_assoc in H. apply app_inj_tail in H. destruct H as [_ ->].
      apply B. apply in_or_app. right. left. reflexivity.
Qed.
Lemma plain_clean p : plain p -> clean_path p = Ok p.
Proof.
  intros Hp.
  assert (Hs : exists r, p = x2f :: r).
  { destruct Hp as [->|(names & l & H1 & _ & _ & ->)]; [exists []; reflexivity|]. destruct names; [congruence|]. eexists. reflexivity. }
  destruct (clean_spec p) as (q & names & H1 & H2 & H). assert (q = p) as ->.
  { destruct H1 as [(r & _ & ->)|[N _]]; [reflexivity|]. destruct Hs as [r ->]. exfalso. exact (N r eq_refl). }
  destruct Hp as [->|(l & e & N & F & He & ->)].
  - assert (names = []) as -> by (symmetry; exact (leads_one (root_or_leads (names := []) (Forall_nil _)) H2)).
    destruct H as [(_ & X & _)|[_ H]]; [congruence|exact H].
  - assert (leads (rendered l ++ e) l).
    { destruct He as [->| ->]; [rewrite app_nil_r; exact (leads_rendered F)|]. exact (ld_stay _ l [] (leads_rendered F) (or_introl eq_refl)). }
    assert (l = names) as <- by (exact (leads_one H0 H2)).
    assert (Er : root_or l = rendered l) by (destruct l; [congruence|reflexivity]). rewrite Er in H.
    destruct He as [->| ->].
    + rewrite app_nil_r in *. destruct H as [([r H] & _ & _)|[_ H]]; [exfalso|exact H].
      destruct (names_split l) as [->|(l' & e & ->)]; [congruence|]. rewrite rendered_last in H. apply Forall_app in F. destruct F as [_ F].
      inversion_clear F as [|? ? (A & _ & _ & B) _]. destruct (exists_last A) as (e' & b & ->). rewrite !app_assoc in H. apply app_inj_tail in H. destruct H as [_ ->].
      apply B. apply in_or_app. right. left. reflexivity.
    + destruct H as [(_ & _ & H)|[H _]]; [exact H|]. exfalso. apply N, H. exists (rendered l). reflexivity.
Qed.

(** ** Requests *)
Section Routes.
Variables (decode : bytes -> request + bytes) (newer : bool) (gv : graphviz) (addr : coord -> bytes) (ideo : ideographic) (t : tokenizer).
Notation serve := (serve_http decode newer gv addr ideo t).

Lemma serve_other q : hq_uri q <> s2b "*" -> hq_method q <> s2b "CONNECT" ->
  serve q = (let* p := clean_path (hq_path q) in
    if bytes_eqb p (hq_path q) then run_target decode newer gv addr ideo t (mux_match p) q else Ok (ARedirect 301 p (hq_query q))).
Proof. intros H1 H2. unfold serve_http. rewrite (proj2 (bytes_eqb_neq _ _) H1), (proj2 (bytes_eqb_neq _ _) H2). reflexivity. Qed.
Theorem route_plain q : hq_uri q <> s2b "*" -> hq_method q <> s2b "CONNECT" -> plain (hq_path q) ->
  (hq_path q = s2b "/tokenize" -> serve q = (let* r := serve_tokenize decode newer ideo t (hq_body q) in Ok (AJson r))) /\
  (hq_path q <> s2b "/tokenize" -> serve q = (let* h := serve_root gv addr ideo t (hq_s q) (hq_r q) (hq_lattice q) in Ok (APage h))).
Proof.
  intros H1 H2 H3. rewrite (serve_other H1 H2), (plain_clean H3). cbn [rbind]. rewrite bytes_eqb_refl. unfold mux_match. split; intros H.
  - rewrite H, bytes_eqb_refl. reflexivity.
  - rewrite (proj2 (bytes_eqb_neq _ _) H). destruct H3 as [->|(names & l & N & _ & _ & E)]; [reflexivity|]. destruct names as [|n ns]; [congruence|]. rewrite E. reflexivity.
Qed.
Theorem route_other q : hq_uri q <> s2b "*" -> hq_method q <> s2b "CONNECT" -> ~ plain (hq_path q) ->
  exists p full names, serve q = Ok (ARedirect 301 p (hq_query q)) /\ plain p /\ with_slash (hq_path q) full /\ leads full names /\ leads p names /\
    (ends_in_slash full -> ends_in_slash p) /\ (ends_in_slash p -> ends_in_slash full \/ p = s2b "/").
Proof.
  intros H1 H2 H3. destruct (clean_plain (hq_path q)) as (p & E1 & E2 & full & names & E3 & E4 & E5 & E6 & E7). exists p, full, names.
  rewrite (serve_other H1 H2), E1. cbn [rbind]. destruct (bytes_eqb p (hq_path q)) eqn:E; [apply bytes_eqb_eq in E; subst; contradiction|]. auto 10.
Qed.
Theorem route_connect q : hq_uri q <> s2b "*" -> hq_method q = s2b "CONNECT" ->
  (hq_path q = s2b "/tokenize" -> serve q = (let* r := serve_tokenize decode newer ideo t (hq_body q) in Ok (AJson r))) /\
  (hq_path q <> s2b "/tokenize" -> (exists r, hq_path q = x2f :: r) -> serve q = (let* h := serve_root gv addr ideo t (hq_s q) (hq_r q) (hq_lattice q) in Ok (APage h))) /\
  ((forall r, hq_path q <> x2f :: r) -> serve q = Ok ANotFound).
Proof.
  intros H1 H2. unfold serve_http. rewrite (proj2 (bytes_eqb_neq _ _) H1), H2, bytes_eqb_refl. unfold mux_match. split; [|split].
  - intros ->. reflexivity.
  - intros H [r E]. rewrite (proj2 (bytes_eqb_neq _ _) H), E. reflexivity.
  - intros H. destruct (bytes_eqb (hq_path q) (s2b "/tokenize")) eqn:E; [apply bytes_eqb_eq in E; exfalso; exact (H _ E)|].
    destruct (hq_path q) as [|b r]; [reflexivity|]. destruct (Byte.eqb b slash) eqn:Eb; [apply eqb_slash in Eb; subst; exfalso; exact (H r eq_refl)|reflexivity].
Qed.
End Routes.

(** ** The addresses in the page *)
Lemma tail_posts ref : ~ In x27 ref -> str_index (s2b "$.post('" ++ ref ++ s2b "'") form_tail <> None -> forall sen radio, posts (form_page sen radio) ref.
Proof.
  intros H1 H2 sen radio. split; [exact H1|]. pose proof (str_index_ok (s2b "$.post('" ++ ref ++ s2b "'") form_tail) as H.
  destruct (str_index (s2b "$.post('" ++ ref ++ s2b "'") form_tail) as [n|]; [|congruence]. destruct H as (p & q & E & _). unfold form_page. rewrite E.
  exists (form_head ++ html_escape sen ++ form_normal ++ checked_if radio (s2b "search") ++ form_search ++ checked_if radio (s2b "extended") ++ p), q.
  rewrite <- !app_assoc. reflexivity.
Qed.
Lemma some_not_none A (o : option A) : (if o then true else false) = true -> o <> None.
Proof. destruct o; congruence. Qed.
Lemma form_posts sen radio : posts (form_page sen radio) (s2b "./tokenize") /\ posts (form_page sen radio) (s2b "./a").
Proof.
  split; apply tail_posts; try (cbv; intuition discriminate); apply some_not_none; vm_compute; reflexivity.
Qed.
Lemma plain_one n : path_name n -> plain (x2f :: n).
Proof. intros H. right. exists [n], []. split; [discriminate|]. split; [constructor; [exact H|constructor]|]. split; [left; reflexivity|]. cbn. rewrite !app_nil_r. reflexivity. Qed.
(** Beside a page in the root is the root. *)
Lemma beside_root base ref target file : beside base ref target -> base = x2f :: file -> ~ In x2f file -> exists name, ref = s2b "./" ++ name /\ path_name name /\ target = x2f :: name.
Proof.
  intros (dir & f & name & E1 & Hf & [d E2] & E3 & Hn & E4) E H. exists name. split; [exact E3|]. split; [exact Hn|]. rewrite E4, E2.
  rewrite E, E2, <- app_assoc in E1. destruct (@last_element_one [] d file f E1 H Hf) as [<- _]. reflexivity.
Qed.
Section Posts.
Variables (decode : bytes -> request + bytes) (newer : bool) (gv : graphviz) (addr : coord -> bytes) (ideo : ideographic) (t : tokenizer).
Notation serve := (serve_http decode newer gv addr ideo t).
Theorem posts_reach q q' page file target : serve q = Ok (APage page) -> hq_path q = x2f :: file -> ~ In x2f file ->
  posts page (s2b "./tokenize") -> beside (hq_path q) (s2b "./tokenize") target ->
  hq_uri q' <> s2b "*" -> hq_method q' = s2b "POST" -> hq_path q' = target ->
  serve q' = (let* r := serve_tokenize decode newer ideo t (hq_body q') in Ok (AJson r)).
Proof.
  intros _ H1 H2 _ H3 U M E. destruct (beside_root H3 H1 H2) as (name & E1 & Hn & E2). injection E1 as <-.
  assert (Hp : hq_path q' = s2b "/tokenize") by (rewrite E, E2; reflexivity).
  destruct (@route_plain decode newer gv addr ideo t q') as [A _]; [exact U|rewrite M; discriminate| |apply A; exact Hp].
  rewrite Hp. apply (@plain_one (s2b "tokenize")). exact Hn.
Qed.
End Posts.
Definition get_request (path : bytes) : http_request := HttpRequest (s2b "GET") path path [] [] [] [] [].
Lemma page_there decode newer gv addr ideo t q : hq_uri q <> s2b "*" -> clean_path (hq_path q) = Ok (hq_path q) -> mux_match (hq_path q) = TDemo ->
  serve_http decode newer gv addr ideo t q = (let* h := serve_root gv addr ideo t (hq_s q) (hq_r q) (hq_lattice q) in Ok (APage h)).
Proof.
  intros U C M. unfold serve_http. destruct (bytes_eqb (hq_uri q) (s2b "*")) eqn:E; [apply bytes_eqb_eq in E; contradiction|].
  destruct (bytes_eqb (hq_method q) (s2b "CONNECT")); [rewrite M; reflexivity|]. rewrite C. cbn [rbind]. rewrite (proj2 (bytes_eqb_eq _ _) eq_refl), M. reflexivity.
Qed.
(** The change of a radio button posts to ./a, which is the page. *)
Theorem radio_page decode newer gv addr ideo t : exists page, serve_http decode newer gv addr ideo t (get_request (s2b "/")) = Ok (APage page) /\
  posts page (s2b "./a") /\ beside (s2b "/") (s2b "./a") (s2b "/a") /\
  forall q, hq_uri q <> s2b "*" -> hq_path q = s2b "/a" ->
    serve_http decode newer gv addr ideo t q = (let* h := serve_root gv addr ideo t (hq_s q) (hq_r q) (hq_lattice q) in Ok (APage h)).
Proof.
  eexists. split; [reflexivity|]. split; [apply form_posts|]. split.
  - exists (s2b "/"), [], (s2b "a"). split; [reflexivity|]. split; [tauto|]. split; [exists []; reflexivity|]. split; [reflexivity|]. split; [|reflexivity].
    repeat split; try discriminate. cbv. intuition discriminate.
  - intros q U E. apply page_there; [exact U|rewrite E; reflexivity|rewrite E; reflexivity].
Qed.
(** The page is also served at addresses below others, where its script posts to itself. *)
Theorem deeper_page decode newer gv addr ideo t : exists page, serve_http decode newer gv addr ideo t (get_request (s2b "/demo/")) = Ok (APage page) /\
  posts page (s2b "./tokenize") /\ beside (s2b "/demo/") (s2b "./tokenize") (s2b "/demo/tokenize") /\
  forall q, hq_uri q <> s2b "*" -> hq_path q = s2b "/demo/tokenize" ->
    serve_http decode newer gv addr ideo t q = (let* h := serve_root gv addr ideo t (hq_s q) (hq_r q) (hq_lattice q) in Ok (APage h)).
Proof.
  eexists. split; [reflexivity|]. split; [apply form_posts|]. split.
  - exists (s2b "/demo/"), [], (s2b "tokenize"). split; [reflexivity|]. split; [tauto|]. split; [exists (s2b "/demo"); reflexivity|]. split; [reflexivity|]. split; [|reflexivity].
    repeat split; try discriminate. cbv. intuition discriminate.
  - intros q U E. apply page_there; [exact U|rewrite E; reflexivity|rewrite E; reflexivity].
Qed.
