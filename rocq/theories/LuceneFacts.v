(** The filter built by ja.NewFilter() from the two embedded files. *)
From Verif Require Import SpecLucene Assets SpecSent LoaderFacts FilterFacts TokenFacts Check.
From Coq Require Import Lia.
Set Implicit Arguments.
Unset Strict Implicit.

Lemma tags_loaded : exists ls, load_config stop_tags_asset = Ok (ls, None) /\ map stop_tag_pos ls = lucene_tags.
Proof.
  destruct (@ok_and_ex _ (load_config stop_tags_asset)
    (fun x => match snd x with None => test_eq (map stop_tag_pos (fst x)) lucene_tags | Some _ => false end)) as ([ls [e|]] & E & H);
    [vm_compute; reflexivity|discriminate|].
  exists ls. split; [assumption|apply test_eq_ok; assumption].
Qed.
Lemma words_loaded : load_config stop_words_asset = Ok (lucene_words, None).
Proof.
  destruct (@ok_and_ex _ (load_config stop_words_asset)
    (fun x => match snd x with None => test_eq (fst x) lucene_words | Some _ => false end)) as ([ls [e|]] & E & H);
    [vm_compute; reflexivity|discriminate|].
  rewrite E. cbn [snd fst] in H. rewrite (by_test _ _ H). reflexivity.
Qed.

Theorem lucene_options opts : exists tags words base,
  new_ja_filter stop_tags_asset stop_words_asset opts = Ok (inl (ja_of tags words base)) /\
  latest opt_tags opts lucene_tags tags /\ latest opt_words opts lucene_words words /\
  latest opt_base opts (map (fun b => [b]) lucene_base) base.
Proof.
  destruct tags_loaded as (ls & E & M).
  destruct (options_ok lucene_tags lucene_words (map (fun b => [b]) lucene_base) opts) as (tags & words & base & F & H).
  exists tags, words, base. split; [|exact H]. unfold new_ja_filter. rewrite E, words_loaded. cbn [rbind snd fst].
  rewrite <- F. unfold ja_of, stop_tag_filter, stop_word_filter. rewrite M. reflexivity.
Qed.

Lemma no_any (pats : list (list bytes)) : forallb (forallb (fun v => negb (bytes_eqb v any_feature))) pats = true ->
  forall p, In p pats -> ~ In any_feature p.
Proof.
  intros H p Hp Hin. rewrite forallb_forall in H. specialize (H p Hp). rewrite forallb_forall in H. specialize (H _ Hin).
  rewrite (proj2 (bytes_eqb_eq any_feature any_feature) eq_refl) in H. discriminate.
Qed.
Lemma no_any_unambiguous (pats : list (list bytes)) : (forall p, In p pats -> ~ In any_feature p) -> unambiguous pats.
Proof. intros H common v w r1 r2 H1 _ ->. exfalso. apply (H _ H1). apply in_or_app. right. left. reflexivity. Qed.
Lemma literal_covers p fs : ~ In any_feature p -> covers p fs <-> p = firstn (length p) fs.
Proof.
  intros Hn. split.
  - induction 1 as [|p ps v vs S H IH]; [reflexivity|]. cbn [length firstn]. f_equal.
    + destruct S as [->|S]; [exfalso; apply Hn; left; reflexivity|assumption].
    + apply IH. intros Hin. apply Hn. right. assumption.
  - revert fs. induction p as [|x p IH]; intros fs E; [constructor|]. destruct fs as [|y fs]; cbn [length firstn] in E; [discriminate|].
    injection E as -> E. constructor; [right; reflexivity|]. apply IH; [|assumption]. intros Hin. apply Hn. right. assumption.
Qed.

Definition four : forallb (fun p => length p =? 4)%nat lucene_tags = true := eq_refl.
Lemma tags_no_any p : In p lucene_tags -> ~ In any_feature p.
Proof. apply no_any. by_eval. Qed.
Lemma base_no_any p : In p (map (fun b => [b]) lucene_base) -> ~ In any_feature p.
Proof. apply no_any. by_eval. Qed.
Lemma tags_covered fs : covered lucene_tags fs <-> In (firstn 4 fs) lucene_tags.
Proof.
  assert (L : forall p, In p lucene_tags -> length p = 4%nat).
  { intros p Hp. pose proof four as F. rewrite forallb_forall in F. apply PeanoNat.Nat.eqb_eq, F, Hp. }
  split.
  - intros (p & Hp & _ & C). apply (literal_covers fs (tags_no_any Hp)) in C. rewrite (L p Hp) in C. rewrite <- C. assumption.
  - intros Hin. exists (firstn 4 fs). split; [assumption|]. pose proof (L _ Hin) as E. split.
    + intros K. rewrite K in E. discriminate.
    + apply literal_covers; [apply tags_no_any; assumption|]. rewrite E. reflexivity.
Qed.
Lemma base_covered fs : covered (map (fun b => [b]) lucene_base) fs <-> exists h rest, fs = h :: rest /\ In h lucene_base.
Proof.
  split.
  - intros (p & Hp & _ & C). pose proof (base_no_any Hp) as Hn. apply in_map_iff in Hp. destruct Hp as (b & <- & Hb).
    apply (literal_covers fs Hn) in C. destruct fs as [|h rest]; [discriminate|]. cbn [length firstn] in C. injection C as ->.
    exists h, rest. auto.
  - intros (h & rest & -> & Hh). exists [h]. split; [apply in_map_iff; exists h; auto|]. split; [discriminate|].
    constructor; [right; reflexivity|constructor].
Qed.

Lemma yields_lucene p s b ys : yields lucene_tags lucene_words (map (fun b => [b]) lucene_base) p s b ys -> lucene_yields p s b ys.
Proof.
  assert (S : ~ covered lucene_tags p -> ~ In s lucene_words -> ~ lucene_stops p s).
  { intros H1 H2 [H|H]; [apply H1, tags_covered|apply H2]; assumption. }
  destruct 1 as [H|H|w H1 H2 H3 ->|H1 H2 H3 ->|H1 H2 H3].
  - constructor 1. left. apply tags_covered. assumption.
  - constructor 1. right. assumption.
  - apply base_covered in H3. destruct H3 as (h & rest & -> & Hh). econstructor 2; eauto.
  - apply base_covered in H3. destruct H3 as (h & rest & -> & Hh). econstructor 3; eauto.
  - constructor 4; [auto|]. intros h rest -> Hh. apply H3, base_covered. eauto.
Qed.

Theorem lucene_default : exists f, new_ja_filter stop_tags_asset stop_words_asset [] = Ok (inl f) /\
  forall d u ts, wf_dict d -> wf_udict u -> wf_data d -> (forall t, In t ts -> from_analyze d u t) ->
  (exists yss, ja_yield f ts = Ok (concat yss) /\
    Forall2 (fun t ys => exists p b, token_pos t = Ok p /\ base_of t b /\ lucene_yields (strings_list p) (t_surface t) b ys) ts yss) /\
  (exists out, ja_drop f (Some ts) = Ok (Some out) /\
    picked (fun t => exists p, token_pos t = Ok p /\ ~ lucene_stops (strings_list p) (t_surface t)) ts out).
Proof.
  destruct (lucene_options []) as (tags & words & base & E & H1 & H2 & H3).
  destruct H1 as [(a & o & b & C & _)|[_ ->]]; [destruct a; discriminate|].
  destruct H2 as [(a & o & b & C & _)|[_ ->]]; [destruct a; discriminate|].
  destruct H3 as [(a & o & b & C & _)|[_ ->]]; [destruct a; discriminate|].
  eexists. split; [exact E|]. intros d u ts Hd Hu Hw Hts.
  assert (Ut : unambiguous lucene_tags) by (apply no_any_unambiguous; intros p; apply tags_no_any).
  assert (Ub : unambiguous (map (fun b => [b]) lucene_base)) by (apply no_any_unambiguous; intros p; apply base_no_any).
  assert (Hok : forall t, In t ts -> exists p b, token_pos t = Ok p /\ base_of t b).
  { intros t Hin. destruct (c50_no_panic_lemma Hd Hu Hw (Hts t Hin)) as (_ & _ & (p & Hp) & _ & Hk & _).
    destruct (Hk key_base) as ([w ok] & Hb). exists p, (if ok then Some w else None). split; [assumption|]. exists w, ok. auto. }
  split.
  - destruct (c31_yield_lemma lucene_words Ut Ub Hok) as (yss & Ey & Hy). exists yss. split; [assumption|].
    clear Ey. induction Hy as [|t ys ts yss (p & b & Hp & Hb & Y) Hy IH]; [constructor|].
    constructor; [|apply IH; intros; [apply Hts|apply Hok]; right; assumption]. exists p, b. split; [assumption|]. split; [assumption|].
    apply yields_lucene. assumption.
  - destruct (c31_drop_lemma lucene_words (map (fun b => [b]) lucene_base) Ut (ts := ts)) as (out & Eo & Ho).
    { intros t Hin. destruct (Hok t Hin) as (p & b & Hp & _). eauto. }
    exists out. split; [assumption|]. revert Hok Ho. clear. intros Hok Ho. induction Ho as [|t ts out (Hp & Hq) H IH|t ts out Hp H IH].
    + constructor.
    + constructor; [|apply IH; intros; apply Hok; right; assumption]. destruct (Hok t) as (p & b & Ep & _); [left; reflexivity|].
      exists p. split; [assumption|]. intros [S|S]; [|contradiction]. apply Hp. apply tags_covered in S. exists p. auto.
    + constructor; [|apply IH; intros; apply Hok; right; assumption]. intros (p & Ep & S). apply Hp. split.
      * intros (q & Eq & C). rewrite Ep in Eq. injection Eq as <-. apply S. left. apply tags_covered. assumption.
      * intros C. apply S. right. assumption.
Qed.
