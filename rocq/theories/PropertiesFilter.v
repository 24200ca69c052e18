(** Property theorems: token filters (filter/*.go, filter/ja/filter.go). *)
From Verif Require Import Example SpecFilter FilterFacts FilterMore FilterText.
From Coq Require Import Permutation.
Open Scope Z_scope.

(** ** C25 *)
Theorem C25_features_match : forall pats fs, unambiguous pats ->
  (features_match (new_features_filter pats) fs = true <-> covered pats fs).
Proof. exact new_filter_match. Qed.
Print Assumptions C25_features_match.
(** Prefixes, wildcards and an empty pattern. *)
Definition ex_pats : list (list bytes) :=
  [[s2b "a"; s2b "b"; s2b "c"]; [s2b "x"; any_feature; s2b "z"]; []; [s2b "a"; s2b "b"]; [s2b "x"; any_feature; s2b "w"; s2b "w"]].
Example C25_example : unambiguous ex_pats /\
  map (features_match (new_features_filter ex_pats))
    [[s2b "a"; s2b "b"; s2b "d"]; [s2b "a"]; [s2b "x"; s2b "q"; s2b "z"]; [s2b "x"; s2b "z"]; []; [s2b "x"; s2b "r"; s2b "w"; s2b "w"; s2b "v"]] =
  [true; false; true; false; false; true].
Proof.
  split; [apply agree_ok; vm_compute; reflexivity|by_eval].
Qed.

(** ** C26: with ambiguous wildcards the filter is neither sound nor complete. *)
Theorem C26_wildcard_unsound_refuted : exists pats fs, features_match (new_features_filter pats) fs = true /\ ~ covered pats fs.
Proof. exact c26_unsound_lemma. Qed.
Print Assumptions C26_wildcard_unsound_refuted.
Theorem C26_wildcard_incomplete_refuted : exists pats fs, features_match (new_features_filter pats) fs = false /\ covered pats fs.
Proof. exact c26_incomplete_lemma. Qed.
Print Assumptions C26_wildcard_incomplete_refuted.
Theorem C26_wildcard_partial : forall pats fs, unambiguous pats ->
  (features_match (new_features_filter pats) fs = true <-> covered pats fs).
Proof. exact new_filter_match. Qed.
Print Assumptions C26_wildcard_partial.
(** In any pattern list: a pattern matches all it covers unless a literal precedes one of its
    wildcards (so a pattern without wildcards always does), later patterns never take a match
    away, and there is no wrong match when literals precede wildcards. *)
Theorem C26_found_partial : forall before p after fs, p <> [] -> meets_no_literal before p -> covers p fs ->
  features_match (new_features_filter (before ++ p :: after)) fs = true.
Proof. exact complete_after. Qed.
Print Assumptions C26_found_partial.
Theorem C26_more_partial : forall pats more fs, features_match (new_features_filter pats) fs = true ->
  features_match (new_features_filter (pats ++ more)) fs = true.
Proof. exact more_patterns. Qed.
Print Assumptions C26_more_partial.
Theorem C26_right_partial : forall pats fs, literals_first pats ->
  features_match (new_features_filter pats) fs = true -> covered pats fs.
Proof. exact sound_literals_first. Qed.
Print Assumptions C26_right_partial.
(** Ambiguous lists: a literal after Any is found; Any after a literal gives no wrong match (and
    misses one). *)
Example C26_example :
  (~ unambiguous [[any_feature; s2b "b"]; [s2b "a"; s2b "c"]] /\ meets_no_literal [[any_feature; s2b "b"]] [s2b "a"; s2b "c"] /\
   covers [s2b "a"; s2b "c"] [s2b "a"; s2b "c"; s2b "d"]) /\
  (literals_first [[s2b "a"; s2b "b"]; [any_feature; s2b "c"]] /\
   features_match (new_features_filter [[s2b "a"; s2b "b"]; [any_feature; s2b "c"]]) [s2b "x"; s2b "c"] = true /\
   features_match (new_features_filter [[s2b "a"; s2b "b"]; [any_feature; s2b "c"]]) [s2b "a"; s2b "c"] = false).
Proof.
  split; [split; [|split]|split; [|split]].
  - intros H. specialize (H [] any_feature (s2b "a") [s2b "b"] [s2b "c"] (or_introl eq_refl) (or_intror (or_introl eq_refl)) eq_refl). discriminate.
  - intros q k w _ H. destruct k as [|[|[|k]]]; discriminate.
  - repeat constructor; right; reflexivity.
  - intros l1 q1 l2 q2 l3 k w E H1 H2. destruct l1 as [|x l1]; [|destruct l1 as [|y l1]; [|destruct l1; discriminate]].
    + injection E as <- E. destruct k as [|[|[|k]]]; discriminate.
    + injection E as _ <- E. destruct l2; discriminate.
  - by_eval.
  - by_eval.
Qed.

(** ** C27 *)
Theorem C27_order : forall pats pats', unambiguous pats -> (forall p, In p pats <-> In p pats') ->
  forall fs, features_match (new_features_filter pats) fs = features_match (new_features_filter pats') fs.
Proof. exact c27_permutation_lemma. Qed.
Print Assumptions C27_order.
Theorem C27_extensions : forall pats pats', unambiguous pats -> unambiguous pats' ->
  (forall p, In p pats' -> p <> [] -> exists q r, In q pats /\ q <> [] /\ p = q ++ r) ->
  (forall p, In p pats -> p <> [] -> exists q r, In q pats' /\ q <> [] /\ p = q ++ r) ->
  forall fs, features_match (new_features_filter pats) fs = features_match (new_features_filter pats') fs.
Proof. exact c27_lemma. Qed.
Print Assumptions C27_extensions.
(** The tries differ although the filters agree. *)
Example C27_example : unambiguous [[s2b "a"; s2b "b"]; [s2b "c"]; [s2b "a"]] /\
  features_string (new_features_filter [[s2b "a"; s2b "b"]; [s2b "c"]; [s2b "a"]]) = s2b "a" ++ [x0a] ++ s2b "c" ++ [x0a] /\
  features_string (new_features_filter [[s2b "c"]; [s2b "c"]; [s2b "a"]; [s2b "a"; s2b "d"]]) = s2b "c" ++ [x0a] ++ s2b "a" ++ [x0a].
Proof.
  split; [apply agree_ok; vm_compute; reflexivity|split; by_eval].
Qed.

(** ** C28 *)
Theorem C28_run : forall (S : Type) (pred : S -> token -> res (S * bool)) ts s,
  filter_drop (Some ts) pred s = match spec_select pred false s ts with
                                 | Ok (s', out) => Ok (s', Some out) | Panic => Panic | Diverge => Diverge end /\
  filter_keep (Some ts) pred s = match spec_select pred true s ts with
                                 | Ok (s', out) => Ok (s', Some out) | Panic => Panic | Diverge => Diverge end /\
  filter_drop None pred s = Ok (s, None) /\ filter_keep None pred s = Ok (s, None).
Proof.
  exact (fun S pred ts s => conj (apply_filter_ok pred true ts s) (conj (apply_filter_ok pred false ts s) (conj eq_refl eq_refl))).
Qed.
Print Assumptions C28_run.
Theorem C28_drop_keep : forall (p : token -> bool) ts, exists dropped kept,
  filter_drop (Some ts) (fun (_ : unit) t => Ok (tt, p t)) tt = Ok (tt, Some dropped) /\
  filter_keep (Some ts) (fun (_ : unit) t => Ok (tt, p t)) tt = Ok (tt, Some kept) /\
  picked (fun t => p t = false) ts dropped /\ picked (fun t => p t = true) ts kept /\
  Permutation ts (dropped ++ kept).
Proof. exact c28_pure_lemma. Qed.
Print Assumptions C28_drop_keep.

(** ** C29 *)
Theorem C29_word_match : forall words w, word_match (new_word_filter words) w = true <-> In w words.
Proof. exact word_match_in. Qed.
Print Assumptions C29_word_match.
Theorem C29_word_filter : forall words ts, exists dropped kept,
  word_drop (new_word_filter words) (Some ts) = Ok (Some dropped) /\
  word_keep (new_word_filter words) (Some ts) = Ok (Some kept) /\
  picked (fun t => ~ In (t_surface t) words) ts dropped /\ picked (fun t => In (t_surface t) words) ts kept.
Proof. exact c29_word_lemma. Qed.
Print Assumptions C29_word_filter.

(** ** C30 *)
Theorem C30_pos_filter : forall pats ts, unambiguous pats -> (forall t, In t ts -> exists p, token_pos t = Ok p) ->
  exists dropped kept, pos_drop (new_pos_filter pats) (Some ts) = Ok (Some dropped) /\
    pos_keep (new_pos_filter pats) (Some ts) = Ok (Some kept) /\
    picked (fun t => ~ pos_covered pats t) ts dropped /\ picked (pos_covered pats) ts kept.
Proof. exact c30_pos_lemma. Qed.
Print Assumptions C30_pos_filter.

(** ** C31 *)
Theorem C31_yield : forall tags words base ts, unambiguous tags -> unambiguous base ->
  (forall t, In t ts -> exists p b, token_pos t = Ok p /\ base_of t b) ->
  exists yss, ja_yield (ja_of tags words base) ts = Ok (concat yss) /\
    Forall2 (fun t ys => exists p b, token_pos t = Ok p /\ base_of t b /\
               yields tags words base (strings_list p) (t_surface t) b ys) ts yss.
Proof. exact c31_yield_lemma. Qed.
Print Assumptions C31_yield.
Theorem C31_drop : forall tags words base ts, unambiguous tags -> (forall t, In t ts -> exists p, token_pos t = Ok p) ->
  exists out, ja_drop (ja_of tags words base) (Some ts) = Ok (Some out) /\
    picked (fun t => ~ pos_covered tags t /\ ~ In (t_surface t) words) ts out.
Proof. exact c31_drop_lemma. Qed.
Print Assumptions C31_drop.
Theorem C31_concat : forall f a b, ja_yield f (a ++ b) = let* x := ja_yield f a in let* y := ja_yield f b in Ok (x ++ y).
Proof. exact yield_app. Qed.
Print Assumptions C31_concat.
Theorem C31_yield_drop : forall f ts out, ja_drop f (Some ts) = Ok (Some out) -> ja_yield f out = ja_yield f ts.
Proof. exact c31_yield_drop_lemma. Qed.
Print Assumptions C31_yield_drop.
Theorem C31_no_panic : forall d u f ts, wf_dict d -> wf_udict u -> wf_data d -> (forall t, In t ts -> from_analyze d u t) ->
  exists ws out, ja_yield f ts = Ok ws /\ ja_drop f (Some ts) = Ok (Some out) /\ ja_yield f out = Ok ws.
Proof. exact c31_no_panic_lemma. Qed.
Print Assumptions C31_no_panic.

(** One analysis through all the filters: particles dropped by tag, a word dropped by surface, a
    verb replaced by its base form. *)
Example C28_C31_example : exists ts, analyze ex_ideo (Tokenizer ex_dict (Some ex_udict) false) (s2b "東京に行くkagome") mode_normal = Ok ts /\
  (map t_surface ts,
   let* r := filter_drop (Some ts) (fun n t => Ok (S n, class_eqb (t_class t) DUMMY)) 0%nat in
     Ok (fst r, option_map (map t_surface) (snd r)),
   let* r := word_keep (new_word_filter [s2b "に"; s2b "kagome"]) (Some ts) in Ok (option_map (map t_surface) r),
   let* r := pos_drop (new_pos_filter [[s2b "名詞"]; [s2b "動詞"; any_feature]]) (Some ts) in Ok (option_map (map t_surface) r),
   ja_yield (ja_of [[s2b "助詞"]] [s2b "kagome"; s2b "BOS"; s2b "EOS"] [[s2b "動詞"]]) ts) =
  ([s2b "BOS"; s2b "東京"; s2b "に"; s2b "行く"; s2b "kagome"; s2b "EOS"],
   Ok (6%nat, Some [s2b "東京"; s2b "に"; s2b "行く"; s2b "kagome"]),
   Ok (Some [s2b "に"; s2b "kagome"]),
   Ok (Some [s2b "BOS"; s2b "に"; s2b "kagome"; s2b "EOS"]),
   Ok [s2b "東京"; s2b "行く"]).
Proof. apply run_ex. vm_compute. reflexivity. Qed.

(** ** C70 *)
Theorem C70_patterns : forall pats, unambiguous pats -> readable_patterns pats ->
  exists ps, read_outline (features_string (new_features_filter pats)) = Some ps /\ NoDup ps /\ forall p, In p ps <-> shortest pats p.
Proof. exact c70_minimal_lemma. Qed.
Print Assumptions C70_patterns.
Theorem C70_text : forall pats pats', readable_patterns pats -> readable_patterns pats' ->
  features_string (new_features_filter pats) = features_string (new_features_filter pats') ->
  forall fs, features_match (new_features_filter pats) fs = features_match (new_features_filter pats') fs.
Proof. exact c70_text_lemma. Qed.
Print Assumptions C70_text.
(** The patterns of C25_example; and a leading space that makes two filters look alike. *)
Example C70_example : unambiguous ex_pats /\ readable_patterns ex_pats /\
  features_string (new_features_filter ex_pats) =
    s2b "a" ++ [x0a] ++ s2b "  b" ++ [x0a] ++ s2b "x" ++ [x0a] ++ s2b "  " ++ [x00; x0a] ++ s2b "    z" ++ [x0a] ++ s2b "    w" ++ [x0a] ++ s2b "      w" ++ [x0a] /\
  read_outline (features_string (new_features_filter ex_pats)) =
    Some [[s2b "a"; s2b "b"]; [s2b "x"; any_feature; s2b "z"]; [s2b "x"; any_feature; s2b "w"; s2b "w"]] /\
  features_string (new_features_filter [[s2b "a"; s2b "b"]]) = features_string (new_features_filter [[s2b "a"]; [s2b "  b"]]).
Proof.
  split; [apply agree_ok; vm_compute; reflexivity|]. split.
  - intros p v Hp Hv. unfold ex_pats in Hp. cbn [In] in Hp.
    repeat destruct Hp as [<-|Hp]; try contradiction; cbn [In] in Hv; repeat destruct Hv as [<-|Hv]; try contradiction;
      (split; [intros X; repeat destruct X as [X|X]; try discriminate; contradiction|exact I]).
  - split; [by_eval|]. split; by_eval.
Qed.
