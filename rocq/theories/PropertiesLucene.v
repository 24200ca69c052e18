(** Property theorems: the default japanese filter with the files it embeds
    (filter/ja/filter.go, filter/ja/loader.go, filter/ja/asset). *)
From Verif Require Import SpecLucene Assets SpecSent LoaderFacts FilterFacts LuceneFacts Example Check.
From Coq Require Import Lia ZifyBool ZifyNat.

(** ** C64 *)
Theorem C64_default : exists f, new_ja_filter stop_tags_asset stop_words_asset [] = Ok (inl f) /\
  forall d u ts, wf_dict d -> wf_udict u -> wf_data d -> (forall t, In t ts -> from_analyze d u t) ->
  (exists yss, ja_yield f ts = Ok (concat yss) /\
    Forall2 (fun t ys => exists p b, token_pos t = Ok p /\ base_of t b /\ lucene_yields (strings_list p) (t_surface t) b ys) ts yss) /\
  (exists out, ja_drop f (Some ts) = Ok (Some out) /\
    picked (fun t => exists p, token_pos t = Ok p /\ ~ lucene_stops (strings_list p) (t_surface t)) ts out).
Proof. exact lucene_default. Qed.
Print Assumptions C64_default.
Theorem C64_options : forall opts, exists tags words base,
  new_ja_filter stop_tags_asset stop_words_asset opts = Ok (inl (ja_of tags words base)) /\
  latest opt_tags opts lucene_tags tags /\ latest opt_words opts lucene_words words /\
  latest opt_base opts (map (fun b => [b]) lucene_base) base.
Proof. exact lucene_options. Qed.
Print Assumptions C64_options.

(** A dictionary with four POS levels, as in the IPA dictionary; katakana stands in
    for the base form. *)
Definition ex_dict4 : dict :=
  Dict ex_index (d_morphs ex_dict) 2 (d_conn_vec ex_dict) ex_category (d_invoke ex_dict)
       (d_group ex_dict) (d_unk_index ex_dict) (d_unk_dup ex_dict) (d_unk_morphs ex_dict)
       [[0; 1; 5; 5]; [0; 1; 5; 5]; [0; 1; 5; 5]; [0; 2; 5; 5]; [0; 2; 5; 5]; [0; 2; 5; 5]; [3; 6; 1; 5]; [4; 1; 5; 5]; [4; 1; 5; 5]]%Z
       [s2b "名詞"; s2b "一般"; s2b "固有名詞"; s2b "助詞"; s2b "動詞"; s2b "*"; s2b "格助詞"]
       (d_contents ex_dict)
       [(key_base, 5); (key_reading, 4); (key_pos_start, 0); (key_pos_hierarchy, 4)]%Z
       [[s2b "記号"; s2b "一般"; s2b "*"; s2b "*"]; [s2b "名詞"; s2b "一般"; s2b "*"; s2b "*"]; [s2b "名詞"; s2b "一般"; s2b "*"; s2b "*"];
        [s2b "名詞"; s2b "固有名詞"; s2b "*"; s2b "*"]; [s2b "名詞"; s2b "一般"; s2b "*"; s2b "*"]]
       [(key_pos_start, 0); (key_pos_hierarchy, 4)]%Z.
Lemma wf_ex4 : wf_dict ex_dict4.
Proof. destruct wf_ex. constructor; assumption. Qed.
Lemma wf_ex4_data : wf_data ex_dict4.
Proof.
  constructor.
  - vm_compute. repeat constructor.
  - assert (H : forallb (forallb (fun id => (0 <=? id)%Z && (id <? 7)%Z)) (d_pos_ids ex_dict4) = true) by (vm_compute; reflexivity).
    rewrite forallb_forall in H. intros ids id H1 H2. specialize (H _ H1). rewrite forallb_forall in H. specialize (H _ H2).
    change (length (d_pos_names ex_dict4)) with 7%nat. lia.
  - vm_compute. repeat constructor.
  - vm_compute. repeat constructor.
  - intros v H. vm_compute in H. injection H as <-. discriminate.
Qed.

(** The particle (by tag), the ideographic full stop (an unknown word, by tag) and を (by word)
    are stopped; the user entry with its one POS level and the nouns stay; the verb is replaced. *)
Example C64_example : exists ts, analyze ex_ideo (Tokenizer ex_dict4 (Some ex_udict) true) (s2b "東京に行くkagomeを。") mode_normal = Ok ts /\
  (map t_surface ts,
   let* x := new_ja_filter stop_tags_asset stop_words_asset [] in
   match x with inl f => ja_yield f ts | inr _ => Panic end,
   let* x := new_ja_filter stop_tags_asset stop_words_asset [StopTagsFilterOption []] in
   match x with inl f => ja_yield f ts | inr _ => Panic end,
   let* x := new_ja_filter stop_tags_asset stop_words_asset [BaseFormFilterOption []; StopWordsFilterOption []] in
   match x with inl f => ja_yield f ts | inr _ => Panic end) =
  ([s2b "東京"; s2b "に"; s2b "行く"; s2b "kagome"; s2b "を"; s2b "。"],
   Ok [s2b "東京"; s2b "イク"; s2b "kagome"],
   Ok [s2b "東京"; s2b "イク"; s2b "kagome"; s2b "。"],
   Ok [s2b "東京"; s2b "行く"; s2b "kagome"; s2b "を"]) /\
  wf_dict ex_dict4 /\ wf_udict (Some ex_udict) /\ wf_data ex_dict4 /\ Forall (from_analyze ex_dict4 (Some ex_udict)) ts.
Proof.
  destruct (@run_ex _ _ _ (analyze ex_ideo (Tokenizer ex_dict4 (Some ex_udict) true) (s2b "東京に行くkagomeを。") mode_normal)
  (fun ts => (map t_surface ts,
   let* x := new_ja_filter stop_tags_asset stop_words_asset [] in
   match x with inl f => ja_yield f ts | inr _ => Panic end,
   let* x := new_ja_filter stop_tags_asset stop_words_asset [StopTagsFilterOption []] in
   match x with inl f => ja_yield f ts | inr _ => Panic end,
   let* x := new_ja_filter stop_tags_asset stop_words_asset [BaseFormFilterOption []; StopWordsFilterOption []] in
   match x with inl f => ja_yield f ts | inr _ => Panic end))
  ([s2b "東京"; s2b "に"; s2b "行く"; s2b "kagome"; s2b "を"; s2b "。"],
   Ok [s2b "東京"; s2b "イク"; s2b "kagome"],
   Ok [s2b "東京"; s2b "イク"; s2b "kagome"; s2b "。"],
   Ok [s2b "東京"; s2b "行く"; s2b "kagome"; s2b "を"])) as (ts & E & H); [vm_compute; reflexivity|].
  exists ts. split; [assumption|]. split; [assumption|]. split; [exact wf_ex4|]. split; [exact wf_ex_udict|]. split; [exact wf_ex4_data|].
  apply Forall_forall. intros t Hin. exists ex_ideo, true, (s2b "東京に行くkagomeを。"), mode_normal, ts. auto.
Qed.
