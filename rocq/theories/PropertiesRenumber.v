(** C121: which numbers a dictionary gives its entries does not matter. *)
From Verif Require Import Example Check RenumberFacts.
From Verif Require Import SpecRenumber.
From Coq Require Import Lia.
Open Scope Z_scope.

(** Other numbers for entries, connections and categories, the dictionary being otherwise the same: the same tokens, with the new numbers. *)
Theorem C121_numbers : forall r d d' u u' ideo omit inp mode, wf_dict d -> wf_udict u -> renumbered r d d' u u' ->
  exists ts, analyze ideo (Tokenizer d u omit) inp mode = Ok ts /\ analyze ideo (Tokenizer d' u' omit) inp mode = Ok (map (renumber r d' u') ts).
Proof. exact (fun r d d' u u' ideo omit inp mode Hd Hu H => @renumber_same r d d' u u' Hd Hu H ideo omit inp mode). Qed.
Print Assumptions C121_numbers.
(** If what the entries tell has moved with them, the tokens tell the same. *)
Theorem C121_told : forall r d d' u u' ideo omit inp mode ts t, wf_dict d -> wf_udict u -> renumbered r d d' u u' -> same_contents r d d' u u' ->
  analyze ideo (Tokenizer d u omit) inp mode = Ok ts -> In t ts ->
  features (renumber r d' u' t) = features t /\ token_pos (renumber r d' u' t) = token_pos t /\ user_extra (renumber r d' u' t) = user_extra t.
Proof. exact (fun r d d' u u' ideo omit inp mode ts t Hd Hu H C => @told_same r d d' u u' Hd Hu H C ideo omit inp mode ts t). Qed.
Print Assumptions C121_told.
(** The order in which a user dictionary lists its words, each of them once, does not matter. *)
Theorem C121_order : forall d f ud ud' ideo omit inp mode, wf_dict d -> wf_udict (Some ud) -> reordered f ud ud' ->
  exists ts, analyze ideo (Tokenizer d (Some ud) omit) inp mode = Ok ts /\ analyze ideo (Tokenizer d (Some ud') omit) inp mode = Ok (map (renumber (user_order f) d (Some ud')) ts) /\
    forall t, In t ts -> features (renumber (user_order f) d (Some ud') t) = features t.
Proof. exact order_same. Qed.
Print Assumptions C121_order.

(** The example dictionary with other numbers throughout, unused rows and columns in its matrix, and its categories, parts of speech and
    user words in the opposite order. *)
Definition ex_known (id : Z) : Z := if id <? 7 then id + 2 else id - 7.
Definition ex_unknown (id : Z) : Z := if id =? 0 then 4 else if id =? 1 then 3 else if id =? 4 then 0 else id - 1.
Definition ex_side (x : Z) : Z := 2 * x.
Definition ex_numbers : renumbering := Renumbering ex_known ex_unknown (fun id => 1 - id) ex_side ex_side (fun c => (3 - c)%nat).
Definition ex_other : dict :=
  Dict (map (fun e => (fst e, ex_known (snd e))) ex_index)
       [Morph 2 2 120; Morph 0 2 130; Morph 0 0 600; Morph 0 0 600; Morph 0 0 300; Morph 2 2 200; Morph 2 2 250; Morph 0 0 (-1000); Morph 2 0 50]
       3 [10; 7; 20; 7; 7; 7; (-30); 7; 40]
       (fun x => (3 - ex_category x)%nat) [true; false; false; false] [true; false; true; true]
       [(0, 0); (1, 1); (2, 3); (3, 4)] [(1, 1)]
       [Morph 2 0 700; Morph 2 2 1000; Morph 0 2 1100; Morph 0 0 800; Morph 0 0 900]
       [[0; 3]; [0; 3]; [4; 3]; [4; 3]; [4; 3]; [4; 2]; [4; 2]; [4; 2]; [1]]
       [s2b "動詞"; s2b "助詞"; s2b "固有名詞"; s2b "一般"; s2b "名詞"]
       (Some [[s2b "行く"; s2b "イク"]; [s2b "行く"; s2b "ユク"]; [s2b "東"; s2b "ヒガシ"]; [s2b "京"; s2b "キョウ"]; [s2b "都"; s2b "ト"]; [s2b "東京"; s2b "トウキョウ"];
              [s2b "京都"; s2b "キョウト"]; [s2b "東京都"; s2b "トウキョウト"]; [s2b "に"]])
       [(key_base, 2); (key_reading, 3); (key_pos_start, 0); (key_pos_hierarchy, 2)]
       [[s2b "名詞"; s2b "一般"]; [s2b "名詞"; s2b "一般"]; [s2b "名詞"; s2b "固有名詞"]; [s2b "名詞"; s2b "一般"]; [s2b "記号"; s2b "*"]]
       [(key_pos_start, 0); (key_pos_hierarchy, 2)].
Definition ex_uother : udict :=
  UDict [(s2b "kagome", 0); (s2b "京都", 1)]
        [UserContent [s2b "ka"; s2b "gome"] [s2b "カ"; s2b "ゴメ"] (s2b "カスタム名詞"); UserContent [s2b "京都"] [s2b "キョウト"] (s2b "カスタム名詞")].

Lemma ex_known_ids id : known_id ex_dict id -> In id [0; 1; 2; 3; 4; 5; 6; 7; 8].
Proof. intros (key & I). apply (in_map snd) in I. exact I. Qed.
Lemma ex_unknown_ids id : unknown_id ex_dict id -> In id [0; 1; 2; 3; 4].
Proof.
  intros (ch & k & K & ->). unfold first_unknown, more_unknown in *. cbn [ex_dict d_category d_unk_index d_unk_dup] in *.
  destruct (ex_category_4 ch) as [E|[E|[E|E]]]; rewrite E in *;
    (match type of K with 0 <= _ <= ?x => let y := eval vm_compute in x in change x with y in K end);
    assert (k = 0 \/ k = 1) as [-> | ->] by lia; try lia; vm_compute; tauto.
Qed.
Lemma ex_user_ids id : user_id ex_udict id -> In id [0; 1].
Proof. intros (key & I). apply (in_map snd) in I. exact I. Qed.
Lemma ex_in_use m : in_use ex_dict m -> In (m_left m) [0; 1] /\ In (m_right m) [0; 1].
Proof.
  assert (F : forallb (fun m => ((m_left m =? 0) || (m_left m =? 1)) && ((m_right m =? 0) || (m_right m =? 1))) (zero_morph :: d_morphs ex_dict ++ d_unk_morphs ex_dict) = true) by by_eval.
  rewrite forallb_forall in F. intros U. specialize (F m). cbn [In] in *. rewrite in_app_iff in F. destruct U as [->|U]; [cbn; auto|]. specialize (F (or_intror U)). lia.
Qed.
Ltac each := repeat match goal with X : In _ _ |- _ => destruct X as [<-|X] end; try contradiction.
Lemma ex_renumbered : renumbered ex_numbers ex_dict ex_other (Some ex_udict) (Some ex_uother).
Proof.
  constructor.
  - intros key. apply ids_relabel.
  - intros id K. apply ex_known_ids in K. each; (split; [cbn; lia|reflexivity]).
  - split; [|intros id K; apply ex_user_ids in K; each; cbn; lia].
    intros key. rewrite <- ids_relabel. unfold ids_of, ex_uother, ex_udict. cbn [u_index map fst snd filter rn_user ex_numbers].
    destruct (bytes_eqb (s2b "kagome") key) eqn:E1, (bytes_eqb (s2b "京都") key) eqn:E2; try reflexivity.
    apply Utf8Facts.bytes_eqb_eq in E1. subst key. vm_compute in E2. discriminate.
  - reflexivity.
  - intros ch ch'. cbn [ex_dict d_category ex_numbers rn_category]. destruct (ex_category_4 ch) as [E|[E|[E|E]]], (ex_category_4 ch') as [E'|[E'|[E'|E']]]; rewrite E, E'; cbn; lia.
  - intros ch. cbv zeta. cbn [ex_dict d_category ex_numbers rn_category]. destruct (ex_category_4 ch) as [->|[->|[->| ->]]]; split; reflexivity.
  - intros ch. cbv zeta. cbn [ex_dict d_category ex_numbers rn_category rn_unknown]. unfold more_unknown, first_unknown.
    destruct (ex_category_4 ch) as [->|[->|[->| ->]]]; (split; [reflexivity|]); cbn; intros k K; unfold ex_unknown.
    + replace k with 0 by lia. reflexivity.
    + replace k with 0 by lia. reflexivity.
    + assert (k = 0 \/ k = 1) as [-> | ->] by lia; reflexivity.
    + replace k with 0 by lia. reflexivity.
  - intros id K. apply ex_unknown_ids in K. each; (split; [cbn; lia|reflexivity]).
  - split; reflexivity.
  - intros m m' U U'. apply ex_in_use in U, U'. destruct U as (_ & U), U' as (U' & _). each; rewrite <- ?H, <- ?H0; reflexivity.
Qed.
Lemma ex_contents : same_contents ex_numbers ex_dict ex_other (Some ex_udict) (Some ex_uother).
Proof.
  constructor; try reflexivity.
  - intros id K. apply ex_known_ids in K. each; reflexivity.
  - cbn [ex_dict ex_other d_contents]. intros id K. apply ex_known_ids in K. each; reflexivity.
  - intros id K. apply ex_unknown_ids in K. each; reflexivity.
  - intros id K. apply ex_user_ids in K. each; reflexivity.
Qed.
Lemma ex_reordered : reordered (fun id => 1 - id) ex_udict ex_uother.
Proof.
  constructor.
  - exact (perm_swap _ _ []).
  - constructor; [|constructor; [|constructor]]; cbn [In map fst u_index ex_udict]; [|tauto]. intros [E|[]]. vm_compute in E. discriminate.
  - intros id K. apply ex_user_ids in K. each; (split; [cbn; lia|reflexivity]).
Qed.
Definition numbers (r : res (list token)) : res (list (bytes * Z)) := let* ts := r in Ok (map (fun t => (t_surface t, t_id t)) ts).
Definition told (r : res (list token)) : res (list (res strings)) := let* ts := r in Ok (map features ts).
(** Known, unknown and user words: the numbers differ, the words and what they tell do not. *)
Example C121_example : wf_dict ex_dict /\ wf_udict (Some ex_udict) /\ renumbered ex_numbers ex_dict ex_other (Some ex_udict) (Some ex_uother) /\
  same_contents ex_numbers ex_dict ex_other (Some ex_udict) (Some ex_uother) /\ reordered (fun id => 1 - id) ex_udict ex_uother /\
  numbers (analyze ex_ideo (Tokenizer ex_dict (Some ex_udict) true) (s2b "東京に行く川x京都") mode_search) =
  Ok [(s2b "東京", 3); (s2b "に", 6); (s2b "行く", 7); (s2b "川", 2); (s2b "x", 4); (s2b "京都", 0)] /\
  numbers (analyze ex_ideo (Tokenizer ex_other (Some ex_uother) true) (s2b "東京に行く川x京都") mode_search) =
  Ok [(s2b "東京", 5); (s2b "に", 8); (s2b "行く", 0); (s2b "川", 1); (s2b "x", 0); (s2b "京都", 1)] /\
  told (analyze ex_ideo (Tokenizer ex_other (Some ex_uother) true) (s2b "東京に行く川x京都") mode_search) =
  told (analyze ex_ideo (Tokenizer ex_dict (Some ex_udict) true) (s2b "東京に行く川x京都") mode_search).
Proof.
  split; [exact wf_ex|]. split; [exact wf_ex_udict|]. split; [exact ex_renumbered|]. split; [exact ex_contents|]. split; [exact ex_reordered|].
  split; [by_eval|]. split; by_eval.
Qed.
