(** A small dictionary for the examples beside the theorems (not part of the model). *)
From Verif Require Export SpecFeat Check.
Open Scope Z_scope.

(** Categories: 0 DEFAULT, 1 HIRAGANA, 2 KANJI, 3 ALPHA. *)
Definition ex_category (r : N) : nat :=
  if ((12352 <=? r) && (r <=? 12447))%N then 1%nat
  else if ((19968 <=? r) && (r <=? 40959))%N then 2%nat
  else if ((97 <=? r) && (r <=? 122))%N then 3%nat
  else 0%nat.

Definition ex_ideo (r : N) : bool := ((19968 <=? r) && (r <=? 40959))%N.

Definition ex_index : index_table :=
  [(s2b "東", 0); (s2b "京", 1); (s2b "都", 2); (s2b "東京", 3); (s2b "京都", 4); (s2b "東京都", 5);
   (s2b "に", 6); (s2b "行く", 7); (s2b "行く", 8)].

Definition ex_dict : dict :=
  Dict ex_index
       [Morph 0 0 600; Morph 0 0 600; Morph 0 0 300; Morph 1 1 200; Morph 1 1 250; Morph 0 0 (-1000); Morph 1 0 50;
        Morph 1 1 120; Morph 0 1 130]
       2 [10; 20; (-30); 40]
       ex_category [false; false; false; true] [true; true; false; true]
       [(0, 0); (1, 1); (2, 2); (3, 4)] [(2, 1)]
       [Morph 0 0 900; Morph 0 0 800; Morph 1 1 1000; Morph 0 1 1100; Morph 1 0 700]
       [[0; 1]; [0; 1]; [0; 1]; [0; 2]; [0; 2]; [0; 2]; [3]; [4; 1]; [4; 1]]
       [s2b "名詞"; s2b "一般"; s2b "固有名詞"; s2b "助詞"; s2b "動詞"]
       (Some [[s2b "東"; s2b "ヒガシ"]; [s2b "京"; s2b "キョウ"]; [s2b "都"; s2b "ト"]; [s2b "東京"; s2b "トウキョウ"];
              [s2b "京都"; s2b "キョウト"]; [s2b "東京都"; s2b "トウキョウト"]; [s2b "に"]; [s2b "行く"; s2b "イク"]; [s2b "行く"; s2b "ユク"]])
       [(key_base, 2); (key_reading, 3); (key_pos_start, 0); (key_pos_hierarchy, 2)]
       [[s2b "記号"; s2b "*"]; [s2b "名詞"; s2b "一般"]; [s2b "名詞"; s2b "一般"]; [s2b "名詞"; s2b "固有名詞"]; [s2b "名詞"; s2b "一般"]]
       [(key_pos_start, 0); (key_pos_hierarchy, 2)].

Definition ex_udict : udict :=
  UDict [(s2b "京都", 0); (s2b "kagome", 1)]
        [UserContent [s2b "京都"] [s2b "キョウト"] (s2b "カスタム名詞"); UserContent [s2b "ka"; s2b "gome"] [s2b "カ"; s2b "ゴメ"] (s2b "カスタム名詞")].

(** The same dictionary with an ungrouped DEFAULT category. *)
Definition ex_dict_ungrouped : dict :=
  Dict ex_index (d_morphs ex_dict) 2 (d_conn_vec ex_dict) ex_category (d_invoke ex_dict)
       [false; true; false; true] (d_unk_index ex_dict) (d_unk_dup ex_dict) (d_unk_morphs ex_dict)
       (d_pos_ids ex_dict) (d_pos_names ex_dict) (d_contents ex_dict) (d_meta ex_dict) (d_unk_contents ex_dict) (d_unk_meta ex_dict).

Lemma ex_category_4 r : ex_category r = 0%nat \/ ex_category r = 1%nat \/ ex_category r = 2%nat \/ ex_category r = 3%nat.
Proof. unfold ex_category. destruct (_ && _)%bool; [auto|]. destruct (_ && _)%bool; [auto|]. destruct (_ && _)%bool; auto. Qed.

(** Deciding that an index is well formed. *)
Definition check_index (idx : index_table) (size : nat) : bool :=
  forallb (fun e => negb (length (fst e) =? 0)%nat && valid_utf8 (fst e) && (0 <=? snd e) && (snd e <? Z.of_nat size)) idx.

Lemma check_index_ok idx size : check_index idx size = true -> wf_index idx size.
Proof.
  unfold check_index. rewrite forallb_forall. intros H key id Hin. specialize (H _ Hin). cbn [fst snd] in H.
  rewrite !andb_true_iff in H. destruct H as [[[H1 H2] H3] H4]. split; [|split; [assumption|lia]].
  intros ->. discriminate.
Qed.

Lemma wf_ex_gen group : length group = 4%nat -> wf_dict (Dict ex_index (d_morphs ex_dict) 2 (d_conn_vec ex_dict) ex_category (d_invoke ex_dict)
       group (d_unk_index ex_dict) (d_unk_dup ex_dict) (d_unk_morphs ex_dict)
       (d_pos_ids ex_dict) (d_pos_names ex_dict) (d_contents ex_dict) (d_meta ex_dict) (d_unk_contents ex_dict) (d_unk_meta ex_dict)).
Proof.
  intros Hg. constructor.
  - apply check_index_ok. vm_compute. reflexivity.
  - exists 2. repeat split; cbn in *; try lia;
      repeat match goal with H : _ \/ _ |- _ => destruct H as [H|H] end; subst; try contradiction; cbn; unfold int16; lia.
  - cbn. intros c H. repeat destruct H as [<-|H]; try contradiction; unfold int16; lia.
  - intros r. cbn [d_category d_invoke d_group ex_dict length]. rewrite Hg. destruct (ex_category_4 r) as [->|[->|[->| ->]]]; lia.
  - intros r. cbv zeta. cbn [d_category d_unk_index d_unk_dup d_unk_morphs ex_dict length].
    destruct (ex_category_4 r) as [->|[->|[->| ->]]]; cbn; lia.
Qed.

Lemma wf_ex : wf_dict ex_dict.
Proof. apply (wf_ex_gen [true; true; false; true]). reflexivity. Qed.

Lemma wf_ex_ungrouped : wf_dict ex_dict_ungrouped.
Proof. apply (wf_ex_gen [false; true; false; true]). reflexivity. Qed.

Lemma wf_ex_udict : wf_udict (Some ex_udict).
Proof. apply check_index_ok. vm_compute. reflexivity. Qed.

(** Short view of a result. *)
Definition view (r : res (list token)) : res (list (nat * bytes * node_class * Z * nat * nat * nat)) :=
  let* ts := r in
  Ok (map (fun t => (t_index t, t_surface t, t_class t, t_id t, t_position t, t_start t, t_end t)) ts).

Lemma wf_ex_data : wf_data ex_dict.
Proof.
  constructor.
  - vm_compute. repeat constructor.
  - assert (H : forallb (forallb (fun id => (0 <=? id) && (id <? 5))) (d_pos_ids ex_dict) = true) by (vm_compute; reflexivity).
    rewrite forallb_forall in H. intros ids id H1 H2. specialize (H _ H1). rewrite forallb_forall in H. specialize (H _ H2).
    change (length (d_pos_names ex_dict)) with 5%nat. lia.
  - vm_compute. repeat constructor.
  - vm_compute. repeat constructor.
  - intros v H. vm_compute in H. injection H as <-. discriminate.
Qed.
