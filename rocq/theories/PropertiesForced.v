(** C114: texts made of words of the user dictionary. *)
From Verif Require Import Utf8Facts Example Check ForcedFacts.
From Verif Require Import SpecForced.
From Coq Require Import Lia.
Open Scope Z_scope.

(** A text that reads as user words one after another, each the only one where it begins, is cut into these words in every mode, whatever the system dictionary says. *)
Theorem C114_text : forall d ud ideo omit s mode ws, wf_dict d -> wf_udict (Some ud) -> no_loss d (Some ud) s mode -> spelled ud s 0 ws (rcount s) ->
  exists ts, analyze ideo (Tokenizer d (Some ud) omit) s mode = Ok ts /\ words_of ts = ws /\ map t_surface (no_markers ts) = map (word_text s) ws.
Proof. exact spelled_text. Qed.
Print Assumptions C114_text.
(** So is a stretch of user words in a longer text if some token begins where it begins. *)
Theorem C114_inside : forall d ud ideo omit s mode ts a tk b ws j, wf_dict d -> wf_udict (Some ud) ->
  analyze ideo (Tokenizer d (Some ud) omit) s mode = Ok ts -> no_markers ts = a ++ tk :: b -> t_class tk <> DUMMY -> spelled ud s (t_start tk) ws j ->
  exists rest, map word_of (tk :: b) = ws ++ rest.
Proof. exact spelled_inside. Qed.
Print Assumptions C114_inside.

(** The keywords at rune i, by trial. *)
Definition keywords_from (ud : udict) (s : bytes) (i : nat) : list (Z * nat) :=
  flat_map (fun j => map (fun e => (snd e, j)) (filter (fun e => bytes_eqb (fst e) (text s i j)) (u_index ud))) (seq (S i) (rcount s - i)).
Lemma keywords_from_all ud s i id j : keyword_at (u_index ud) s id i j <-> In (id, j) (keywords_from ud s i).
Proof.
  unfold keywords_from. rewrite in_flat_map. split.
  - intros (R & H). exists j. split; [apply in_seq; lia|]. apply in_map_iff. exists (text s i j, id). split; [reflexivity|].
    apply filter_In. split; [exact H|]. apply bytes_eqb_eq. reflexivity.
  - intros (j' & Hj & H). apply in_seq in Hj. apply in_map_iff in H. destruct H as ((k & id') & E & H). injection E as -> ->. apply filter_In in H.
    destruct H as (H & E). apply bytes_eqb_eq in E. cbn [fst] in E. subst k. split; [lia|exact H].
Qed.
Lemma sole_by ud s id i j : keywords_from ud s i = [(id, j)] -> sole ud s id i j.
Proof.
  intros E. split; [apply keywords_from_all; rewrite E; left; reflexivity|]. intros id' j' H. apply keywords_from_all in H. rewrite E in H.
  destruct H as [H|[]]. injection H as -> ->. auto.
Qed.

(** Two words of the user dictionary, in the three modes. *)
Example C114_example : no_loss ex_dict (Some ex_udict) (s2b "kagome京都") mode_normal /\
  spelled ex_udict (s2b "kagome京都") 0 [Word USER 1 0 6; Word USER 0 6 8] (rcount (s2b "kagome京都")) /\
  (exists ts, analyze ex_ideo (Tokenizer ex_dict (Some ex_udict) true) (s2b "kagome京都") mode_extended = Ok ts /\ map t_surface ts = [s2b "kagome"; s2b "京都"]) /\
  (exists ts, analyze ex_ideo (Tokenizer ex_dict None true) (s2b "kagome京都") mode_extended = Ok ts /\ map t_surface ts = [s2b "k"; s2b "a"; s2b "g"; s2b "o"; s2b "m"; s2b "e"; s2b "京都"]).
Proof.
  split; [left; apply Z.leb_le; vm_compute; reflexivity|]. split.
  - constructor 2; [apply sole_by; by_eval|]. constructor 2; [apply sole_by; by_eval|]. replace (rcount _) with 8%nat by by_eval. constructor.
  - split; apply run_ex; vm_compute; reflexivity.
Qed.
(** A stretch of user words after a word of the system dictionary. *)
Example C114_inside_example : exists ts, analyze ex_ideo (Tokenizer ex_dict (Some ex_udict) true) (s2b "に京都kagomeに") mode_search = Ok ts /\
  map (fun t => (t_surface t, t_class t, t_start t)) ts = [(s2b "に", KNOWN, 0); (s2b "京都", USER, 1); (s2b "kagome", USER, 3); (s2b "に", KNOWN, 9)]%nat /\
  spelled ex_udict (s2b "に京都kagomeに") 1 [Word USER 0 1 3; Word USER 1 3 9] 9.
Proof.
  apply run_ex_and; [vm_compute; reflexivity|]. constructor 2; [apply sole_by; by_eval|]. constructor 2; [apply sole_by; by_eval|]. constructor.
Qed.
(** The condition that no other keyword begins there is needed: here the text is a user word, but a shorter one begins it, and what follows costs less than nothing. *)
Definition two_udict : udict :=
  UDict [(s2b "x", 0); (s2b "x東京都", 1)] [UserContent [s2b "x"] [s2b "x"] (s2b "カスタム名詞"); UserContent [s2b "x東京都"] [s2b "x"] (s2b "カスタム名詞")].
Example C114_needed : keyword_at (u_index two_udict) (s2b "x東京都") 1 0 (rcount (s2b "x東京都")) /\
  exists ts, analyze ex_ideo (Tokenizer ex_dict (Some two_udict) true) (s2b "x東京都") mode_normal = Ok ts /\
    map (fun t => (t_surface t, t_class t)) ts = [(s2b "x", USER); (s2b "東京都", KNOWN)].
Proof. split; [apply keywords_from_all; replace (keywords_from _ _ _) with [(0, 1%nat); (1, 4%nat)] by by_eval; replace (rcount _) with 4%nat by by_eval; right; left; reflexivity|apply run_ex; vm_compute; reflexivity]. Qed.
