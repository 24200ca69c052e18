(** C117: on which scale costs are told does not matter. *)
From Verif Require Import Example Check GaugeFacts.
From Verif Require Import SpecGauge.
From Coq Require Import Lia.
Open Scope Z_scope.

(** Dictionaries that tell the same costs on different scales, or shift them between words and connections, give the same tokens. The penalties of Search and Extended mode are not
    part of the dictionary, so there the scale must be the same; connections of user words cost nothing, so with a user word in the text nothing may be shifted. *)
Theorem C117_scale : forall k f g ideo d d' u omit s mode, wf_dict d -> wf_dict d' -> wf_udict u -> rescaled k f g d d' ->
  k = 1 \/ (mode <> mode_search /\ mode <> mode_extended) -> no_user_word u s \/ (forall x, f x = 0 /\ g x = 0) -> Z.of_nat (rcount s) <= optimal_limit mode ->
  same_tokens (analyze ideo (Tokenizer d u omit) s mode) (analyze ideo (Tokenizer d' u omit) s mode).
Proof. exact rescaled_same. Qed.
Print Assumptions C117_scale.
(** Every choice of scale and shifts can be written down. *)
Theorem C117_written : forall k f g d, 0 < k -> rescaled k f g d (rewritten k f g d).
Proof. exact rewritten_rescaled. Qed.
Print Assumptions C117_written.

Definition ex_f (l : Z) : Z := if l =? 0 then 20000 else 0.
Definition ex_g (r : Z) : Z := if r =? 0 then (-70) else 25.
Definition none (_ : Z) : Z := 0.
Definition run (d : dict) (u : option udict) (s : bytes) (m : Z) : res (list (Z * bytes)) :=
  match analyze ex_ideo (Tokenizer d u true) s m with
  | Ok ts => Ok (map (fun t => (t_id t, t_surface t)) ts)
  | Panic => Panic
  | Diverge => Diverge
  end.
Definition ex_text : bytes := s2b "東京都に行くkagome京都東京".
(** Deciding that the costs fit. *)
Definition fits (x : Z) : bool := (-32768 <=? x) && (x <=? 32767).
Lemma wf_rewritten k f g : forallb (fun e => fits (m_weight e)) (d_morphs (rewritten k f g ex_dict) ++ d_unk_morphs (rewritten k f g ex_dict)) && forallb fits (d_conn_vec (rewritten k f g ex_dict)) = true ->
  wf_dict (rewritten k f g ex_dict).
Proof.
  intros H. apply andb_prop in H. destruct H as (H1 & H2). rewrite forallb_app in H1. apply andb_prop in H1. destruct H1 as (H0 & H1). rewrite forallb_forall in H0, H1, H2.
  assert (F : forall x, fits x = true -> int16 x) by (unfold fits, int16; intros x X; apply andb_prop in X; destruct X as (X1 & X2); apply Z.leb_le in X1; apply Z.leb_le in X2; lia).
  destruct wf_ex as [I (rows & C1 & C2 & C3 & C4 & C5) V C U]. constructor.
  - intros key id K. destruct (I key id K) as (A & B & D). cbn [rewritten d_morphs]. rewrite map_length. auto.
  - exists rows. split; [exact C1|]. split; [exact C2|]. split; [cbn [rewritten d_conn_vec d_conn_col]; rewrite map_length, seq_length; exact C3|].
    split; intros m M; [pose proof (F _ (H0 m M)) as W|pose proof (F _ (H1 m M)) as W]; cbn [rewritten d_morphs d_unk_morphs d_conn_col] in *;
      apply in_map_iff in M; destruct M as (e & <- & E); [destruct (C4 e E) as (A & B & _)|destruct (C5 e E) as (A & B & _)]; (split; [exact A|split; [exact B|exact W]]).
  - intros c Hc. apply F. exact (H2 c Hc).
  - exact C.
  - intros r. cbn [rewritten d_unk_morphs d_unk_index d_unk_dup d_category]. rewrite map_length. exact (U r).
Qed.
(** Three times the costs, and connections to left id 0 at 20000 more: the same words. *)
Example C117_example : wf_dict ex_dict /\ wf_dict (rewritten 3 ex_f ex_g ex_dict) /\ no_user_word None ex_text /\ Z.of_nat (rcount ex_text) <= optimal_limit mode_normal /\
  d_conn_vec ex_dict = [10; 20; (-30); 40] /\ d_conn_vec (rewritten 3 ex_f ex_g ex_dict) = [19960; (-10); 19935; 145] /\
  run ex_dict None ex_text mode_normal = Ok [(5, s2b "東京都"); (6, s2b "に"); (7, s2b "行く"); (4, s2b "kagome"); (4, s2b "京都"); (3, s2b "東京")] /\
  run (rewritten 3 ex_f ex_g ex_dict) None ex_text mode_normal = run ex_dict None ex_text mode_normal.
Proof.
  split; [exact wf_ex|]. split; [apply wf_rewritten; vm_compute; reflexivity|]. split; [intros ? ? []|]. split; [apply Z.leb_le; vm_compute; reflexivity|].
  split; [reflexivity|]. split; [by_eval|]. split; by_eval.
Qed.
(** In Search mode the scale must stay: the penalty for a word of three ideographs is 3000 on any scale. Shifts do no harm. *)
Example C117_search : wf_dict (rewritten 1 ex_f ex_g ex_dict) /\ wf_dict (rewritten 10 none none ex_dict) /\
  run ex_dict None ex_text mode_search = Ok [(3, s2b "東京"); (2, s2b "都"); (6, s2b "に"); (7, s2b "行く"); (4, s2b "kagome"); (4, s2b "京都"); (3, s2b "東京")] /\
  run (rewritten 1 ex_f ex_g ex_dict) None ex_text mode_search = run ex_dict None ex_text mode_search /\
  run (rewritten 10 none none ex_dict) None ex_text mode_search = Ok [(5, s2b "東京都"); (6, s2b "に"); (7, s2b "行く"); (4, s2b "kagome"); (4, s2b "京都"); (3, s2b "東京")].
Proof.
  split; [apply wf_rewritten; vm_compute; reflexivity|]. split; [apply wf_rewritten; vm_compute; reflexivity|]. split; [by_eval|]. split; by_eval.
Qed.
(** With a user word in the text the scale may change, but a shift makes a difference after it. *)
Example C117_user : wf_udict (Some ex_udict) /\
  run ex_dict (Some ex_udict) ex_text mode_normal = Ok [(5, s2b "東京都"); (6, s2b "に"); (7, s2b "行く"); (1, s2b "kagome"); (0, s2b "京都"); (3, s2b "東京")] /\
  run (rewritten 10 none none ex_dict) (Some ex_udict) ex_text mode_normal = run ex_dict (Some ex_udict) ex_text mode_normal /\
  run (rewritten 1 ex_f ex_g ex_dict) (Some ex_udict) ex_text mode_normal = Ok [(5, s2b "東京都"); (6, s2b "に"); (7, s2b "行く"); (1, s2b "kagome"); (0, s2b "京都"); (0, s2b "東"); (1, s2b "京")].
Proof. split; [exact wf_ex_udict|]. split; [by_eval|]. split; by_eval. Qed.
