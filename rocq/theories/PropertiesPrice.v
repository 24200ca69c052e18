(** C115: what becomes cheaper is not used less often. *)
From Verif Require Import Example Check PriceFacts.
From Verif Require Import SpecPrice.
From Coq Require Import Lia.
Open Scope Z_scope.

(** An entry of the dictionary whose cost is lowered is found at least as often in every text. *)
Theorem C115_word : forall ideo d d' u omit omit' s mode c id x, wf_dict d -> wf_dict d' -> wf_udict u -> cheaper_word d d' c id x -> Z.of_nat (rcount s) <= optimal_limit mode ->
  mode <> mode_extended \/ c = KNOWN ->
  exists ts ts', analyze ideo (Tokenizer d u omit) s mode = Ok ts /\ analyze ideo (Tokenizer d' u omit') s mode = Ok ts' /\ (times c id (words_of ts) <= times c id (words_of ts'))%nat.
Proof. exact cheaper_oftener. Qed.
Print Assumptions C115_word.
(** A connection whose cost is lowered is made at least as often. *)
Theorem C115_join : forall ideo d d' u omit omit' s mode r l x, wf_dict d -> wf_dict d' -> wf_udict u -> cheaper_join d d' r l x -> Z.of_nat (rcount s) <= optimal_limit mode ->
  mode <> mode_extended ->
  exists ts ts', analyze ideo (Tokenizer d u omit) s mode = Ok ts /\ analyze ideo (Tokenizer d' u omit') s mode = Ok ts' /\ (joints d r l (words_of ts) <= joints d r l (words_of ts'))%nat.
Proof. exact cheaper_join_oftener. Qed.
Print Assumptions C115_join.

(** ex_dict with a cost for one word and a cost for one connection. *)
Definition priced (w j : Z) : dict :=
  Dict (d_index ex_dict) [Morph 0 0 600; Morph 0 0 600; Morph 0 0 300; Morph 1 1 200; Morph 1 1 250; Morph 0 0 w; Morph 1 0 50; Morph 1 1 120; Morph 0 1 130]
    (d_conn_col ex_dict) [10; 20; j; 40] (d_category ex_dict) (d_invoke ex_dict) (d_group ex_dict) (d_unk_index ex_dict) (d_unk_dup ex_dict)
    (d_unk_morphs ex_dict) (d_pos_ids ex_dict) (d_pos_names ex_dict) (d_contents ex_dict) (d_meta ex_dict) (d_unk_contents ex_dict) (d_unk_meta ex_dict).
Definition run (d : dict) (s : bytes) (m : Z) : res (list bytes * nat * nat) :=
  match analyze ex_ideo (Tokenizer d None true) s m with
  | Ok ts => Ok (map t_surface ts, times KNOWN 5 (words_of ts), joints d 1 0 (words_of ts))
  | Panic => Panic
  | Diverge => Diverge
  end.
Lemma wf_priced w j : int16 w -> int16 j -> wf_dict (priced w j).
Proof.
  intros Hw Hj. destruct wf_ex as [I (rows & C1 & C2 & C3 & C4 & C5) V C U]. constructor; try assumption.
  - exists 2. repeat split; cbn in *; try lia;
      repeat match goal with H : _ \/ _ |- _ => destruct H as [H|H] end; subst; try contradiction; cbn; unfold int16 in *; lia.
  - cbn. intros c H. repeat destruct H as [<-|H]; try contradiction; unfold int16 in *; lia.
Qed.
Ltac in16 := apply wf_priced; unfold int16; lia.
(** At 2000 the word is not used, at -1000 it is used twice; what came of its parts is used less often. *)
Example C115_word_example : wf_dict (priced 2000 (-30)) /\ wf_dict (priced (-1000) (-30)) /\ cheaper_word (priced 2000 (-30)) (priced (-1000) (-30)) KNOWN 5 3000 /\
  run (priced 2000 (-30)) (s2b "東京都に東京都") mode_normal = Ok ([s2b "東京"; s2b "都"; s2b "に"; s2b "東京"; s2b "都"], 0%nat, 2%nat) /\
  run (priced (-1000) (-30)) (s2b "東京都に東京都") mode_normal = Ok ([s2b "東京都"; s2b "に"; s2b "東京都"], 2%nat, 0%nat).
Proof.
  split; [in16|]. split; [in16|]. split; [|split; by_eval]. split; [constructor; reflexivity|]. split; [reflexivity|]. split; [lia|].
  intros c i Hi. destruct c; cbn [entry priced d_morphs d_unk_morphs];
    (split; [reflexivity|]; split; [reflexivity|]; split; intros H; [destruct H as (E & _); discriminate E|reflexivity]) || idtac.
  assert (G : i = 5 \/ Z.to_nat i <> 5%nat) by lia. destruct G as [->|N].
  - split; [reflexivity|]. split; [reflexivity|]. split; intros H; [reflexivity|destruct H; auto].
  - assert (N' : KNOWN = KNOWN /\ i = 5 -> False) by (intros (_ & ->); apply N; reflexivity). revert N N'. generalize (Z.to_nat i) as k. intros k N N'.
    destruct k as [|[|[|[|[|[|n]]]]]]; try (exfalso; apply N; reflexivity); (split; [reflexivity|]; split; [reflexivity|]; split; intros H; [destruct (N' H)|reflexivity]).
Qed.
(** The connection from right id 1 to left id 0 at 2000 and at -300. *)
Example C115_join_example : wf_dict (priced 500 2000) /\ wf_dict (priced 500 (-300)) /\ cheaper_join (priced 500 2000) (priced 500 (-300)) 1 0 2300 /\
  run (priced 500 2000) (s2b "東京都に東京都") mode_normal = Ok ([s2b "東京都"; s2b "に"; s2b "東京都"], 2%nat, 0%nat) /\
  run (priced 500 (-300)) (s2b "東京都に東京都") mode_normal = Ok ([s2b "東京"; s2b "都"; s2b "に"; s2b "東京"; s2b "都"], 0%nat, 2%nat).
Proof.
  split; [in16|]. split; [in16|]. split; [|split; by_eval]. split; [constructor; reflexivity|]. cbn [priced d_morphs d_unk_morphs d_conn_col d_conn_vec ex_dict].
  do 2 (split; [reflexivity|]). do 3 (split; [lia|]). intros r l Hr Hl. assert (l = 0 \/ l = 1) as [-> | ->] by lia.
  - destruct (Z.eq_dec r 1) as [->|N]; [split; intros H; [reflexivity|destruct H; auto]|]. split; intros H; [destruct H; congruence|].
    assert (Z.to_nat (2 * r + 0) <> 2%nat) as N' by lia. destruct (Z.to_nat (2 * r + 0)) as [|[|[|n]]]; congruence || reflexivity.
  - split; intros H; [destruct H; congruence|]. assert (Z.to_nat (2 * r + 1) <> 2%nat) as N' by lia. destruct (Z.to_nat (2 * r + 1)) as [|[|[|n]]]; congruence || reflexivity.
Qed.
