(** Proofs of C114. *)
From Verif Require Import AnalyzeFacts.
From Verif Require Import SpecForced.
From Coq Require Import Lia ZifyBool ZifyNat ZifyN.
Set Implicit Arguments.
Unset Strict Implicit.
Open Scope nat_scope.

Lemma sole_candidate d ud s id i k w : sole ud s id i k -> candidate d (Some ud) s w -> w_start w = i -> w = Word USER id i k.
Proof.
  intros (K & U) C E. destruct C as [ud' id' a b Eu Hk|id' a b No Hk|id' a b e No _ _ _ _]; cbn [w_start] in E; subst a.
  - injection Eu as <-. destruct (U _ _ Hk) as (-> & ->). reflexivity.
  - destruct (No _ _ K).
  - destruct (No _ _ K).
Qed.
Lemma chain_start d u s i ws n : chain d u s i ws n -> i <= n.
Proof. induction 1 as [|w ws j C Ch IH]; [lia|]. pose proof (candidate_range C). lia. Qed.
Lemma spelled_chain d ud s i xs j : spelled ud s i xs j -> forall ws, chain d (Some ud) s i ws (rcount s) -> exists ws', ws = xs ++ ws' /\ chain d (Some ud) s j ws' (rcount s).
Proof.
  induction 1 as [i|id i k xs j So Sp IH]; intros ws Ch; [exists ws; auto|].
  remember (rcount s) as n eqn:En. destruct Ch as [i|w ws j' C Ch].
  - destruct So as ((R & _) & _). lia.
  - rewrite (sole_candidate So C eq_refl) in *. cbn [w_stop] in Ch. subst j'. destruct (IH _ Ch) as (ws' & -> & Ch'). exists ws'. auto.
Qed.

Lemma view_free : index_free word_of.
Proof. intros k x. reflexivity. Qed.
Lemma user_words t s m xs ud i j : spelled ud s i xs j -> map word_of (flat_map (word_tokens t s m) xs) = xs /\ map t_surface (flat_map (word_tokens t s m) xs) = map (word_text s) xs.
Proof.
  induction 1 as [i|id i k xs j So Sp (IH & IH')]; [split; reflexivity|]. cbn [flat_map]. rewrite !map_app, IH, IH'.
  split; unfold word_tokens; cbn [w_class]; destruct m; reflexivity.
Qed.

Theorem spelled_text d ud ideo omit s mode xs : wf_dict d -> wf_udict (Some ud) -> no_loss d (Some ud) s mode -> spelled ud s 0 xs (rcount s) ->
  exists ts, analyze ideo (Tokenizer d (Some ud) omit) s mode = Ok ts /\ words_of ts = xs /\ map t_surface (no_markers ts) = map (word_text s) xs.
Proof.
  intros Hd Hu Hl Sp. destruct (analyze_final s ideo mode Hd Hu) as (i & ws & E & C & I & O & _).
  exists (final_tokens (Tokenizer d (Some ud) omit) s (to_lmode mode) i ws). split; [apply E|].
  assert (i = 0) as -> by (eapply no_loss_start; eauto).
  destruct (spelled_chain Sp C) as (ws' & -> & C').
  assert (ws' = []) as ->.
  { inversion C' as [|w ws1 j Hc C1 E1]; [reflexivity|]. subst. pose proof (candidate_range Hc). pose proof (chain_start C1). lia. }
  rewrite app_nil_r in *. unfold words_of. rewrite (map_final Hd Hu omit (to_lmode mode) view_free C), (map_final Hd Hu omit (to_lmode mode) surface_free C).
  apply (user_words _ _ Sp).
Qed.

Lemma words_split t s m ws : forall a tk b, flat_map (word_tokens t s m) ws = a ++ tk :: b -> t_class tk <> DUMMY ->
  exists ws1 w ws2, ws = ws1 ++ w :: ws2 /\ tk = word_token t s w /\ tk :: b = flat_map (word_tokens t s m) (w :: ws2).
Proof.
  induction ws as [|w ws IH]; intros a tk b E N; cbn [flat_map] in E; [destruct a; discriminate E|].
  assert (D : (exists a', a = word_tokens t s m w ++ a' /\ flat_map (word_tokens t s m) ws = a' ++ tk :: b) \/ a = [] /\ word_tokens t s m w = [word_token t s w] \/ In tk (word_tokens t s m w) /\ (forall x, In x (word_tokens t s m w) -> t_class x = DUMMY)).
  { assert (W : word_tokens t s m w = [word_token t s w] \/ forall x, In x (word_tokens t s m w) -> t_class x = DUMMY).
    { unfold word_tokens. destruct m; auto. destruct (w_class w); auto. right. intros x Hx. apply in_map_iff in Hx. destruct Hx as (k & <- & _). reflexivity. }
    destruct W as [W|W].
    - destruct a as [|x a']; [auto|]. left. exists a'. rewrite W in *. cbn [app] in *. injection E as -> E. auto.
    - remember (word_tokens t s m w) as l eqn:El. clear - E W. revert a E. induction l as [|x l IHl]; intros a E; [left; exists a; auto|].
      destruct a as [|y a]; cbn [app] in E; injection E as -> E.
      + right. right. split; [left; reflexivity|exact W].
      + destruct (IHl (fun z Hz => W z (or_intror Hz)) a E) as [(a' & -> & E')|[(-> & El)|(Hin & W')]].
        * left. exists a'. auto.
        * subst l. right. right. cbn [app] in E. injection E as <- _. split; [right; left; reflexivity|exact W].
        * right. right. split; [right; exact Hin|exact W]. }
  destruct D as [(a' & -> & E')|[(-> & W)|(Hin & W)]].
  - destruct (IH _ _ _ E' N) as (ws1 & w' & ws2 & -> & T & B). exists (w :: ws1), w', ws2. auto.
  - exists [], w, ws. rewrite W in E. cbn [app] in E. injection E as <- E. split; [reflexivity|]. split; [reflexivity|].
    cbn [flat_map]. rewrite W, E. reflexivity.
  - destruct (N (W _ Hin)).
Qed.
Lemma chain_tail d u s i ws1 w ws2 n : chain d u s i (ws1 ++ w :: ws2) n -> chain d u s (w_start w) (w :: ws2) n.
Proof. revert i. induction ws1 as [|x ws1 IH]; intros i C; cbn [app] in C; inversion C; subst; [exact C|]. eapply IH; eassumption. Qed.

Theorem spelled_inside d ud ideo omit s mode ts a tk b xs j : wf_dict d -> wf_udict (Some ud) ->
  analyze ideo (Tokenizer d (Some ud) omit) s mode = Ok ts -> no_markers ts = a ++ tk :: b -> t_class tk <> DUMMY -> spelled ud s (t_start tk) xs j ->
  exists rest, map word_of (tk :: b) = xs ++ rest.
Proof.
  intros Hd Hu E N D Sp. destruct (analyze_final s ideo mode Hd Hu) as (i & ws & E' & C & _). rewrite E' in E. injection E as <-.
  set (t := Tokenizer d (Some ud) omit) in *. pose proof (map_final Hd Hu omit (to_lmode mode) (f := set_index 0) (fun k x => eq_refl) C) as M. fold t in M. rewrite N in M.
  assert (Z0 : map (set_index 0) (flat_map (word_tokens t s (to_lmode mode)) ws) = flat_map (word_tokens t s (to_lmode mode)) ws).
  { clear. induction ws as [|w ws IH]; [reflexivity|]. cbn [flat_map]. rewrite map_app, IH. f_equal. unfold word_tokens.
    destruct (to_lmode mode); try reflexivity. destruct (w_class w); try reflexivity. rewrite map_map. reflexivity. }
  rewrite Z0, map_app in M. cbn [map] in M. symmetry in M. destruct (words_split M) as (ws1 & w & ws2 & -> & T & B); [exact D|].
  apply chain_tail in C. assert (Ew : w_start w = t_start tk) by (change (t_start tk) with (t_start (set_index 0 tk)); rewrite T; reflexivity). rewrite Ew in C.
  destruct (spelled_chain Sp C) as (ws' & Ex & _).
  exists (map word_of (flat_map (word_tokens t s (to_lmode mode)) ws')).
  assert (map word_of (tk :: b) = map word_of (set_index 0 tk :: map (set_index 0) b)) as ->.
  { cbn [map]. rewrite map_map. reflexivity. }
  rewrite B, Ex, flat_map_app, map_app. f_equal. apply (user_words _ _ Sp).
Qed.
