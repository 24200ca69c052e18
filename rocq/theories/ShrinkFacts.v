(** Proofs of C112. *)
From Verif Require Import LocalFacts AnalyzeFacts TokenFacts TokFacts CmdFacts CmdRuns CmdMore.
From Verif Require Import SpecShrink.
From Coq Require Import Lia ZifyBool ZifyNat ZifyN.
Set Implicit Arguments.
Unset Strict Implicit.
Open Scope nat_scope.

(** ** Names are not looked at by Build, Forward and Backward *)
Section Search.
Variables (d d' : dict).
Hypothesis S : same_search d d'.
Lemma sh_group_loop f inp c : forall i e k, group_loop f d' inp c i e k = group_loop f d inp c i e k.
Proof.
  induction f as [|f IH]; intros i e k; cbn [group_loop]; [reflexivity|]. destruct (i <? length inp); [|reflexivity].
  destruct (slice inp i (length inp)); cbn [rbind]; try reflexivity. destruct (decode_rune a) as [r w]. rewrite (ss_category S).
  destruct (negb (d_category d r =? c)); [reflexivity|]. destruct (max_unk_len <=? N.succ k)%N; [reflexivity|apply IH].
Qed.
Lemma sh_add_node la pos id position start c s : add_node d' la pos id position start c s = add_node d la pos id position start c s.
Proof. unfold add_node, node_morph. rewrite (ss_morphs S), (ss_unk_morphs S). reflexivity. Qed.
Lemma sh_matches inp i pos c ms : forall la, add_matches d' inp i pos c ms la = add_matches d inp i pos c ms la.
Proof. intros la. apply foldM_ext. intros a [id l]. destruct (slice _ _ _); cbn [rbind]; try reflexivity. apply sh_add_node. Qed.
Lemma sh_unknowns inp i pos prev e id dup la : add_unknowns d' inp i pos prev e id dup la = add_unknowns d inp i pos prev e id dup la.
Proof.
  apply foldM_ext. intros a x. destruct (pos <? prev); [destruct (slice inp pos prev); cbn [rbind]; try reflexivity; rewrite sh_add_node|cbn [rbind]].
  1: match goal with |- rbind ?r _ = _ => destruct r end; cbn [rbind]; try reflexivity.
  all: destruct (slice inp pos e); cbn [rbind]; try reflexivity; apply sh_add_node.
Qed.
Lemma sh_end inp pos ch c : unknown_end d' inp pos ch c = unknown_end d inp pos ch c.
Proof. unfold unknown_end. rewrite (ss_group S). destruct (index (d_group d) c) as [[]| |]; cbn [rbind]; try reflexivity. apply sh_group_loop. Qed.
Lemma sh_unknown inp i pos ch b la : build_unknown d' inp i pos ch b la = build_unknown d inp i pos ch b la.
Proof.
  unfold build_unknown. rewrite (ss_category S), (ss_invoke S), (ss_unk_index S), (ss_unk_dup S), sh_end.
  destruct (if negb b then Ok true else index (d_invoke d) (d_category d ch)) as [[]| |]; cbn [rbind]; try reflexivity.
  destruct (unknown_end d inp pos ch (d_category d ch)); cbn [rbind]; try reflexivity. destruct (unknown_prev _ _ _); cbn [rbind]; try reflexivity. apply sh_unknowns.
Qed.
Lemma sh_cost ideo m p t : total_cost d' ideo m p t = total_cost d ideo m p t.
Proof. unfold total_cost, conn_at. rewrite (ss_vec S), (ss_col S). reflexivity. Qed.
Lemma sh_relax ideo m i x st k : forall j la, relax_loop d' ideo m i x st j k la = relax_loop d ideo m i x st j k la.
Proof.
  induction k as [|k IH]; intros j la; cbn [relax_loop]; [reflexivity|].
  destruct (get2 la st j) as [p| |]; cbn [rbind]; try reflexivity. destruct (get2 la i x) as [t| |]; cbn [rbind]; try reflexivity.
  rewrite sh_cost. destruct (total_cost d ideo m p t) as [c| |]; cbn [rbind]; try reflexivity.
  match goal with |- rbind ?r _ = _ => destruct r end; cbn [rbind]; try reflexivity. apply IH.
Qed.
Lemma sh_forward ideo m la : forward d' ideo m la = forward d ideo m la.
Proof.
  apply foldM_ext. intros a i. unfold forward_pos. destruct (index a i) as [cur| |]; cbn [rbind]; try reflexivity.
  apply foldM_ext. intros a' x. unfold forward_target. destruct (get2 a' i x) as [t| |]; cbn [rbind]; try reflexivity.
  destruct (index a' (n_start t)); cbn [rbind]; try reflexivity. destruct (length a0 =? 0); [reflexivity|apply sh_relax].
Qed.
Variables (u u' : option udict).
Hypothesis U : user_index u' = user_index u.
Lemma sh_user rest : match u' with Some ud => common_prefix_search (u_index ud) rest | None => [] end =
  match u with Some ud => common_prefix_search (u_index ud) rest | None => [] end.
Proof.
  assert (E0 : common_prefix_search [] rest = []) by (unfold common_prefix_search; induction (seq 1 (length rest)); cbn; [reflexivity|assumption]).
  unfold user_index in U. destruct u, u'; rewrite ?U, ?E0; try reflexivity. rewrite <- U, E0. reflexivity.
Qed.
Lemma sh_step s la i pos ch : build_step d' u' s la i pos ch = build_step d u s la i pos ch.
Proof.
  unfold build_step. destruct (slice s pos (length s)) as [rest| |]; cbn [rbind]; try reflexivity. cbv zeta. rewrite sh_user, sh_matches.
  match goal with |- rbind ?r _ = _ => destruct r as [la1| |] end; cbn [rbind]; try reflexivity.
  match goal with |- (if ?b then _ else _) = _ => destruct b end; try reflexivity.
  rewrite (ss_index S), sh_matches. match goal with |- rbind ?r _ = _ => destruct r as [la2| |] end; cbn [rbind]; try reflexivity. apply sh_unknown.
Qed.
Lemma sh_build s : build d' u' s = build d u s.
Proof.
  unfold build. destruct (slice s 0 0); cbn [rbind]; try reflexivity. rewrite sh_add_node.
  match goal with |- rbind ?r _ = _ => destruct r as [la1| |] end; cbn [rbind]; try reflexivity. destruct (slice s _ _); cbn [rbind]; try reflexivity.
  rewrite sh_add_node. match goal with |- rbind ?r _ = _ => destruct r as [la| |] end; cbn [rbind]; try reflexivity.
  generalize (range_string s) la. generalize 0 at 1 2. intros i l. revert i.
  induction l as [|[pos ch] l IH]; intros i la2; cbn [build_loop]; [reflexivity|]. rewrite sh_step.
  destruct (build_step d u s la2 i pos ch); cbn [rbind]; try reflexivity. apply IH.
Qed.
Lemma sh_run ideo omit omit' s mode : run_lattice ideo (Tokenizer d' u' omit) s mode = run_lattice ideo (Tokenizer d u omit') s mode.
Proof. unfold run_lattice. cbn [tk_dict tk_udict]. rewrite sh_build. destruct (build d u s); cbn [rbind]; try reflexivity. rewrite sh_forward. reflexivity. Qed.
Theorem search_same_tokens ideo omit s mode :
  same_tokens (analyze ideo (Tokenizer d u omit) s mode) (analyze ideo (Tokenizer d' u' omit) s mode).
Proof.
  unfold analyze. rewrite (sh_run ideo omit omit). destruct (run_lattice ideo (Tokenizer d u omit) s mode) as [[la out]| |]; cbn [rbind snd]; try exact I. apply tokens_visible.
Qed.
End Search.

(** ** Without the contents *)
Lemma bare_search d : same_search d (bare d).
Proof. constructor; reflexivity. Qed.
Lemma bare_dict d : wf_dict d -> wf_dict (bare d).
Proof. intros [A B C D E]. constructor; assumption. Qed.
Lemma bare_data d : wf_data d -> wf_data (bare d).
Proof. intros [A B C D E]. constructor; try assumption. exact I. Qed.
Lemma bare_cut d u tk tk' : wf_dict d -> wf_udict u -> wf_data d -> from_analyze d u tk -> from_analyze (bare d) u tk' -> visible tk = visible tk' -> cut_token tk tk'.
Proof.
  intros Hd Hu Hw F F' V. destruct (c50_no_panic_lemma Hd Hu Hw F) as ((f & Ef) & _ & (p & Ep) & _). destruct (from_good Hd Hu Hw F) as (_ & _ & Ed & Eu).
  destruct (from_good (bare_dict Hd) Hu (bare_data Hw) F') as (_ & _ & Ed' & Eu').
  injection V as _ V2 V3 _ _ _ _. destruct (t_class tk) eqn:Ec.
  all: try solve [eapply cut_other; [rewrite Ec; discriminate|exact Ep| |exact Ef|];
    [rewrite <- Ep; unfold token_pos|rewrite <- Ef; unfold features]; rewrite <- V3, Ec; unfold user_content_of; rewrite ?Ed', ?Eu', ?Ed, ?Eu, ?V2; reflexivity].
  unfold token_pos in Ep. unfold features in Ef. rewrite Ec in Ep, Ef. unfold pos_names_of in Ep, Ef.
  assert (P : pos_names_of tk' = pos_names_of tk) by (unfold pos_names_of; rewrite Ed', Ed, V2; reflexivity).
  assert (Q : pos_names_of tk = rbind (indexZ (d_pos_ids (t_dict tk)) (t_id tk)) (fun ids => mapM (fun id => indexZ (d_pos_names (t_dict tk)) id) ids)) by reflexivity.
  rewrite <- Q in Ep, Ef. destruct (pos_names_of tk) as [ps| |] eqn:En; cbn [rbind] in Ep; try discriminate Ep. injection Ep as <-.
  destruct (match d_contents (t_dict tk) with Some cs => indexZ cs (t_id tk) | None => Ok [] end) as [c| |] eqn:Ecs; cbn [rbind] in Ef; try discriminate Ef. injection Ef as <-.
  apply (@cut_known tk tk' ps c); [exact Ec| | | |].
  - unfold token_pos. rewrite Ec, En. reflexivity.
  - unfold token_pos. rewrite <- V3, P. reflexivity.
  - unfold features. rewrite Ec, Ecs. cbn [rbind]. rewrite En. reflexivity.
  - unfold features. rewrite <- V3, Ed'. cbn [bare d_contents rbind]. rewrite P. cbn [rbind]. rewrite app_nil_r. reflexivity.
Qed.
Lemma map_zip {A B} (f : A -> B) (P : A -> A -> Prop) : forall l l', map f l = map f l' -> (forall a b, In a l -> In b l' -> f a = f b -> P a b) -> Forall2 P l l'.
Proof.
  induction l as [|a l IH]; intros [|b l'] E H; try discriminate E; constructor; cbn [map] in E; injection E as E1 E2.
  - apply H; [left; reflexivity|left; reflexivity|exact E1].
  - apply IH; [exact E2|]. intros x y Hx Hy. apply H; right; assumption.
Qed.
Theorem simple_tokens ideo d u omit s mode : wf_dict d -> wf_udict u -> wf_data d ->
  exists ts ts', analyze ideo (Tokenizer d u omit) s mode = Ok ts /\ analyze ideo (Tokenizer (bare d) u omit) s mode = Ok ts' /\
    Forall2 (fun tk tk' => visible tk = visible tk' /\ cut_token tk tk') ts ts'.
Proof.
  intros Hd Hu Hw. pose proof (search_same_tokens (bare_search d) (eq_refl (user_index u)) ideo omit s mode) as H.
  destruct (analyze_total Hd Hu ideo omit s mode) as (ts & E). rewrite E in H.
  destruct (analyze ideo (Tokenizer (bare d) u omit) s mode) as [ts'| |] eqn:E'; cbn [same_tokens] in H; try contradiction.
  exists ts, ts'. split; [exact E|]. split; [reflexivity|]. apply (map_zip H). intros tk tk' I I' V. split; [exact V|].
  apply (bare_cut Hd Hu Hw); [exists ideo, omit, s, mode, ts; auto|exists ideo, omit, s, mode, ts'; auto|exact V].
Qed.

(** ** tokenize -simple *)
Lemma lines_cut ts ts' : Forall2 (fun tk tk' => visible tk = visible tk' /\ cut_token tk tk') ts ts' ->
  forall b b', text_block ts b -> text_block ts' b' -> exists l l', b = concat l /\ b' = concat l' /\ Forall2 cut_line l l'.
Proof.
  intros F b b' (l & Hl & ->) (l' & Hl' & ->). exists (l ++ [s2b "EOS" ++ [x0a]]), (l' ++ [s2b "EOS" ++ [x0a]]). rewrite !concat_app. cbn [concat]. rewrite app_nil_r.
  split; [reflexivity|]. split; [reflexivity|]. apply Forall2_app; [|constructor; [constructor|constructor]].
  revert l l' Hl Hl'. induction F as [|tk tk' ts ts' [V C] F IH]; intros l l' Hl Hl'; [inversion Hl; inversion Hl'; constructor|].
  assert (M : is_marker tk = is_marker tk') by (injection V as _ V2 _ _ _ _ _; unfold is_marker; rewrite V2; reflexivity).
  unfold no_markers in Hl, Hl'. cbn [filter] in Hl, Hl'. rewrite <- M in Hl'. destruct (is_marker tk); cbn [negb] in Hl, Hl'; [apply IH; assumption|].
  inversion Hl as [|x y lx ly Hx Hl2]; inversion Hl' as [|x' y' lx' ly' Hx' Hl2']; subst. constructor; [|apply IH; assumption].
  injection V as _ _ V3 _ _ _ V7. inversion C as [a a' ps rest Kn _ _ Ef Ef'|a a' p f Kn _ _ Ef Ef']; subst.
  - inversion Hx as [|a fs N E]; subst; [congruence|]. inversion Hx' as [|a fs' N' E']; subst; [congruence|].
    rewrite Ef in E. injection E as <-. rewrite Ef' in E'. injection E' as <-. rewrite <- V7. apply cl_cut.
  - inversion Hx as [a D|a fs N E]; inversion Hx' as [a' D'|a' fs' N' E']; subst; try congruence; rewrite V7; try constructor.
    rewrite E in Ef. rewrite E' in Ef'. injection Ef as ->. injection Ef' as ->. constructor.
Qed.
Theorem simple_lines w d u args o args' o' mode r t1 t2 t3 t1' : wf_dict d -> wf_udict u -> wf_data d ->
  tok_args args o -> tok_uses w o d t1 -> tok_args args' o' -> tok_uses w o' (bare d) t1' ->
  to_udict o' = to_udict o -> to_file o' = to_file o -> to_split o' = to_split o -> to_json o = false -> to_json o' = false ->
  user_uses w (to_udict o) u t2 -> input_uses w (to_file o) r t3 -> mode_of (to_mode o) mode -> mode_of (to_mode o') mode ->
  exists tr tr' e ls ls', tok_run w args = (tr, Ok e) /\ tok_run w args' = (tr', Ok e) /\ outs tr = concat ls /\ outs tr' = concat ls' /\ Forall2 cut_line ls ls'.
Proof.
  intros Hd Hu Hw A T A' T' Eu Ef Es Js Js' U I M M'.
  destruct (tokenize_prints Hd Hu Hw A T U I M) as (tr & texts & err & r2 & blocks & E1 & E2 & E3 & E4 & _).
  assert (U' : user_uses w (to_udict o') u t2) by (rewrite Eu; exact U). assert (I' : input_uses w (to_file o') r t3) by (rewrite Ef; exact I).
  destruct (tokenize_prints (bare_dict Hd) Hu (bare_data Hw) A' T' U' I' M') as (tr' & texts' & err' & r2' & blocks' & E1' & E2' & E3' & E4' & _).
  unfold tok_split in E2'. rewrite Es in E2'. unfold tok_split in E2. rewrite E2 in E2'. injection E2' as <- <- <-. rewrite Js in E4. rewrite Js' in E4'.
  assert (G : exists ls ls', concat blocks = concat ls /\ concat blocks' = concat ls' /\ Forall2 cut_line ls ls').
  { clear -Hd Hu Hw E4 E4'. revert blocks' E4'. induction E4 as [|text b texts blocks (ts & Ea & Hb) _ IH]; intros blocks' E4'; inversion E4' as [|x b' y bl' (ts' & Ea' & Hb') E5]; subst.
    - exists [], []. auto.
    - destruct (IH _ E5) as (ls & ls' & G1 & G2 & G3). destruct (simple_tokens (w_ideo w) false text mode Hd Hu Hw) as (s1 & s2 & R1 & R2 & F).
      rewrite Ea in R1. injection R1 as <-. rewrite Ea' in R2. injection R2 as <-. destruct (lines_cut F Hb Hb') as (l & l' & H1 & H2 & H3).
      exists (l ++ ls), (l' ++ ls'). cbn [concat]. rewrite !concat_app, G1, G2, H1, H2. split; [reflexivity|]. split; [reflexivity|]. apply Forall2_app; assumption. }
  destruct G as (ls & ls' & G1 & G2 & G3). exists ((t1 ++ t2 ++ t3) ++ tr), ((t1' ++ t2 ++ t3) ++ tr'), (option_map XScan err), ls, ls'.
  split; [exact E1|]. split; [exact E1'|]. rewrite (outs_app (t1 ++ t2 ++ t3) tr), (outs_app (t1' ++ t2 ++ t3) tr'), (uses_outs T U I), (uses_outs T' U' I'), E3, E3'. auto.
Qed.
