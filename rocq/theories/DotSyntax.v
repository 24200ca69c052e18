(** Proofs about the syntax of the lattice graph (C19). *)
From Verif Require Export DotFacts Check.
From Coq Require Import ZifyBool ZifyNat ZifyN.
Set Implicit Arguments.
Unset Strict Implicit.
Open Scope nat_scope.

(** ** The lexer *)
Lemma lex_run_app s1 : forall st s2, lex_run st (s1 ++ s2) =
  match lex_run st s1 with
  | Some (ts, st') => match lex_run st' s2 with Some (us, st'') => Some (ts ++ us, st'') | None => None end
  | None => None
  end.
Proof.
  induction s1 as [|b s1 IH]; intros st s2; cbn [app lex_run].
  - destruct (lex_run st s2) as [[us st'']|]; reflexivity.
  - destruct (lex_step st b) as [[ts st1]|]; [|reflexivity]. rewrite IH.
    destruct (lex_run st1 s1) as [[us st2]|]; [|reflexivity]. destruct (lex_run st2 s2) as [[vs st3]|]; [|reflexivity].
    rewrite app_assoc. reflexivity.
Qed.

(** From state st, s gives the tokens ts and leads to st'. *)
Definition runs (st : lstate) (s : bytes) (ts : list gtok) (st' : lstate) : Prop := lex_run st s = Some (ts, st').

Lemma runs_app st s1 ts1 st1 s2 ts2 st2 : runs st s1 ts1 st1 -> runs st1 s2 ts2 st2 -> runs st (s1 ++ s2) (ts1 ++ ts2) st2.
Proof. unfold runs. intros H1 H2. rewrite lex_run_app, H1, H2. reflexivity. Qed.

Lemma runs_none st s1 ts1 st1 s2 : runs st s1 ts1 st1 -> lex_run st1 s2 = None -> lex_run st (s1 ++ s2) = None.
Proof. unfold runs. intros H1 H2. rewrite lex_run_app, H1, H2. reflexivity. Qed.

Lemma byte_eqb_neq a b : a <> b -> Byte.eqb a b = false.
Proof. intros H. destruct (Byte.eqb a b) eqn:E; [|reflexivity]. apply Byte.byte_dec_bl in E. contradiction. Qed.

(** Inside a string. *)
Definition in_string (st : lstate) : Prop := match st with LStr _ | LEsc _ => True | _ => False end.

Lemma runs_plain s : forall acc, plain s -> runs (LStr acc) s [] (LStr (acc ++ s)).
Proof.
  induction s as [|b s IH]; intros acc [H1 H2]; unfold runs; cbn [lex_run].
  - rewrite app_nil_r. reflexivity.
  - cbn [lex_step]. rewrite !byte_eqb_neq by (intros ->; [apply H1; left; reflexivity] || (intros ->; apply H2; left; reflexivity)).
    rewrite IH.
    + rewrite <- app_assoc. reflexivity.
    + split; intros H; [apply H1|apply H2]; right; assumption.
Qed.

Lemma runs_no_quote s : forall st, no_quote s -> in_string st -> exists st', runs st s [] st' /\ in_string st'.
Proof.
  induction s as [|b s IH]; intros st H Hs.
  - exists st. split; [reflexivity|assumption].
  - assert (Hb : b <> x22) by (intros ->; apply H; left; reflexivity).
    assert (Hs' : no_quote s) by (intros Hin; apply H; right; assumption).
    assert (X : exists st1, lex_step st b = Some ([], st1) /\ in_string st1).
    { destruct st as [| |acc|acc|acc]; try contradiction; cbn [lex_step].
      - rewrite (byte_eqb_neq Hb). destruct (Byte.eqb b x5c); eexists; split; try reflexivity; exact I.
      - eexists. split; [reflexivity|exact I]. }
    destruct X as (st1 & E1 & I1). destruct (IH st1 Hs' I1) as (st2 & R2 & I2). exists st2. split; [|assumption].
    unfold runs in *. cbn [lex_run]. rewrite E1, R2. reflexivity.
Qed.

Lemma runs_plain_end s st : plain s -> s <> [] -> in_string st -> exists acc, runs st s [] (LStr acc).
Proof.
  intros Hp Hn Hs. destruct s as [|b s]; [congruence|].
  assert (Hp' : plain s) by (destruct Hp as [H1 H2]; split; intros H; [apply H1|apply H2]; right; assumption).
  assert (X : exists acc, lex_step st b = Some ([], LStr acc)).
  { destruct Hp as [H1 H2]. destruct st as [| |acc|acc|acc]; try contradiction; cbn [lex_step].
    - rewrite (@byte_eqb_neq b x22) by (intros ->; apply H1; left; reflexivity).
      rewrite (@byte_eqb_neq b x5c) by (intros ->; apply H2; left; reflexivity). eexists; reflexivity.
    - eexists; reflexivity. }
  destruct X as (acc & E). pose proof (runs_plain acc Hp') as R. eexists. unfold runs in *. cbn [lex_run]. rewrite E, R. reflexivity.
Qed.

(** ** Numbers *)
Lemma plain_app a b : plain a -> plain b -> plain (a ++ b).
Proof. unfold plain. rewrite !in_app_iff. tauto. Qed.

Lemma digit_plain k : (k < 10)%N -> plain [digit k].
Proof.
  intros H. assert (X : forallb (fun k => negb (Byte.eqb (digit (N.of_nat k)) x22) && negb (Byte.eqb (digit (N.of_nat k)) x5c)) (seq 0 10) = true) by reflexivity.
  rewrite forallb_forall in X. specialize (X (N.to_nat k)). rewrite N2Nat.id in X. specialize (X ltac:(apply in_seq; lia)).
  apply andb_true_iff in X. destruct X as [X1 X2].
  split; intros [E|[]]; rewrite E in *; cbn in *; discriminate.
Qed.

Lemma digits_plain fuel : forall k acc, plain acc -> plain (digits fuel k acc).
Proof.
  induction fuel as [|f IH]; intros k acc H; cbn [digits]; [assumption|].
  assert (P : plain (digit (k mod 10) :: acc)) by (apply (@plain_app [_] acc); [apply digit_plain; apply N.mod_lt; lia|assumption]).
  destruct (k <? 10)%N; auto.
Qed.

Lemma digits_nonempty fuel k acc : acc <> [] -> digits fuel k acc <> [].
Proof. revert k acc. induction fuel as [|f IH]; intros k acc H; cbn [digits]; [assumption|]. destruct (k <? 10)%N; [discriminate|]. apply IH. discriminate. Qed.

Lemma itoa_plain z : plain (itoa z).
Proof.
  unfold itoa. apply plain_app.
  - destruct (z <? 0)%Z; split; intros H; repeat destruct H as [H|H]; try discriminate; try contradiction.
  - apply digits_plain. split; intros [].
Qed.

Lemma itoa_nonempty z : itoa z <> [].
Proof.
  unfold itoa. intros E. apply app_eq_nil in E. destruct E as [_ E]. revert E. cbn [digits].
  destruct (_ <? 10)%N; [discriminate|]. apply digits_nonempty. discriminate.
Qed.

(** ** Statements *)
Definition eq_tok := pn x3d.
Definition node_attrs (best : bool) (lab : bytes) : list gtok :=
  [kw "label"; eq_tok; TStr lab] ++
  (if best then [pn x2c; kw "shape"; eq_tok; kw "ellipse"; pn x2c; kw "peripheries"; eq_tok; kw "2"] else []).
Definition edge_attrs (best : bool) (lab : bytes) : list gtok :=
  [kw "label"; eq_tok; TStr lab] ++
  (if best then [pn x2c; kw "style"; eq_tok; kw "bold"; pn x2c; kw "color"; eq_tok; kw "blue"; pn x2c; kw "fontcolor"; eq_tok; kw "blue"] else []).

Lemma runs_addr a : plain a -> runs LOut (quote ++ a ++ quote) [TStr a] LOut.
Proof.
  intros H. change [TStr a] with ([] ++ [] ++ [TStr a]). eapply runs_app; [reflexivity|]. eapply runs_app; [apply (runs_plain [] H)|]. reflexivity.
Qed.

Lemma render_node (addr : coord -> bytes) c s p w best : (forall c, plain (addr c)) -> no_quote s -> no_quote p ->
  exists lab, runs LOut (render addr (SNode c s p w best))
    ([TStr (addr c)] ++ (pn x5b :: node_attrs best lab ++ [pn x5d]) ++ [pn x3b]) LOut.
Proof.
  intros Ha Hs Hp. cbn [render].
  destruct (@runs_no_quote (s ++ esc_n ++ p ++ esc_n) (LStr [])) as (st & R & I); [|exact Logic.I|].
  { unfold no_quote, lacks in *. rewrite !in_app_iff. unfold esc_n. cbn [In]. intros H.
    repeat destruct H as [H|H]; try contradiction; try discriminate. }
  destruct (runs_plain_end (itoa_plain w) (@itoa_nonempty w) I) as (lab & R2). exists lab.
  replace (tab ++ quote ++ addr c ++ quote ++ s2b " [label=" ++ quote ++ s ++ esc_n ++ p ++ esc_n ++ itoa w ++ quote ++
      (if best then s2b ",shape=ellipse, peripheries=2];" else s2b "];") ++ nl)
    with (tab ++ (quote ++ addr c ++ quote) ++ (s2b " [label=" ++ quote) ++ (s ++ esc_n ++ p ++ esc_n) ++ itoa w ++
      (quote ++ (if best then s2b ",shape=ellipse, peripheries=2];" else s2b "];") ++ nl)) by (rewrite <- !app_assoc; reflexivity).
  replace ([TStr (addr c)] ++ (pn x5b :: node_attrs best lab ++ [pn x5d]) ++ [pn x3b]) with
    ([] ++ [TStr (addr c)] ++ [pn x5b; kw "label"; eq_tok] ++ [] ++ [] ++ (TStr lab :: (if best then [pn x2c; kw "shape"; eq_tok; kw "ellipse"; pn x2c; kw "peripheries"; eq_tok; kw "2"] else []) ++ [pn x5d; pn x3b]))
    by (unfold node_attrs; destruct best; reflexivity).
  eapply runs_app; [reflexivity|]. eapply runs_app; [apply runs_addr, Ha|]. eapply runs_app; [reflexivity|].
  eapply runs_app; [exact R|]. eapply runs_app; [exact R2|]. destruct best; reflexivity.
Qed.

Lemma render_edge (addr : coord -> bytes) a b k best : (forall c, plain (addr c)) ->
  exists lab, runs LOut (render addr (SEdge a b k best))
    ([TStr (addr a); TEdge; TStr (addr b)] ++ (pn x5b :: edge_attrs best lab ++ [pn x5d]) ++ [pn x3b]) LOut.
Proof.
  intros Ha. cbn [render].
  destruct (@runs_plain_end _ (LStr []) (itoa_plain k) (@itoa_nonempty k) I) as (lab & R2). exists lab.
  replace (tab ++ quote ++ addr a ++ quote ++ s2b " -- " ++ quote ++ addr b ++ quote ++ s2b " [label=" ++ quote ++ itoa k ++ quote ++
      (if best then s2b ", style=bold, color=blue, fontcolor=blue];" else s2b "];") ++ nl)
    with (tab ++ (quote ++ addr a ++ quote) ++ s2b " -- " ++ (quote ++ addr b ++ quote) ++ (s2b " [label=" ++ quote) ++ itoa k ++
      (quote ++ (if best then s2b ", style=bold, color=blue, fontcolor=blue];" else s2b "];") ++ nl)) by (rewrite <- !app_assoc; reflexivity).
  replace ([TStr (addr a); TEdge; TStr (addr b)] ++ (pn x5b :: edge_attrs best lab ++ [pn x5d]) ++ [pn x3b]) with
    ([] ++ [TStr (addr a)] ++ [TEdge] ++ [TStr (addr b)] ++ [pn x5b; kw "label"; eq_tok] ++ [] ++
     (TStr lab :: (if best then [pn x2c; kw "style"; eq_tok; kw "bold"; pn x2c; kw "color"; eq_tok; kw "blue"; pn x2c; kw "fontcolor"; eq_tok; kw "blue"] else []) ++ [pn x5d; pn x3b]))
    by (unfold edge_attrs; destruct best; reflexivity).
  eapply runs_app; [reflexivity|]. eapply runs_app; [apply runs_addr, Ha|]. eapply runs_app; [reflexivity|].
  eapply runs_app; [apply runs_addr, Ha|]. eapply runs_app; [reflexivity|]. eapply runs_app; [exact R2|]. destruct best; reflexivity.
Qed.

Ltac not_kw := let H := fresh in cbn [ident]; intros H; vm_compute in H; repeat destruct H as [H|H]; try discriminate; contradiction.
Ltac ident_tac := first [exact I | not_kw].
Ltac alist_tac := repeat first [apply al_nil | apply al_sep; [ident_tac|ident_tac|left; reflexivity|] | apply al_cons; [ident_tac|ident_tac|]].

Lemma node_attrs_ok best lab : a_list (node_attrs best lab).
Proof. unfold node_attrs, eq_tok. destruct best; cbn [app]; alist_tac. Qed.
Lemma edge_attrs_ok best lab : a_list (edge_attrs best lab).
Proof. unfold edge_attrs, eq_tok. destruct best; cbn [app]; alist_tac. Qed.

Definition label_ok (s : stmt) : Prop := match s with SNode _ a b _ _ => no_quote a /\ no_quote b | _ => True end.

Lemma render_stmts (addr : coord -> bytes) ss : (forall c, plain (addr c)) -> (forall s, In s ss -> label_ok s) ->
  exists ts, runs LOut (concat (map (render addr) ss)) ts LOut /\ g_stmts ts.
Proof.
  intros Ha. induction ss as [|s ss IH]; intros H; cbn [map concat].
  - exists []. split; [reflexivity|constructor].
  - destruct IH as (ts & R & G); [intros; apply H; right; assumption|].
    assert (Hs := H s (or_introl eq_refl)). destruct s as [c a b w best|f t k best]; cbn [label_ok] in Hs.
    + destruct (@render_node addr c a b w best Ha) as (lab & R1); try tauto.
      exists (([TStr (addr c)] ++ (pn x5b :: node_attrs best lab ++ [pn x5d]) ++ [pn x3b]) ++ ts). split; [eapply runs_app; eauto|].
      rewrite <- !app_assoc. cbn [app].
      apply (@gl_semi (TStr (addr c) :: pn x5b :: node_attrs best lab ++ [pn x5d]) ts); [|assumption].
      apply gs_node; [exact I|]. apply at_some. apply node_attrs_ok.
    + destruct (@render_edge addr f t k best Ha) as (lab & R1).
      exists (([TStr (addr f); TEdge; TStr (addr t)] ++ (pn x5b :: edge_attrs best lab ++ [pn x5d]) ++ [pn x3b]) ++ ts). split; [eapply runs_app; eauto|].
      rewrite <- !app_assoc. cbn [app].
      apply (@gl_semi (TStr (addr f) :: TEdge :: TStr (addr t) :: pn x5b :: edge_attrs best lab ++ [pn x5d]) ts); [|assumption].
      apply gs_edge; [exact I|exact I|]. apply at_some. apply edge_attrs_ok.
Qed.

Definition header_stmts : list gtok :=
  [kw "dpi"; eq_tok; kw "48"; pn x3b] ++
  (kw "graph" :: pn x5b :: [kw "style"; eq_tok; kw "filled"; pn x2c; kw "splines"; eq_tok; kw "true"; pn x2c; kw "overlap"; eq_tok; kw "false"; pn x2c;
     kw "fontsize"; eq_tok; kw "30"; pn x2c; kw "rankdir"; eq_tok; kw "LR"] ++ [pn x5d]) ++
  (kw "edge" :: pn x5b :: [kw "fontname"; eq_tok; kw "Helvetica"; pn x2c; kw "fontcolor"; eq_tok; kw "red"; pn x2c; kw "color"; eq_tok; TStr (s2b "#606060")] ++ [pn x5d]) ++
  (kw "node" :: pn x5b :: [kw "shape"; eq_tok; kw "box"; pn x2c; kw "style"; eq_tok; kw "filled"; pn x2c; kw "fillcolor"; eq_tok; TStr (s2b "#e8e8f0"); pn x2c;
     kw "fontname"; eq_tok; kw "Helvetica"] ++ [pn x5d]).

Lemma runs_header : runs LOut header (kw "graph" :: kw "lattice" :: pn x7b :: header_stmts) LOut.
Proof. vm_compute. reflexivity. Qed.

Lemma header_ok ts : g_stmts ts -> g_stmts (header_stmts ++ ts).
Proof.
  intros H. unfold header_stmts. rewrite <- !app_assoc.
  apply (@gl_semi [kw "dpi"; eq_tok; kw "48"] (_ ++ _)); [apply gs_set; ident_tac|].
  assert (A : forall k l r, In k [kw "graph"; kw "node"; kw "edge"] -> a_list l -> g_stmts r -> g_stmts ((k :: pn x5b :: l ++ [pn x5d]) ++ r)).
  { intros k l r Hk Hl Hr. apply (@gl_cons (k :: pn x5b :: l ++ [pn x5d])); [|assumption]. apply gs_attr; [assumption|apply at_some; assumption|discriminate]. }
  apply A; [left; reflexivity|unfold eq_tok; alist_tac|].
  apply A; [right; right; left; reflexivity|unfold eq_tok; alist_tac|].
  apply A; [right; left; reflexivity|unfold eq_tok; alist_tac|]. assumption.
Qed.

Theorem text_document addr ss : (forall c, plain (addr c)) -> (forall s, In s ss -> label_ok s) -> dot_document (dot_text addr ss).
Proof.
  intros Ha H. destruct (render_stmts Ha H) as (ts & R & G).
  exists (kw "graph" :: kw "lattice" :: pn x7b :: (header_stmts ++ ts) ++ [pn x7d]), (kw "lattice"), (header_stmts ++ ts).
  split; [|split; [reflexivity|split; [ident_tac|apply header_ok; assumption]]].
  unfold lex, dot_text.
  assert (R' : runs LOut (header ++ concat (map (render addr) ss) ++ s2b "}" ++ nl)
     ((kw "graph" :: kw "lattice" :: pn x7b :: header_stmts) ++ ts ++ [pn x7d]) LOut).
  { eapply runs_app; [apply runs_header|]. eapply runs_app; [exact R|]. reflexivity. }
  unfold runs in R'. rewrite R'. cbn [app]. rewrite <- app_assoc. reflexivity.
Qed.

(** ** Labels of a lattice without quotation marks *)
Lemma In_firstn {A} k (l : list A) x : In x (firstn k l) -> In x l.
Proof. intros H. rewrite <- (firstn_skipn k l). apply in_app_iff. left. assumption. Qed.
Lemma In_skipn {A} k (l : list A) x : In x (skipn k l) -> In x l.
Proof. intros H. rewrite <- (firstn_skipn k l). apply in_app_iff. right. assumption. Qed.

Lemma text_in inp i j b : In b (text inp i j) -> In b inp.
Proof.
  unfold text. intros H. rewrite <- (segs_concat inp). unfold segs_text. apply in_concat in H. destruct H as (x & Hx & Hb).
  apply in_concat. exists x. split; [|assumption]. apply in_map_iff in Hx. destruct Hx as (g & <- & Hg). apply in_map.
  apply In_firstn in Hg. apply In_skipn in Hg. assumption.
Qed.

Lemma join_lacks b sep l : lacks b sep -> (forall s, In s l -> lacks b s) -> lacks b (join sep l).
Proof.
  intros Hs. induction l as [|x l IH]; intros H; [intros []|]. cbn [join]. destruct l as [|y l].
  - apply H. left. reflexivity.
  - unfold lacks in *. rewrite !in_app_iff. intros [E|[E|E]].
    + apply (H x); [left; reflexivity|assumption].
    + contradiction.
    + revert E. apply IH. intros s Hin. apply H. right. assumption.
Qed.

Lemma nth_lacks b k (l : list bytes) : (forall s, In s l -> lacks b s) -> lacks b (nth k l []).
Proof. intros H. destruct (nth_in_or_default k l []) as [Hin|E]; [apply H; assumption|rewrite E; intros []]. Qed.

Lemma spec_pos_lacks b d u c id s : pos_lacks b d u -> In s (strings_list (spec_pos d u c id)) -> lacks b s.
Proof.
  intros (Q1 & Q2 & Q3) H. destruct c; cbn [spec_pos strings_list] in H.
  - contradiction.
  - unfold spec_pos_names in H. apply in_map_iff in H. destruct H as (k & <- & _). apply nth_lacks. assumption.
  - destruct (_ && _); cbn [strings_list] in H; [|contradiction]. apply In_firstn in H. apply In_skipn in H.
    destruct (nth_in_or_default (Z.to_nat id) (d_unk_contents d) []) as [Hin|E]; [apply (Q2 _ _ Hin H)|]. rewrite E in H. destruct H.
  - unfold spec_features in H. destruct u as [ud|]; cbn [strings_list] in H; [|contradiction].
    destruct (nth_error (u_contents ud) (Z.to_nat id)) as [e|] eqn:E; cbn [strings_list] in H; [|contradiction].
    destruct H as [<-|[]]. apply Q3. apply (nth_error_In _ _ E).
Qed.

(** Bytes that the labels written by Dot itself do not contain. *)
Definition not_fixed (b : byte) : Prop := lacks b (s2b "/---BOSEOS").

Lemma g_pos_lacks b d u g : not_fixed b -> pos_lacks b d u -> lacks b (g_pos d u g).
Proof.
  intros F Q. unfold g_pos.
  assert (Sl : lacks b (s2b "/")) by (intros [E|[]]; apply F; left; assumption).
  assert (P : forall c, lacks b (pos_label (spec_pos d u c (g_id g)))).
  { intros c. unfold pos_label.
    assert (G : forall s, In s (filter (fun v => negb (bytes_eqb v (s2b "*"))) (strings_list (spec_pos d u c (g_id g)))) -> lacks b s).
    { intros s Hs. apply filter_In in Hs. apply (spec_pos_lacks Q (proj1 Hs)). }
    destruct (filter _ _) as [|x l].
    - intros E. apply F. right. repeat destruct E as [E|E]; try contradiction; left; assumption.
    - apply join_lacks; [exact Sl|exact G]. }
  destruct (g_class g) eqn:E; try apply P.
  apply join_lacks; [exact Sl|]. intros s Hs. apply (spec_pos_lacks Q Hs).
Qed.

Lemma g_surf_lacks b d inp g s : not_fixed b -> lacks b inp -> g_surf d inp g s -> lacks b s.
Proof.
  intros F Hq S. unfold g_surf in S. destruct g as [| |x].
  - subst s. intros X. apply F. change (In b (s2b "/---" ++ s2b "BOS" ++ s2b "EOS")). rewrite !in_app_iff. right. left. exact X.
  - subst s. intros X. apply F. change (In b (s2b "/---" ++ s2b "BOS" ++ s2b "EOS")). rewrite !in_app_iff. right. right. exact X.
  - destruct S as [->|[_ ->]]; intros X; apply Hq.
    + apply text_in in X. assumption.
    + apply In_firstn in X. apply text_in in X. assumption.
Qed.

Lemma quote_not_fixed : not_fixed x22.
Proof. intros E. repeat destruct E as [E|E]; try discriminate; contradiction. Qed.

Theorem c19_partial_lemma addr d u omit ideo inp mode : wf_dict d -> wf_udict u -> wf_data d -> (forall c, plain (addr c)) ->
  no_quote inp -> quote_free d u ->
  exists txt, graph_text addr ideo (Tokenizer d u omit) inp mode = Ok txt /\ dot_document txt.
Proof.
  intros Hd Hu Hw Ha Hq Hqd. destruct (@c57_graph_lemma d u omit ideo inp mode Hd Hu Hw) as (ss & g & E & H & _).
  exists (dot_text addr ss). split; [unfold graph_text; rewrite E; reflexivity|]. apply text_document; [assumption|].
  intros s Hs. destruct s as [c a b w best|]; [|exact I]. destruct (H _ _ _ _ _ Hs) as (_ & S & -> & _). cbn [label_ok].
  split; [apply (g_surf_lacks quote_not_fixed Hq S)|apply (@g_pos_lacks x22 d u _ quote_not_fixed Hqd)].
Qed.

(** A label that is a quotation mark: after the string "" comes a backslash, no token. *)
Theorem quote_label addr ss1 c p w best ss2 : (forall c, plain (addr c)) -> (forall s, In s ss1 -> label_ok s) ->
  lex (dot_text addr (ss1 ++ SNode c quote p w best :: ss2)) = None.
Proof.
  intros Ha H1. unfold lex, dot_text. destruct (render_stmts Ha H1) as (ts & R & _).
  rewrite map_app, concat_app. cbn [map concat]. rewrite <- !app_assoc.
  assert (X : forall z, lex_run LOut (render addr (SNode c quote p w best) ++ z) = None).
  { intros z. cbn [render].
    replace ((tab ++ quote ++ addr c ++ quote ++ s2b " [label=" ++ quote ++ quote ++ esc_n ++ p ++ esc_n ++ itoa w ++ quote ++
      (if best then s2b ",shape=ellipse, peripheries=2];" else s2b "];") ++ nl) ++ z)
    with (tab ++ (quote ++ addr c ++ quote) ++ (s2b " [label=" ++ quote ++ quote) ++ (esc_n ++ p ++ esc_n ++ itoa w ++ quote ++
      (if best then s2b ",shape=ellipse, peripheries=2];" else s2b "];") ++ nl ++ z)) by (rewrite <- !app_assoc; reflexivity).
    eapply runs_none; [reflexivity|]. eapply runs_none; [apply runs_addr, Ha|]. eapply runs_none; [reflexivity|]. reflexivity. }
  erewrite runs_none; [reflexivity|apply runs_header|]. eapply runs_none; [exact R|]. apply X.
Qed.

(** ** Framing of the graph's tokens *)
Theorem graph_framing d u omit ideo inp mode ts : wf_dict d -> wf_udict u -> (Z.of_nat (rcount inp) <= lossless_limit mode)%Z ->
  analyze_graph ideo (Tokenizer d u omit) inp mode = Ok ts ->
  exists bos mid eos, ts = bos :: mid ++ [eos] /\ t_id bos = (-1)%Z /\ t_surface bos = s2b "BOS" /\ t_id eos = (-1)%Z /\ t_surface eos = s2b "EOS" /\
    forall tk, In tk mid -> t_id tk <> (-1)%Z.
Proof.
  intros Hd Hu Hl E. rewrite analyze_graph_tokens in E.
  destruct (@analyze_framing d u Hd Hu ideo inp mode (or_introl Hl)) as (bos & mid & eos & E1 & B & C & M).
  rewrite E1 in E. injection E as <-. cbn [map]. rewrite map_app. cbn [map].
  exists (without_index_position bos), (map without_index_position mid), (without_index_position eos).
  split; [reflexivity|]. split; [apply B|]. split; [apply B|]. split; [apply C|]. split; [apply C|].
  intros tk Hin. apply in_map_iff in Hin. destruct Hin as (x & <- & Hx). apply (M x Hx).
Qed.

(** ** Checking statements by evaluation *)
Definition stmt_code (s : stmt) : (coord * bytes * bytes * Z * bool) + (coord * coord * Z * bool) :=
  match s with SNode c a b w f => inl (c, a, b, w, f) | SEdge a b k f => inr (a, b, k, f) end.
Definition stmt_test (a b : stmt) : bool := test_eq (stmt_code a) (stmt_code b).
Lemma stmt_test_ok a b : stmt_test a b = true <-> a = b.
Proof.
  unfold stmt_test. rewrite test_eq_ok. destruct a, b; cbn; split; intros H; try discriminate; injection H; intros; subst; reflexivity.
Qed.
#[export] Instance Eqb_stmt : Eqb stmt := {| test_eq := stmt_test; test_eq_ok := stmt_test_ok |}.
