(** Proofs about the programs in _examples. *)
From Verif Require Export SpecSamples Samples.
From Verif Require Import Live LiveFacts LiveRuns JsonFacts Utf8Facts TokenFacts AnalyzeFacts ServerFacts Check Example.
From Coq Require Import ZifyBool ZifyNat ZifyN.
Set Implicit Arguments.
Unset Strict Implicit.
Open Scope Z_scope.

Lemma join_separated sep l : join sep l = separated sep l.
Proof.
  destruct l as [|a l]; [reflexivity|]. cbn [separated]. revert a. induction l as [|b l IH]; intros a; [cbn; rewrite app_nil_r; reflexivity|].
  change (join sep (a :: b :: l)) with (a ++ sep ++ join sep (b :: l)). rewrite IH. cbn [map concat]. rewrite <- app_assoc. reflexivity.
Qed.

(** ** FTS4 words *)
Definition fts_byteb (b : byte) : bool :=
  let n := b2n b in ((128 <=? n) || (48 <=? n) && (n <=? 57) || (65 <=? n) && (n <=? 90) || (97 <=? n) && (n <=? 122))%N.
Lemma fts_byteb_ok b : fts_byteb b = true <-> fts_byte b.
Proof. unfold fts_byteb, fts_byte. lia. Qed.
Lemma space_separates : ~ fts_byte x20.
Proof. unfold fts_byte. intros H. vm_compute in H. destruct H as [H|[[H _]|[[H _]|[H _]]]]; apply H; reflexivity. Qed.
Lemma high_fts q : no_ascii q -> Forall fts_byte q.
Proof. intros H. eapply Forall_impl; [|exact H]. intros b Hb. left. exact Hb. Qed.

(** A word without separators in a text made of two texts and a separator. *)
Lemma fts_word_split s1 x s2 w : w <> [] -> Forall fts_byte w -> ~ fts_byte x ->
  (fts_word (s1 ++ x :: s2) w <-> fts_word s1 w \/ fts_word s2 w).
Proof.
  intros Hw Hf Hx. split.
  - intros (a & b & E & Ha & Hb).
    assert (C : (exists l, s1 = a ++ w ++ l /\ b = l ++ x :: s2) \/ (exists l, a = s1 ++ x :: l /\ s2 = l ++ w ++ b)).
    { clear Ha Hb. revert s1 E. induction a as [|c a IH]; intros s1 E; cbn [app] in E.
      - left. revert s1 E. induction w as [|d w IHw]; intros s1 E; [congruence|]. inversion Hf as [|? ? Hd Hf']; subst. destruct s1 as [|e s1]; cbn [app] in E.
        + injection E as E1 E2. subst. contradiction.
        + injection E as E1 E2. subst e. destruct w as [|d' w'].
          * exists s1. split; [reflexivity|]. symmetry. exact E2.
          * destruct (IHw) with (s1 := s1) as (l & -> & El); [discriminate|exact Hf'|exact E2|]. exists l. split; [reflexivity|exact El].
      - destruct s1 as [|e s1]; cbn [app] in E; injection E as E1 E2.
        + right. subst. exists a. split; reflexivity.
        + subst e. destruct (IH s1 E2) as [(l & -> & El)|(l & -> & El)]; [left|right]; exists l; split; try reflexivity; exact El. }
    destruct C as [(l & -> & ->)|(l & -> & ->)].
    + left. exists a, l. split; [reflexivity|]. split; [exact Ha|]. destruct l as [|y l]; [left; reflexivity|]. right.
      destruct Hb as [Hb|(z & b' & Hb & Hz)]; [discriminate|]. cbn [app] in Hb. injection Hb as <- <-. eauto.
    + right. exists l, b. split; [reflexivity|]. split; [|exact Hb]. destruct l as [|y l] using rev_ind; [left; reflexivity|]. right. clear IHl.
      destruct Ha as [Ha|(a' & z & Ha & Hz)]; [destruct s1; discriminate|].
      replace (s1 ++ x :: l ++ [y]) with ((s1 ++ x :: l) ++ [y]) in Ha by (rewrite <- app_assoc; reflexivity).
      apply app_inj_tail in Ha. destruct Ha as [_ <-]. eauto.
  - intros [(a & b & -> & Ha & Hb)|(a & b & -> & Ha & Hb)].
    + exists a, (b ++ x :: s2). rewrite <- !app_assoc. split; [reflexivity|]. split; [exact Ha|]. right. destruct b as [|y b].
      * exists x, s2. auto.
      * destruct Hb as [Hb|(z & b' & [= <- <-] & Hz)]; [discriminate|]. exists y, (b ++ x :: s2). auto.
    + exists (s1 ++ x :: a), b. rewrite <- !app_assoc. split; [reflexivity|]. split; [|exact Hb]. right. destruct a as [|y a] using rev_ind.
      * exists s1, x. auto.
      * clear IHa. destruct Ha as [Ha|(a' & z & Ha & Hz)]; [destruct a; discriminate|]. apply app_inj_tail in Ha. destruct Ha as [<- <-].
        exists (s1 ++ x :: a), y. split; [rewrite <- app_assoc; reflexivity|exact Hz].
Qed.
Lemma fts_word_join w l : w <> [] -> Forall fts_byte w -> (fts_word (join (s2b " ") l) w <-> exists x, In x l /\ fts_word x w).
Proof.
  intros Hw Hf. induction l as [|a l IH].
  - split; [|intros (x & [] & _)]. intros (p & q & E & _). cbn in E. destruct p, w; try discriminate; congruence.
  - destruct l as [|b l].
    + cbn [join]. split; [intros H; exists a; split; [left; reflexivity|exact H]|intros (x & [<-|[]] & H); exact H].
    + change (join (s2b " ") (a :: b :: l)) with (a ++ x20 :: join (s2b " ") (b :: l)).
      rewrite (fts_word_split a (join (s2b " ") (b :: l)) Hw Hf space_separates), IH. split.
      * intros [H|(x & Hx & H)]; [exists a; split; [left; reflexivity|exact H]|exists x; split; [right; exact Hx|exact H]].
      * intros (x & [<-|Hx] & H); [left; exact H|right; exists x; auto].
Qed.
(** A text of word bytes is its only word. *)
Lemma fts_word_whole s w : w <> [] -> Forall fts_byte s -> (fts_word s w <-> s = w).
Proof.
  intros Hw Hs. split.
  - intros (a & b & -> & Ha & Hb). rewrite !Forall_app in Hs. destruct Hs as (H1 & _ & H2).
    destruct Ha as [->|(a' & x & -> & Hx)]; [|rewrite Forall_app in H1; destruct H1 as [_ H1]; inversion H1; contradiction].
    destruct Hb as [->|(x & b' & -> & Hx)]; [|inversion H2; contradiction]. cbn. rewrite app_nil_r. reflexivity.
  - intros ->. exists [], []. rewrite app_nil_r. auto.
Qed.

Lemma compact_cons x y l : compact (x :: y :: l) = if bytes_eqb x y then compact (y :: l) else x :: compact (y :: l).
Proof. reflexivity. Qed.
Lemma compact_In x l : In x (compact l) <-> In x l.
Proof.
  induction l as [|a [|b l] IH]; [reflexivity|reflexivity|]. rewrite compact_cons. destruct (bytes_eqb a b) eqn:E.
  - apply bytes_eqb_eq in E. subst b. rewrite IH. cbn [In]. tauto.
  - cbn [In] in *. rewrite IH. reflexivity.
Qed.
Lemma compact_head a l : exists r, compact (a :: l) = a :: r.
Proof.
  revert a. induction l as [|b l IH]; intros a; [exists []; reflexivity|]. rewrite compact_cons. destruct (bytes_eqb a b) eqn:E; [|eauto].
  apply bytes_eqb_eq in E. subst b. apply IH.
Qed.
Theorem compact_adjacent l p x y q : compact l = p ++ x :: y :: q -> x <> y.
Proof.
  revert p. induction l as [|a [|b l] IH]; intros p.
  - destruct p; discriminate.
  - cbn. destruct p as [|? p]; [discriminate|]. cbn. intros [= -> E]. destruct p; discriminate.
  - rewrite compact_cons. destruct (bytes_eqb a b) eqn:E; [apply IH|]. destruct p as [|? p]; cbn [app].
    + destruct (compact_head b l) as (r & ->). intros [= -> -> ->] ->. assert (bytes_eqb y y = true) by (apply bytes_eqb_eq; reflexivity). congruence.
    + intros [= -> E']. exact (IH _ E').
Qed.

(** ** db_search *)
Definition from (k : nat) (lines : list bytes) : list (Z * bytes) := combine (map Z.of_nat (seq k (length lines))) lines.
Lemma from_cons k a l : from k (a :: l) = (Z.of_nat k, a) :: from (S k) l.
Proof. reflexivity. Qed.
Lemma from_find k l nl c : (forall r, In r c -> fst r < Z.of_nat k) -> In nl (from k l) ->
  find (fun r => fst r =? fst nl) (c ++ from k l) = Some nl.
Proof.
  intros Hc Hin. induction c as [|r c IH]; cbn [app find].
  - clear Hc. revert k Hin. induction l as [|a l IH]; intros k; [intros []|]. rewrite from_cons. cbn [find fst].
    intros [<-|Hin]; [cbn [fst]; rewrite Z.eqb_refl; reflexivity|].
    destruct (Z.eqb_spec (Z.of_nat k) (fst nl)) as [E|_]; [|exact (IH _ Hin)]. exfalso.
    assert (G : forall l k nl, In nl (from k l) -> Z.of_nat k <= fst nl).
    { clear. induction l as [|a l IH]; intros k nl; [intros []|]. rewrite from_cons. intros [<-|H]; [cbn; lia|]. specialize (IH _ _ H). lia. }
    specialize (G _ _ _ Hin). lia.
  - assert (Hr : fst r < Z.of_nat k) by (apply Hc; left; reflexivity).
    destruct (Z.eqb_spec (fst r) (fst nl)) as [E|_]; [|apply IH; intros x Hx; apply Hc; right; exact Hx]. exfalso.
    assert (G : forall l k nl, In nl (from k l) -> Z.of_nat k <= fst nl).
    { clear. induction l as [|a l IH]; intros k nl; [intros []|]. rewrite from_cons. intros [<-|H]; [cbn; lia|]. specialize (IH _ _ H). lia. }
    specialize (G _ _ _ Hin). lia.
Qed.
Section Db.
Variables (matches : bytes -> bytes -> bool) (ideo : ideographic) (d : dict) (u : option udict) (omit : bool).
Hypothesis Hm : fts4 matches.
Hypothesis Hd : wf_dict d.
Hypothesis Hu : wf_udict u.
Notation t := (Tokenizer d u omit).

Definition segs_of (line : bytes) : list bytes := match wakati ideo t line with Ok ws => ws | _ => [] end.
Lemma wakati_segs line : wakati ideo t line = Ok (segs_of line).
Proof. unfold segs_of. destruct (wakati_ok omit ideo line Hd Hu) as (ts & _ & -> & _). reflexivity. Qed.
Lemma segs_part line w : In w (segs_of line) -> w <> [] /\ exists a b, line = a ++ w ++ b.
Proof.
  destruct (wakati_ok omit ideo line Hd Hu) as (ts & E & Ew & Hne & _). unfold segs_of. rewrite Ew. intros Hin. split; [exact (Hne _ Hin)|].
  apply in_map_iff in Hin. destruct Hin as (tk & <- & Hin). apply filter_In in Hin. destruct Hin as [Hin Hk]. apply negb_true_iff in Hk.
  destruct (@analyze_offsets d u Hd Hu ideo omit line mode_normal) as (ts' & E' & _ & H). unfold tokenize in E. rewrite E in E'. injection E' as <-.
  destruct (H tk Hin) as (_ & _ & _ & K). destruct (K Hk) as [S _]; [left; discriminate|]. revert S. unfold slice.
  destruct (_ && _); [|discriminate]. intros [= S].
  exists (firstn (t_position tk) line), (skipn (length (t_surface tk)) (skipn (t_position tk) line)).
  replace (t_position tk + length (t_surface tk) - t_position tk)%nat with (length (t_surface tk)) in S by lia.
  rewrite <- S at 1. rewrite firstn_skipn, firstn_skipn. reflexivity.
Qed.

Definition indexed (nl : Z * bytes) : Z * bytes := (fst nl, search_text (segs_of (snd nl))).
Lemma fill_ok lines : forall c f, fill ideo t (Db c f) lines =
  Ok (Db (c ++ from (S (length c)) lines) (f ++ map indexed (from (S (length c)) lines))).
Proof.
  induction lines as [|a l IH]; intros c f; [cbn; rewrite !app_nil_r; reflexivity|]. rewrite from_cons. cbn [fill insert_content db_contents db_fts].
  unfold insert_search_token. rewrite wakati_segs. cbn [rbind db_contents db_fts]. rewrite IH, app_length. cbn [length map].
  replace (length c + 1)%nat with (S (length c)) by lia. replace (Z.of_nat (length c) + 1) with (Z.of_nat (S (length c))) by lia.
  rewrite <- !app_assoc. reflexivity.
Qed.

Lemma index_used q line : q <> [] -> no_ascii q -> ~ In x00 line -> (matches q (search_text (segs_of line)) = true <-> used_in ideo t q line).
Proof.
  intros Hq Ha Hl. assert (Hn : ~ In x00 (search_text (segs_of line))).
  { unfold search_text. assert (G : forall l, (forall w, In w l -> ~ In x00 w) -> ~ In x00 (join (s2b " ") l)).
    { induction l as [|a [|b l] IH]; intros H; [intros []|apply H; left; reflexivity|].
      change (join (s2b " ") (a :: b :: l)) with (a ++ x20 :: join (s2b " ") (b :: l)). intros K. apply in_app_iff in K. destruct K as [K|[K|K]]; [|discriminate K|].
      - exact (H a (or_introl eq_refl) K).
      - revert K. apply IH. intros w Hw. apply H. right. exact Hw. }
    apply G. intros w Hw K. rewrite compact_In in Hw. destruct (segs_part Hw) as (_ & a & b & ->). apply Hl. rewrite !in_app_iff. auto. }
  rewrite (Hm Hq Ha Hn). unfold search_text. rewrite (fts_word_join _ Hq (high_fts Ha)). unfold used_in. split.
  - intros (x & Hx & H). rewrite compact_In in Hx. exists (segs_of line), x. split; [apply wakati_segs|]. auto.
  - intros (ws & w & E & Hin & H). rewrite wakati_segs in E. injection E as <-. exists w. split; [apply compact_In; exact Hin|exact H].
Qed.
(** For lines without ASCII characters. *)
Theorem used_whole q line : q <> [] -> no_ascii line -> (used_in ideo t q line <-> exists ws, wakati ideo t line = Ok ws /\ In q ws).
Proof.
  intros Hq Hl. assert (G : forall w, In w (segs_of line) -> fts_word w q <-> w = q).
  { intros w Hw. destruct (segs_part Hw) as (_ & a & b & E). apply fts_word_whole; [exact Hq|]. apply high_fts. unfold no_ascii in *. rewrite E, !Forall_app in Hl. tauto. }
  split.
  - intros (ws & w & E & Hin & H). exists ws. split; [exact E|]. rewrite wakati_segs in E. injection E as <-. rewrite (G w Hin) in H. subst. exact Hin.
  - intros (ws & E & Hin). exists ws, q. split; [exact E|]. split; [exact Hin|]. rewrite wakati_segs in E. injection E as <-. apply (G q Hin). reflexivity.
Qed.

Definition found_line (nl : Z * bytes) : bytes := s2b "  Found content: " ++ snd nl ++ s2b " at line: " ++ itoa (fst nl) ++ [x0a].
Lemma print_found_ok lines f sel : (forall nl, In nl sel -> In nl (numbered lines)) ->
  print_found (Db (numbered lines) f) (map fst sel) = (concat (map found_line sel), false).
Proof.
  induction sel as [|nl sel IH]; intros H; [reflexivity|]. cbn [map print_found concat].
  unfold retrieve_content. cbn [db_contents]. rewrite (@from_find 1 lines nl [] ltac:(intros ? []) (H nl (or_introl eq_refl)) : find _ (numbered lines) = _).
  cbn [option_map]. rewrite IH by (intros x Hx; apply H; right; exact Hx). unfold found_line. rewrite <- !app_assoc. reflexivity.
Qed.
Lemma picked_filter A (P : A -> Prop) (f : A -> bool) l : (forall a, In a l -> (f a = true <-> P a)) -> picked P l (filter f l).
Proof.
  induction l as [|a l IH]; intros H; cbn [filter]; [constructor|]. assert (Ha := H a (or_introl eq_refl)).
  destruct (f a) eqn:E; constructor; try (apply IH; intros x Hx; apply H; right; exact Hx); [tauto|]. intros K. apply Ha in K. discriminate.
Qed.
Theorem db_search_ok lines words : Forall (fun line => ~ In x00 line) lines -> Forall (fun q => q <> [] /\ no_ascii q) words ->
  exists founds, Forall2 (fun q found => picked (fun nl => used_in ideo t q (snd nl)) (numbered lines) found) words founds /\
    db_search matches ideo t lines words = Ok (concat (map (fun qf => answer (fst qf) (snd qf)) (combine words founds)), false).
Proof.
  intros Hl Hw. unfold db_search. rewrite fill_ok. cbn [rbind app length]. change (from 1 lines) with (numbered lines).
  set (f := map indexed (numbered lines)).
  assert (Hn : forall nl, In nl (numbered lines) -> ~ In x00 (snd nl)).
  { intros [n l] H. apply in_combine_r in H. rewrite Forall_forall in Hl. exact (Hl _ H). }
  induction Hw as [|q words [Hq Ha] _ IH]; [exists []; split; [constructor|reflexivity]|].
  destruct IH as (founds & F & E). cbn [search_words].
  set (sel := filter (fun nl => matches q (search_text (segs_of (snd nl)))) (numbered lines)).
  assert (Hsel : search_fts4 matches (Db (numbered lines) f) q = map fst sel).
  { unfold search_fts4, sel, f. cbn [db_fts]. clear. induction (numbered lines) as [|nl l IHl]; [reflexivity|]. cbn [map filter]. cbn [indexed snd fst].
    destruct (matches q _); cbn [map]; rewrite IHl; reflexivity. }
  rewrite Hsel. exists (sel :: founds). split.
  - constructor; [|exact F]. apply picked_filter. intros nl Hin. apply (index_used Hq Ha (Hn nl Hin)).
  - assert (Hp : (match map fst sel with [] => (print_line (s2b "  No results found"), false) | _ :: _ => print_found (Db (numbered lines) f) (map fst sel) end) =
        (match sel with [] => s2b "  No results found" ++ [x0a] | _ => concat (map found_line sel) end, false)).
    { assert (Hin : forall nl, In nl sel -> In nl (numbered lines)) by (intros nl H; apply filter_In in H; apply H). clearbody sel.
      destruct sel as [|nl sel]; [reflexivity|]. apply (print_found_ok f Hin). }
    rewrite Hp. cbv beta iota. injection E as E. rewrite E. cbn [combine map concat fst snd]. unfold answer, print_line. rewrite <- !app_assoc. reflexivity.
Qed.
End Db.

(** ** The WebAssembly function *)
Lemma omit_no_markers ideo d u s mode ts : analyze ideo (Tokenizer d u true) s mode = Ok ts -> no_markers ts = ts.
Proof.
  rewrite analyze_omit. destruct (analyze ideo (Tokenizer d u false) s mode) as [ts'| |]; try discriminate. intros [= <-]. generalize 0%nat.
  induction ts' as [|tk ts' IH]; intros k; [reflexivity|]. unfold no_markers in *. cbn [filter]. destruct (negb (is_marker tk)) eqn:E; [|apply IH].
  cbn [renumber filter]. replace (is_marker (set_index k tk)) with (is_marker tk) by reflexivity. rewrite E, IH. reflexivity.
Qed.
Lemma class_text text c : text_decoder text -> text (class_string c) = class_string c.
Proof. intros H. rewrite H by (destruct c; vm_compute; reflexivity). destruct c; reflexivity. Qed.
Section Wasm.
Variables (text : bytes -> bytes) (ideo : ideographic) (d : dict) (u : option udict).
Hypothesis Ht : text_decoder text.
Hypothesis Hd : wf_dict d.
Hypothesis Hu : wf_udict u.
Hypothesis Hw : wf_data d.
Notation t := (Tokenizer d u true).

Definition object (td : token_data) : json :=
  JObj [(s2b "word_id", JInt (td_id td)); (s2b "word_type", JStr (td_class td));
        (s2b "word_position", JInt (Z.of_nat (td_start td))); (s2b "surface_form", JStr (text (td_surface td)));
        (s2b "pos", JStr (text (separated (s2b ",") (strings_list (td_pos td)))));
        (s2b "base_form", JStr (text (td_base_form td))); (s2b "reading", JStr (text (td_reading td))); (s2b "pronunciation", JStr (text (td_pronunciation td)))].
Lemma wasm_token_ok tk : wf_data (t_dict tk) -> good_token tk ->
  exists td, new_token_data tk = Ok td /\ wasm_token text tk = Ok (object td) /\ object_of text tk (object td) /\ td_surface td = t_surface tk.
Proof.
  intros W G. eexists. split; [exact (token_data_ok W G)|]. unfold wasm_token, base_form, reading, pronunciation. rewrite (token_pos_ok W G), !(pickup_ok W G). cbn [rbind].
  split; [|split; [|reflexivity]].
  - unfold object. cbn [td_id td_class td_start td_surface td_pos td_base_form td_reading td_pronunciation].
    rewrite (class_text (t_class tk) Ht), join_separated. destruct (spec_pos _ _ _ _); reflexivity.
  - unfold object_of, object. cbv zeta. cbn [td_id td_class td_start td_surface td_pos td_base_form td_reading td_pronunciation]. intros k v Hin.
    assert (Hs : strings_list (nonnil (spec_pos (t_dict tk) (t_udict tk) (t_class tk) (t_id tk))) = strings_list (spec_pos (t_dict tk) (t_udict tk) (t_class tk) (t_id tk)))
      by (destruct (spec_pos _ _ _ _); reflexivity).
    rewrite Hs. unfold class_string.
    repeat (destruct Hin as [Hin|Hin]; [injection Hin as <- <-; reflexivity|]). destruct Hin.
Qed.
Lemma wasm_tokens_ok ts : (forall tk, In tk ts -> good_token tk /\ t_dict tk = d) ->
  exists tds, Forall2 (fun tk td => new_token_data tk = Ok td) ts tds /\ mapM (wasm_token text) ts = Ok (map object tds) /\
    Forall2 (object_of text) ts (map object tds) /\ map td_surface tds = map t_surface ts.
Proof.
  induction ts as [|tk ts IH]; intros H; [exists []; repeat split; constructor|].
  destruct IH as (tds & F1 & E1 & F2 & E2); [intros x Hx; apply H; right; exact Hx|]. destruct (H tk (or_introl eq_refl)) as [G Ed].
  destruct (@wasm_token_ok tk) as (td & A & B & C & D); [rewrite Ed; exact Hw|exact G|]. exists (td :: tds). cbn [mapM map]. rewrite B. cbn [rbind]. rewrite E1. cbn [rbind].
  split; [constructor; assumption|]. split; [reflexivity|]. split; [constructor; assumption|]. rewrite D, E2. reflexivity.
Qed.
Theorem wasm_run s rest : exists ts tds, analyze ideo t s mode_normal = Ok ts /\ no_markers ts = ts /\
  Forall2 (fun tk td => new_token_data tk = Ok td) ts tds /\ wasm_tokenize text ideo t (s :: rest) = Ok (JArr (map object tds)) /\
  Forall2 (object_of text) ts (map object tds) /\ map td_surface tds = map t_surface ts.
Proof.
  destruct (@analyze_total d u Hd Hu ideo true s mode_normal) as (ts & E).
  destruct (@wasm_tokens_ok ts) as (tds & F1 & E1 & F2 & E2).
  { intros tk Hin. destruct (analyze_good Hd Hu E Hin) as (G & Ed & _). auto. }
  exists ts, tds. split; [exact E|]. split; [exact (omit_no_markers E)|]. split; [exact F1|]. unfold wasm_tokenize, tokenize. rewrite E. cbn [rbind]. rewrite E1. auto.
Qed.
Theorem wasm_objects s rest : exists ts objs, analyze ideo t s mode_normal = Ok ts /\ no_markers ts = ts /\
  wasm_tokenize text ideo t (s :: rest) = Ok (JArr objs) /\ Forall2 (object_of text) ts objs.
Proof.
  destruct (wasm_run s rest) as (ts & tds & A & B & _ & C & D & _). exists ts, (map object tds). auto.
Qed.

Lemma valid_text inp i j : valid_utf8 inp = true -> valid_utf8 (SpecTok.text inp i j) = true.
Proof.
  intros V. unfold SpecTok.text. apply valid_concat. apply Forall_forall. intros raw Hin. apply in_map_iff in Hin. destruct Hin as ((c & raw') & E & Hin). cbn [snd] in E. subst raw'.
  assert (Hg : In (c, raw) (segs inp)).
  { rewrite <- (firstn_skipn i (segs inp)). apply in_app_iff. right. rewrite <- (firstn_skipn (j - i) (skipn i (segs inp))). apply in_app_iff. left. exact Hin. }
  pose proof (segs_good inp) as G. rewrite Forall_forall in G. destruct (G _ Hg) as [G1 G2]. cbn [fst snd] in *.
  apply (valid_seg G1 G2). intros [E1 E2]. unfold valid_utf8 in V. rewrite forallb_forall in V. specialize (V _ Hg). unfold seg_ok in V. cbn [fst snd] in V. rewrite E1, E2 in V. discriminate V.
Qed.
Theorem wasm_text s rest : valid_utf8 s = true -> no_loss d u s mode_normal -> fffd_ok d s ->
  (forall a b, s <> a ++ [xef; xbb; xbf] ++ b) ->
  exists objs forms, wasm_tokenize text ideo t (s :: rest) = Ok (JArr objs) /\
    Forall2 (fun o f => js_member (s2b "surface_form") o = Ok (Some (JStr f))) objs forms /\ concat forms = s.
Proof.
  intros V L F B. destruct (wasm_run s rest) as (ts & tds & E & Em & _ & Ew & _ & Es). exists (map object tds), (map (fun td => text (td_surface td)) tds).
  split; [exact Ew|]. split.
  - clear. induction tds as [|td tds IH]; constructor; [reflexivity|exact IH].
  - destruct (wakati_ok true ideo s Hd Hu) as (ts' & E' & _ & _ & C). unfold tokenize in E'. rewrite E in E'. injection E' as <-. rewrite Em in C.
    destruct (@analyze_offsets d u Hd Hu ideo true s mode_normal) as (ts' & E' & _ & H). rewrite E in E'. injection E' as <-.
    rewrite <- (C L F). f_equal. rewrite <- Es. rewrite <- (map_map td_surface text). rewrite Es.
    rewrite <- (map_id (map t_surface ts)) at 2. apply map_ext_in. intros w Hin. apply in_map_iff in Hin. destruct Hin as (tk & <- & Hin).
    destruct (H tk Hin) as (R & Ep & _ & K). assert (Hk : is_marker tk = false).
    { rewrite <- Em in Hin. apply filter_In in Hin. apply negb_true_iff. apply Hin. }
    destruct (K Hk) as [S Eo]; [left; discriminate|]. rewrite (Eo (or_introl F)), Ep, slice_text in S by lia. injection S as S.
    rewrite Ht by (rewrite <- S; apply valid_text; exact V).
    destruct (@segs_part ideo d u true Hd Hu s (t_surface tk)) as (_ & a & b & Eb).
    { unfold segs_of. destruct (wakati_ok true ideo s Hd Hu) as (ts' & E' & -> & _). unfold tokenize in E'. rewrite E in E'. injection E' as <-. apply in_map. rewrite Em. exact Hin. }
    destruct (t_surface tk) as [|x w]; [reflexivity|]. destruct x; try reflexivity. destruct w as [|x w]; [reflexivity|]. destruct x; try reflexivity.
    destruct w as [|x w]; [reflexivity|]. destruct x; try reflexivity. exfalso. exact (B a (w ++ b) Eb).
Qed.

(** ** The page of the WebAssembly example *)
Definition row_html (cs : list bytes) : bytes := s2b "<tr>" ++ concat (map (fun c => s2b "<td>" ++ c ++ s2b "</td>") cs) ++ s2b "</tr>".
Lemma row_html_shows cs : length cs = 5%nat -> Forall harmless cs -> shows_cells cs (row_html cs).
Proof.
  intros L H. exists ([Open (s2b "tr") []] ++ concat (map e_cell cs) ++ [Close (s2b "tr")]).
  split; [|split].
  - apply (@PageFacts.read_then _ _ _ (Txt Elements) _ [Open (s2b "tr") []]); [reflexivity|]. apply (PageFacts.read_then (read_cells H)). reflexivity.
  - rewrite !PageFacts.tags_app, tags_cells, L. reflexivity.
  - unfold rows. cbn [app rows_from]. change (is_cell (s2b "tr")) with false. change (bytes_eqb (s2b "tr") (s2b "tr")) with true. cbv iota.
    rewrite rows_cells. reflexivity.
Qed.
Lemma wasm_row_ok td : wasm_row (object td) = Ok (row_html (plain_cells text td)).
Proof.
  unfold row_html, plain_cells. cbn [map concat]. rewrite app_nil_r, <- !app_assoc. reflexivity.
Qed.
Lemma wasm_rows_ok tds : forall tb, wasm_rows (map object tds) tb = tb ++ map (fun td => row_html (plain_cells text td)) tds.
Proof.
  induction tds as [|td tds IH]; intros tb; cbn [map wasm_rows]; [rewrite app_nil_r; reflexivity|]. rewrite wasm_row_ok, IH, <- app_assoc. reflexivity.
Qed.
Lemma input_ok s tx tb : exists table, wasm_input text ideo t s (Page true tx tb) = Page true s table /\ shows_plain text ideo t s table.
Proof.
  destruct (wasm_run s []) as (ts & tds & E & Em & F & Ew & _). unfold wasm_input. cbn [pg_ready]. rewrite Ew.
  exists (wasm_rows (map object tds) []). split; [reflexivity|]. rewrite wasm_rows_ok. exists tds. split.
  - exists mode_normal, ts. split; [apply rm_normal; discriminate|]. split; [exact E|]. rewrite Em. exact F.
  - clear. cbn [app]. induction tds as [|td tds IH]; constructor; [|exact IH]. intros H. apply row_html_shows; [reflexivity|exact H].
Qed.
Definition shown (pg : page) : Prop := pg_ready pg = true /\ shows_plain text ideo t (pg_text pg) (pg_table pg).
Lemma shown_step pg pg' : page_step text ideo t pg pg' -> shown pg -> shown pg'.
Proof.
  intros [s tb|[r tx tb] s V] [H1 H2]; [discriminate|]. cbn in H1. subst r. destruct (input_ok s tx tb) as (table & -> & H). split; [reflexivity|exact H].
Qed.
Theorem page_shows st s st' : pg_ready st = true -> valid_utf8 s = true -> many (page_step text ideo t) (wasm_input text ideo t s st) st' ->
  shows_plain text ideo t (pg_text st') (pg_table st').
Proof.
  intros R V M. assert (G : shown (wasm_input text ideo t s st)).
  { destruct st as [r tx tb]. cbn in R. subst r. destruct (input_ok s tx tb) as (table & -> & H). split; [reflexivity|exact H]. }
  clear R V. induction M as [|a b c S M IH]; [apply G|]. apply IH. exact (shown_step S G).
Qed.
End Wasm.

(** ** What is put into the index *)
Theorem index_kept ideo t s id line s' : insert_search_token ideo t s id line = Ok s' ->
  exists ws kept, wakati ideo t line = Ok ws /\ db_contents s' = db_contents s /\ db_fts s' = db_fts s ++ [(id, separated (s2b " ") kept)] /\
    (forall w, In w kept <-> In w ws) /\ forall p x y q, kept = p ++ x :: y :: q -> x <> y.
Proof.
  unfold insert_search_token. destruct (wakati ideo t line) as [ws| |]; cbn [rbind]; try discriminate. intros [= <-]. exists ws, (compact ws).
  split; [reflexivity|]. split; [reflexivity|]. cbn [db_fts]. unfold search_text. rewrite join_separated. split; [reflexivity|]. split; [intros w; apply compact_In|].
  intros p x y q. apply compact_adjacent.
Qed.

(** ** The small programs *)
Section Small.
Variables (ideo : ideographic) (d : dict) (u : option udict).
Hypothesis Hd : wf_dict d.
Hypothesis Hu : wf_udict u.
Hypothesis Hw : wf_data d.
Notation t := (Tokenizer d u true).
Lemma lines_ok (f : token -> strings -> bytes) ts : (forall tk, In tk ts -> good_token tk /\ t_dict tk = d) ->
  mapM (fun v => let* fs := features v in Ok (f v fs)) ts =
  Ok (map (fun v => f v (spec_features (t_dict v) (t_udict v) (t_class v) (t_id v))) ts).
Proof.
  induction ts as [|tk ts IH]; intros H; [reflexivity|]. cbn [mapM map]. destruct (H tk (or_introl eq_refl)) as [G Ed].
  assert (W : wf_data (t_dict tk)) by (rewrite Ed; exact Hw). rewrite (features_ok W G). cbn [rbind]. rewrite IH; [reflexivity|]. intros x Hx. apply H. right. exact Hx.
Qed.
Theorem sample_tokenize_ok s : exists ts, analyze ideo t s mode_normal = Ok ts /\ no_markers ts = ts /\
  sample_tokenize ideo t s = Ok (s2b "---tokenize---" ++ [x0a] ++
    concat (map (fun tk => t_surface tk ++ [x09] ++ separated (s2b ",") (features_of tk) ++ [x0a]) ts)).
Proof.
  destruct (@analyze_total d u Hd Hu ideo true s mode_normal) as (ts & E). exists ts. split; [exact E|]. split; [exact (omit_no_markers E)|].
  unfold sample_tokenize, tokenize. rewrite E. cbn [rbind]. rewrite (@lines_ok (fun v fs => t_surface v ++ [x09] ++ join (s2b ",") (strings_list fs) ++ [x0a])).
  - cbn [rbind]. unfold print_line. rewrite <- app_assoc. do 4 f_equal. apply map_ext. intros tk. rewrite join_separated. reflexivity.
  - intros tk Hin. destruct (analyze_good Hd Hu E Hin) as (G & Ed & _). auto.
Qed.
Theorem sample_user_dict_ok s : exists ts, analyze ideo t s mode_search = Ok ts /\ no_markers ts = ts /\
  sample_user_dict ideo t s = Ok (concat (map (fun tk => t_surface tk ++ [x09] ++ s2b "[" ++ separated (s2b " ") (features_of tk) ++ s2b "]" ++ [x0a]) ts)).
Proof.
  destruct (@analyze_total d u Hd Hu ideo true s mode_search) as (ts & E). exists ts. split; [exact E|]. split; [exact (omit_no_markers E)|].
  unfold sample_user_dict. rewrite E. cbn [rbind]. rewrite (@lines_ok (fun v fs => t_surface v ++ [x09] ++ s2b "[" ++ join (s2b " ") (strings_list fs) ++ s2b "]" ++ [x0a])).
  - cbn [rbind]. do 2 f_equal. apply map_ext. intros tk. rewrite join_separated. reflexivity.
  - intros tk Hin. destruct (analyze_good Hd Hu E Hin) as (G & Ed & _). auto.
Qed.
Lemma no_slashes ws : (forall w, In w ws -> ~ In x2f w) -> filter (fun b => negb (Byte.eqb b x2f)) (separated (s2b "/") ws) = concat ws.
Proof.
  assert (G : forall w, ~ In x2f w -> filter (fun b => negb (Byte.eqb b x2f)) w = w).
  { induction w as [|b w IH]; intros H; [reflexivity|]. cbn [filter]. destruct (Byte.eqb b x2f) eqn:E.
    - apply Byte.byte_dec_bl in E. subst b. exfalso. apply H. left. reflexivity.
    - cbn [negb]. rewrite IH; [reflexivity|]. intros K. apply H. right. exact K. }
  intros H. destruct ws as [|a ws]; [reflexivity|]. cbn [separated concat]. rewrite filter_app, (G a (H a (or_introl eq_refl))). f_equal.
  assert (H' : forall w, In w ws -> ~ In x2f w) by (intros w Hw0; apply H; right; exact Hw0). clear H.
  induction ws as [|b ws IH]; [reflexivity|]. cbn [map concat]. rewrite !filter_app, (G b (H' b (or_introl eq_refl))), IH; [reflexivity|]. intros w Hw0. apply H'. right. exact Hw0.
Qed.
Theorem sample_wakati_ok s : exists ws, wakati ideo t s = Ok ws /\
  sample_wakati ideo t s = Ok (s2b "---wakati---" ++ [x0a] ++ separated (s2b "/") ws ++ [x0a]) /\
  (no_loss d u s mode_normal -> fffd_ok d s -> ~ In x2f s -> filter (fun b => negb (Byte.eqb b x2f)) (separated (s2b "/") ws) = s).
Proof.
  destruct (wakati_ok true ideo s Hd Hu) as (ts & _ & E & _ & C). exists (map t_surface (no_markers ts)). split; [exact E|]. split.
  - unfold sample_wakati. rewrite E. cbn [rbind]. unfold print_line. rewrite join_separated, <- !app_assoc. reflexivity.
  - intros L F N. rewrite no_slashes; [exact (C L F)|]. intros w Hin K. apply N. rewrite <- (C L F). apply in_concat. exists w. auto.
Qed.
End Small.

(** ** A search and a decoder for the examples *)
Fixpoint pieces (cur text : bytes) : list bytes :=
  match text with
  | [] => [cur]
  | b :: r => if fts_byteb b then pieces (cur ++ [b]) r else cur :: pieces [] r
  end.
Definition example_match (q text : bytes) : bool := existsb (bytes_eqb q) (pieces [] text).
Lemma pieces_ok q : q <> [] -> Forall fts_byte q -> forall text cur, Forall fts_byte cur -> (fts_word (cur ++ text) q <-> In q (pieces cur text)).
Proof.
  intros Hq Hf. induction text as [|b r IH]; intros cur Hc; cbn [pieces].
  - rewrite app_nil_r, (fts_word_whole Hq Hc). cbn [In]. tauto.
  - pose proof (fts_byteb_ok b) as B. destruct (fts_byteb b).
    + rewrite <- IH; [rewrite <- app_assoc; reflexivity|]. apply Forall_app. split; [exact Hc|]. constructor; [tauto|constructor].
    + assert (Hb : ~ fts_byte b) by (intros K; apply B in K; discriminate K). rewrite (fts_word_split cur r Hq Hf Hb), (fts_word_whole Hq Hc). cbn [In]. rewrite <- (IH []) by constructor. cbn [app]. reflexivity.
Qed.
Lemma example_match_ok : fts4 example_match.
Proof.
  intros q text Hq Ha _. unfold example_match. rewrite existsb_exists. pose proof (pieces_ok Hq (high_fts Ha) text (Forall_nil _)) as P. cbn [app] in P. rewrite P. split.
  - intros (x & Hin & E). apply bytes_eqb_eq in E. subst x. exact Hin.
  - intros Hin. exists q. split; [exact Hin|]. apply bytes_eqb_eq. reflexivity.
Qed.
Definition drop_mark (s : bytes) : bytes := match s with xef :: xbb :: xbf :: r => r | _ => s end.
Lemma drop_mark_ok : text_decoder drop_mark.
Proof. intros s _. reflexivity. Qed.

(** ** Wrong pages *)
Section WrongPages.
Variable text : bytes -> bytes.
Hypothesis Ht : text_decoder text.
Notation tok := (Tokenizer ex_dict None true).
(** Typed before the program is loaded. *)
Theorem page_early : exists st, many (page_step text ex_ideo tok) page_start st /\ pg_ready st = true /\
  pg_text st = s2b "東" /\ ~ shows_plain text ex_ideo tok (pg_text st) (pg_table st).
Proof.
  exists (Page true (s2b "東") []). split.
  - eapply many_step; [exact (ps_input text ex_ideo tok page_start (s2b "東") eq_refl)|]. eapply many_step; [apply ps_load|]. apply many_refl.
  - split; [reflexivity|]. split; [reflexivity|]. intros (tds & W & F). apply rows_count in F. cbn [length pg_table] in F.
    assert (H : exists tds0, data_of None (s2b "東") = Ok tds0 /\ length tds0 = 1%nat) by (apply run_ex; vm_compute; reflexivity).
    destruct H as (tds0 & H1 & H2). cbn [pg_text] in W. pose proof (word_data_fun W H1) as ->. rewrite H2 in F. discriminate F.
Qed.
Definition tds_of (s : bytes) : res (list token_data) := let* ts := analyze ex_ideo tok s mode_normal in mapM new_token_data ts.
Lemma data_run s (b : list token_data -> bool) : ok_and (tds_of s) b = true ->
  exists tds, wasm_tokenize text ex_ideo tok [s] = Ok (JArr (map (object text) tds)) /\ b tds = true /\ word_data ex_ideo tok s (s2b "Normal") tds.
Proof.
  intros H. unfold ok_and, tds_of in H. destruct (wasm_run ex_ideo Ht wf_ex (I : wf_udict None) wf_ex_data s []) as (ts & tds & E & Em & F & Ew & _).
  rewrite E in H. cbn [rbind] in H. destruct (mapM new_token_data ts) as [tds'| |] eqn:E'; try discriminate H.
  pose proof (datas_fun F E') as ->. exists tds'. split; [exact Ew|]. split; [exact H|]. exists mode_normal, ts. split; [apply rm_normal; discriminate|]. split; [exact E|]. rewrite Em. exact F.
Qed.
(** A text that hides its row. *)
Theorem page_hidden : exists td row, word_data ex_ideo tok (s2b "<!--") (s2b "Normal") [td] /\
  wasm_input text ex_ideo tok (s2b "<!--") (Page true [] []) = Page true (s2b "<!--") [row] /\ ~ shows_cells (plain_cells text td) row.
Proof.
  destruct (@data_run (s2b "<!--") (fun tds => test_eq (map (fun td => (td_surface td, separated (s2b ",") (strings_list (td_pos td)), td_base_form td, td_reading td, td_pronunciation td)) tds)
    [(s2b "<!--", s2b "記号,*", [], [], [])])) as (tds & E & B & W); [vm_compute; reflexivity|].
  apply by_test in B. destruct tds as [|td [|td2 tds]]; try discriminate B. apply (f_equal (hd ([], [], [], [], []))) in B. cbn [map hd] in B.
  injection B as B1 B2 B3 B4 B5.
  exists td, (row_html (plain_cells text td)). split; [exact W|]. split.
  - unfold wasm_input. cbn [pg_ready]. rewrite E. f_equal. exact (wasm_rows_ok text [td] []).
  - intros (evs & R & _). unfold plain_cells in R. rewrite B1, B2, B3, B4, B5 in R. cbn [map] in R. rewrite !Ht in R by (vm_compute; reflexivity).
    unfold reads in R. apply (f_equal fst) in R. vm_compute in R. discriminate R.
Qed.
(** A text that loses its byte order mark. *)
Definition mark : bytes := [xef; xbb; xbf].
Theorem mark_lost : valid_utf8 mark = true /\ exists objs, wasm_tokenize text ex_ideo tok [mark] = Ok (JArr objs) /\
  Forall2 (fun o f => js_member (s2b "surface_form") o = Ok (Some (JStr f))) objs [[]].
Proof.
  split; [reflexivity|].
  destruct (@data_run mark (fun tds => test_eq (map td_surface tds) [mark])) as (tds & E & B & W); [vm_compute; reflexivity|].
  apply by_test in B. destruct tds as [|td [|td2 tds]]; try discriminate B. apply (f_equal (hd [])) in B. cbn [map hd] in B. eexists. split; [exact E|].
  constructor; [|constructor]. change (js_member (s2b "surface_form") (object text td)) with (Ok (Some (JStr (text (td_surface td))))). rewrite B, Ht by reflexivity. reflexivity.
Qed.
End WrongPages.
