(** Proofs about the answers of the demo handler. *)
From Verif Require Import Check Example Utf8Facts SpecPage TokFacts AnalyzeFacts DotFacts ServerFacts Page PageFacts.
Set Implicit Arguments.
Unset Strict Implicit.
Open Scope nat_scope.

Lemma page_shows sen m err svg rs evs : picture svg evs ->
  shows (graph_page sen m err svg rs) sen m rs (if bytes_eqb err [] then [] else [err]) (if bytes_eqb svg [] then [] else evs).
Proof.
  intros (Hr & Hq). pose proof (read_page sen m err rs Hr) as H1. pose proof (page_rows sen m err svg rs Hq) as H2. pose proof (page_error sen m err svg rs Hq) as H3.
  unfold shows. unfold e_page, e_svg in *.
  set (pre := ev graph_head ++ shown_text sen ++ ev t_input ++ ev t_mode ++ shown_text m ++ ev graph_table ++ concat (map e_row rs) ++ ev graph_middle ++
                e_error err ++ ev t_nl ++ ev t_pad).
  assert (K : exists a b, ev graph_head ++ shown_text sen ++ ev t_input ++ ev t_mode ++ shown_text m ++ ev graph_table ++ concat (map e_row rs) ++ ev graph_middle ++
                e_error err ++ ev t_nl ++ ev t_pad ++ (if bytes_eqb svg [] then [] else ev t_nl ++ ev t_pad ++ evs ++ ev t_nl ++ ev t_pad) ++ ev graph_tail =
              a ++ (if bytes_eqb svg [] then [] else evs) ++ b).
  { destruct (bytes_eqb svg []).
    - exists pre, (ev graph_tail). unfold pre. rewrite <- !app_assoc. reflexivity.
    - exists (pre ++ ev t_nl ++ ev t_pad), (ev t_nl ++ ev t_pad ++ ev graph_tail). unfold pre. rewrite <- !app_assoc. reflexivity. }
  destruct K as (a & b & K). rewrite K in *. exists a, b. split; [exact H1|]. split; [exact H2|]. change (s2b "strong") with strong. rewrite H3. destruct (bytes_eqb err []); reflexivity.
Qed.
Lemma no_picture : picture [] [].
Proof. split; [reflexivity|intros e []]. Qed.
Lemma error_shows sen m err : err <> [] -> shows (graph_page sen m err [] []) sen m [] [err] [].
Proof.
  intros H. pose proof (page_shows sen m err [] no_picture) as S. cbn in S. destruct (bytes_eqb err []) eqn:E; [apply bytes_eqb_eq in E; contradiction|exact S].
Qed.

Section Root.
Variables (gv : graphviz) (addr : coord -> bytes) (ideo : ideographic).
Lemma lattice_asked (lattice : bytes) : lattice <> [] -> bytes_eqb lattice [] = false.
Proof. intros H. destruct (bytes_eqb lattice []) eqn:E; [apply bytes_eqb_eq in E; contradiction|reflexivity]. Qed.

Theorem root_not_found t sen m lattice : lattice <> [] -> gv_found gv = false ->
  exists page, serve_root gv addr ideo t sen m lattice = Ok page /\
    shows page sen m [] [s2b "Error: circo/graphviz is not installed in your $PATH"] [].
Proof.
  intros Hl Hf. unfold serve_root, analyze_with. rewrite (lattice_asked Hl), Hf. eexists. split; [reflexivity|]. apply error_shows. discriminate.
Qed.
Theorem root_not_started t sen m lattice e : lattice <> [] -> gv_found gv = true -> gv_start gv = Some e ->
  exists page, serve_root gv addr ideo t sen m lattice = Ok page /\
    shows page sen m [] [message e (s2b "process done with error, " ++ fl_text e)] [].
Proof.
  intros Hl Hf Hs. unfold serve_root, analyze_with. rewrite (lattice_asked Hl), Hf, Hs. eexists. split; [reflexivity|]. apply error_shows. discriminate.
Qed.
Theorem root_page d u omit sen m mode lattice : wf_dict d -> wf_udict u -> wf_data d -> page_mode m mode -> lattice <> [] ->
  gv_found gv = true -> gv_start gv = None ->
  exists ts g page, analyze ideo (Tokenizer d u false) sen mode = Ok ts /\
    graph_text addr ideo (Tokenizer d u omit) sen mode = Ok g /\
    serve_root gv addr ideo (Tokenizer d u omit) sen m lattice = Ok page /\
    match gv_run gv g with
    | inl e => shows page sen m [] [message e (s2b "process done with error, " ++ fl_text e)] []
    | inr out => exists rs svg, Forall2 row (no_markers ts) rs /\ from_svg out svg /\
        forall pic, picture svg pic -> shows page sen m rs [] pic
    end.
Proof.
  intros Hd Hu Hw Hm Hl Hf Hs.
  destruct (analyze_total Hd Hu ideo false sen mode) as (ts & E).
  assert (exists g, graph_text addr ideo (Tokenizer d u omit) sen mode = Ok g) as (g & Eg).
  { destruct (c18_closed_lemma omit ideo sen mode Hd Hu Hw) as (ss & Es & _). unfold graph_text. rewrite Es. eexists. reflexivity. }
  destruct (@to_records_ok d u ts Hd Hu Hw) as (rs & Er & HF); [intros tk Hin; exists ideo, false, sen, mode, ts; auto|].
  exists ts, g. unfold serve_root, analyze_with. rewrite (lattice_asked Hl), Hf, Hs, (page_mode_ok Hm), Eg. cbn [rbind].
  rewrite analyze_graph_tokens, E. cbn [rbind]. destruct (gv_run gv g) as [e|out].
  - eexists. split; [reflexivity|]. split; [reflexivity|]. split; [reflexivity|]. apply error_shows. discriminate.
  - rewrite Er. cbn [rbind]. eexists. split; [reflexivity|]. split; [reflexivity|]. split; [reflexivity|].
    exists rs, (svg_part out). split; [exact HF|]. split; [apply svg_part_ok|]. intros pic Hp. pose proof (page_shows sen m [] rs Hp) as S. cbn [bytes_eqb] in S.
    destruct (bytes_eqb (svg_part out) []) eqn:Eb; [|exact S]. apply bytes_eqb_eq in Eb. rewrite Eb in *. destruct Hp as (Hp & _).
    unfold reads in Hp. cbn in Hp. injection Hp as <-. exact S.
Qed.
End Root.

(** ** Tags *)
Theorem tags_fixed sen m err rs sen' m' err' rs' svg pic e e' : reads svg pic -> length rs = length rs' -> (err = [] <-> err' = []) ->
  reads (graph_page sen m err svg rs) e -> reads (graph_page sen' m' err' svg rs') e' -> tags e = tags e'.
Proof.
  intros Hp Hl He H1 H2. pose proof (read_page sen m err rs Hp) as R1. pose proof (read_page sen' m' err' rs' Hp) as R2. unfold reads in *.
  rewrite R1 in H1. rewrite R2 in H2. injection H1 as <-. injection H2 as <-. apply page_tags; assumption.
Qed.

(** ** The form *)
Lemma no_nul_id s : ~ In x00 s -> no_nul s = s.
Proof.
  induction s as [|b s IH]; intros H; [reflexivity|]. unfold no_nul in *. cbn [map concat]. rewrite IH by (intros C; apply H; right; exact C).
  replace (is b 0) with false; [reflexivity|]. symmetry. destruct b; try reflexivity. exfalso. apply H. left. reflexivity.
Qed.
Theorem form_of gv addr ideo t sen radio : serve_root gv addr ideo t sen radio [] = Ok (form_page sen radio) /\
  form_shows (form_page sen radio) (field (no_nul sen)) (radio_value radio).
Proof.
  split; [reflexivity|]. exists (e_form sen radio). split; [apply read_form|]. split; [|apply form_radio].
  exists (no_nul sen). split; [apply form_text|reflexivity].
Qed.
Theorem form_tags_fixed sen sen' radio e e' : reads (form_page sen radio) e -> reads (form_page sen' radio) e' -> tags e = tags e'.
Proof.
  intros H1 H2. pose proof (read_form sen radio) as R1. pose proof (read_form sen' radio) as R2. unfold reads in *.
  rewrite R1 in H1. rewrite R2 in H2. injection H1 as <-. injection H2 as <-. apply form_tags.
Qed.
Lemma form_shows_unique sen radio text mode : form_shows (form_page sen radio) text mode -> text = field (no_nul sen) /\ mode = radio_value radio.
Proof.
  intros (evs & H & (t & Ht & Hf) & Hm). pose proof (read_form sen radio) as R. unfold reads in *. rewrite R in H. injection H as <-.
  change (s2b "textarea") with area in Ht. rewrite form_text in Ht. injection Ht as <-. rewrite form_radio in Hm. injection Hm as <-. auto.
Qed.
Theorem form_mode_lost : ~ forall gv addr ideo t sen radio page, In radio [s2b "Normal"; s2b "Search"; s2b "Extended"] ->
  serve_root gv addr ideo t sen radio [] = Ok page -> exists text, form_shows page text radio.
Proof.
  intros H. destruct (H (Graphviz false None (fun _ => inr [])) (fun _ => []) (fun _ => false) (Tokenizer ex_dict None false) [] (s2b "Search")
    (form_page [] (s2b "Search"))) as (text & S); [right; left; reflexivity|reflexivity|].
  apply form_shows_unique in S. destruct S as (_ & S). vm_compute in S. discriminate S.
Qed.
Theorem form_text_lost : ~ forall gv addr ideo t sen radio page, ~ In x00 sen ->
  serve_root gv addr ideo t sen radio [] = Ok page -> exists mode, form_shows page sen mode.
Proof.
  intros H. destruct (H (Graphviz false None (fun _ => inr [])) (fun _ => []) (fun _ => false) (Tokenizer ex_dict None false) [x0a] []
    (form_page [x0a] [])) as (mode & S); [intros [C|[]]; discriminate C|reflexivity|].
  apply form_shows_unique in S. destruct S as (S & _). vm_compute in S. discriminate S.
Qed.
Theorem form_keeps gv addr ideo t sen radio page : ~ In x00 sen -> (forall r, sen <> x0a :: r) ->
  serve_root gv addr ideo t sen radio [] = Ok page ->
  form_shows page sen (if bytes_eqb radio (s2b "extended") then s2b "Extended" else if bytes_eqb radio (s2b "search") then s2b "Search" else s2b "Normal").
Proof.
  intros H0 Hn E. destruct (form_of gv addr ideo t sen radio) as (E' & S). rewrite E in E'. injection E' as ->. rewrite (no_nul_id H0) in S.
  replace (field sen) with sen in S; [exact S|]. destruct sen as [|b r]; [reflexivity|]. destruct b; try reflexivity. exfalso. exact (Hn r eq_refl).
Qed.
Theorem form_total gv addr ideo t sen radio : exists page, serve_root gv addr ideo t sen radio [] = Ok page /\ exists evs, reads page evs.
Proof. exists (form_page sen radio). split; [reflexivity|]. exists (e_form sen radio). apply read_form. Qed.
