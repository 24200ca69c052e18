(** Property theorems: the demo server's pages as a browser reads them. *)
From Verif Require Import Check Example SpecPage Page PageFacts PageRuns.
Open Scope Z_scope.

(** ** C73 *)
(** With a lattice value and a dot that runs: the rows are those of the words of the analysis, and
    the picture is dot's; if dot fails, its error is shown and no words. *)
Theorem C73_page : forall gv addr ideo d u omit sen m mode lattice, wf_dict d -> wf_udict u -> wf_data d -> page_mode m mode -> lattice <> [] ->
  gv_found gv = true -> gv_start gv = None ->
  exists ts g page, analyze ideo (Tokenizer d u false) sen mode = Ok ts /\
    graph_text addr ideo (Tokenizer d u omit) sen mode = Ok g /\
    serve_root gv addr ideo (Tokenizer d u omit) sen m lattice = Ok page /\
    match gv_run gv g with
    | inl e => shows page sen m [] [message e (s2b "process done with error, " ++ fl_text e)] []
    | inr out => exists rs svg, Forall2 row (no_markers ts) rs /\ from_svg out svg /\
        forall pic, picture svg pic -> shows page sen m rs [] pic
    end.
Proof. exact root_page. Qed.
Print Assumptions C73_page.
Theorem C73_not_found : forall gv addr ideo t sen m lattice, lattice <> [] -> gv_found gv = false ->
  exists page, serve_root gv addr ideo t sen m lattice = Ok page /\
    shows page sen m [] [s2b "Error: circo/graphviz is not installed in your $PATH"] [].
Proof. exact root_not_found. Qed.
Print Assumptions C73_not_found.
Theorem C73_not_started : forall gv addr ideo t sen m lattice e, lattice <> [] -> gv_found gv = true -> gv_start gv = Some e ->
  exists page, serve_root gv addr ideo t sen m lattice = Ok page /\
    shows page sen m [] [message e (s2b "process done with error, " ++ fl_text e)] [].
Proof. exact root_not_started. Qed.
Print Assumptions C73_not_started.
(** What the user sends cannot add tags to the page: they depend on the number of rows, the
    presence of an error and the picture only. *)
Theorem C73_tags : forall sen m err rs sen' m' err' rs' svg pic e e', reads svg pic -> length rs = length rs' -> (err = [] <-> err' = []) ->
  reads (graph_page sen m err svg rs) e -> reads (graph_page sen' m' err' svg rs') e' -> tags e = tags e'.
Proof. exact tags_fixed. Qed.
Print Assumptions C73_tags.

Definition ex_gv : graphviz := Graphviz true None (fun g => if (length g <? 5)%nat then inl (Failure [] true) else inr (s2b "<?xml ?><svg><text>x &lt; y</text></svg>")).
Definition ex_picture : list event :=
  [Open (s2b "svg") []; Open (s2b "text") []] ++ map Ch (s2b "x < y") ++ [Close (s2b "text"); Close (s2b "svg")].
Example C73_example : picture (s2b "<svg><text>x &lt; y</text></svg>") ex_picture /\
  exists page, serve_root ex_gv (fun _ => s2b "n") ex_ideo (Tokenizer ex_dict None true) (s2b "東</td>&lt;") (s2b "Search") (s2b "1") = Ok page /\
    rows (snd (read (Txt Elements) page)) =
    [[s2b "Input"; s2b "東</td>&lt;"]; [s2b "Mode"; s2b "Search"];
     [s2b "Surface"; s2b "Part-of-Speech"; s2b "Base Form"; s2b "Reading"; s2b "Pronunciation"];
     [s2b "東"; s2b "名詞,一般"; s2b "東"; s2b "ヒガシ"; s2b "*"];
     [s2b "</"; s2b "記号,*"; s2b "*"; s2b "*"; s2b "*"];
     [s2b "td"; s2b "名詞,一般"; s2b "*"; s2b "*"; s2b "*"];
     [s2b ">&"; s2b "記号,*"; s2b "*"; s2b "*"; s2b "*"];
     [s2b "lt"; s2b "名詞,一般"; s2b "*"; s2b "*"; s2b "*"];
     [s2b ";"; s2b "記号,*"; s2b "*"; s2b "*"; s2b "*"]].
Proof.
  split.
  - split; [vm_compute; reflexivity|]. intros e H. cbn in H. intuition subst; cbn; try exact I; (split; [reflexivity|split; discriminate]).
  - apply run_ex. vm_compute. reflexivity.
Qed.

(** ** C74 *)
(** Without a lattice value the page is the form.  Full statement: it shows the text and the mode
    that were sent.  Both are false: the template compares the mode with other names than the
    form sends, and a browser drops a line feed at the start of a text area. *)
Theorem C74_mode_refuted : ~ forall gv addr ideo t sen radio page, In radio [s2b "Normal"; s2b "Search"; s2b "Extended"] ->
  serve_root gv addr ideo t sen radio [] = Ok page -> exists text, form_shows page text radio.
Proof. exact form_mode_lost. Qed.
Print Assumptions C74_mode_refuted.
Theorem C74_text_refuted : ~ forall gv addr ideo t sen radio page, ~ In x00 sen ->
  serve_root gv addr ideo t sen radio [] = Ok page -> exists mode, form_shows page sen mode.
Proof. exact form_text_lost. Qed.
Print Assumptions C74_text_refuted.
(** Missing: texts with NUL or a line feed at the start; the modes as the form sends them. *)
Theorem C74_form_partial : forall gv addr ideo t sen radio page, ~ In x00 sen -> (forall r, sen <> x0a :: r) ->
  serve_root gv addr ideo t sen radio [] = Ok page ->
  form_shows page sen (if bytes_eqb radio (s2b "extended") then s2b "Extended" else if bytes_eqb radio (s2b "search") then s2b "Search" else s2b "Normal").
Proof. exact form_keeps. Qed.
Print Assumptions C74_form_partial.
Theorem C74_total_partial : forall gv addr ideo t sen radio, exists page, serve_root gv addr ideo t sen radio [] = Ok page /\ exists evs, reads page evs.
Proof. exact form_total. Qed.
Print Assumptions C74_total_partial.
Theorem C74_tags_partial : forall sen sen' radio e e', reads (form_page sen radio) e -> reads (form_page sen' radio) e' -> tags e = tags e'.
Proof. exact form_tags_fixed. Qed.
Print Assumptions C74_tags_partial.
Example C74_example : ~ In x00 (s2b "<b>&amp;") /\ (forall r, s2b "<b>&amp;" <> x0a :: r) /\
  texts (s2b "textarea") (snd (read (Txt Elements) (form_page (s2b "<b>&amp;") (s2b "search")))) = [s2b "<b>&amp;"] /\
  radio_on (s2b "r") None (snd (read (Txt Elements) (form_page (s2b "<b>&amp;") (s2b "search")))) = Some (s2b "Search").
Proof.
  split; [cbn; intuition discriminate|]. split; [discriminate|]. split; by_eval.
Qed.
