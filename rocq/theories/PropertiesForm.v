(** Property theorems: what the form of the demo page sends and what comes back. *)
From Verif Require Import Check Example Utf8Facts SpecFeat ServerFacts SpecPage SpecLive SpecForm Page PageRuns Form FormFacts Live LiveFacts LiveRuns FormRuns.
Open Scope Z_scope.

(** ** C99: the button Lattice shows the analysis of the text in the form. *)
Theorem C99_page : forall decode newer gv addr ideo d u omit s m mode body, wf_dict d -> wf_udict u -> wf_data d -> page_mode m mode ->
  form_body s m body -> (N.of_nat (length body) <= 10485760)%N -> gv_found gv = true -> gv_start gv = None ->
  exists ts g page, analyze ideo (Tokenizer d u false) (form_lines s) mode = Ok ts /\
    graph_text addr ideo (Tokenizer d u omit) (form_lines s) mode = Ok g /\
    submit decode newer gv addr ideo (Tokenizer d u omit) body = Ok (APage page) /\
    match gv_run gv g with
    | inl e => shows page (form_lines s) m [] [message e (s2b "process done with error, " ++ fl_text e)] []
    | inr out => exists rs svg, Forall2 row (no_markers ts) rs /\ from_svg out svg /\
        forall pic, picture svg pic -> shows page (form_lines s) m rs [] pic
    end.
Proof. exact lattice_page. Qed.
Print Assumptions C99_page.
(** A longer body is dropped: the form comes back, empty, and nothing is analysed. *)
Theorem C99_too_long : forall decode newer gv addr ideo t body, (10485760 < N.of_nat (length body))%N ->
  exists page, submit decode newer gv addr ideo t body = Ok (APage page) /\ form_shows page [] (s2b "Normal").
Proof. exact too_long. Qed.
Print Assumptions C99_too_long.

Ltac unres := cbv; intuition discriminate.
Ltac hexa := first [apply hex_0_9; [reflexivity|reflexivity]|apply hex_A_F; [split; [discriminate|reflexivity]|reflexivity]].
Ltac sent := repeat (apply Forall2_cons; [first [apply sb_space|apply sb_self; solve [unres]|apply sb_percent; hexa]|]); apply Forall2_nil.
Definition ex_text : bytes := s2b "東 a" ++ [x0a] ++ s2b "&".
Definition ex_body : bytes := s2b "s=%E6%9D%B1+a%0D%0A%26&r=Search&lattice=Lattice".
Example C99_example_body : form_body ex_text (s2b "Search") ex_body.
Proof.
  exists (s2b "%E6%9D%B1+a%0D%0A%26"), (s2b "Search"). split; [|split; [apply plain_name; repeat (constructor; [unres|]); constructor|reflexivity]].
  exists [s2b "%E6"; s2b "%9D"; s2b "%B1"; s2b "+"; s2b "a"; s2b "%0D"; s2b "%0A"; s2b "%26"]. split; [|reflexivity].
  change (form_lines ex_text) with (s2b "東 a" ++ [x0d; x0a] ++ s2b "&"). cbn [s2b app]. sent.
Qed.
Definition ex_viz : graphviz := Graphviz true None (fun _ => inr (s2b "<?xml ?><svg><text>x &lt; y</text></svg>")).
Definition page_rows (a : res http_answer) : list (list bytes) := match a with Ok (APage page) => rows (snd (read (Txt Elements) page)) | _ => [] end.
Example C99_example : page_mode (s2b "Search") mode_search /\ (N.of_nat (length ex_body) <= 10485760)%N /\
  page_rows (submit (fun _ => inr []) true ex_viz (fun _ => s2b "n") ex_ideo (Tokenizer ex_dict None true) ex_body) =
  [[s2b "Input"; s2b "東 a" ++ [x0d; x0a] ++ s2b "&"]; [s2b "Mode"; s2b "Search"];
   [s2b "Surface"; s2b "Part-of-Speech"; s2b "Base Form"; s2b "Reading"; s2b "Pronunciation"];
   [s2b "東"; s2b "名詞,一般"; s2b "東"; s2b "ヒガシ"; s2b "*"]; [s2b " "; s2b "記号,*"; s2b "*"; s2b "*"; s2b "*"];
   [s2b "a"; s2b "名詞,一般"; s2b "*"; s2b "*"; s2b "*"]; [[x0d; x0a] ++ s2b "&"; s2b "記号,*"; s2b "*"; s2b "*"; s2b "*"]].
Proof. split; [apply pm_search|split; [vm_compute; discriminate|by_eval]]. Qed.
(** A text that is too long *)
Example C99_example_long : exists s body, form_body s (s2b "Normal") body /\ (10485760 < N.of_nat (length body))%N.
Proof.
  exists (repeat x61 (N.to_nat 10485761)). destruct (form_sent (repeat x61 (N.to_nat 10485761)) (s2b "Normal")) as (body & H & L).
  exists body. split; [exact H|]. rewrite repeat_length in L. lia.
Qed.

(** ** C100: the table of the page while one types and that of the button Lattice agree. *)
Theorem C100_same : forall parse decode newer gv addr ideo d u omit s m mode body table,
  wf_dict d -> wf_udict u -> wf_data d -> js_parser parse -> json_decoder decode ->
  valid_utf8 s = true -> ~ In x0a s -> ~ In x0d s -> m = s2b "Normal" /\ mode = mode_normal \/ m = s2b "Search" /\ mode = mode_search ->
  form_body s m body -> (N.of_nat (length body) <= 10485760)%N -> gv_found gv = true -> gv_start gv = None ->
  exists ts tds g page, analyze ideo (Tokenizer d u false) s mode = Ok ts /\
    Forall2 (fun td row => Forall harmless (cells td) -> shows_row td row) tds (receive parse decode newer gv addr ideo (Tokenizer d u omit) (typed_post s m) table) /\
    graph_text addr ideo (Tokenizer d u omit) s mode = Ok g /\ submit decode newer gv addr ideo (Tokenizer d u omit) body = Ok (APage page) /\
    forall out, gv_run gv g = inr out -> exists rs svg, from_svg out svg /\ (forall pic, picture svg pic -> shows page s m rs [] pic) /\
      length tds = length rs /\ length tds = length (no_markers ts) /\
      forall i tk td r, nth_error (no_markers ts) i = Some tk -> nth_error tds i = Some td -> nth_error rs i = Some r -> plain_word tk -> cells td = row_cells r.
Proof. exact both_tables. Qed.
Print Assumptions C100_same.

Definition plain_fieldb (x : bytes) : bool := negb (bytes_eqb x []) && valid_utf8 x && negb (existsb (Byte.eqb x00) x).
Definition plain_value (v : res (bytes * bool)) : bool := match v with Ok (x, true) => plain_fieldb x | _ => true end.
Definition plain_wordb (tk : token) : bool :=
  plain_fieldb (t_surface tk) && match token_pos tk with Ok p => negb (length (strings_list p) =? 0)%nat && forallb plain_fieldb (strings_list p) | _ => true end &&
  plain_value (base_form tk) && plain_value (reading tk) && plain_value (pronunciation tk).
Lemma plain_fieldb_ok x : plain_fieldb x = true -> plain_field x.
Proof.
  unfold plain_fieldb. intros H. apply andb_prop in H. destruct H as [H H3]. apply andb_prop in H. destruct H as [H1 H2]. split; [intros ->; discriminate H1|]. split; [exact H2|].
  intros I. apply Bool.negb_true_iff in H3. assert (existsb (Byte.eqb x00) x = true) as E by (apply existsb_exists; exists x00; split; [exact I|reflexivity]). congruence.
Qed.
Lemma plain_wordb_ok tk : plain_wordb tk = true -> plain_word tk.
Proof.
  unfold plain_wordb. intros H. apply andb_prop in H. destruct H as [H H5]. apply andb_prop in H. destruct H as [H H4]. apply andb_prop in H. destruct H as [H H3]. apply andb_prop in H. destruct H as [H1 H2].
  split; [apply plain_fieldb_ok; exact H1|]. split.
  - intros p E. rewrite E in H2. apply andb_prop in H2. destruct H2 as [H2 F]. split; [intros E'; rewrite E' in H2; discriminate H2|].
    apply Forall_forall. intros x I. apply plain_fieldb_ok. rewrite forallb_forall in F. exact (F x I).
  - intros v [E|[E|E]]; apply plain_fieldb_ok; [rewrite E in H3; exact H3|rewrite E in H4; exact H4|rewrite E in H5; exact H5].
Qed.
Definition live_example := receive example_parse (example_decoder quote_error) true ex_viz (fun _ => s2b "n") ex_ideo (Tokenizer ex_dict None true).
Definition live_rows_of (l : list bytes) : list (list bytes) := concat (map (fun row => rows (snd (read (Txt Elements) row))) l).
Definition submit_example := submit (example_decoder quote_error) true ex_viz (fun _ => s2b "n") ex_ideo (Tokenizer ex_dict None true).
(** The text 東 a: both tables. *)
Example C100_example_plain : exists ts, analyze ex_ideo (Tokenizer ex_dict None false) (s2b "東 a") mode_search = Ok ts /\ Forall plain_word (no_markers ts) /\ length (no_markers ts) = 3%nat.
Proof.
  assert (B : match analyze ex_ideo (Tokenizer ex_dict None false) (s2b "東 a") mode_search with Ok ts => forallb plain_wordb (no_markers ts) && (length (no_markers ts) =? 3)%nat | _ => false end = true) by by_eval.
  destruct (analyze ex_ideo (Tokenizer ex_dict None false) (s2b "東 a") mode_search) as [ts| |]; try discriminate B. exists ts. split; [reflexivity|]. apply andb_prop in B. destruct B as [B C].
  split; [|apply Nat.eqb_eq; exact C]. apply Forall_forall. intros x I. apply plain_wordb_ok. rewrite forallb_forall in B. exact (B x I).
Qed.
Example C100_example : js_parser example_parse /\ json_decoder (example_decoder quote_error) /\
  live_rows_of (live_example (typed_post (s2b "東 a") (s2b "Search")) []) =
    [[s2b "東"; s2b "名詞,一般"; s2b "東"; s2b "ヒガシ"; s2b "*"]; [s2b " "; s2b "記号,*"; s2b "*"; s2b "*"; s2b "*"]; [s2b "a"; s2b "名詞,一般"; s2b "*"; s2b "*"; s2b "*"]] /\
  skipn 3 (page_rows (submit_example (s2b "s=%E6%9D%B1+a&r=Search&lattice=Lattice"))) = live_rows_of (live_example (typed_post (s2b "東 a") (s2b "Search")) []).
Proof. split; [apply example_parse_ok|]. split; [apply example_decoder_ok|]. split; by_eval. Qed.
(** In Extended mode they differ: the page of the lattice uses Search mode. *)
Example C100_example_extended :
  live_rows_of (live_example (typed_post (s2b "ab") (s2b "Extended")) []) = [[s2b "a"; []; s2b "*"; s2b "*"; s2b "*"]; [s2b "b"; []; s2b "*"; s2b "*"; s2b "*"]] /\
  skipn 3 (page_rows (submit_example (s2b "s=ab&r=Extended&lattice=Lattice"))) = [[s2b "ab"; s2b "名詞,一般"; s2b "*"; s2b "*"; s2b "*"]].
Proof. split; by_eval. Qed.

(** ** C101: a mode that is chosen is not taken for the button Lattice. *)
(** Full statement: the answer to what the page posts when a radio button changes is the form.  False: the
    body is JSON, but it is sent with the type of a form, so that a text can contain a form value. *)
Theorem C101_chosen_refuted : ~ forall decode newer gv addr ideo t s m, valid_utf8 s = true -> In m [s2b "Normal"; s2b "Search"; s2b "Extended"] ->
  exists page text mode, radio_answer decode newer gv addr ideo t s m = Ok (APage page) /\ form_shows page text mode.
Proof.
  intros H. destruct (H (fun _ => inr []) true ex_viz (fun _ => s2b "n") ex_ideo (Tokenizer ex_dict None true) (s2b "&lattice=") (s2b "Normal") eq_refl (or_introl eq_refl)) as (page & text & mode & E & evs & R & (x & T & _) & _).
  assert (B : match radio_answer (fun _ => inr []) true ex_viz (fun _ => s2b "n") ex_ideo (Tokenizer ex_dict None true) (s2b "&lattice=") (s2b "Normal") with
    | Ok (APage page) => (length (texts (s2b "textarea") (snd (read (Txt Elements) page))) =? 0)%nat | _ => false end = true) by by_eval.
  rewrite E in B. unfold reads in R. rewrite R in B. cbn [snd] in B. rewrite T in B. discriminate B.
Qed.
Print Assumptions C101_chosen_refuted.
(** Missing: texts with an ampersand. *)
Theorem C101_chosen_partial : forall decode newer gv addr ideo t s m, ~ In x26 s -> ~ In x26 m ->
  exists page, radio_answer decode newer gv addr ideo t s m = Ok (APage page) /\ form_shows page [] (s2b "Normal").
Proof. exact radio_form. Qed.
Print Assumptions C101_chosen_partial.
Example C101_example : radio_post (s2b "東a=%") (s2b "Search") = Post (s2b "/a") (s2b "{""sentence"":""東a=%"",""mode"":""Search""}") /\ ~ In x26 (s2b "東a=%").
Proof. split; [reflexivity|cbv; intuition discriminate]. Qed.
