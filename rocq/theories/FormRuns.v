(** Proofs about the form of the demo page and its answer. *)
From Coq Require Import Lia ZifyBool ZifyN.
From Verif Require Import Check Example Utf8Facts SpecPage SpecLive SpecForm TokFacts AnalyzeFacts DotFacts ServerFacts JsonFacts Page PageFacts PageRuns RouteFacts Form FormFacts Live LiveFacts.
Open Scope Z_scope.
Set Implicit Arguments.
Unset Strict Implicit.

Section Answer.
Variables (decode : bytes -> request + bytes) (newer : bool) (gv : graphviz) (addr : coord -> bytes) (ideo : ideographic).
(** What the server answers to the form of demo.html:90 *)
Definition submit (t : tokenizer) (body : bytes) : res http_answer :=
  let* q := net_request (s2b "POST") (s2b "/_demo") [] true body in serve_http decode newer gv addr ideo t q.

Lemma submitted t s m body : form_body s m body -> (N.of_nat (length body) <= max_form_size)%N ->
  submit t body = (let* h := serve_root gv addr ideo t (form_lines s) m (s2b "Lattice") in Ok (APage h)).
Proof.
  intros F L. unfold submit, net_request, parse_form. change (existsb (bytes_eqb (s2b "POST")) [s2b "POST"; s2b "PUT"; s2b "PATCH"]) with true. cbv iota.
  unfold parse_post_form. replace (max_form_size <? N.of_nat (length body))%N with false by lia. rewrite (form_read F). reflexivity.
Qed.
Theorem lattice_page d u omit s m mode body : wf_dict d -> wf_udict u -> wf_data d -> page_mode m mode ->
  form_body s m body -> (N.of_nat (length body) <= max_form_size)%N -> gv_found gv = true -> gv_start gv = None ->
  exists ts g page, analyze ideo (Tokenizer d u false) (form_lines s) mode = Ok ts /\
    graph_text addr ideo (Tokenizer d u omit) (form_lines s) mode = Ok g /\
    submit (Tokenizer d u omit) body = Ok (APage page) /\
    match gv_run gv g with
    | inl e => shows page (form_lines s) m [] [message e (s2b "process done with error, " ++ fl_text e)] []
    | inr out => exists rs svg, Forall2 row (no_markers ts) rs /\ from_svg out svg /\
        forall pic, picture svg pic -> shows page (form_lines s) m rs [] pic
    end.
Proof.
  intros Hd Hu Hw Hm F L G1 G2.
  destruct (@root_page gv addr ideo d u omit (form_lines s) m mode (s2b "Lattice") Hd Hu Hw Hm) as (ts & g & page & A & B & C & D); [discriminate|assumption|assumption|].
  exists ts, g, page. split; [exact A|]. split; [exact B|]. split; [|exact D]. rewrite (submitted _ F L), C. reflexivity.
Qed.
Theorem too_long t body : (max_form_size < N.of_nat (length body))%N ->
  exists page, submit t body = Ok (APage page) /\ form_shows page [] (s2b "Normal").
Proof.
  intros L. exists (form_page [] []). split.
  - unfold submit, net_request, parse_form. change (existsb (bytes_eqb (s2b "POST")) [s2b "POST"; s2b "PUT"; s2b "PATCH"]) with true. cbv iota.
    unfold parse_post_form. replace (max_form_size <? N.of_nat (length body))%N with true by lia. reflexivity.
  - exact (@form_keeps gv addr ideo t [] [] _ (fun H => H) (fun r E => ltac:(discriminate E)) eq_refl).
Qed.
End Answer.

(** ** Every text can be sent *)
Lemma hex_exists n : (n < 16)%N -> exists b, hex_of n b.
Proof.
  intros H. destruct (N.ltb_spec n 10) as [L|L].
  - exists (n2b (48 + n)). apply hex_0_9; [exact L|apply b2n_n2b; lia].
  - exists (n2b (65 + (n - 10))). apply hex_A_F; [lia|apply b2n_n2b; lia].
Qed.
Definition unreserved_dec (b : byte) : {unreserved b} + {~ unreserved b}.
Proof.
  unfold unreserved. cbv zeta. generalize (b2n b). intros c.
  destruct (((48 <=? c) && (c <=? 57) || (65 <=? c) && (c <=? 90) || (97 <=? c) && (c <=? 122) || (c =? 42) || (c =? 45) || (c =? 46) || (c =? 95))%N) eqn:E; [left|right]; lia.
Defined.
Lemma byte_sent b : exists w, sent_byte b w.
Proof.
  destruct (unreserved_dec b) as [H|H]; [exists [b]; apply sb_self; exact H|]. destruct (Byte.eqb b x20) eqn:E; [apply byte_eqb_spec in E; subst; eexists; apply sb_space|].
  assert (L : (b2n b < 256)%N) by apply b2n_bound.
  destruct (@hex_exists (b2n b / 16)) as (h & Hh); [apply N.div_lt_upper_bound; lia|]. destruct (@hex_exists (b2n b mod 16)) as (l & Hl); [apply N.mod_lt; lia|].
  exists [x25; h; l]. apply sb_percent; assumption.
Qed.
Lemma text_sent s : exists w, sent_as s w /\ (length s <= length w)%nat.
Proof.
  induction s as [|b s (w & (ws & F & ->) & IH)]; [exists []; split; [exists []; split; [constructor|reflexivity]|reflexivity]|].
  destruct (byte_sent b) as (w & H). exists (w ++ concat ws). split; [exists (w :: ws); split; [constructor; assumption|reflexivity]|].
  rewrite app_length. cbn [length]. destruct H; cbn [length]; lia.
Qed.
Lemma form_lines_length s : (length s <= length (form_lines s))%nat.
Proof.
  assert (G : forall n s, (length s <= n)%nat -> (length s <= length (form_lines s))%nat); [|exact (G _ _ (le_n _))]. clear s.
  induction n as [|n IH]; intros s H; [destruct s; [reflexivity|cbn in H; lia]|]. destruct s as [|b s]; [reflexivity|]. cbn [length] in H.
  assert (K : (length s <= length (form_lines s))%nat) by (apply IH; lia).
  destruct b; try (cbn [form_lines length]; lia). destruct s as [|c s]; [cbn; lia|]. assert (K2 : (length s <= length (form_lines s))%nat) by (apply IH; cbn [length] in H; lia).
  destruct c; cbn [form_lines length] in *; lia.
Qed.
Theorem form_sent s m : exists body, form_body s m body /\ (length s <= length body)%nat.
Proof.
  destruct (text_sent (form_lines s)) as (ws & Hs & L). destruct (text_sent m) as (wr & Hr & _). eexists. split; [exists ws, wr; split; [exact Hs|split; [exact Hr|reflexivity]]|].
  rewrite !app_length. pose proof (form_lines_length s). lia.
Qed.
Lemma form_lines_one s : ~ In x0a s -> ~ In x0d s -> form_lines s = s.
Proof.
  induction s as [|b s IH]; intros H1 H2; [reflexivity|]. rewrite <- (IH (fun I => H1 (or_intror I)) (fun I => H2 (or_intror I))) at 2.
  destruct b; try reflexivity; exfalso; [apply H1|apply H2]; left; reflexivity.
Qed.

(** ** Both tables *)
Lemma feature_false tk i b : feature_at tk i = Ok (b, false) -> b = [].
Proof. unfold feature_at. intros H. repeat match type of H with (let* _ := ?e in _) = _ => destruct e; cbn [rbind] in H; try discriminate H | (if ?c then _ else _) = _ => destruct c | match ?e with _ => _ end = _ => destruct e end; try discriminate H; injection H as <-; reflexivity. Qed.
Lemma pickup_false tk k b : pickup tk k = Ok (b, false) -> b = [].
Proof. unfold pickup. destruct (meta_get _ k); [apply feature_false|intros [= <-]; reflexivity]. Qed.
Lemma field_same x : plain_field x -> no_nul (as_text x) = x /\ starred (as_text x) = x /\ as_text x = x.
Proof. intros (H1 & H2 & H3). rewrite (as_text_valid H2). split; [apply no_nul_id; exact H3|]. split; [destruct x; [contradiction|reflexivity]|reflexivity]. Qed.
Lemma cell_same tk k v : pickup tk k = Ok v -> (forall x, v = (x, true) -> plain_field x) -> starred (as_text (fst v)) = no_nul (star_unless v).
Proof.
  destruct v as [x b]. intros E H. unfold star_unless. cbn [fst snd]. destruct b.
  - destruct (field_same (H x eq_refl)) as (A & B & C). rewrite B. rewrite C in A. rewrite A. reflexivity.
  - rewrite (pickup_false E). reflexivity.
Qed.
Lemma join_no_nul l : Forall plain_field l -> no_nul (join (s2b ",") l) = join (s2b ",") l.
Proof.
  intros F. apply no_nul_id. induction F as [|x l (_ & _ & H) F IH]; [intros []|]. destruct l as [|y l]; [exact H|].
  cbn [join]. intros I. apply in_app_or in I. destruct I as [I|I]; [exact (H I)|]. apply in_app_or in I. destruct I as [I|I]; [cbv in I; intuition discriminate|exact (IH I)].
Qed.
Lemma cells_same tk td r : new_token_data tk = Ok td -> row tk r -> plain_word tk -> cells td = row_cells r.
Proof.
  intros E (p & b & rd & pr & Ep & Eb & Er & Eq & R1 & R2 & R3 & R4 & R5) (P1 & P2 & P3).
  unfold new_token_data in E. rewrite Ep, Eb, Er, Eq in E. cbn [rbind] in E. destruct (features tk) as [f| |]; cbn [rbind] in E; try discriminate E. injection E as <-.
  unfold cells, row_cells. cbn [td_surface td_pos td_base_form td_reading td_pronunciation map]. rewrite R1, R3, R4, R5.
  destruct (P2 p Ep) as (N & F). destruct (field_same P1) as (A & _ & C). rewrite C in *. rewrite A.
  rewrite (cell_same Eb), (cell_same Er), (cell_same Eq); try (intros x ->; apply P3; tauto).
  destruct p as [l|]; [|exfalso; exact (N eq_refl)]. cbn [strings_list] in *.
  assert (M : map as_text l = l).
  { clear - F. induction F as [|x l H F IH]; [reflexivity|]. cbn [map]. rewrite IH, (proj2 (proj2 (field_same H))). reflexivity. }
  rewrite M. assert (J : no_nul (rc_pos r) = join (s2b ",") l); [|rewrite J; reflexivity].
  destruct R2 as [[-> _]|[_ R2]]; [apply join_no_nul; exact F|]. exfalso.
  destruct F as [|x l (H & _) F]; [contradiction|]. destruct l as [|y l]; [cbn [join] in R2; contradiction|]. cbn [join] in R2. destruct x; [contradiction|discriminate R2].
Qed.

Lemma data_index_free : index_free new_token_data.
Proof. intros k t. destruct t. reflexivity. Qed.
Lemma marker_index_free : index_free (fun t => negb (is_marker t)).
Proof. intros k t. destruct t. reflexivity. Qed.
Lemma data_map l tds : Forall2 (fun tk td => new_token_data tk = Ok td) l tds <-> map new_token_data l = map Ok tds.
Proof.
  revert tds. induction l as [|x l IH]; intros [|y tds]; (split; intros H); try (inversion H; fail); try constructor; try discriminate H.
  - inversion_clear H as [|? ? ? ? H1 H2]. cbn [map]. rewrite H1. f_equal. apply IH. exact H2.
  - injection H as H1 H2. exact H1.
  - injection H as H1 H2. apply IH. exact H2.
Qed.
Lemma no_markers_idem l : no_markers (no_markers l) = no_markers l.
Proof. unfold no_markers. induction l as [|x l IH]; [reflexivity|]. cbn [filter]. destruct (negb (is_marker x)) eqn:E; [cbn [filter]; rewrite E, IH; reflexivity|exact IH]. Qed.
Lemma data_omit ideo d u omit s mode ts ts' tds : analyze ideo (Tokenizer d u false) s mode = Ok ts -> analyze ideo (Tokenizer d u omit) s mode = Ok ts' ->
  Forall2 (fun tk td => new_token_data tk = Ok td) (no_markers ts') tds -> Forall2 (fun tk td => new_token_data tk = Ok td) (no_markers ts) tds.
Proof.
  intros E E' F. destruct omit; [|rewrite E in E'; injection E' as <-; exact F]. rewrite analyze_omit, E in E'. injection E' as <-.
  apply data_map. apply data_map in F. rewrite <- F. unfold no_markers at 2. rewrite (filter_renumber data_index_free marker_index_free). fold (no_markers (no_markers ts)). rewrite no_markers_idem. reflexivity.
Qed.

Theorem both_tables parse decode newer gv addr ideo d u omit s m mode body table :
  wf_dict d -> wf_udict u -> wf_data d -> js_parser parse -> json_decoder decode ->
  valid_utf8 s = true -> ~ In x0a s -> ~ In x0d s -> m = s2b "Normal" /\ mode = mode_normal \/ m = s2b "Search" /\ mode = mode_search ->
  form_body s m body -> (N.of_nat (length body) <= max_form_size)%N -> gv_found gv = true -> gv_start gv = None ->
  exists ts tds g page, analyze ideo (Tokenizer d u false) s mode = Ok ts /\
    Forall2 (fun td row => Forall harmless (cells td) -> shows_row td row) tds (receive parse decode newer gv addr ideo (Tokenizer d u omit) (typed_post s m) table) /\
    graph_text addr ideo (Tokenizer d u omit) s mode = Ok g /\ submit decode newer gv addr ideo (Tokenizer d u omit) body = Ok (APage page) /\
    forall out, gv_run gv g = inr out -> exists rs svg, from_svg out svg /\ (forall pic, picture svg pic -> shows page s m rs [] pic) /\
      length tds = length rs /\ length tds = length (no_markers ts) /\
      forall i tk td r, nth_error (no_markers ts) i = Some tk -> nth_error tds i = Some td -> nth_error rs i = Some r -> plain_word tk -> cells td = row_cells r.
Proof.
  intros Hd Hu Hw Hp Hj Hs N1 N2 Hm F L G1 G2.
  assert (PM : page_mode m mode) by (destruct Hm as [[-> ->]|[-> ->]]; [apply pm_normal; discriminate|apply pm_search]).
  assert (RM : request_mode m mode) by (destruct Hm as [[-> ->]|[-> ->]]; [apply rm_normal; discriminate|apply rm_search]).
  assert (Vm : valid_utf8 m = true) by (destruct Hm as [[-> _]|[-> _]]; reflexivity).
  destruct (@lattice_page decode newer gv addr ideo d u omit s m mode body Hd Hu Hw PM F L G1 G2) as (ts & g & page & A & B & C & D).
  rewrite (form_lines_one N1 N2) in *.
  destruct (@receive_typed parse decode newer gv addr ideo d u omit Hd Hu Hw Hp Hj s m table Hs Vm) as (tds & (mode' & ts' & M' & A' & T) & R).
  assert (mode' = mode) as -> by (destruct M'; inversion RM; try reflexivity; try congruence; exfalso; try discriminate; try (destruct Hm as [[E1 _]|[E1 _]]; congruence)).
  pose proof (data_omit A A' T) as T'. exists ts, tds, g, page. split; [exact A|]. split.
  { rewrite R. clear. induction tds as [|td tds IH]; cbn [map]; constructor; [apply row_shows|exact IH]. }
  split; [exact B|]. split; [exact C|]. intros out E. rewrite E in D. destruct D as (rs & svg & D1 & D2 & D3).
  exists rs, svg. split; [exact D2|]. split; [exact D3|].
  assert (L1 : length (no_markers ts) = length tds) by (clear - T'; induction T'; cbn [length]; congruence).
  assert (L2 : length (no_markers ts) = length rs) by (clear - D1; induction D1; cbn [length]; congruence).
  split; [congruence|]. split; [congruence|]. clear - T' D1. revert tds rs T' D1. generalize (no_markers ts). intros l tds rs T D i. revert l tds rs T D.
  induction i as [|i IH]; intros l tds rs T D tk td r E1 E2 E3; destruct T as [|x y l tds H T]; try discriminate E1; inversion D as [|? z ? rs' K D']; subst; cbn [nth_error] in *.
  - injection E1 as ->. injection E2 as ->. injection E3 as ->. intros P. exact (cells_same H K P).
  - exact (IH _ _ _ T D' tk td r E1 E2 E3).
Qed.

(** ** A post of the script, read as a form *)
Lemma quote_no_amp b : In x26 (js_quote_byte b) -> b = x26.
Proof.
  intros I. assert (E : existsb (Byte.eqb x26) (js_quote_byte b) = Byte.eqb b x26) by (destruct b; vm_compute; reflexivity).
  apply byte_eqb_spec. rewrite <- E. apply existsb_exists. exists x26. split; [exact I|reflexivity].
Qed.
Lemma js_quote_no_amp s : ~ In x26 s -> ~ In x26 (js_quote s).
Proof.
  intros H I. unfold js_quote in I. apply in_app_or in I. destruct I as [I|I]; [cbv in I; intuition discriminate|]. apply in_app_or in I. destruct I as [I|I]; [|cbv in I; intuition discriminate].
  apply in_concat in I. destruct I as (x & I & J). apply in_map_iff in I. destruct I as (b & <- & I). apply quote_no_amp in J. subst b. exact (H I).
Qed.
Lemma post_no_amp s m : ~ In x26 s -> ~ In x26 m -> ~ In x26 (post_body s m).
Proof.
  intros Hs Hm I. unfold post_body in I. apply js_quote_no_amp in Hs. apply js_quote_no_amp in Hm.
  rewrite !in_app_iff in I. destruct I as [I|[I|[I|[I|[I|[I|I]]]]]]; [| |exact (Hs I)| | |exact (Hm I)|]; cbv in I; intuition discriminate.
Qed.
Lemma one_pair body : ~ In x26 body -> exists l, parse_query (x7b :: body) = Ok l /\ forall k v, In (k, v) l -> exists k', k = x7b :: k'.
Proof.
  intros H. unfold parse_query. cbn [length parse_query_loop]. rewrite cut_none by (intros [E|I]; [discriminate E|exact (H I)]). cbn [rbind].
  destruct (existsb (Byte.eqb x3b) (x7b :: body)); [eexists; split; [reflexivity|intros k v []]|].
  cbn [cut_at]. change (Byte.eqb x7b x3d) with false. cbv iota. destruct (cut_at x3d body) as [x y]. cbn [query_unescape]. change (Byte.eqb x7b x25) with false. cbv iota.
  destruct (query_unescape x) as [x'|], (query_unescape y) as [y'|]; eexists; (split; [reflexivity|]); intros k v I; [|destruct I|destruct I|destruct I].
  destruct I as [I|[]]. injection I as <- _. eexists. reflexivity.
Qed.
Lemma not_there key l : (forall k v, In (k, v) l -> exists k', k = x7b :: k') -> (forall k', key <> x7b :: k') -> form_value key l = [].
Proof.
  intros H N. unfold form_value. induction l as [|[k v] l IH]; [reflexivity|]. cbn [find fst]. destruct (bytes_eqb k key) eqn:E.
  - apply bytes_eqb_eq in E. destruct (H k v (or_introl eq_refl)) as (k' & ->). exfalso. exact (N k' (eq_sym E)).
  - apply IH. intros k0 v0 I. exact (H k0 v0 (or_intror I)).
Qed.
(** What a radio button's post asks of the server *)
Definition radio_answer decode newer gv addr ideo t (s m : bytes) : res http_answer :=
  let* q := net_request (s2b "POST") (po_path (radio_post s m)) [] true (po_body (radio_post s m)) in serve_http decode newer gv addr ideo t q.
Theorem radio_form decode newer gv addr ideo t s m : ~ In x26 s -> ~ In x26 m ->
  exists page, radio_answer decode newer gv addr ideo t s m = Ok (APage page) /\ form_shows page [] (s2b "Normal").
Proof.
  intros Hs Hm. exists (form_page [] []). split; [|exact (@form_keeps gv addr ideo t [] [] _ (fun H => H) (fun r E => ltac:(discriminate E)) eq_refl)].
  unfold radio_answer, net_request, parse_form. cbn [po_path po_body radio_post]. change (existsb (bytes_eqb (s2b "POST")) [s2b "POST"; s2b "PUT"; s2b "PATCH"]) with true. cbv iota.
  assert (P : exists l, parse_post_form true (post_body s m) = Ok l /\ forall k v, In (k, v) l -> exists k', k = x7b :: k').
  { unfold parse_post_form. destruct (max_form_size <? N.of_nat (length (post_body s m)))%N; [exists []; split; [reflexivity|intros k v []]|].
    pose proof (post_no_amp Hs Hm) as N. change (post_body s m) with (x7b :: (s2b """sentence"":" ++ js_quote s ++ s2b "," ++ s2b """mode"":" ++ js_quote m ++ s2b "}")) in *.
    apply one_pair. intros I. apply N. right. exact I. }
  destruct P as (l & -> & K). cbn [rbind]. change (parse_query []) with (Ok (@nil (bytes * bytes))). cbn [rbind]. rewrite app_nil_r.
  rewrite (@not_there (s2b "s") l K), (@not_there (s2b "r") l K), (@not_there (s2b "lattice") l K) by (intros k' E; discriminate E). reflexivity.
Qed.
