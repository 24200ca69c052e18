(** Proofs about requests as a whole. *)
From Coq Require Import Lia ZifyBool ZifyN.
From Verif Require Import Check Utf8Facts SpecFeat SpecForm SpecRequest TokFacts AnalyzeFacts ServerFacts Page PageFacts PageRuns RouteFacts Form FormFacts DecodeServe.
Open Scope N_scope.
Set Implicit Arguments.
Unset Strict Implicit.

(** ** Fields *)
Lemma byte_eqb_false a b : Byte.eqb a b = false <-> a <> b.
Proof. destruct (Byte.eqb a b) eqn:E; [apply byte_eqb_spec in E; split; [discriminate|contradiction]|]. split; [|reflexivity]. intros _ H. apply byte_eqb_spec in H. congruence. Qed.
Lemma unhex_of b n : unhex b = Some n -> hex_of n b /\ n < 16.
Proof.
  unfold unhex. cbv zeta. destruct ((48 <=? b2n b) && (b2n b <=? 57)) eqn:E1; [intros [= <-]; split; [apply hex_0_9|]; lia|].
  destruct ((97 <=? b2n b) && (b2n b <=? 102)) eqn:E2; [intros [= <-]; split; [apply hex_a_f|]; lia|].
  destruct ((65 <=? b2n b) && (b2n b <=? 70)) eqn:E3; [intros [= <-]; split; [apply hex_A_F|]; lia|discriminate].
Qed.
Lemma unescape_means : forall n w s, (length w <= n)%nat -> query_unescape w = Some s -> means w s.
Proof.
  induction n as [|n IH]; intros w s L; destruct w as [|b w]; cbn [length] in L; try lia; cbn [query_unescape].
  - intros [= <-]. apply me_end.
  - intros [= <-]. apply me_end.
  - destruct (Byte.eqb b x25) eqn:E.
    + apply byte_eqb_spec in E. subst b. destruct w as [|h [|l w]]; try discriminate.
      destruct (unhex h) as [x|] eqn:Eh; [|discriminate]. destruct (unhex l) as [y|] eqn:El; [|discriminate].
      destruct (query_unescape w) as [s'|] eqn:Ew; [|discriminate]. intros [= <-].
      apply unhex_of in Eh. apply unhex_of in El. destruct Eh as [Eh Lh], El as [El Ll].
      assert (B : b2n (n2b (x * 16 + y)) = x * 16 + y) by (apply b2n_n2b; lia).
      apply me_percent; [| |apply IH; [cbn [length] in L; lia|exact Ew]]; rewrite B.
      * replace ((x * 16 + y) / 16) with x; [exact Eh|]. rewrite N.div_add_l by lia. rewrite N.div_small by lia. lia.
      * replace ((x * 16 + y) mod 16) with y; [exact El|]. rewrite N.add_comm, N.mod_add by lia. rewrite N.mod_small; lia.
    + apply byte_eqb_false in E. destruct (query_unescape w) as [s'|] eqn:Ew; [|discriminate]. intros [= <-]. apply IH in Ew; [|lia].
      destruct (Byte.eqb b x2b) eqn:E2; [apply byte_eqb_spec in E2; subst b; apply me_plus; exact Ew|apply byte_eqb_false in E2; apply me_self; assumption].
Qed.
Lemma means_unescape w s : means w s -> query_unescape w = Some s.
Proof.
  induction 1 as [|w s _ IH|h l b w s Hh Hl _ IH|b w s N1 N2 _ IH]; cbn [query_unescape]; [reflexivity| | |].
  - cbn. rewrite IH. reflexivity.
  - replace (Byte.eqb x25 x25) with true by reflexivity. rewrite (hex_read Hh), (hex_read Hl), IH.
    replace (b2n b / 16 * 16 + b2n b mod 16) with (b2n b) by (pose proof (N.div_mod' (b2n b) 16); lia). rewrite n2b_b2n. reflexivity.
  - rewrite (proj2 (byte_eqb_false b x25) N1), (proj2 (byte_eqb_false b x2b) N2), IH. reflexivity.
Qed.
Lemma unescape_iff w s : query_unescape w = Some s <-> means w s.
Proof. split; [apply (@unescape_means (length w)); lia|apply means_unescape]. Qed.

(** What the loop makes of a piece *)
Definition piece_field (p : bytes) : option (bytes * bytes) :=
  if existsb (Byte.eqb x3b) p then None
  else match p with
       | [] => None
       | _ => let (k, v) := cut_at x3d p in match query_unescape k, query_unescape v with Some k, Some v => Some (k, v) | _, _ => None end
       end.
Lemma existsb_in c s : existsb (Byte.eqb c) s = false <-> ~ In c s.
Proof.
  split.
  - intros H I. assert (existsb (Byte.eqb c) s = true); [|congruence]. apply existsb_exists. exists c. split; [exact I|apply byte_eqb_spec; reflexivity].
  - intros H. destruct (existsb (Byte.eqb c) s) eqn:E; [|reflexivity]. apply existsb_exists in E. destruct E as (x & I & E). apply byte_eqb_spec in E. subst x. contradiction.
Qed.
Lemma cut_spec sep s : ~ In sep (fst (cut_at sep s)) /\ (s = fst (cut_at sep s) ++ sep :: snd (cut_at sep s) \/ ~ In sep s /\ cut_at sep s = (s, [])).
Proof.
  induction s as [|b s (IH1 & IH2)]; [split; [intros []|right; split; [intros []|reflexivity]]|]. cbn [cut_at]. destruct (Byte.eqb b sep) eqn:E.
  - apply byte_eqb_spec in E. subst b. split; [intros []|left; reflexivity].
  - apply byte_eqb_false in E. destruct (cut_at sep s) as [x y]. cbn [fst snd] in *. split; [intros [H|H]; [congruence|exact (IH1 H)]|].
    destruct IH2 as [IH2|(N & IH2)]; [left; cbn [app]; congruence|right]. split; [intros [H|H]; [congruence|exact (N H)]|]. injection IH2 as -> ->. reflexivity.
Qed.
Lemma piece_field_iff p kv : piece_field p = Some kv <-> form_field p kv.
Proof.
  unfold piece_field. split.
  - destruct (existsb (Byte.eqb x3b) p) eqn:E; [discriminate|]. apply existsb_in in E. destruct p as [|b p']; [discriminate|]. set (p := b :: p') in *.
    destruct (cut_spec x3d p) as [N C]. destruct (cut_at x3d p) as [k v]. cbn [fst snd] in *.
    destruct (query_unescape k) as [k'|] eqn:Ek; [|discriminate]. destruct (query_unescape v) as [v'|] eqn:Ev; [|discriminate]. intros [= <-].
    split; [exact E|]. split; [discriminate|]. exists k, v. split; [|split; [exact N|split; apply unescape_iff; assumption]].
    destruct C as [C|(C & [= -> ->])]; [left; exact C|right; split; reflexivity].
  - intros (E & N & k & v & H & Nk & Mk & Mv). rewrite (proj2 (existsb_in _ _) E). apply means_unescape in Mk. apply means_unescape in Mv. destruct kv as [k' v']. cbn [fst snd] in *.
    destruct p as [|b p']; [congruence|]. set (p := b :: p') in *. clearbody p.
    replace (cut_at x3d p) with (k, v); [rewrite Mk, Mv; reflexivity|]. destruct H as [->|[-> ->]]; symmetry; [apply cut_here|apply cut_none]; exact Nk.
Qed.
Lemma piece_none p : piece_field p = None -> forall kv, ~ form_field p kv.
Proof. intros H kv K. apply piece_field_iff in K. congruence. Qed.
Lemma loop_step f q : parse_query_loop (S f) q =
  match q with
  | [] => Ok []
  | _ => let* l := parse_query_loop f (snd (cut_at x26 q)) in Ok (match piece_field (fst (cut_at x26 q)) with Some kv => kv :: l | None => l end)
  end.
Proof.
  cbn [parse_query_loop]. destruct q as [|b q]; [reflexivity|]. destruct (cut_at x26 (b :: q)) as [p r]. cbn [fst snd].
  destruct (parse_query_loop f r) as [l| |]; cbn [rbind]; try reflexivity. unfold piece_field. destruct (existsb (Byte.eqb x3b) p); [reflexivity|].
  destruct p as [|c p]; [reflexivity|]. destruct (cut_at x3d (c :: p)) as [k v]. destruct (query_unescape k), (query_unescape v); reflexivity.
Qed.
Lemma fields_nil l : fields [] l -> l = [].
Proof.
  intros F. remember [] as q eqn:E. destruct F as [p N H|p kv N (_ & H & _)|p q l N H F|p q kv l N H F]; [reflexivity|contradiction| |]; destruct p; discriminate E.
Qed.
Lemma loop_fields : forall f q l, parse_query_loop f q = Ok l -> fields q l.
Proof.
  induction f as [|f IH]; intros q l; [discriminate|]. rewrite loop_step. destruct q as [|b q].
  - intros [= <-]. apply fi_last; [intros []|]. intros kv (_ & N & _). congruence.
  - set (q0 := b :: q). clearbody q0. clear b q. destruct (cut_spec x26 q0) as [N C]. destruct (cut_at x26 q0) as [p r]. cbn [fst snd] in *.
    destruct (parse_query_loop f r) as [l0| |] eqn:E; try discriminate. cbn [rbind]. apply IH in E.
    destruct C as [->|(C & [= -> ->])].
    + destruct (piece_field p) as [kv|] eqn:Ep; intros [= <-]; [apply fi_field|apply fi_skip]; try assumption; [apply piece_field_iff; exact Ep|apply piece_none; exact Ep].
    + apply fields_nil in E. subst l0. destruct (piece_field q0) as [kv|] eqn:Ep; intros [= <-]; [apply fi_last_field|apply fi_last]; try assumption; [apply piece_field_iff; exact Ep|apply piece_none; exact Ep].
Qed.
Theorem parse_fields q : exists l, parse_query q = Ok l /\ fields q l.
Proof. destruct (parse_query_total q) as (l & E). exists l. split; [exact E|exact (loop_fields E)]. Qed.
(** The fields are determined. *)
Lemma split_one (sep : byte) p q p' q' : ~ In sep p -> ~ In sep p' -> p ++ sep :: q = p' ++ sep :: q' -> p = p' /\ q = q'.
Proof.
  revert p'. induction p as [|b p IH]; intros [|b' p'] N N' E; cbn [app] in E.
  - split; [reflexivity|congruence].
  - injection E as E1 E2. exfalso. apply N'. left. symmetry. exact E1.
  - injection E as E1 E2. exfalso. apply N. left. exact E1.
  - injection E as E1 E2. subst. destruct (IH p') as [-> ->]; [intros I; apply N; right; exact I|intros I; apply N'; right; exact I|assumption|split; reflexivity].
Qed.
Lemma field_one p a b : form_field p a -> form_field p b -> a = b.
Proof. intros A B. apply piece_field_iff in A. apply piece_field_iff in B. congruence. Qed.
Theorem fields_one q a b : fields q a -> fields q b -> a = b.
Proof.
  intros A. revert b. induction A as [p N H|p kv N H|p q l N H F IH|p q kv l N H F IH]; intros b B;
    inversion B as [p' N' H'|p' kv' N' H'|p' q' l' N' H' F' X|p' q' kv' l' N' H' F' X]; subst;
    try reflexivity; try (exfalso; match goal with K : ~ In x26 (_ ++ x26 :: _) |- _ => apply K; apply in_or_app; right; left; reflexivity end);
    try (exfalso; eapply H; exact H'); try (exfalso; eapply H'; exact H).
  - f_equal. exact (field_one H H').
  - destruct (split_one N' N X) as [-> ->]. apply IH. exact F'.
  - destruct (split_one N' N X) as [-> ->]. exfalso. exact (H _ H').
  - destruct (split_one N' N X) as [-> ->]. exfalso. exact (H' _ H).
  - destruct (split_one N' N X) as [-> ->]. f_equal; [exact (field_one H H')|apply IH; exact F'].
Qed.
(** ** Values *)
Lemma form_value_ok k l : value k l (form_value k l).
Proof.
  unfold form_value, value. induction l as [|[n v] l IH]; cbn [find fst]; [right; split; [reflexivity|intros []]|].
  destruct (bytes_eqb n k) eqn:E.
  - apply bytes_eqb_eq in E. subst n. left. exists [], l. split; [reflexivity|intros []].
  - apply bytes_eqb_neq in E. destruct IH as [(a & b & Hl & N)|(Hv & N)].
    + left. exists ((n, v) :: a), b. cbn [app map fst]. split; [f_equal; exact Hl|intros [I|I]; [congruence|exact (N I)]].
    + right. split; [exact Hv|]. cbn [map fst]. intros [I|I]; [congruence|exact (N I)].
Qed.
Lemma value_one k l a b : value k l a -> value k l b -> a = b.
Proof.
  assert (In_mid : forall (x : list (bytes * bytes)) v y, In k (map fst (x ++ (k, v) :: y))) by (intros x v y; rewrite map_app; apply in_or_app; right; left; reflexivity).
  intros [(a1 & b1 & E & N)|(E & N)] [(a2 & b2 & E' & N')|(E' & N')]; try congruence.
  - subst l. revert a2 E' N'. induction a1 as [|x a1 IH]; intros [|y a2] E' N'; cbn [app] in E'.
    + congruence.
    + injection E' as E1 E2. subst y. exfalso. apply N'. left. reflexivity.
    + injection E' as E1 E2. subst x. exfalso. apply N. left. reflexivity.
    + injection E' as E1 E2. subst y. apply (IH (fun I => N (or_intror I)) a2 E2). intros I. apply N'. right. exact I.
  - exfalso. subst l. apply N'. apply In_mid.
  - exfalso. subst l. apply N. apply In_mid.
Qed.
Lemma in_methods m : existsb (bytes_eqb m) [s2b "POST"; s2b "PUT"; s2b "PATCH"] = true <-> In m [s2b "POST"; s2b "PUT"; s2b "PATCH"].
Proof.
  rewrite existsb_exists. split.
  - intros (x & I & E). apply bytes_eqb_eq in E. subst x. exact I.
  - intros I. exists m. split; [exact I|apply bytes_eqb_refl].
Qed.
Theorem parse_form_ok method query url body : exists l, parse_form method query url body = Ok l /\ request_form method query url body l.
Proof.
  unfold parse_form, request_form, form_in_body. destruct (parse_fields query) as (lq & Eq & Fq). destruct (parse_fields body) as (lb & Eb & Fb).
  pose proof (in_methods method) as M. destruct (existsb (bytes_eqb method) _); unfold parse_post_form.
  - destruct url; [|rewrite Eq; cbn [rbind app]; exists lq; split; [reflexivity|]; exists [], lq; intuition congruence].
    destruct (max_form_size <? N.of_nat (length body)) eqn:L.
    + rewrite Eq. cbn [rbind app]. exists lq. split; [reflexivity|]. exists [], lq. split; [exact Fq|]. split; [|auto]. intros (_ & _ & H). exfalso. change max_form_size with 10485760 in L. lia.
    + rewrite Eb, Eq. cbn [rbind]. exists (lb ++ lq). split; [reflexivity|]. exists lb, lq. split; [exact Fq|]. split; [auto|]. split; [|reflexivity].
      intros H. exfalso. apply H. split; [apply M; reflexivity|]. split; [reflexivity|]. change max_form_size with 10485760 in L. lia.
  - rewrite Eq. cbn [rbind app]. exists lq. split; [reflexivity|]. exists [], lq. split; [exact Fq|]. split; [|auto]. intros (H & _). exfalso. apply M in H. discriminate H.
Qed.
Theorem request_form_one method query url body a b : request_form method query url body a -> request_form method query url body b -> a = b.
Proof.
  intros (la & qa & A1 & A2 & A3 & ->) (lb & qb & B1 & B2 & B3 & ->). f_equal; [|exact (fields_one A1 B1)].
  assert (D : form_in_body method url body \/ ~ form_in_body method url body).
  { unfold form_in_body. destruct (existsb (bytes_eqb method) [s2b "POST"; s2b "PUT"; s2b "PATCH"]) eqn:M.
    - apply in_methods in M. destruct url; [|right; intuition discriminate]. destruct (N.leb_spec (N.of_nat (length body)) 10485760); [left; auto|right; lia].
    - right. intros (H & _). apply in_methods in H. congruence. }
  destruct D as [D|D]; [exact (fields_one (A2 D) (B2 D))|rewrite (A3 D), (B3 D); reflexivity].
Qed.

(** ** The answer *)
Section Answer.
Variables (pr : N -> bool) (newer : bool) (gv : graphviz) (addr : coord -> bytes) (ideo : ideographic) (d : dict) (u : option udict) (omit : bool).
Hypotheses (Hd : wf_dict d) (Hu : wf_udict u) (Hw : wf_data d).
Let t := Tokenizer d u omit.
(** What the server does with a request as it comes. *)
Definition respond (method path query : bytes) (url : bool) (body : bytes) : res http_answer :=
  let* q := net_request method path query url body in serve_http (the_decoder pr) newer gv addr ideo t q.

Lemma tokens_due body : exists r, serve_tokenize (the_decoder pr) newer ideo t body = Ok r /\
  forall method query url, forall path, served method path -> path = s2b "/tokenize" -> due gv addr ideo d u omit method path query url body (AJson r).
Proof.
  destruct (the_decoder pr body) as [[sen m]|e] eqn:E.
  - apply decode_asks in E. assert (exists mode, request_mode m mode) as (mode & M).
    { destruct (bytes_eqb m (s2b "Search")) eqn:E1; [apply bytes_eqb_eq in E1; subst; eexists; constructor|]. destruct (bytes_eqb m (s2b "Extended")) eqn:E2; [apply bytes_eqb_eq in E2; subst; eexists; constructor|].
      exists mode_normal. apply rm_normal; apply bytes_eqb_neq; assumption. }
    destruct sen as [|b s].
    + destruct (@asked_empty pr t ideo newer body m E) as (r & A & B & C & D). exists r. split; [exact A|]. intros.
      destruct (@analyze_offsets d u Hd Hu ideo omit [] mode) as (ts & T & _ & O).
      eapply du_tokens with (tds := []) (ts := ts); try eassumption.
      replace (no_markers ts) with (@nil token); [constructor|]. symmetry. destruct (no_markers ts) as [|x l] eqn:F; [reflexivity|].
      assert (I : In x (no_markers ts)) by (rewrite F; left; reflexivity). apply filter_In in I. destruct I as [I N].
      destruct (O x I) as (O1 & _ & O2 & _). exfalso. apply Bool.negb_true_iff in N. specialize (O2 N). cbn in O1. lia.
    + destruct (@asked_tokens pr d u omit ideo newer body (b :: s) m mode Hd Hu Hw E) as (ts & tds & r & A & B & C & D & F & _ & G); [discriminate|exact M|].
      exists r. split; [exact B|]. intros. eapply du_tokens; eassumption.
  - assert (N : forall r, ~ body_asks body r) by (intros r H; apply (proj2 (decode_asks pr _ _)) in H; congruence).
    destruct (@not_asked pr newer ideo t body N) as (r & A & B & C). exists r. split; [exact A|]. intros. apply du_wrong; assumption.
Qed.
Lemma page_due method query url body l : request_form method query url body l ->
  exists page, serve_root gv addr ideo t (form_value (s2b "s") l) (form_value (s2b "r") l) (form_value (s2b "lattice") l) = Ok page /\
  forall path, served method path -> path <> s2b "/tokenize" -> due gv addr ideo d u omit method path query url body (APage page).
Proof.
  intros F. pose proof (form_value_ok (s2b "s") l) as Vs. pose proof (form_value_ok (s2b "r") l) as Vr. pose proof (form_value_ok (s2b "lattice") l) as Vl.
  set (sen := form_value (s2b "s") l) in *. set (radio := form_value (s2b "r") l) in *. set (lat := form_value (s2b "lattice") l) in *. clearbody sen radio lat.
  destruct lat as [|b lat].
  - destruct (form_total gv addr ideo t sen radio) as (page & E & R). exists page. split; [exact E|]. intros path P1 P2.
    eapply du_form; try eassumption.
    2:{ intros H0 Hn. exact (form_keeps H0 Hn E). }
    destruct (bytes_eqb radio (s2b "extended")) eqn:E1; [apply bytes_eqb_eq in E1; subst; constructor|].
    destruct (bytes_eqb radio (s2b "search")) eqn:E2; [apply bytes_eqb_eq in E2; subst; constructor|]. apply mo_normal; apply bytes_eqb_neq; assumption.
  - assert (exists mode, page_mode radio mode) as (mode & M).
    { destruct (bytes_eqb radio (s2b "Search")) eqn:E1; [apply bytes_eqb_eq in E1; subst; eexists; constructor|]. destruct (bytes_eqb radio (s2b "Extended")) eqn:E2; [apply bytes_eqb_eq in E2; subst; eexists; constructor|].
      exists mode_normal. apply pm_normal; apply bytes_eqb_neq; assumption. }
    assert (L : b :: lat <> []) by discriminate. set (lattice := b :: lat) in *. clearbody lattice.
    destruct (gv_found gv) eqn:G1.
    + destruct (gv_start gv) as [e|] eqn:G2.
      * destruct (@root_not_started gv addr ideo t sen radio lattice e L G1 G2) as (page & E & S). exists page. split; [exact E|]. intros path P1 P2.
        eapply du_lattice with (lattice := lattice); try eassumption; [congruence| |congruence]. intros _ e' E'. rewrite G2 in E'. injection E' as <-. exact S.
      * destruct (@root_page gv addr ideo d u omit sen radio mode lattice Hd Hu Hw M L G1 G2) as (ts & g & page & A & B & E & S). exists page. split; [exact E|]. intros path P1 P2.
        eapply du_lattice with (lattice := lattice); try eassumption; [congruence|congruence|]. intros _ _. exists ts, g. split; [exact A|]. split; [exact B|exact S].
    + destruct (@root_not_found gv addr ideo t sen radio lattice L G1) as (page & E & S). exists page. split; [exact E|]. intros path P1 P2.
      eapply du_lattice with (lattice := lattice); try eassumption; [auto|congruence|congruence].
Qed.
Lemma plain_dec p : SpecRoute.plain p \/ ~ SpecRoute.plain p.
Proof.
  destruct (clean_plain p) as (r & E & P & _). destruct (bytes_eqb r p) eqn:B; [apply bytes_eqb_eq in B; subst; left; exact P|].
  right. intros H. apply plain_clean in H. rewrite E in H. injection H as ->. rewrite bytes_eqb_refl in B. discriminate B.
Qed.
Theorem answered method path query url body :
  exists a, respond method path query url body = Ok a /\ due gv addr ideo d u omit method path query url body a.
Proof.
  unfold respond, net_request. destruct (parse_form_ok method query url body) as (l & E & F). rewrite E. cbn [rbind].
  set (q := HttpRequest _ _ _ _ _ _ _ _). destruct (bytes_eqb path (s2b "*")) eqn:S.
  { exists ABadRequest. pose proof S as S'. apply bytes_eqb_eq in S'. split; [|apply du_star; exact S']. unfold serve_http. cbn [hq_uri q]. rewrite S. reflexivity. }
  apply bytes_eqb_neq in S. destruct (tokens_due body) as (r & Er & Dr). destruct (page_due F) as (page & Ep & Dp).
  destruct (bytes_eqb method (s2b "CONNECT")) eqn:C.
  - apply bytes_eqb_eq in C. destruct (@route_connect (the_decoder pr) newer gv addr ideo t q S C) as (R1 & R2 & R3). cbn [hq_path hq_body hq_s hq_r hq_lattice q] in R1, R2, R3.
    destruct path as [|b p]; [exists ANotFound; split; [apply R3; discriminate|apply du_missing; [exact S|exact C|discriminate]]|].
    destruct (Byte.eqb b x2f) eqn:B.
    + apply byte_eqb_spec in B. subst b. assert (V : served method (x2f :: p)) by (split; [exact S|right; split; [exact C|eexists; reflexivity]]).
      destruct (bytes_eqb (x2f :: p) (s2b "/tokenize")) eqn:T.
      * apply bytes_eqb_eq in T. exists (AJson r). rewrite (R1 T), Er. split; [reflexivity|]. apply Dr; assumption.
      * apply bytes_eqb_neq in T. exists (APage page). rewrite (R2 T (ex_intro _ p eq_refl)), Ep. split; [reflexivity|]. apply Dp; assumption.
    + apply byte_eqb_false in B. assert (N : forall r0, b :: p <> x2f :: r0) by (intros r0 [= ? _]; contradiction).
      exists ANotFound. split; [apply R3; exact N|apply du_missing; [exact S|exact C|exact N]].
  - apply bytes_eqb_neq in C. destruct (plain_dec path) as [P|P].
    + destruct (@route_plain (the_decoder pr) newer gv addr ideo t q S C P) as (R1 & R2). cbn [hq_path hq_body hq_s hq_r hq_lattice q] in R1, R2.
      assert (V : served method path) by (split; [exact S|left; exact P]).
      destruct (bytes_eqb path (s2b "/tokenize")) eqn:T.
      * apply bytes_eqb_eq in T. exists (AJson r). rewrite (R1 T), Er. split; [reflexivity|]. apply Dr; assumption.
      * apply bytes_eqb_neq in T. exists (APage page). rewrite (R2 T), Ep. split; [reflexivity|]. apply Dp; assumption.
    + destruct (@route_other (the_decoder pr) newer gv addr ideo t q S C P) as (p & full & names & R & P1 & P2 & P3 & P4 & _). cbn [hq_query hq_path q] in R, P2.
      exists (ARedirect 301 p query). split; [exact R|]. eapply du_moved; eassumption.
Qed.
End Answer.
Lemma plain_slash p : SpecRoute.plain p -> exists r, p = x2f :: r.
Proof.
  intros [->|(names & l & N & _ & _ & ->)]; [eexists; reflexivity|]. destruct names as [|n ns]; [congruence|]. eexists. cbn. reflexivity.
Qed.
Theorem due_kinds gv addr ideo d u omit method path query url body a b :
  due gv addr ideo d u omit method path query url body a -> due gv addr ideo d u omit method path query url body b ->
  match a, b with
  | AJson r, AJson r' => rs_status r = rs_status r' /\ rs_type r = rs_type r'
  | APage _, APage _ | ANotFound, ANotFound | ABadRequest, ABadRequest => True
  | ARedirect c _ q, ARedirect c' _ q' => c = c' /\ q = q'
  | _, _ => False
  end.
Proof.
  assert (S : served method path -> path <> s2b "*" /\ ~ (method <> s2b "CONNECT" /\ ~ SpecRoute.plain path) /\ exists r, path = x2f :: r).
  { intros (H1 & [H2|(H2 & H3)]); split; [exact H1| |exact H1|]; (split; [intuition congruence|]); [exact (plain_slash H2)|exact H3]. }
  intros [sen m mode ts tds r V P A M An F S1 S2 J|r V P N S1 S2|l sen radio mode page V P|l lat sen radio mode page V P|p full names N C P P1 W L1 L2|N C P|N]
    [sen' m' mode' ts' tds' r' V' P' A' M' An' F' S1' S2' J'|r' V' P' N' S1' S2'|l' sen' radio' mode' page' V' P'|l' lat' sen' radio' mode' page' V' P'|p' full' names' N' C' P' P1' W' L1' L2'|N' C' P'|N'];
    try exact I; try (split; congruence); try contradiction; try congruence;
    try (exfalso; first [exact (N _ A')|exact (N' _ A)]);
    repeat match goal with K : served _ _ |- _ => apply S in K; destruct K as (? & ? & ? & ?) end; try congruence; try (match goal with K : ~ (_ /\ _) |- _ => apply K; split; assumption end);
    try (match goal with K : forall r, path <> x2f :: r, E : path = x2f :: _ |- _ => exact (K _ E) end).
Qed.
