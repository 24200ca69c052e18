(** Proofs about the script of the demo page. *)
From Verif Require Export Live SpecLive.
From Verif Require Import FormFacts JsonFacts SpecFeat ServerFacts PageFacts RouteFacts AnalyzeFacts.
From Coq Require Import ZifyBool ZifyNat ZifyN.
Set Implicit Arguments.
Unset Strict Implicit.
Open Scope Z_scope.

(** ** The request *)
Lemma quote_byte_read b t : read_string (js_quote_byte b ++ t) = prepend [b] (read_string t).
Proof. destruct b; reflexivity. Qed.
Lemma quote_bytes_read s t : read_string (concat (map js_quote_byte s) ++ t) = prepend s (read_string t).
Proof.
  induction s as [|b s IH]; cbn [map concat app].
  - destruct (read_string t) as [[v r]|]; reflexivity.
  - rewrite <- app_assoc, quote_byte_read, IH, prepend_app. reflexivity.
Qed.
Lemma quote_denotes s : denotes (js_quote s) (JStr s).
Proof.
  exists 1%nat. intros rest _. unfold js_quote. change (s2b """") with [x22]. cbn [app read_value skip_ws]. unfold read_opening. cbn [skip_ws].
  change (Byte.eqb x22 x20 || Byte.eqb x22 x09 || Byte.eqb x22 x0a || Byte.eqb x22 x0d) with false. cbv iota. cbn [skip_ws].
  change (Byte.eqb x22 x20 || Byte.eqb x22 x09 || Byte.eqb x22 x0a || Byte.eqb x22 x0d) with false. cbv iota.
  change (Byte.eqb x22 x22) with true. cbv iota. rewrite <- app_assoc, quote_bytes_read. cbn. rewrite app_nil_r. reflexivity.
Qed.

Lemma quote_high b : (128 <= b2n b)%N -> js_quote_byte b = [b].
Proof. intros H. apply N.leb_le in H. destruct b; try reflexivity; discriminate H. Qed.
Lemma quote_highs raw : Forall (fun b => (128 <= b2n b)%N) raw -> concat (map js_quote_byte raw) = raw.
Proof. induction 1 as [|b raw Hb _ IH]; cbn [map concat]; [reflexivity|]. rewrite IH, (quote_high Hb). reflexivity. Qed.
Lemma quote_low b : (b2n b < 128)%N -> valid_utf8 (js_quote_byte b) = true.
Proof. intros H. apply N.ltb_lt in H. destruct b; try discriminate H; vm_compute; reflexivity. Qed.
Lemma quote_seg c raw : raw <> [] -> decode_rune raw = (c, length raw) -> seg_ok (c, raw) = true -> valid_utf8 (concat (map js_quote_byte raw)) = true.
Proof.
  intros Hn E Hok. assert (K : ~ (c = rune_error /\ length raw = 1%nat)).
  { intros [E1 E2]. unfold seg_ok in Hok. cbn [fst snd] in Hok. rewrite E1, E2 in Hok. discriminate. }
  pose proof (valid_seg Hn E K) as V. pose proof (decode_dec Hn) as D. rewrite E in D. cbn [fst snd] in D.
  inversion D as [b t0 Hs Hb Hr Hlb|b t0 Hs Hb Hr Hlb|b0 b1 t0 Hs H0 H1 Hr Hlb|b0 b1 b2 t0 Hs H0 H1 H2 Hr Hlb|b0 b1 b2 b3 t0 Hs H0 H1 H2 H3 Hr Hlb];
    rewrite Hs in Hlb; cbn [length] in Hlb; assert (t0 = []) as -> by (destruct t0; [reflexivity|cbn [length] in Hlb; lia]).
  - rewrite Hs. cbn [map concat]. rewrite app_nil_r. apply quote_low. assumption.
  - exfalso. apply K. rewrite Hs. split; [congruence|reflexivity].
  - rewrite quote_highs; [assumption|]. rewrite Hs. repeat constructor; lia.
  - pose proof (second_lo_bounds (b2n b0)). rewrite quote_highs; [assumption|]. rewrite Hs. repeat constructor; lia.
  - pose proof (second_lo_bounds (b2n b0)). rewrite quote_highs; [assumption|]. rewrite Hs. repeat constructor; lia.
Qed.
Lemma quote_valid s : valid_utf8 s = true -> valid_utf8 (js_quote s) = true.
Proof.
  intros H. unfold js_quote. apply valid_app; [reflexivity|]. apply valid_app; [|reflexivity].
  rewrite <- (segs_concat s). unfold segs_text. rewrite concat_map, map_map, <- flat_map_concat_map.
  assert (G : Forall (fun g => valid_utf8 (concat (map js_quote_byte (snd g))) = true) (segs s)).
  { unfold valid_utf8 in H. rewrite forallb_forall in H. pose proof (segs_good s) as G. rewrite Forall_forall in *. intros [c raw] Hg.
    destruct (G _ Hg) as [G1 G2]. exact (quote_seg G1 G2 (H _ Hg)). }
  induction G as [|g l Hg _ IH]; cbn [flat_map]; [reflexivity|]. rewrite concat_app. apply valid_app; assumption.
Qed.

Lemma post_body_object s m : post_body s m = json_object true [(s2b "sentence", js_quote s); (s2b "mode", js_quote m)].
Proof. unfold post_body, json_object. cbn [map fst snd join app]. change (json_string true (s2b "sentence")) with (s2b """sentence"""). change (json_string true (s2b "mode")) with (s2b """mode"""). rewrite <- !app_assoc. reflexivity. Qed.
Definition post_value (s m : bytes) : json := JObj [(s2b "sentence", JStr s); (s2b "mode", JStr m)].
Lemma post_begins s m : valid_utf8 s = true -> valid_utf8 m = true -> begins_with (post_body s m) (post_value s m).
Proof.
  intros Hs Hm. assert (V : valid_utf8 (post_body s m) = true).
  { rewrite post_body_object. apply valid_json_object. repeat constructor; cbn [snd]; apply quote_valid; assumption. }
  split; [exact V|]. split; [|cbv; discriminate].
  assert (D : denotes (post_body s m) (post_value s m)).
  { rewrite post_body_object. apply (@den_object true [(s2b "sentence", js_quote s); (s2b "mode", js_quote m)] [JStr s; JStr m]); [|discriminate].
    repeat constructor; cbn [snd]; apply quote_denotes. }
  destruct (denotes_text D V) as (_ & f & rest & E & _). exists f, rest. exact E.
Qed.
Lemma post_decoded s m : decoded (post_value s m) = Some (Request s m).
Proof. reflexivity. Qed.

(** ** A row *)
Definition row_text (td : token_data) : bytes :=
  s2b "<tr>" ++ concat (map (fun c => s2b "<td>" ++ c ++ s2b "</td>") (cells td)) ++ s2b "</tr>".
Lemma strings_text l : js_string (JArr (map (fun s => JStr (as_text s)) l)) = join (s2b ",") (map as_text l).
Proof. cbn [js_string]. rewrite map_map. reflexivity. Qed.
Lemma or_star_text s : js_or_star (Some (JStr s)) = starred s.
Proof. unfold js_or_star, js_is_empty. cbn [js_string js_text]. destruct s; reflexivity. Qed.
Lemma live_row_ok td l : td_pos td = Some l -> live_row (token_value td) = Ok (row_text td).
Proof.
  intros E. unfold live_row, token_value, js_member. cbn [rev app find].
  repeat match goal with |- context [bytes_eqb ?a ?b] => let v := eval vm_compute in (bytes_eqb a b) in change (bytes_eqb a b) with v end.
  cbv iota. cbn [option_map snd rbind]. rewrite E. unfold js_is_null. cbn [strings_value].
  f_equal. unfold row_text, cells. rewrite !or_star_text, E. cbn [map concat strings_list js_text].
  rewrite (strings_text l). cbn [js_string]. rewrite <- !app_assoc. reflexivity.
Qed.
Lemma live_rows_ok tds : forall table, Forall (fun td => exists l, td_pos td = Some l) tds ->
  live_rows (map token_value tds) table = table ++ map row_text tds.
Proof.
  induction tds as [|td tds IH]; intros table H; cbn [map live_rows]; [symmetry; apply app_nil_r|].
  inversion_clear H as [|? ? [l E] H']. rewrite (live_row_ok E), IH by assumption. rewrite <- app_assoc. reflexivity.
Qed.

Lemma harmless_read s : harmless s -> read (Txt Elements) s = (Txt Elements, map Ch s).
Proof.
  induction s as [|b s IH]; intros (H1 & H2 & H3); cbn [read map]; [reflexivity|]. unfold read_byte, in_text.
  assert (is b 60 = false) as ->. { apply not_true_is_false. intros E. apply H1. left. unfold is in E. apply N.eqb_eq in E. destruct b; try discriminate E; reflexivity. }
  assert (is b 38 = false) as ->. { apply not_true_is_false. intros E. apply H2. left. unfold is in E. apply N.eqb_eq in E. destruct b; try discriminate E; reflexivity. }
  cbn [fst snd]. rewrite IH by (repeat split; intros K; [apply H1|apply H2|apply H3]; right; exact K). reflexivity.
Qed.
Definition e_cell (c : bytes) : list event := Open (s2b "td") [] :: map Ch c ++ [Close (s2b "td")].
Lemma read_cell c : harmless c -> read (Txt Elements) (s2b "<td>" ++ c ++ s2b "</td>") = (Txt Elements, e_cell c).
Proof.
  intros H. apply (@read_then _ _ _ (Txt Elements) _ [Open (s2b "td") []]); [reflexivity|]. apply (read_then (harmless_read H)). reflexivity.
Qed.
Lemma read_cells cs : Forall harmless cs ->
  read (Txt Elements) (concat (map (fun c => s2b "<td>" ++ c ++ s2b "</td>") cs)) = (Txt Elements, concat (map e_cell cs)).
Proof.
  induction 1 as [|c cs H _ IH]; cbn [map concat]; [reflexivity|]. exact (read_then (read_cell H) IH).
Qed.
Lemma tags_cells cs : tags (concat (map e_cell cs)) = concat (repeat [Open (s2b "td") []; Close (s2b "td")] (length cs)).
Proof.
  induction cs as [|c cs IH]; cbn [map concat length repeat]; [reflexivity|]. rewrite tags_app, IH. f_equal. unfold e_cell.
  change (Open (s2b "td") [] :: map Ch c ++ [Close (s2b "td")]) with ([Open (s2b "td") []] ++ map Ch c ++ [Close (s2b "td")]). rewrite !tags_app.
  assert (tags (map Ch c) = []) as -> by (induction c; [reflexivity|assumption]). reflexivity.
Qed.
Lemma rows_chars c : forall row t r, rows_from row (Some t) (map Ch c ++ r) = rows_from row (Some (t ++ c)) r.
Proof.
  induction c as [|b c IH]; intros row t r; cbn [map app rows_from]; [rewrite app_nil_r; reflexivity|]. rewrite IH, <- app_assoc. reflexivity.
Qed.
Lemma rows_cells cs : forall row r, rows_from row None (concat (map e_cell cs) ++ r) = rows_from (row ++ cs) None r.
Proof.
  induction cs as [|c cs IH]; intros row r; cbn [map concat app]; [rewrite app_nil_r; reflexivity|].
  rewrite <- app_assoc. unfold e_cell. cbn [app rows_from]. change (is_cell (s2b "td")) with true. cbv iota. rewrite <- app_assoc, rows_chars. cbn [app rows_from].
  change (is_cell (s2b "td")) with true. cbv iota. rewrite IH, <- app_assoc. reflexivity.
Qed.
Theorem row_shows td : Forall harmless (cells td) -> shows_row td (row_text td).
Proof.
  intros H. exists ([Open (s2b "tr") []] ++ concat (map e_cell (cells td)) ++ [Close (s2b "tr")]).
  split; [|split].
  - apply (@read_then _ _ _ (Txt Elements) _ [Open (s2b "tr") []]); [reflexivity|]. apply (read_then (read_cells H)). reflexivity.
  - rewrite !tags_app, tags_cells. reflexivity.
  - unfold rows. cbn [app rows_from]. change (is_cell (s2b "tr")) with false. change (bytes_eqb (s2b "tr") (s2b "tr")) with true. cbv iota.
    rewrite rows_cells. reflexivity.
Qed.

(** ** An answer *)
Lemma token_data_pos tk td : new_token_data tk = Ok td -> exists l, td_pos td = Some l.
Proof.
  unfold new_token_data. destruct (token_pos tk) as [p| |]; cbn [rbind]; try discriminate.
  destruct (features tk) as [f| |]; cbn [rbind]; try discriminate. destruct (base_form tk) as [b| |]; cbn [rbind]; try discriminate.
  destruct (reading tk) as [r| |]; cbn [rbind]; try discriminate. destruct (pronunciation tk) as [q| |]; cbn [rbind]; try discriminate.
  intros [= <-]. cbn [td_pos]. destruct p; eauto.
Qed.
Lemma token_datas_pos tks tds : Forall2 (fun tk td => new_token_data tk = Ok td) tks tds -> Forall (fun td => exists l, td_pos td = Some l) tds.
Proof. induction 1 as [|tk td tks tds H _ IH]; constructor; [exact (token_data_pos H)|assumption]. Qed.

Section Answers.
Variables (parse : bytes -> option json) (decode : bytes -> request + bytes) (newer : bool) (gv : graphviz) (addr : coord -> bytes).
Variables (ideo : ideographic) (d : dict) (u : option udict) (omit : bool).
Hypothesis Hd : wf_dict d.
Hypothesis Hu : wf_udict u.
Hypothesis Hw : wf_data d.
Hypothesis Hparse : js_parser parse.
Hypothesis Hdecode : json_decoder decode.
Let t := Tokenizer d u omit.
Notation receive := (receive parse decode newer gv addr ideo t).

Lemma tokenize_serves body : (let* q := net_request (s2b "POST") (s2b "/tokenize") [] true body in serve_http decode newer gv addr ideo t q) =
  (let* r := serve_tokenize decode newer ideo t body in Ok (AJson r)).
Proof. destruct (@net_request_total (s2b "POST") (s2b "/tokenize") [] true body) as (s & r & l & ->). reflexivity. Qed.

Lemma empty_words mode ts : analyze ideo t [] mode = Ok ts -> no_markers ts = [].
Proof.
  intros E. destruct (@analyze_offsets d u Hd Hu ideo omit [] mode) as (ts' & E' & _ & H). fold t in E'. rewrite E in E'. injection E' as <-.
  destruct (no_markers ts) as [|tk l] eqn:En; [reflexivity|]. assert (Hin : In tk (no_markers ts)) by (rewrite En; left; reflexivity).
  unfold no_markers in Hin. apply filter_In in Hin. destruct Hin as [Hin Hid]. destruct (H tk Hin) as (A & _ & B & _).
  apply negb_true_iff in Hid. specialize (B Hid). change (rcount []) with 0%nat in A. lia.
Qed.

Theorem receive_typed s m tb : valid_utf8 s = true -> valid_utf8 m = true ->
  exists tds, word_data ideo t s m tds /\ receive (typed_post s m) tb = map row_text tds.
Proof.
  intros Hs Hm. pose proof (post_begins Hs Hm) as B. pose proof (post_decoded s m) as D.
  assert (M : exists mode, request_mode m mode).
  { destruct (bytes_eqb m (s2b "Search")) eqn:E1; [apply bytes_eqb_eq in E1; subst; eexists; apply rm_search|].
    destruct (bytes_eqb m (s2b "Extended")) eqn:E2; [apply bytes_eqb_eq in E2; subst; eexists; apply rm_extended|].
    eexists. apply rm_normal; intros ->; discriminate. }
  destruct M as [mode M]. unfold Live.receive, typed_post. cbn [po_path po_body]. rewrite tokenize_serves.
  destruct s as [|b s].
  - destruct (@serve_empty t ideo newer decode (post_body [] m) _ m Hdecode B D) as (r & E & Es & _ & Et).
    rewrite E. cbn [rbind]. rewrite Es. cbn [Z.leb Z.ltb]. change ((200 <=? 200) && (200 <? 300)) with true. cbv iota.
    rewrite (proj1 Hparse _ _ Et). exists []. split; [|reflexivity].
    destruct (@analyze_offsets d u Hd Hu ideo omit [] mode) as (ts & Ea & _). exists mode, ts. split; [exact M|]. split; [exact Ea|].
    rewrite (empty_words Ea). constructor.
  - destruct (@serve_tokens d u omit ideo newer decode (post_body (b :: s) m) _ (b :: s) m mode Hd Hu Hw Hdecode B D) as (ts & tds & r & Ea & E & Es & _ & Ef & _ & Et);
      [discriminate|exact M|].
    fold t in E, Ea. rewrite E. cbn [rbind]. rewrite Es. change ((200 <=? 200) && (200 <? 300)) with true. cbv iota.
    rewrite (proj1 Hparse _ _ Et). exists tds. split; [exists mode, ts; auto|].
    change (live_cb (JObj [(s2b "status", JBool true); (s2b "tokens", JArr (map token_value tds))]) tb) with (live_rows (map token_value tds) []).
    rewrite (live_rows_ok [] (token_datas_pos Ef)). reflexivity.
Qed.
Theorem receive_shows s m tb : valid_utf8 s = true -> valid_utf8 m = true -> shows_words ideo t s m (receive (typed_post s m) tb).
Proof.
  intros Hs Hm. destruct (receive_typed tb Hs Hm) as (tds & W & ->). exists tds. split; [exact W|]. clear W.
  induction tds as [|td tds IH]; cbn [map]; constructor; [apply row_shows|exact IH].
Qed.
Theorem receive_radio s m tb : receive (radio_post s m) tb = tb.
Proof.
  unfold Live.receive, radio_post. cbn [po_path po_body].
  destruct (@net_request_total (s2b "POST") (s2b "/a") [] true (post_body s m)) as (x & y & l & ->). cbn [rbind].
  change (serve_http decode newer gv addr ideo t (HttpRequest (s2b "POST") (s2b "/a") (s2b "/a") [] x y l (post_body s m)))
    with (let* h := serve_root gv addr ideo t x y l in Ok (APage h)).
  assert (B : forall h, serve_root gv addr ideo t x y l = Ok h -> exists r, h = x3c :: r).
  { unfold serve_root. destruct (bytes_eqb l []); [intros h [= <-]; eexists; unfold form_page; reflexivity|].
    destruct (analyze_with gv addr ideo t x (demo_mode y)) as [[e|[rs svg]]| |]; cbn [rbind]; intros h [= <-]; eexists; unfold graph_page; reflexivity. }
  destruct (serve_root gv addr ideo t x y l) as [h| |]; cbn [rbind]; [|reflexivity|reflexivity]. destruct (B h eq_refl) as (r & ->).
  rewrite (proj2 Hparse). reflexivity.
Qed.
End Answers.

(** ** The page while one types *)
Definition form_mode (m : bytes) : Prop := In m [s2b "Normal"; s2b "Search"; s2b "Extended"].
Lemma form_mode_valid m : form_mode m -> valid_utf8 m = true.
Proof. intros [<-|[<-|[<-|[]]]]; reflexivity. Qed.

Section Runs.
Variables (parse : bytes -> option json) (decode : bytes -> request + bytes) (newer : bool) (gv : graphviz) (addr : coord -> bytes).
Variables (ideo : ideographic) (d : dict) (u : option udict) (omit : bool).
Hypothesis Hd : wf_dict d.
Hypothesis Hu : wf_udict u.
Hypothesis Hw : wf_data d.
Hypothesis Hparse : js_parser parse.
Hypothesis Hdecode : json_decoder decode.
Let t := Tokenizer d u omit.
Notation receive := (receive parse decode newer gv addr ideo t).
Notation step := (live_step parse decode newer gv addr ideo t).
Notation ordered := (ordered_step parse decode newer gv addr ideo t).
Notation shown := (shows_words ideo t).

Definition asked_ok (h : list (bytes * bytes)) : Prop := Forall (fun a => valid_utf8 (fst a) = true /\ valid_utf8 (snd a) = true) h.
Definition sent (h : list (bytes * bytes)) (p : post) : Prop := exists s m, In (s, m) h /\ (p = typed_post s m \/ p = radio_post s m).
Definition any_order (st : live) : Prop :=
  valid_utf8 (lv_text st) = true /\ valid_utf8 (lv_mode st) = true /\ asked_ok (lv_asked st) /\
  Forall (sent (lv_asked st)) (lv_pending st) /\
  (lv_table st = [] \/ exists s m, In (s, m) (lv_asked st) /\ shown s m (lv_table st)).

Lemma radio_same s m tb : receive (radio_post s m) tb = tb.
Proof. apply receive_radio. assumption. Qed.
Lemma sent_more h a p : sent h p -> sent (h ++ a) p.
Proof. intros (s & m & H & E). exists s, m. split; [apply in_or_app; left; exact H|exact E]. Qed.
Lemma any_order_step lossy st st' : step lossy st st' -> any_order st -> any_order st'.
Proof.
  intros [s m tb ps h s' Hs|s m tb ps h m' Hm|s m tb ps p qs h|s m tb ps p qs h _] (A & B & C & D & E); unfold any_order; cbn [lv_text lv_mode lv_table lv_pending lv_asked] in *.
  - split; [exact Hs|]. split; [exact B|]. split; [apply Forall_app; split; [exact C|repeat constructor; assumption]|]. split.
    + apply Forall_app. split; [eapply Forall_impl; [|exact D]; intros p; apply sent_more|]. constructor; [|constructor].
      exists s', m. split; [apply in_or_app; right; left; reflexivity|left; reflexivity].
    + destruct E as [E|(x & y & E1 & E2)]; [left; exact E|right; exists x, y; split; [apply in_or_app; left; exact E1|exact E2]].
  - apply form_mode_valid in Hm. split; [exact A|]. split; [exact Hm|]. split; [apply Forall_app; split; [exact C|repeat constructor; assumption]|]. split.
    + apply Forall_app. split; [eapply Forall_impl; [|exact D]; intros p; apply sent_more|].
      constructor; [|constructor; [|constructor]]; exists s, m'; (split; [apply in_or_app; right; left; reflexivity|]); [left|right]; reflexivity.
    + destruct E as [E|(x & y & E1 & E2)]; [left; exact E|right; exists x, y; split; [apply in_or_app; left; exact E1|exact E2]].
  - split; [exact A|]. split; [exact B|]. split; [exact C|]. apply Forall_app in D. destruct D as [D1 D2]. inversion_clear D2 as [|? ? D3 D4].
    split; [apply Forall_app; split; assumption|]. destruct D3 as (x & y & H & [-> | ->]).
    + right. exists x, y. split; [exact H|]. unfold asked_ok in C. rewrite Forall_forall in C. destruct (C _ H) as [V1 V2]. apply receive_shows; assumption.
    + rewrite radio_same. exact E.
  - split; [exact A|]. split; [exact B|]. split; [exact C|]. apply Forall_app in D. destruct D as [D1 D2]. inversion_clear D2 as [|? ? D3 D4].
    split; [apply Forall_app; split; assumption|exact E].
Qed.
Theorem live_any_order lossy s0 m0 st : valid_utf8 s0 = true -> form_mode m0 -> many (step lossy) (live_start s0 m0) st ->
  lv_table st = [] \/ exists s m, In (s, m) (lv_asked st) /\ shown s m (lv_table st).
Proof.
  intros Hs Hm R. assert (G : forall a b, many (step lossy) a b -> any_order a -> any_order b).
  { clear - Hd Hu Hw Hparse Hdecode. induction 1 as [a|a b c H _ IH]; intros K; [exact K|]. apply IH. exact (any_order_step H K). }
  apply (G _ _ R). repeat split; try assumption; try (apply form_mode_valid; assumption); try constructor. reflexivity.
Qed.

Definition idle (p : post) : Prop := exists s m, p = radio_post s m.
Definition in_order (st : live) : Prop :=
  valid_utf8 (lv_text st) = true /\ valid_utf8 (lv_mode st) = true /\
  (lv_asked st = [] /\ lv_table st = [] /\ lv_pending st = [] \/
   (exists a c, lv_pending st = a ++ typed_post (lv_text st) (lv_mode st) :: c /\ Forall idle c) \/
   Forall idle (lv_pending st) /\ shown (lv_text st) (lv_mode st) (lv_table st)).
Lemma in_order_step st st' : ordered st st' -> in_order st -> in_order st'.
Proof.
  intros [s m tb ps h s' Hs|s m tb ps h m' Hm|s m tb p qs h] (A & B & C); unfold in_order; cbn [lv_text lv_mode lv_table lv_pending lv_asked] in *.
  - split; [exact Hs|]. split; [exact B|]. right. left. exists ps, []. split; [reflexivity|constructor].
  - split; [exact A|]. split; [apply form_mode_valid; exact Hm|]. right. left. exists ps, [radio_post s m']. split; [reflexivity|].
    constructor; [eexists; eexists; reflexivity|constructor].
  - split; [exact A|]. split; [exact B|]. right. destruct C as [(_ & _ & C)|[(a & c & C & I)|[I C]]]; [discriminate C| |].
    + destruct a as [|q a]; cbn [app] in C; injection C as -> ->.
      * right. split; [exact I|]. apply receive_shows; assumption.
      * left. exists a, c. split; [reflexivity|exact I].
    + right. inversion_clear I as [|? ? (x & y & ->) I']. split; [exact I'|]. rewrite radio_same. exact C.
Qed.
Theorem live_in_order s0 m0 st : valid_utf8 s0 = true -> form_mode m0 -> many ordered (live_start s0 m0) st -> lv_pending st = [] ->
  lv_asked st = [] /\ lv_table st = [] \/ shown (lv_text st) (lv_mode st) (lv_table st).
Proof.
  intros Hs Hm R. assert (G : forall a b, many ordered a b -> in_order a -> in_order b).
  { clear - Hd Hu Hw Hparse Hdecode. induction 1 as [a|a b c H _ IH]; intros K; [exact K|]. apply IH. exact (in_order_step H K). }
  intros P. destruct (G _ _ R) as (_ & _ & C).
  - split; [exact Hs|]. split; [apply form_mode_valid; exact Hm|]. left. repeat split.
  - rewrite P in C. destruct C as [(C1 & C2 & _)|[(a & c & C & _)|[_ C]]]; [left; auto|destruct a; discriminate C|right; exact C].
Qed.
Lemma ordered_live st st' : ordered st st' -> step false st st'.
Proof.
  intros [s m tb ps h s' Hs|s m tb ps h m' Hm|s m tb p qs h]; [apply ls_type; assumption|apply ls_radio; assumption|].
  exact (@ls_answer parse decode newer gv addr ideo t false s m tb [] p qs h).
Qed.
End Runs.
