(** Proofs about the pages of the demo server. *)
From Verif Require Import Check Utf8Facts Page SpecPage.
Set Implicit Arguments.
Unset Strict Implicit.
Open Scope nat_scope.

(** ** Reading *)
Lemma read_app : forall a b st, read st (a ++ b) =
  (fst (read (fst (read st a)) b), snd (read st a) ++ snd (read (fst (read st a)) b)).
Proof.
  induction a as [|x a IH]; intros b st.
  - cbn [app read fst snd]. apply surjective_pairing.
  - cbn [app read fst snd]. rewrite IH. cbn [fst snd]. rewrite app_assoc. reflexivity.
Qed.
Lemma read_then st a b st1 st2 e1 e2 : read st a = (st1, e1) -> read st1 b = (st2, e2) -> read st (a ++ b) = (st2, e1 ++ e2).
Proof. intros H1 H2. rewrite read_app, H1. cbn [fst snd]. rewrite H2. reflexivity. Qed.
Lemma read_nil st : read st [] = (st, []).
Proof. reflexivity. Qed.

Definition plain (c : content) : Prop := match c with Rawtext _ => False | _ => True end.
Lemma escape_byte_read c b : plain c ->
  read (Txt c) (html_escape_byte b) = (Txt c, map Ch (if is b 0 then [Byte.xef; Byte.xbf; Byte.xbd] else [b])).
Proof. intros H. destruct c as [|n|n]; [| |contradiction]; destruct b; reflexivity. Qed.
Lemma escape_read c s : plain c -> read (Txt c) (html_escape s) = (Txt c, map Ch (no_nul s)).
Proof.
  intros Hc. induction s as [|b s IH]; [reflexivity|]. unfold html_escape, no_nul. cbn [map concat]. rewrite map_app.
  eapply read_then; [apply escape_byte_read; exact Hc|exact IH].
Qed.

(** The parts of the templates. *)
Definition ev (s : bytes) : list event := snd (read (Txt Elements) s).
Lemma ev_reads s : (match fst (read (Txt Elements) s) with Txt Elements => true | _ => false end) = true ->
  read (Txt Elements) s = (Txt Elements, ev s).
Proof. unfold ev. destruct (read (Txt Elements) s) as [[[| |]| | | | | | | | | | |] e]; intros H; try discriminate H. reflexivity. Qed.
Ltac static := apply ev_reads; vm_compute; reflexivity.
Ltac pieces := repeat (first [apply escape_read; exact I | eapply read_then; [first [apply escape_read; exact I|static]|] | static]).

Definition t_open : bytes := html_lines [s2b ""; s2b "    <tr>"].
Definition t_td : bytes := s2b "      <td>".
Definition t_end : bytes := html_lines [s2b "</td>"].
Definition t_close : bytes := html_lines [s2b "</td>"; s2b "    </tr>"].
Definition t_pad : bytes := s2b "    ".
Definition shown_text (s : bytes) : list event := map Ch (no_nul s).
Definition e_row (r : record) : list event :=
  ev t_open ++ ev t_td ++ shown_text (rc_surface r) ++ ev t_end ++ ev t_td ++ shown_text (rc_pos r) ++ ev t_end ++ ev t_td ++ shown_text (rc_base r) ++
  ev t_end ++ ev t_td ++ shown_text (rc_reading r) ++ ev t_end ++ ev t_td ++ shown_text (rc_pron r) ++ ev t_close ++ ev t_pad.
Lemma read_row r : read (Txt Elements) (graph_row r) = (Txt Elements, e_row r).
Proof. unfold graph_row, e_row. pieces. Qed.
Lemma read_rows rs : read (Txt Elements) (concat (map graph_row rs)) = (Txt Elements, concat (map e_row rs)).
Proof. induction rs as [|r rs IH]; [reflexivity|]. cbn [map concat]. eapply read_then; [apply read_row|exact IH]. Qed.

Definition t_nl : bytes := html_lines [s2b ""].
Definition t_strong : bytes := s2b "    <strong>".
Definition t_unstrong : bytes := html_lines [s2b "</strong>"].
Definition e_error (err : bytes) : list event :=
  if bytes_eqb err [] then [] else ev t_nl ++ ev t_strong ++ shown_text err ++ ev t_unstrong ++ ev t_pad.
Lemma read_error err : read (Txt Elements) (graph_error err) = (Txt Elements, e_error err).
Proof. unfold graph_error, e_error. destruct (bytes_eqb err []); [reflexivity|]. pieces. Qed.
Definition e_svg (svg : bytes) (evs : list event) : list event :=
  if bytes_eqb svg [] then [] else ev t_nl ++ ev t_pad ++ evs ++ ev t_nl ++ ev t_pad.
Lemma read_svg svg evs : reads svg evs -> read (Txt Elements) (graph_svg svg) = (Txt Elements, e_svg svg evs).
Proof.
  intros H. unfold graph_svg, e_svg. destruct (bytes_eqb svg []); [reflexivity|].
  eapply read_then; [static|]. eapply read_then; [static|]. eapply read_then; [exact H|]. pieces.
Qed.
Definition t_input : bytes := html_lines [s2b "</td></tr>"].
Definition t_mode : bytes := s2b "    <tr><th>Mode</th><td>".
Definition e_page (sen mode err svg : bytes) (evs : list event) (rs : list record) : list event :=
  ev graph_head ++ shown_text sen ++ ev t_input ++ ev t_mode ++ shown_text mode ++ ev graph_table ++ concat (map e_row rs) ++ ev graph_middle ++
  e_error err ++ ev t_nl ++ ev t_pad ++ e_svg svg evs ++ ev graph_tail.
Theorem read_page sen mode err svg evs rs : reads svg evs -> reads (graph_page sen mode err svg rs) (e_page sen mode err svg evs rs).
Proof.
  intros H. unfold reads, graph_page, e_page.
  repeat (eapply read_then; [first [apply escape_read; exact I|apply read_rows|apply read_error|apply read_svg; exact H|static]|]). static.
Qed.

(** ** Tags *)
Lemma tags_app a b : tags (a ++ b) = tags a ++ tags b.
Proof. apply filter_app. Qed.
Lemma tags_text s : tags (shown_text s) = [].
Proof. unfold shown_text. induction (no_nul s) as [|b l IH]; [reflexivity|exact IH]. Qed.
Lemma tags_row r r' : tags (e_row r) = tags (e_row r').
Proof. unfold e_row. rewrite !tags_app, !tags_text. reflexivity. Qed.
Lemma tags_rows rs : forall rs', length rs = length rs' -> tags (concat (map e_row rs)) = tags (concat (map e_row rs')).
Proof.
  induction rs as [|r rs IH]; intros [|r' rs'] L; try discriminate; [reflexivity|]. cbn [map concat]. rewrite !tags_app, (tags_row r r'), (IH rs'); [reflexivity|].
  cbn in L. congruence.
Qed.
Theorem page_tags sen mode err svg evs rs sen' mode' err' rs' : length rs = length rs' -> (err = [] <-> err' = []) ->
  tags (e_page sen mode err svg evs rs) = tags (e_page sen' mode' err' svg evs rs').
Proof.
  intros L E. unfold e_page. rewrite !tags_app, !tags_text, (tags_rows L). do 8 f_equal. f_equal.
  unfold e_error. destruct (bytes_eqb err []) eqn:B1, (bytes_eqb err' []) eqn:B2; try reflexivity.
  - apply bytes_eqb_eq in B1. apply E in B1. subst err'. discriminate B2.
  - apply bytes_eqb_eq in B2. apply E in B2. subst err. discriminate B1.
  - rewrite !tags_app, !tags_text. reflexivity.
Qed.

(** Running over a text of the user, or over a part of the template. *)
Ltac seg lem := lazymatch goal with |- ?f (shown_text _) = _ => apply lem | _ => vm_compute; reflexivity end.

(** ** Rows *)
Fixpoint rows_run (row : list bytes) (cur : option bytes) (evs : list event) : (list bytes * option bytes) * list (list bytes) :=
  match evs with
  | [] => ((row, cur), [])
  | Open n _ :: r =>
    if is_cell n then rows_run row (Some []) r else if bytes_eqb n (s2b "tr") then rows_run [] None r else rows_run row cur r
  | Close n :: r =>
    if is_cell n then rows_run (match cur with Some t => row ++ [t] | None => row end) None r
    else if bytes_eqb n (s2b "tr") then let x := rows_run [] None r in (fst x, row :: snd x)
    else rows_run row cur r
  | Ch b :: r => rows_run row (match cur with Some t => Some (t ++ [b]) | None => None end) r
  end.
Lemma rows_from_app a : forall row cur b, rows_from row cur (a ++ b) =
  snd (rows_run row cur a) ++ rows_from (fst (fst (rows_run row cur a))) (snd (fst (rows_run row cur a))) b.
Proof.
  induction a as [|e a IH]; intros row cur b; [reflexivity|]. destruct e as [n at_|n|c]; cbn [app rows_from rows_run].
  - destruct (is_cell n); [apply IH|]. destruct (bytes_eqb n (s2b "tr")); apply IH.
  - destruct (is_cell n); [apply IH|]. destruct (bytes_eqb n (s2b "tr")); [|apply IH]. rewrite IH. reflexivity.
  - apply IH.
Qed.
Lemma rows_then row cur a b row1 cur1 out : rows_run row cur a = ((row1, cur1), out) -> rows_from row cur (a ++ b) = out ++ rows_from row1 cur1 b.
Proof. intros H. rewrite rows_from_app, H. reflexivity. Qed.
Lemma rows_text s : forall row t, rows_run row (Some t) (shown_text s) = ((row, Some (t ++ no_nul s)), []).
Proof.
  unfold shown_text. induction (no_nul s) as [|b l IH]; intros row t; cbn [map rows_run]; [rewrite app_nil_r; reflexivity|].
  rewrite IH, <- app_assoc. reflexivity.
Qed.
Lemma rows_text_none s : forall row, rows_run row None (shown_text s) = ((row, None), []).
Proof. unfold shown_text. induction (no_nul s) as [|b l IH]; intros row; [reflexivity|apply IH]. Qed.
Lemma rows_row r b row : rows_from row None (e_row r ++ b) = row_cells r :: rows_from [] None b.
Proof.
  unfold e_row. rewrite <- !app_assoc.
  repeat (erewrite rows_then; [|seg rows_text]). reflexivity.
Qed.
Lemma rows_rows rs : forall b, rows_from [] None (concat (map e_row rs) ++ b) = map row_cells rs ++ rows_from [] None b.
Proof. induction rs as [|r rs IH]; intros b; [reflexivity|]. cbn [map concat]. rewrite <- app_assoc, rows_row, IH. reflexivity. Qed.
Lemma rows_quiet evs : forall row, (forall e, In e evs -> quiet e) -> rows_run row None evs = ((row, None), []).
Proof.
  induction evs as [|e evs IH]; intros row H; [reflexivity|]. pose proof (H e (or_introl eq_refl)) as Q.
  assert (IH' : forall row, rows_run row None evs = ((row, None), [])) by (intros; apply IH; intros; apply H; right; assumption).
  destruct e as [n a|n|c]; cbn [quiet rows_run] in *.
  - destruct Q as (Q1 & Q2 & _). rewrite Q1. destruct (bytes_eqb n (s2b "tr")) eqn:E; [apply bytes_eqb_eq in E; contradiction|apply IH'].
  - destruct Q as (Q1 & Q2 & _). rewrite Q1. destruct (bytes_eqb n (s2b "tr")) eqn:E; [apply bytes_eqb_eq in E; contradiction|apply IH'].
  - apply IH'.
Qed.
Lemma rows_error err b row : rows_from row None (e_error err ++ b) = rows_from row None b.
Proof.
  unfold e_error. destruct (bytes_eqb err []); [reflexivity|]. rewrite <- !app_assoc.
  repeat (erewrite rows_then; [|seg rows_text_none]). reflexivity.
Qed.
Lemma rows_svg svg evs b row : (forall e, In e evs -> quiet e) -> rows_from row None (e_svg svg evs ++ b) = rows_from row None b.
Proof.
  intros H. unfold e_svg. destruct (bytes_eqb svg []); [reflexivity|]. rewrite <- !app_assoc.
  erewrite rows_then; [|vm_compute; reflexivity]. erewrite rows_then; [|vm_compute; reflexivity]. erewrite rows_then; [|apply rows_quiet; exact H].
  erewrite rows_then; [|vm_compute; reflexivity]. erewrite rows_then; [|vm_compute; reflexivity]. reflexivity.
Qed.
Definition headings : list bytes := [s2b "Surface"; s2b "Part-of-Speech"; s2b "Base Form"; s2b "Reading"; s2b "Pronunciation"].
Theorem page_rows sen mode err svg evs rs : (forall e, In e evs -> quiet e) ->
  rows (e_page sen mode err svg evs rs) = [s2b "Input"; no_nul sen] :: [s2b "Mode"; no_nul mode] :: headings :: map row_cells rs.
Proof.
  intros H. unfold rows, e_page.
  repeat (erewrite rows_then; [|seg rows_text]). rewrite rows_rows.
  erewrite rows_then; [|vm_compute; reflexivity]. rewrite rows_error.
  erewrite rows_then; [|vm_compute; reflexivity]. erewrite rows_then; [|vm_compute; reflexivity]. rewrite (rows_svg _ _ _ H).
  replace (ev graph_tail) with (ev graph_tail ++ []) by apply app_nil_r. erewrite rows_then; [|vm_compute; reflexivity].
  cbn [rows_from app]. rewrite !app_nil_r. reflexivity.
Qed.

(** ** Elements *)
Fixpoint texts_run (name : bytes) (cur : option bytes) (evs : list event) : option bytes * list bytes :=
  match evs with
  | [] => (cur, [])
  | Open n _ :: r => texts_run name (if bytes_eqb n name then Some [] else cur) r
  | Close n :: r =>
    if bytes_eqb n name then match cur with Some t => let x := texts_run name None r in (fst x, t :: snd x) | None => texts_run name None r end
    else texts_run name cur r
  | Ch b :: r => texts_run name (match cur with Some t => Some (t ++ [b]) | None => None end) r
  end.
Lemma texts_from_app name a : forall cur b, texts_from name cur (a ++ b) = snd (texts_run name cur a) ++ texts_from name (fst (texts_run name cur a)) b.
Proof.
  induction a as [|e a IH]; intros cur b; [reflexivity|]. destruct e as [n at_|n|c]; cbn [app texts_from texts_run]; try apply IH.
  destruct (bytes_eqb n name); [|apply IH]. destruct cur as [t|]; [|apply IH]. rewrite IH. reflexivity.
Qed.
Lemma texts_then name cur a b cur1 out : texts_run name cur a = (cur1, out) -> texts_from name cur (a ++ b) = out ++ texts_from name cur1 b.
Proof. intros H. rewrite texts_from_app, H. reflexivity. Qed.
Lemma texts_text name s : forall t, texts_run name (Some t) (shown_text s) = (Some (t ++ no_nul s), []).
Proof.
  unfold shown_text. induction (no_nul s) as [|b l IH]; intros t; cbn [map texts_run]; [rewrite app_nil_r; reflexivity|].
  rewrite IH, <- app_assoc. reflexivity.
Qed.
Lemma texts_text_none name s : texts_run name None (shown_text s) = (None, []).
Proof. unfold shown_text. induction (no_nul s) as [|b l IH]; [reflexivity|apply IH]. Qed.
Definition strong : bytes := s2b "strong".
Lemma strong_row r b : texts_from strong None (e_row r ++ b) = texts_from strong None b.
Proof.
  unfold e_row. rewrite <- !app_assoc.
  repeat (erewrite texts_then; [|seg texts_text_none]). reflexivity.
Qed.
Lemma strong_rows rs : forall b, texts_from strong None (concat (map e_row rs) ++ b) = texts_from strong None b.
Proof. induction rs as [|r rs IH]; intros b; [reflexivity|]. cbn [map concat]. rewrite <- app_assoc, strong_row. apply IH. Qed.
Lemma strong_quiet evs : (forall e, In e evs -> quiet e) -> texts_run strong None evs = (None, []).
Proof.
  induction evs as [|e evs IH]; intros H; [reflexivity|]. pose proof (H e (or_introl eq_refl)) as Q.
  assert (IH' : texts_run strong None evs = (None, [])) by (apply IH; intros; apply H; right; assumption).
  destruct e as [n a|n|c]; cbn [quiet texts_run] in *; [| |exact IH'].
  - destruct Q as (_ & _ & Q). destruct (bytes_eqb n strong) eqn:E; [apply bytes_eqb_eq in E; contradiction|exact IH'].
  - destruct Q as (_ & _ & Q). destruct (bytes_eqb n strong) eqn:E; [apply bytes_eqb_eq in E; contradiction|exact IH'].
Qed.
Lemma strong_error err b : texts_from strong None (e_error err ++ b) = (if bytes_eqb err [] then [] else [no_nul err]) ++ texts_from strong None b.
Proof.
  unfold e_error. destruct (bytes_eqb err []); [reflexivity|]. rewrite <- !app_assoc.
  repeat (erewrite texts_then; [|seg texts_text]). reflexivity.
Qed.
Lemma strong_svg svg evs b : (forall e, In e evs -> quiet e) -> texts_from strong None (e_svg svg evs ++ b) = texts_from strong None b.
Proof.
  intros H. unfold e_svg. destruct (bytes_eqb svg []); [reflexivity|]. rewrite <- !app_assoc.
  erewrite texts_then; [|vm_compute; reflexivity]. erewrite texts_then; [|vm_compute; reflexivity]. erewrite texts_then; [|apply strong_quiet; exact H].
  erewrite texts_then; [|vm_compute; reflexivity]. erewrite texts_then; [|vm_compute; reflexivity]. reflexivity.
Qed.
Theorem page_error sen mode err svg evs rs : (forall e, In e evs -> quiet e) ->
  texts strong (e_page sen mode err svg evs rs) = if bytes_eqb err [] then [] else [no_nul err].
Proof.
  intros H. unfold texts, e_page.
  do 6 (erewrite texts_then; [|seg texts_text_none]). rewrite strong_rows.
  erewrite texts_then; [|vm_compute; reflexivity]. rewrite strong_error.
  erewrite texts_then; [|vm_compute; reflexivity]. erewrite texts_then; [|vm_compute; reflexivity]. rewrite (strong_svg _ _ H).
  replace (ev graph_tail) with (ev graph_tail ++ []) by apply app_nil_r. erewrite texts_then; [|vm_compute; reflexivity].
  cbn [texts_from app]. rewrite !app_nil_r. reflexivity.
Qed.

(** ** The form *)
Definition area : bytes := s2b "textarea".
(** The end of the form after the text: these bytes are closed, two ifs. *)
Definition form_rest (radio : bytes) : bytes :=
  form_normal ++ checked_if radio (s2b "search") ++ form_search ++ checked_if radio (s2b "extended") ++ form_tail.
Definition e_form_head := snd (read (Txt Elements) form_head).
Lemma read_form_head : read (Txt Elements) form_head = (Txt (Rcdata area), e_form_head).
Proof. vm_compute. reflexivity. Qed.
Definition radio_value (radio : bytes) : bytes :=
  if bytes_eqb radio (s2b "extended") then s2b "Extended" else if bytes_eqb radio (s2b "search") then s2b "Search" else s2b "Normal".
Definition ev_area (s : bytes) : list event := snd (read (Txt (Rcdata area)) s).
Lemma form_cases radio : form_rest radio = form_rest (s2b "search") \/ form_rest radio = form_rest (s2b "extended") \/ form_rest radio = form_rest [].
Proof.
  unfold form_rest, checked_if. destruct (bytes_eqb radio (s2b "search")) eqn:E1.
  - apply bytes_eqb_eq in E1. subst radio. left. reflexivity.
  - destruct (bytes_eqb radio (s2b "extended")) eqn:E2; right; [left|right]; [|reflexivity].
    apply bytes_eqb_eq in E2. subst radio. reflexivity.
Qed.
Lemma read_form_rest radio : read (Txt (Rcdata area)) (form_rest radio) = (Txt Elements, ev_area (form_rest radio)).
Proof. destruct (form_cases radio) as [->|[->| ->]]; vm_compute; reflexivity. Qed.
Definition e_form (sen radio : bytes) : list event := e_form_head ++ shown_text sen ++ ev_area (form_rest radio).
Theorem read_form sen radio : reads (form_page sen radio) (e_form sen radio).
Proof.
  unfold reads, form_page, e_form. eapply read_then; [exact read_form_head|]. eapply read_then; [apply escape_read; exact I|]. apply read_form_rest.
Qed.
Lemma rest_values radio : texts_from area (Some []) (ev_area (form_rest radio)) = [[]] /\
  (forall t, texts_from area (Some t) (ev_area (form_rest radio)) = [t]) /\
  radio_on (s2b "r") None (ev_area (form_rest radio)) = Some (radio_value radio).
Proof.
  assert (K : forall r, In r [s2b "search"; s2b "extended"; []] -> form_rest radio = form_rest r -> radio_value radio = radio_value r ->
    texts_from area (Some []) (ev_area (form_rest radio)) = [[]] /\ (forall t, texts_from area (Some t) (ev_area (form_rest radio)) = [t]) /\
    radio_on (s2b "r") None (ev_area (form_rest radio)) = Some (radio_value radio)).
  { intros r Hr -> ->. destruct Hr as [<-|[<-|[<-|[]]]]; (split; [vm_compute; reflexivity|]; split; [|vm_compute; reflexivity]).
    all: intros t; vm_compute; reflexivity. }
  unfold radio_value in *. destruct (bytes_eqb radio (s2b "search")) eqn:E1.
  - apply bytes_eqb_eq in E1. subst radio. apply (K (s2b "search")); [left|..]; reflexivity.
  - destruct (bytes_eqb radio (s2b "extended")) eqn:E2.
    + apply bytes_eqb_eq in E2. subst radio. apply (K (s2b "extended")); [right; left|..]; reflexivity.
    + apply (K []); [right; right; left; reflexivity| |]; [unfold form_rest, checked_if; rewrite E1, E2; reflexivity|reflexivity].
Qed.
Theorem form_text sen radio : texts area (e_form sen radio) = [no_nul sen].
Proof.
  unfold texts, e_form. erewrite texts_then; [|vm_compute; reflexivity]. erewrite texts_then; [|apply texts_text].
  cbn [app]. rewrite (proj1 (proj2 (rest_values radio))). reflexivity.
Qed.
Lemma radio_app name a : forall on b, radio_on name on (a ++ b) = radio_on name (radio_on name on a) b.
Proof. induction a as [|e a IH]; intros on b; [reflexivity|]. destruct e; cbn [app radio_on]; apply IH. Qed.
Lemma radio_text name on s : radio_on name on (shown_text s) = on.
Proof. unfold shown_text. induction (no_nul s) as [|b l IH]; [reflexivity|exact IH]. Qed.
Theorem form_radio sen radio : radio_on (s2b "r") None (e_form sen radio) = Some (radio_value radio).
Proof.
  unfold e_form. rewrite !radio_app, radio_text. replace (radio_on (s2b "r") None e_form_head) with (@None bytes) by (vm_compute; reflexivity).
  apply rest_values.
Qed.
Theorem form_tags sen sen' radio : tags (e_form sen radio) = tags (e_form sen' radio).
Proof. unfold e_form. rewrite !tags_app, !tags_text. reflexivity. Qed.
