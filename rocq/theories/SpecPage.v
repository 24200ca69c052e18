(** What the demo server's pages show. *)
From Verif Require Export SpecHtml SpecServer.
From Verif Require Import Page.
Open Scope nat_scope.

(** An event that is no tag of a table row, a cell or an error text. *)
Definition quiet (e : event) : Prop :=
  match e with Open n _ | Close n => is_cell n = false /\ n <> s2b "tr" /\ n <> s2b "strong" | Ch _ => True end.
(** A picture: text that can stand among elements, without such tags. *)
Definition picture (svg : bytes) (evs : list event) : Prop := reads svg evs /\ forall e, In e evs -> quiet e.

Definition row_cells (r : record) : list bytes := map no_nul [rc_surface r; rc_pos r; rc_base r; rc_reading r; rc_pron r].
(** The rows of the page of a lattice: the request, the headings, the words. *)
Definition page_table (sen m : bytes) (rs : list record) : list (list bytes) :=
  [[s2b "Input"; no_nul sen]; [s2b "Mode"; no_nul m];
   [s2b "Surface"; s2b "Part-of-Speech"; s2b "Base Form"; s2b "Reading"; s2b "Pronunciation"]] ++ map row_cells rs.
(** The page shows these words, these error texts and this picture. *)
Definition shows (page sen m : bytes) (rs : list record) (errors : list bytes) (pic : list event) : Prop :=
  exists a b, reads page (a ++ pic ++ b) /\ rows (a ++ pic ++ b) = page_table sen m rs /\
    texts (s2b "strong") (a ++ pic ++ b) = map no_nul errors.
(** What the page says about a failure. *)
Definition message (f : failure) (text : bytes) : bytes :=
  s2b "Error: " ++ (if fl_deadline f then s2b "graphviz time out" else text).

(** The page of the form: its text area and the mode that is on. *)
Definition form_shows (page text mode : bytes) : Prop :=
  exists evs, reads page evs /\ (exists t, texts (s2b "textarea") evs = [t] /\ field t = text) /\ radio_on (s2b "r") None evs = Some mode.
