(** What the demo page's table should show while one types. *)
From Verif Require Export SpecHtml SpecServer.
From Verif Require Import Live.
Open Scope Z_scope.

(** What is assumed of JSON.parse: it reads JSON texts, and a text that begins like a page is none. *)
Definition js_parser (parse : bytes -> option json) : Prop :=
  (forall s v, json_text s v -> parse s = Some v) /\ forall s, parse (x3c :: s) = None.

(** The cells of the row of a token: surface, POS, base form, reading, pronunciation, a star for an
    empty one of the last three. *)
Definition starred (s : bytes) : bytes := match s with [] => s2b "*" | _ => s end.
Definition cells (td : token_data) : list bytes :=
  [as_text (td_surface td); join (s2b ",") (map as_text (strings_list (td_pos td)));
   starred (as_text (td_base_form td)); starred (as_text (td_reading td)); starred (as_text (td_pronunciation td))].
(** The tags of a row of five cells. *)
Definition row_tags : list event :=
  [Open (s2b "tr") []] ++ concat (repeat [Open (s2b "td") []; Close (s2b "td")] 5) ++ [Close (s2b "tr")].
(** A browser makes of this text one row with these cells, and nothing else. *)
Definition shows_row (td : token_data) (fragment : bytes) : Prop :=
  exists evs, reads fragment evs /\ tags evs = row_tags /\ rows evs = [cells td].
(** A text without a character that means something in HTML. *)
Definition harmless (s : bytes) : Prop := ~ In x3c s /\ ~ In x26 s /\ ~ In x00 s.

(** The words of a text in a mode of the form. *)
Definition word_data (ideo : ideographic) (t : tokenizer) (s m : bytes) (tds : list token_data) : Prop :=
  exists mode ts, request_mode m mode /\ analyze ideo t s mode = Ok ts /\ Forall2 (fun tk td => new_token_data tk = Ok td) (no_markers ts) tds.
(** The table has one row for each word of the text, and each row whose cells are harmless shows it. *)
Definition shows_words (ideo : ideographic) (t : tokenizer) (s m : bytes) (table : list bytes) : Prop :=
  exists tds, word_data ideo t s m tds /\ Forall2 (fun td row => Forall harmless (cells td) -> shows_row td row) tds table.
