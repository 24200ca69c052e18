(** What the programs in _examples should do. *)
From Verif Require Export SpecLive SpecFeat SpecFilter.
From Verif Require Import Live.
Open Scope Z_scope.

(** ** SQLite's full-text search *)
(** The bytes of FTS4's words (the tokenizer "simple"): letters and digits of ASCII, and all bytes of
    other characters.  All others are separators. *)
Definition fts_byte (b : byte) : Prop :=
  let n := b2n b in (128 <= n \/ 48 <= n <= 57 \/ 65 <= n <= 90 \/ 97 <= n <= 122)%N.
(** [fts_word text w]: w stands in the text between separators or the ends of the text. *)
Definition fts_word (text w : bytes) : Prop :=
  exists a b, text = a ++ w ++ b /\
    (a = [] \/ exists a' x, a = a' ++ [x] /\ ~ fts_byte x) /\
    (b = [] \/ exists x b', b = x :: b' /\ ~ fts_byte x).
(** A text without ASCII characters. *)
Definition no_ascii (s : bytes) : Prop := Forall (fun b => (128 <= b2n b)%N) s.
(** What is assumed of MATCH: a search word without ASCII characters matches the texts that have it as a
    word.  (FTS4 ends a text at a NUL; nothing is assumed of such texts.) *)
Definition fts4 (matches : bytes -> bytes -> bool) : Prop :=
  forall q text, q <> [] -> no_ascii q -> ~ In x00 text -> (matches q text = true <-> fts_word text q).

(** The word is used in the line: it is an FTS4 word of one of the words Wakati returns. *)
Definition used_in (ideo : ideographic) (t : tokenizer) (q line : bytes) : Prop :=
  exists ws w, wakati ideo t line = Ok ws /\ In w ws /\ fts_word w q.
(** The lines with their numbers, from 1. *)
Definition numbered (lines : list bytes) : list (Z * bytes) := combine (map Z.of_nat (seq 1 (length lines))) lines.
(** What is printed for a search word, given the lines found. *)
Definition answer (q : bytes) (found : list (Z * bytes)) : bytes :=
  s2b "Searching for: " ++ q ++ [x0a] ++
  match found with
  | [] => s2b "  No results found" ++ [x0a]
  | _ => concat (map (fun nl => s2b "  Found content: " ++ snd nl ++ s2b " at line: " ++ itoa (fst nl) ++ [x0a]) found)
  end.

(** Texts with a separator between them. *)
Definition separated (sep : bytes) (l : list bytes) : bytes := match l with [] => [] | a :: l' => a ++ concat (map (fun b => sep ++ b) l') end.

(** ** The function and the page of the WebAssembly example *)
(** What is assumed of the TextDecoder: it drops a byte order mark at the beginning. *)
Definition text_decoder (text : bytes -> bytes) : Prop :=
  forall s, valid_utf8 s = true -> text s = match s with xef :: xbb :: xbf :: r => r | _ => s end.
(** The object of a token. *)
Definition object_of (text : bytes -> bytes) (tk : token) (o : json) : Prop :=
  let d := t_dict tk in let u := t_udict tk in let c := t_class tk in let id := t_id tk in
  forall k v, In (k, v)
    [(s2b "word_id", JInt id);
     (s2b "word_type", JStr (match c with DUMMY => s2b "DUMMY" | KNOWN => s2b "KNOWN" | UNKNOWN => s2b "UNKNOWN" | USER => s2b "USER" end));
     (s2b "word_position", JInt (Z.of_nat (t_start tk)));
     (s2b "surface_form", JStr (text (t_surface tk)));
     (s2b "pos", JStr (text (separated (s2b ",") (strings_list (spec_pos d u c id)))));
     (s2b "base_form", JStr (text (fst (named d u c id key_base))));
     (s2b "reading", JStr (text (fst (named d u c id key_reading))));
     (s2b "pronunciation", JStr (text (fst (named d u c id key_pronunciation))))] -> js_member k o = Ok (Some v).
(** The cells of a row, and what a browser should make of the text appended for it. *)
Definition plain_cells (text : bytes -> bytes) (td : token_data) : list bytes :=
  map text [td_surface td; separated (s2b ",") (strings_list (td_pos td)); td_base_form td; td_reading td; td_pronunciation td].
Definition shows_cells (cs : list bytes) (fragment : bytes) : Prop :=
  exists evs, reads fragment evs /\ tags evs = row_tags /\ rows evs = [cs].
Definition shows_plain (text : bytes -> bytes) (ideo : ideographic) (t : tokenizer) (s : bytes) (table : list bytes) : Prop :=
  exists tds, word_data ideo t s (s2b "Normal") tds /\
    Forall2 (fun td row => Forall harmless (plain_cells text td) -> shows_cells (plain_cells text td) row) tds table.

(** ** The lines of the small programs *)
Definition features_of (tk : token) : list bytes := strings_list (spec_features (t_dict tk) (t_udict tk) (t_class tk) (t_id tk)).
