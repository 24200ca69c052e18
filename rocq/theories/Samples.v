(** Model of the programs in _examples: db_search, wasm (with its page kagome.html), tokenize, wakati
    and user_dict.  The texts the programs contain are parameters here.  tokenizer.New does not fail
    with the options used, and the errors of the database are left out. *)
From Verif Require Export Token SpecJson.
From Verif Require Import Live.
Open Scope Z_scope.

(** fmt.Println of a string *)
Definition print_line (s : bytes) : bytes := s ++ [x0a].

(** ** _examples/db_search/main.go *)
(** slices.Compact: of each run of equal elements the first is kept. *)
Fixpoint compact (l : list bytes) : list bytes :=
  match l with
  | [] => []
  | x :: l' => match l' with
               | y :: _ => if bytes_eqb x y then compact l' else x :: compact l'
               | [] => [x]
               end
  end.
(** The tables contents_fts and fts: rows with their docid. *)
Record db := Db { db_contents : list (Z * bytes); db_fts : list (Z * bytes) }.
(** main.go:122-132: the docid is assigned by AUTOINCREMENT; nothing is ever deleted. *)
Definition insert_content (s : db) (content : bytes) : db * Z :=
  let id := Z.of_nat (length (db_contents s)) + 1 in
  (Db (db_contents s ++ [(id, content)]) (db_fts s), id).
(** main.go:142-146: the text put into the index *)
Definition search_text (segs : list bytes) : bytes := join (s2b " ") (compact segs).
(** main.go:134-155 *)
Definition insert_search_token (ideo : ideographic) (t : tokenizer) (s : db) (id : Z) (content : bytes) : res db :=
  let* segs := wakati ideo t content in
  Ok (Db (db_contents s) (db_fts s ++ [(id, search_text segs)])).
(** main.go:61-69 *)
Fixpoint fill (ideo : ideographic) (t : tokenizer) (s : db) (lines : list bytes) : res db :=
  match lines with
  | [] => Ok s
  | line :: lines' =>
    let (s, id) := insert_content s line in
    let* s := insert_search_token ideo t s id line in
    fill ideo t s lines'
  end.
(** main.go:157-183: WHERE rowid=?; None is the error "no content found". *)
Definition retrieve_content (s : db) (id : Z) : option bytes :=
  option_map snd (find (fun r => fst r =? id) (db_contents s)).
(** main.go:185-210: SELECT ... WHERE words MATCH ?; [matches] is FTS4's MATCH; the rows come in the
    order of their docid. *)
Definition search_fts4 (matches : bytes -> bytes -> bool) (s : db) (word : bytes) : list Z :=
  map fst (filter (fun r => matches word (snd r)) (db_fts s)).
(** main.go:98-105; true: an error ended the program. *)
Fixpoint print_found (s : db) (ids : list Z) : bytes * bool :=
  match ids with
  | [] => ([], false)
  | id :: ids' =>
    match retrieve_content s id with
    | None => ([], true)
    | Some cont =>
      let (out, err) := print_found s ids' in
      (s2b "  Found content: " ++ cont ++ s2b " at line: " ++ itoa id ++ [x0a] ++ out, err)
    end
  end.
(** main.go:73-106 *)
Fixpoint search_words (matches : bytes -> bytes -> bool) (s : db) (words : list bytes) : bytes * bool :=
  match words with
  | [] => ([], false)
  | word :: words' =>
    let head := print_line (s2b "Searching for: " ++ word) in
    let ids := search_fts4 matches s word in
    let (out, err) := match ids with [] => (print_line (s2b "  No results found"), false) | _ => print_found s ids end in
    if err then (head ++ out, true)
    else let (rest, err) := search_words matches s words' in (head ++ out ++ rest, err)
  end.
(** main.go:31-120 run: what is printed, and whether there was an error *)
Definition db_search (matches : bytes -> bytes -> bool) (ideo : ideographic) (t : tokenizer) (lines words : list bytes) : res (bytes * bool) :=
  let* s := fill ideo t (Db [] []) lines in
  Ok (search_words matches s words).

(** ** _examples/wasm/main.go *)
(** main.go:30-39: the properties of the object made of a map; [text] is what wasm_exec.js makes of a
    Go string (a TextDecoder). *)
Definition wasm_token (text : bytes -> bytes) (v : token) : res json :=
  let* pos := token_pos v in
  let* b := base_form v in
  let* r := reading v in
  let* p := pronunciation v in
  Ok (JObj [(s2b "word_id", JInt (t_id v)); (s2b "word_type", JStr (text (class_string (t_class v))));
            (s2b "word_position", JInt (Z.of_nat (t_start v))); (s2b "surface_form", JStr (text (t_surface v)));
            (s2b "pos", JStr (text (join (s2b ",") (strings_list pos))));
            (s2b "base_form", JStr (text (fst b))); (s2b "reading", JStr (text (fst r))); (s2b "pronunciation", JStr (text (fst p)))]).
(** main.go:18-42: the arguments are strings. *)
Definition wasm_tokenize (text : bytes -> bytes) (ideo : ideographic) (t : tokenizer) (args : list bytes) : res json :=
  match args with
  | [] => Ok JNull
  | s :: _ =>
    let* ts := tokenize ideo t s in
    let* l := mapM (wasm_token text) ts in
    Ok (JArr l)
  end.

(** ** _examples/wasm/kagome.html:119-135 *)
(** What is appended for one word: the stars of line 125 are not used. *)
Definition wasm_row (val : json) : res bytes :=
  let* s := js_member (s2b "surface_form") val in
  let* p := js_member (s2b "pos") val in
  let* b := js_member (s2b "base_form") val in
  let* r := js_member (s2b "reading") val in
  let* q := js_member (s2b "pronunciation") val in
  Ok (s2b "<tr>" ++ s2b "<td>" ++ js_text s ++ s2b "</td>" ++
      s2b "<td>" ++ js_text p ++ s2b "</td>" ++
      s2b "<td>" ++ js_text b ++ s2b "</td>" ++
      s2b "<td>" ++ js_text r ++ s2b "</td>" ++
      s2b "<td>" ++ js_text q ++ s2b "</td>" ++
      s2b "</tr>").
Fixpoint wasm_rows (vals : list json) (table : list bytes) : list bytes :=
  match vals with
  | [] => table
  | v :: vals' => match wasm_row v with Ok r => wasm_rows vals' (table ++ [r]) | _ => table end
  end.
(** The page: whether kagome_tokenize is there, the text area and the table. *)
Record page := Page { pg_ready : bool; pg_text : bytes; pg_table : list bytes }.
(** The input event.  As long as kagome_tokenize is not defined the call throws and nothing happens;
    a panic ends the Go program. *)
Definition wasm_input (text : bytes -> bytes) (ideo : ideographic) (t : tokenizer) (s : bytes) (pg : page) : page :=
  if pg_ready pg then
    match wasm_tokenize text ideo t [s] with
    | Ok (JArr vals) => Page true s (wasm_rows vals [])
    | Ok _ => Page true s []
    | _ => Page false s (pg_table pg)
    end
  else Page false s (pg_table pg).
Inductive page_step (text : bytes -> bytes) (ideo : ideographic) (t : tokenizer) : page -> page -> Prop :=
| ps_load s tb : page_step text ideo t (Page false s tb) (Page true s tb)
| ps_input pg s : valid_utf8 s = true -> page_step text ideo t pg (wasm_input text ideo t s pg).
Definition page_start : page := Page false [] [].

(** ** _examples/tokenize/main.go:17-22, wakati/main.go:17-19, user_dict/main.go:27-30 *)
Definition sample_tokenize (ideo : ideographic) (t : tokenizer) (s : bytes) : res bytes :=
  let* ts := tokenize ideo t s in
  let* ls := mapM (fun v => let* fs := features v in
                            Ok (t_surface v ++ [x09] ++ join (s2b ",") (strings_list fs) ++ [x0a])) ts in
  Ok (print_line (s2b "---tokenize---") ++ concat ls).
Definition sample_wakati (ideo : ideographic) (t : tokenizer) (s : bytes) : res bytes :=
  let* segs := wakati ideo t s in
  Ok (print_line (s2b "---wakati---") ++ print_line (join (s2b "/") segs)).
Definition sample_user_dict (ideo : ideographic) (t : tokenizer) (s : bytes) : res bytes :=
  let* ts := analyze ideo t s mode_search in
  let* ls := mapM (fun v => let* fs := features v in
                            Ok (t_surface v ++ [x09] ++ s2b "[" ++ join (s2b " ") (strings_list fs) ++ s2b "]" ++ [x0a])) ts in
  Ok (concat ls).
