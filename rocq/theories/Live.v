(** Model of the script of cmd/server/asset/demo.html (lines 116-152) in a page of the server's root
    directory: what is typed is posted to the tokenize endpoint, and the answers fill the table.
    Texts of the browser are taken in UTF-8. *)
From Verif Require Export Form SpecJson.
Open Scope Z_scope.

(** ** JavaScript values made by JSON.parse; None is undefined *)
(** The property of a value: of two members with one name JSON.parse keeps the last; null has no
    properties (a TypeError), other values have none of the names used here. *)
Definition js_member (k : bytes) (v : json) : res (option json) :=
  match v with
  | JNull => Panic
  | JObj l => Ok (option_map snd (find (fun kv => bytes_eqb (fst kv) k) (rev l)))
  | _ => Ok None
  end.
(** ToString (exact for integers below 2^53) *)
Fixpoint js_string (v : json) : bytes :=
  match v with
  | JNull => s2b "null"
  | JBool b => if b then s2b "true" else s2b "false"
  | JInt z => itoa z
  | JStr s => s
  | JArr l => join (s2b ",") (map (fun x => match x with JNull => [] | _ => js_string x end) l)
  | JObj _ => s2b "[object Object]"
  end.
Definition js_text (o : option json) : bytes := match o with None => s2b "undefined" | Some v => js_string v end.
(** [v == null] *)
Definition js_is_null (o : option json) : bool := match o with None | Some JNull => true | _ => false end.
(** [v == ""] *)
Definition js_is_empty (o : option json) : bool :=
  match o with
  | None | Some JNull => false
  | Some (JBool b) => negb b
  | Some (JInt z) => z =? 0
  | Some v => bytes_eqb (js_string v) []
  end.

(** ** demo.html:117-137 cb *)
(** demo.html:124-126 *)
Definition js_or_star (o : option json) : bytes := if js_is_empty o then star else js_text o.
(** demo.html:123-134: what is appended for one token *)
Definition live_row (val : json) : res bytes :=
  let* p := js_member (s2b "pos") val in
  let pos := if js_is_null p then star else js_text p in
  let* b := js_member (s2b "base_form") val in
  let base := js_or_star b in
  let* r := js_member (s2b "reading") val in
  let reading := js_or_star r in
  let* q := js_member (s2b "pronunciation") val in
  let pronoun := js_or_star q in
  let* s := js_member (s2b "surface") val in
  Ok (s2b "<tr>" ++ s2b "<td>" ++ js_text s ++ s2b "</td>" ++
      s2b "<td>" ++ pos ++ s2b "</td>" ++
      s2b "<td>" ++ base ++ s2b "</td>" ++
      s2b "<td>" ++ reading ++ s2b "</td>" ++
      s2b "<td>" ++ pronoun ++ s2b "</td>" ++
      s2b "</tr>").
(** demo.html:122-135: the loop; it ends when a row throws. *)
Fixpoint live_rows (vals : list json) (table : list bytes) : list bytes :=
  match vals with
  | [] => table
  | v :: vals' => match live_row v with Ok r => live_rows vals' (table ++ [r]) | _ => table end
  end.
(** demo.html:117-137, called by jQuery with the status "success".  The table is the list of the
    texts appended to it; jQuery makes elements of each of them by itself. *)
Definition live_cb (data : json) (table : list bytes) : list bytes :=
  match js_member (s2b "tokens") data with
  | Ok (Some (JArr vals)) => live_rows vals []
  | _ => table
  end.

(** ** demo.html:139-151 tokenize and the change handler *)
(** JSON.stringify of a string *)
Definition js_quote_byte (b : byte) : bytes :=
  match b with
  | Byte.x22 => s2b "\""" | Byte.x5c => s2b "\\" | Byte.x08 => s2b "\b" | Byte.x0c => s2b "\f"
  | Byte.x0a => s2b "\n" | Byte.x0d => s2b "\r" | Byte.x09 => s2b "\t"
  | _ => if (b2n b <? 32)%N then s2b "\u00" ++ [hex_digit (b2n b / 16); hex_digit (b2n b mod 16)] else [b]
  end.
Definition js_quote (s : bytes) : bytes := s2b """" ++ concat (map js_quote_byte s) ++ s2b """".
(** JSON.stringify({"sentence" : s, "mode" : m}) *)
Definition post_body (s m : bytes) : bytes :=
  s2b "{" ++ s2b """sentence"":" ++ js_quote s ++ s2b "," ++ s2b """mode"":" ++ js_quote m ++ s2b "}".
(** $.post(address, JSON.stringify(o), cb, 'json'): the address as it is seen from the root directory *)
Record post := Post { po_path : bytes; po_body : bytes }.
Definition typed_post (s m : bytes) : post := Post (s2b "/tokenize") (post_body s m).
Definition radio_post (s m : bytes) : post := Post (s2b "/a") (post_body s m).

(** The page: its text area, the radio button that is on, the table, and the requests under way.
    [lv_asked] only records the texts and modes sent so far. *)
Record live := Live { lv_text : bytes; lv_mode : bytes; lv_table : list bytes; lv_pending : list post; lv_asked : list (bytes * bytes) }.

Section Browser.
(** [parse] is JSON.parse. *)
Variables (parse : bytes -> option json) (decode : bytes -> request + bytes) (newer : bool) (gv : graphviz) (addr : coord -> bytes).
Variables (ideo : ideographic) (t : tokenizer).
(** $.post gives the body the type of a form.  What jQuery does with the answer: cb is called if the status is a success and the body is JSON.
    If the handler panics, the connection is closed. *)
Definition receive (p : post) (table : list bytes) : list bytes :=
  match (let* q := net_request (s2b "POST") (po_path p) [] true (po_body p) in serve_http decode newer gv addr ideo t q) with
  | Ok (AJson r) =>
    if (200 <=? rs_status r) && (rs_status r <? 300) then
      match parse (rs_body r) with Some v => live_cb v table | None => table end
    else table
  | Ok (APage html) => match parse html with Some v => live_cb v table | None => table end
  | _ => table
  end.

(** [lossy]: whether requests can fail. *)
Inductive live_step (lossy : bool) : live -> live -> Prop :=
(** demo.html:90: the form's input event *)
| ls_type s m tb ps h s' : valid_utf8 s' = true ->
    live_step lossy (Live s m tb ps h) (Live s' m tb (ps ++ [typed_post s' m]) (h ++ [(s', m)]))
(** A radio button: its input event reaches the form, then its change event has a handler. *)
| ls_radio s m tb ps h m' : In m' [s2b "Normal"; s2b "Search"; s2b "Extended"] ->
    live_step lossy (Live s m tb ps h) (Live s m' tb (ps ++ [typed_post s m'; radio_post s m']) (h ++ [(s, m')]))
(** An answer arrives; answers need not keep the order of the requests. *)
| ls_answer s m tb ps p qs h :
    live_step lossy (Live s m tb (ps ++ p :: qs) h) (Live s m (receive p tb) (ps ++ qs) h)
(** A request fails. *)
| ls_lost s m tb ps p qs h : lossy = true ->
    live_step lossy (Live s m tb (ps ++ p :: qs) h) (Live s m tb (ps ++ qs) h).
(** The same with answers that all arrive, in the order of the requests. *)
Inductive ordered_step : live -> live -> Prop :=
| os_type s m tb ps h s' : valid_utf8 s' = true ->
    ordered_step (Live s m tb ps h) (Live s' m tb (ps ++ [typed_post s' m]) (h ++ [(s', m)]))
| os_radio s m tb ps h m' : In m' [s2b "Normal"; s2b "Search"; s2b "Extended"] ->
    ordered_step (Live s m tb ps h) (Live s m' tb (ps ++ [typed_post s m'; radio_post s m']) (h ++ [(s, m')]))
| os_answer s m tb p qs h :
    ordered_step (Live s m tb (p :: qs) h) (Live s m (receive p tb) qs h).
End Browser.
(** The page when it is loaded: the text and mode the server put into it, and an empty table. *)
Definition live_start (s m : bytes) : live := Live s m [] [] [].
