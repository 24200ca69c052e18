(** What a browser sees in a page: a reader of HTML texts, byte by byte, written from the HTML
    standard's tokenizer (without character references in attribute values, those without a
    semicolon, and the comment-like states of scripts). *)
From Verif Require Export GoBase SpecOut.
From Coq Require Import NArith.
Open Scope N_scope.

Inductive event := Open (name : bytes) (attrs : list (bytes * bytes)) | Close (name : bytes) | Ch (b : byte).

(** What follows a start tag: elements, text with references (textarea, title), or plain text
    (script, style) up to the end tag. *)
Inductive content := Elements | Rcdata (name : bytes) | Rawtext (name : bytes).
Definition content_of (name : bytes) : content :=
  if bytes_eqb name (s2b "textarea") || bytes_eqb name (s2b "title") then Rcdata name
  else if bytes_eqb name (s2b "script") || bytes_eqb name (s2b "style") then Rawtext name
  else Elements.

Record tag := Tag { tg_close : bool; tg_name : bytes; tg_attrs : list (bytes * bytes) }.
Inductive state :=
| Txt (c : content)                                     (* in text *)
| Ref (c : content) (acc : bytes)                       (* after an ampersand *)
| Lt (c : content)                                      (* after < *)
| LtSlash (c : content) (acc : bytes)                   (* after </ and these letters *)
| Name (close : bool) (acc : bytes)                     (* in the name of a tag *)
| Space (t : tag)                                       (* in a tag, before an attribute *)
| Attr (t : tag) (acc : bytes)                          (* in the name of an attribute *)
| AttrSpace (t : tag) (name : bytes)                    (* after it *)
| Equals (t : tag) (name : bytes)                       (* after the equals sign *)
| Quoted (q : byte) (t : tag) (name acc : bytes)        (* in a quoted value *)
| Bare (t : tag) (name acc : bytes)                     (* in an unquoted value *)
| Markup (acc : bytes).                                 (* after <! *)

Definition code (b : byte) : N := Byte.to_N b.
Definition is_space (b : byte) : bool := (code b =? 32) || (code b =? 10) || (code b =? 9) || (code b =? 12) || (code b =? 13).
Definition is_upper (b : byte) : bool := (65 <=? code b) && (code b <=? 90).
Definition is_letter (b : byte) : bool := is_upper b || ((97 <=? code b) && (code b <=? 122)).
Definition is_digit (b : byte) : bool := (48 <=? code b) && (code b <=? 57).
Definition lower (b : byte) : byte := if is_upper b then match Byte.of_N (code b + 32) with Some c => c | None => b end else b.
Definition is (b : byte) (n : N) : bool := code b =? n.

(** The bytes of a code point below 128 given in decimal, as in &#34;. *)
Definition number (s : bytes) : option bytes :=
  match s with
  | [] => None
  | _ =>
    if forallb is_digit s then
      let n := fold_left (fun n b => 10 * n + (code b - 48)) s 0 in
      if (0 <? n) && (n <? 128) then match Byte.of_N n with Some b => Some [b] | None => None end else None
    else None
  end.
Definition reference (s : bytes) : option bytes :=
  match s with
  | Byte.x23 :: d => number d
  | _ =>
    if bytes_eqb s (s2b "lt") then Some (s2b "<")
    else if bytes_eqb s (s2b "gt") then Some (s2b ">")
    else if bytes_eqb s (s2b "amp") then Some (s2b "&")
    else if bytes_eqb s (s2b "quot") then Some [Byte.x22]
    else None
  end.

(** The end of a tag. *)
Definition finish (t : tag) : state * list event :=
  if tg_close t then (Txt Elements, [Close (tg_name t)])
  else (Txt (content_of (tg_name t)), [Open (tg_name t) (tg_attrs t)]).
Definition with_attr (t : tag) (name value : bytes) : tag := Tag (tg_close t) (tg_name t) (tg_attrs t ++ [(name, value)]).

Definition in_text (c : content) (b : byte) : state * list event :=
  if is b 60 then (Lt c, [])
  else if is b 38 then match c with Rawtext _ => (Txt c, [Ch b]) | _ => (Ref c [], []) end
  else (Txt c, [Ch b]).
Definition literal (s : bytes) (r : state * list event) : state * list event := (fst r, map Ch s ++ snd r).

Definition read_byte (st : state) (b : byte) : state * list event :=
  match st with
  | Txt c => in_text c b
  | Ref c acc =>
    if is b 59 then match reference acc with Some s => (Txt c, map Ch s) | None => (Txt c, map Ch (s2b "&" ++ acc ++ [b])) end
    else if is_letter b || is_digit b || is b 35 then (Ref c (acc ++ [b]), [])
    else literal (s2b "&" ++ acc) (in_text c b)
  | Lt c =>
    match c with
    | Elements =>
      if is b 47 then (LtSlash c [], [])
      else if is b 33 then (Markup [], [])
      else if is_letter b then (Name false [lower b], [])
      else literal (s2b "<") (in_text c b)
    | _ => if is b 47 then (LtSlash c [], []) else literal (s2b "<") (in_text c b)
    end
  | LtSlash c acc =>
    match c with
    | Elements => if is_letter b then (Name true [lower b], []) else (Markup [], [])
    | Rcdata name | Rawtext name =>
      if is_letter b then (LtSlash c (acc ++ [b]), [])
      else if bytes_eqb (map lower acc) name then
        if is b 62 then (Txt Elements, [Close name])
        else if is_space b || is b 47 then (Space (Tag true name []), [])
        else literal (s2b "</" ++ acc) (in_text c b)
      else literal (s2b "</" ++ acc) (in_text c b)
    end
  | Name close acc =>
    if is b 62 then finish (Tag close acc [])
    else if is_space b || is b 47 then (Space (Tag close acc []), [])
    else (Name close (acc ++ [lower b]), [])
  | Space t =>
    if is b 62 then finish t
    else if is_space b || is b 47 then (Space t, [])
    else (Attr t [lower b], [])
  | Attr t acc =>
    if is b 62 then finish (with_attr t acc [])
    else if is b 61 then (Equals t acc, [])
    else if is_space b then (AttrSpace t acc, [])
    else if is b 47 then (Space (with_attr t acc []), [])
    else (Attr t (acc ++ [lower b]), [])
  | AttrSpace t name =>
    if is b 62 then finish (with_attr t name [])
    else if is b 61 then (Equals t name, [])
    else if is_space b then (AttrSpace t name, [])
    else if is b 47 then (Space (with_attr t name []), [])
    else (Attr (with_attr t name []) [lower b], [])
  | Equals t name =>
    if is b 62 then finish (with_attr t name [])
    else if is b 34 || is b 39 then (Quoted b t name [], [])
    else if is_space b then (Equals t name, [])
    else (Bare t name [b], [])
  | Quoted q t name acc =>
    if is b (code q) then (Space (with_attr t name acc), []) else (Quoted q t name (acc ++ [b]), [])
  | Bare t name acc =>
    if is b 62 then finish (with_attr t name acc)
    else if is_space b then (Space (with_attr t name acc), [])
    else (Bare t name (acc ++ [b]), [])
  | Markup acc =>
    if is b 62 then
      match acc with
      | Byte.x2d :: Byte.x2d :: body =>
        match rev body with
        | Byte.x2d :: Byte.x2d :: _ => (Txt Elements, [])
        | _ => (Markup (acc ++ [b]), [])
        end
      | _ => (Txt Elements, [])
      end
    else (Markup (acc ++ [b]), [])
  end.
Fixpoint read (st : state) (s : bytes) : state * list event :=
  match s with
  | [] => (st, [])
  | b :: s' =>
    let r := read_byte st b in
    let r' := read (fst r) s' in
    (fst r', snd r ++ snd r')
  end.
(** A whole text: it ends outside of tags. *)
Definition reads (s : bytes) (evs : list event) : Prop := read (Txt Elements) s = (Txt Elements, evs).

(** The tags alone. *)
Definition tags (evs : list event) : list event := filter (fun e => match e with Ch _ => false | _ => true end) evs.
(** The text of each element of this name (which does not contain another one). *)
Fixpoint texts_from (name : bytes) (cur : option bytes) (evs : list event) : list bytes :=
  match evs with
  | [] => []
  | Open n _ :: r => texts_from name (if bytes_eqb n name then Some [] else cur) r
  | Close n :: r =>
    if bytes_eqb n name then match cur with Some t => t :: texts_from name None r | None => texts_from name None r end
    else texts_from name cur r
  | Ch b :: r => texts_from name (match cur with Some t => Some (t ++ [b]) | None => None end) r
  end.
Definition texts (name : bytes) (evs : list event) : list bytes := texts_from name None evs.
(** The table rows: for each tr the texts of its th and td cells. *)
Definition is_cell (n : bytes) : bool := bytes_eqb n (s2b "td") || bytes_eqb n (s2b "th").
Fixpoint rows_from (row : list bytes) (cur : option bytes) (evs : list event) : list (list bytes) :=
  match evs with
  | [] => []
  | Open n _ :: r =>
    if is_cell n then rows_from row (Some []) r else if bytes_eqb n (s2b "tr") then rows_from [] None r else rows_from row cur r
  | Close n :: r =>
    if is_cell n then rows_from (match cur with Some t => row ++ [t] | None => row end) None r
    else if bytes_eqb n (s2b "tr") then row :: rows_from [] None r
    else rows_from row cur r
  | Ch b :: r => rows_from row (match cur with Some t => Some (t ++ [b]) | None => None end) r
  end.
Definition rows (evs : list event) : list (list bytes) := rows_from [] None evs.

(** The value of the radio button of this name that is on: the last one with the attribute
    checked. *)
Definition attr (name : bytes) (attrs : list (bytes * bytes)) : option bytes :=
  match find (fun a => bytes_eqb (fst a) name) attrs with Some a => Some (snd a) | None => None end.
Definition has_attr (name value : bytes) (attrs : list (bytes * bytes)) : bool :=
  match attr name attrs with Some v => bytes_eqb v value | None => false end.
Fixpoint radio_on (name : bytes) (on : option bytes) (evs : list event) : option bytes :=
  match evs with
  | [] => on
  | Open n a :: r =>
    radio_on name
      (if bytes_eqb n (s2b "input") && has_attr (s2b "type") (s2b "radio") a && has_attr (s2b "name") name a
          && match attr (s2b "checked") a with Some _ => true | None => false end
       then attr (s2b "value") a else on) r
  | _ :: r => radio_on name on r
  end.
(** What a text area shows: a line feed right after its start tag is dropped. *)
Definition field (s : bytes) : bytes := match s with Byte.x0a :: r => r | _ => s end.

(** HTML has no NUL; what is shown instead is U+FFFD. *)
Definition no_nul (s : bytes) : bytes := concat (map (fun b => if is b 0 then [Byte.xef; Byte.xbf; Byte.xbd] else [b]) s).
