(** The JSON texts of RFC 8259 as a grammar, and what a request body asks for: independent of the
    decoder.  Unlike the reader of [SpecJson] it covers all numbers, surrogates and bytes that are
    not UTF-8. *)
From Verif Require Export SpecServer SpecText.
Open Scope N_scope.

Inductive tree := TNull | TBool (b : bool) | TNum | TStr (s : bytes) | TArr (l : list tree) | TObj (l : list (bytes * tree)).

Definition blank (w : bytes) : Prop := Forall (fun b => In b [x20; x09; x0a; x0d]) w.
Definition is_digit (b : byte) : Prop := 48 <= b2n b <= 57.
Definition some_digits (s : bytes) : Prop := s <> [] /\ Forall is_digit s.

(** number = [ minus ] int [ frac ] [ exp ] *)
Definition number_text (t : bytes) : Prop := exists minus int frac exp, t = minus ++ int ++ frac ++ exp /\
  (minus = [] \/ minus = [x2d]) /\
  (int = [x30] \/ exists d ds, int = d :: ds /\ is_digit d /\ d <> x30 /\ Forall is_digit ds) /\
  (frac = [] \/ exists ds, frac = x2e :: ds /\ some_digits ds) /\
  (exp = [] \/ exists e sign ds, exp = e :: sign ++ ds /\ In e [x65; x45] /\ In sign [[]; [x2b]; [x2d]] /\ some_digits ds).

(** \uXXXX at the start of a text *)
Definition u_escape (s : bytes) (c : N) (tail : bytes) : Prop :=
  exists h1 h2 h3 h4, s = x5c :: x75 :: h1 :: h2 :: h3 :: h4 :: tail /\ hex4 h1 h2 h3 h4 = Some c.
Definition high_surrogate (c : N) : Prop := 55296 <= c < 56320.
Definition low_surrogate (c : N) : Prop := 56320 <= c < 57344.
(** What is between the quotation marks of a string, and the text it means, in UTF-8: surrogates
    without their partner and bytes that are not UTF-8 mean U+FFFD. *)
Inductive str_text : bytes -> bytes -> Prop :=
| st_end : str_text [] []
| st_raw b raw tail r v : decode_rune ((b :: raw) ++ tail) = (r, length (b :: raw)) -> 32 <= b2n b -> b <> x22 -> b <> x5c ->
    str_text tail v -> str_text ((b :: raw) ++ tail) (encode_rune r ++ v)
| st_short e c tail v : short_escape e = Some c -> str_text tail v -> str_text (x5c :: e :: tail) (c :: v)
| st_u s c tail v : u_escape s c tail -> ~ high_surrogate c -> ~ low_surrogate c ->
    str_text tail v -> str_text s (encode_rune c ++ v)
| st_pair s c s2 c2 tail v : u_escape s c s2 -> high_surrogate c -> u_escape s2 c2 tail -> low_surrogate c2 ->
    str_text tail v -> str_text s (encode_rune (65536 + (c - 55296) * 1024 + (c2 - 56320)) ++ v)
| st_lone s c tail v : u_escape s c tail ->
    (low_surrogate c \/ high_surrogate c /\ forall c2 tail2, u_escape tail c2 tail2 -> ~ low_surrogate c2) ->
    str_text tail v -> str_text s (encode_rune 65533 ++ v).

Inductive reads : bytes -> tree -> Prop :=
| rd_null : reads (s2b "null") TNull
| rd_true : reads (s2b "true") (TBool true)
| rd_false : reads (s2b "false") (TBool false)
| rd_num t : number_text t -> reads t TNum
| rd_str s v : str_text s v -> reads (x22 :: s ++ [x22]) (TStr v)
| rd_arr0 w : blank w -> reads (x5b :: w ++ [x5d]) (TArr [])
| rd_arr t l : elements t l -> reads (x5b :: t ++ [x5d]) (TArr l)
| rd_obj0 w : blank w -> reads (x7b :: w ++ [x7d]) (TObj [])
| rd_obj t l : members t l -> reads (x7b :: t ++ [x7d]) (TObj l)
with elements : bytes -> list tree -> Prop :=
| el_one w1 t w2 v : blank w1 -> reads t v -> blank w2 -> elements (w1 ++ t ++ w2) [v]
| el_more w1 t w2 v s l : blank w1 -> reads t v -> blank w2 -> elements s l -> elements (w1 ++ t ++ w2 ++ x2c :: s) (v :: l)
with members : bytes -> list (bytes * tree) -> Prop :=
| mb_one m kv : member m kv -> members m [kv]
| mb_more m kv s l : member m kv -> members s l -> members (m ++ x2c :: s) (kv :: l)
with member : bytes -> bytes * tree -> Prop :=
| mb w1 k w2 w3 t w4 kt v : blank w1 -> str_text k kt -> blank w2 -> blank w3 -> reads t v -> blank w4 ->
    member (w1 ++ x22 :: k ++ x22 :: w2 ++ x3a :: w3 ++ t ++ w4) (kt, v).

(** Nesting *)
Fixpoint nesting (v : tree) : nat :=
  match v with
  | TArr l => S (fold_right (fun v m => Nat.max (nesting v) m) 0%nat l)
  | TObj l => S (fold_right (fun kv m => Nat.max (nesting (snd kv)) m) 0%nat l)
  | _ => 0
  end.

(** [body] begins with a JSON value whose nesting is at most 10000; white space may precede it and
    anything follow it, but a number is read as far as it goes. *)
Definition begins (body : bytes) (v : tree) : Prop :=
  exists w t rest, body = w ++ t ++ rest /\ blank w /\ reads t v /\ N.of_nat (nesting v) <= 10000 /\
    (v = TNum -> forall c r q, rest = c :: r -> ~ number_text (t ++ c :: q)).

(** What the value asks for.  A member counts if its name is the field's up to case; its value is a
    string, or null, which says nothing; the last one counts. *)
Definition texts (field : string) (l : list (bytes * tree)) : list bytes :=
  flat_map (fun kv => if names (fst kv) field then match snd kv with TStr s => [s] | _ => [] end else []) l.
Definition text_of (field : string) (l : list (bytes * tree)) : bytes := last (texts field l) [].
Definition typed (field : string) (l : list (bytes * tree)) : Prop :=
  forall k v, In (k, v) l -> names k field = true -> v = TNull \/ exists s, v = TStr s.
Inductive asks : tree -> request -> Prop :=
| as_null : asks TNull (Request [] [])
| as_obj l : typed "sentence" l -> typed "mode" l -> asks (TObj l) (Request (text_of "sentence" l) (text_of "mode" l)).
Definition body_asks (body : bytes) (r : request) : Prop := exists v, begins body v /\ asks v r.

(** ** Errors *)
(** [p] can be continued so that it begins with a value. *)
Definition viable (p : bytes) : Prop := exists q v, begins (p ++ q) v.
(** After [p] the body has the byte [c], the first that cannot be part of a value. *)
Definition offends (body p : bytes) (c : byte) : Prop :=
  (exists q, body = p ++ c :: q) /\ viable p /\ ~ viable (p ++ [c]).
(** The bytes that strconv.Quote shows as JSON does not: the quotation mark itself, and an escape
    that JSON has not. *)
Definition unquotable (c : byte) : Prop :=
  c = x22 \/ c = x27 \/ c = x7f \/ b2n c < 32 /\ ~ In c [x08; x09; x0a; x0c; x0d].
(** A hexadecimal digit is due, and nothing else: [p] ends within the digits after \u. *)
Definition digit_due (p : bytes) : Prop := forall b, viable (p ++ [b]) <-> exists x, hex_value b = Some x.

(** What was expected where the byte stood, told by the bytes that could stand there instead. *)
Definition may_follow (p : bytes) (b : byte) : Prop := viable (p ++ [b]).
Definition ends_with (p s : bytes) : Prop := exists q, p = q ++ s.
Definition in_exponent (p : bytes) : Prop := exists e sign, In e [x65; x45] /\ In sign [[]; [x2b]; [x2d]] /\ ends_with p (e :: sign).
(** a value: a string, a number or a word, but no letter (as in a string) *)
Definition value_due (p : bytes) : Prop := (forall b, In b [x22; x2d; x30; x74; x66; x6e] -> may_follow p b) /\ ~ may_follow p x61.
(** digits, no space and no other value: within a number that cannot end here *)
Definition digits_due (p : bytes) : Prop := (forall b, is_digit b -> may_follow p b) /\ ~ may_follow p x20 /\ ~ may_follow p x22 /\ ~ may_follow p x41.
Inductive looking (p : bytes) (c : byte) : string -> Prop :=
| lk_value : value_due p -> ~ In c [x7b; x5b] -> looking p c "looking for beginning of value"
| lk_depth : value_due p -> In c [x7b; x5b] -> looking p c "exceeded max depth"
| lk_key : may_follow p x22 -> may_follow p x20 -> ~ may_follow p x2d -> looking p c "looking for beginning of object key string"
| lk_colon : may_follow p x3a -> may_follow p x20 -> ~ may_follow p x22 -> ~ may_follow p x2c -> looking p c "after object key"
| lk_pair : may_follow p x2c -> may_follow p x7d -> may_follow p x20 -> ~ may_follow p x22 -> ~ may_follow p x5d -> looking p c "after object key:value pair"
| lk_element : may_follow p x2c -> may_follow p x5d -> may_follow p x20 -> ~ may_follow p x22 -> looking p c "after array element"
| lk_string : (forall b, 32 <= b2n b -> may_follow p b) -> looking p c "in string literal"
| lk_escape : (forall b, In b [x22; x62; x75] -> may_follow p b) -> ~ may_follow p x20 -> ~ may_follow p x2d -> looking p c "in string escape code"
| lk_hex : digit_due p -> looking p c "in \u hexadecimal character escape"
| lk_number : digits_due p -> ends_with p [x2d] -> ~ in_exponent p -> looking p c "in numeric literal"
| lk_decimal : digits_due p -> ends_with p [x2e] -> looking p c "after decimal point in numeric literal"
| lk_exponent : digits_due p -> in_exponent p -> looking p c "in exponent of numeric literal"
| lk_word w before a after : In w ["true"; "false"; "null"]%string -> s2b w = before ++ a :: after -> before <> [] -> ends_with p before ->
    (forall b, may_follow p b <-> b = a) -> looking p c ("in literal " ++ w ++ " (expecting '" ++ String (Ascii.ascii_of_byte a) "')").

(** How the byte is shown: as in a Go string literal, but for the quotation marks. *)
Definition shown_as (c : byte) (s : bytes) : Prop :=
  c = x27 /\ s = s2b "\'" \/ c = x22 /\ s = s2b """" \/ ~ In c [x27; x22] /\ go_literal (s ++ s2b """") = Some (encode_rune (b2n c), []).

(** What is wrong, in words: a byte, the end, the value, or the first member that has the wrong type. *)
Definition kind (v : tree) : string :=
  match v with TNull => "null" | TBool _ => "bool" | TNum => "number" | TStr _ => "string" | TArr _ => "array" | TObj _ => "object" end.
Inductive complains (body : bytes) : bytes -> Prop :=
| co_byte p c context : offends body p c -> looking p c context ->
    complains body (s2b "invalid character '" ++ encode_rune (b2n c) ++ s2b "' " ++ s2b context)
| co_nothing : blank body -> complains body (s2b "EOF")
| co_end : ~ blank body -> (forall v, ~ begins body v) -> viable body -> complains body (s2b "unexpected EOF")
| co_value v : begins body v -> ~ In (kind v) ["null"; "object"]%string ->
    complains body (s2b "json: cannot unmarshal " ++ s2b (kind v) ++ s2b " into Go value of type server.TokenizerRequestBody")
| co_field l1 k v l2 f : begins body (TObj (l1 ++ (k, v) :: l2)) ->
    typed "sentence" l1 -> typed "mode" l1 -> In f ["sentence"; "mode"]%string -> names k f = true -> ~ In (kind v) ["null"; "string"]%string ->
    complains body (s2b "json: cannot unmarshal " ++ s2b (kind v) ++ s2b " into Go struct field TokenizerRequestBody." ++ s2b f ++ s2b " of type string").
