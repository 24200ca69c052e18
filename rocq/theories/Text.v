(** Model of the String methods of tokenizer/token.go and tokenizer/tokenizer.go, with the part of
    fmt and strconv (Go standard library, not in /repo: modelled from the library's source) that
    they use: %d, %v of a Stringer and %q of a string. *)
From Verif Require Export Tokenizer Dot Json.
Open Scope N_scope.

(** strconv.appendEscapedRune for double quotation marks, neither ASCIIonly nor graphicOnly; [printable] is
    strconv.IsPrint (any predicate). *)
Definition hex2 (n : N) : bytes := [hex_digit (n / 16 mod 16); hex_digit (n mod 16)].
Definition hex4_of (n : N) : bytes := hex2 (n / 256 mod 256) ++ hex2 (n mod 256).
Definition hex8_of (n : N) : bytes := hex4_of (n / 65536) ++ hex4_of (n mod 65536).
Definition valid_rune (r : N) : bool := (r <? 55296) || ((57343 <? r) && (r <=? 1114111)).
Definition escaped_rune (printable : N -> bool) (r : N) : bytes :=
  if (r =? 34) || (r =? 92) then [x5c; n2b r]
  else if printable r then encode_rune r
  else if r =? 7 then s2b "\a"
  else if r =? 8 then s2b "\b"
  else if r =? 12 then s2b "\f"
  else if r =? 10 then s2b "\n"
  else if r =? 13 then s2b "\r"
  else if r =? 9 then s2b "\t"
  else if r =? 11 then s2b "\v"
  else if (r <? 32) || (r =? 127) then s2b "\x" ++ hex2 r
  else
    let r := if valid_rune r then r else rune_error in
    if r <? 65536 then s2b "\u" ++ hex4_of r
    else s2b "\U" ++ hex8_of r.

(** strconv.appendQuotedWith *)
Definition quoted_rune (printable : N -> bool) (g : N * bytes) : bytes :=
  let (r, raw) := g in
  match raw with
  | [b] => if r =? rune_error then s2b "\x" ++ hex2 (b2n b) else escaped_rune printable r
  | _ => escaped_rune printable r
  end.
(** strconv.Quote, fmt's %q *)
Definition go_quote (printable : N -> bool) (s : bytes) : bytes :=
  quote ++ concat (map (quoted_rune printable) (segs s)) ++ quote.

(** token.go:253-255 Token.String *)
Definition token_string (printable : N -> bool) (t : token) : bytes :=
  itoa (Z.of_nat (t_index t)) ++ s2b ":" ++ go_quote printable (t_surface t) ++ s2b " (" ++
  itoa (Z.of_nat (t_position t)) ++ s2b ": " ++ itoa (Z.of_nat (t_start t)) ++ s2b ", " ++ itoa (Z.of_nat (t_end t)) ++
  s2b ") " ++ class_string (t_class t) ++ s2b " [" ++ itoa (t_id t) ++ s2b "]".

(** tokenizer.go:21-31 TokenizeMode.String *)
Definition mode_string (m : Z) : bytes :=
  if (m =? mode_normal)%Z then s2b "normal"
  else if (m =? mode_search)%Z then s2b "search"
  else if (m =? mode_extended)%Z then s2b "extend"
  else s2b "unknown tokenize mode (" ++ itoa m ++ s2b ")".
