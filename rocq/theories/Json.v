(** Model of the part of encoding/json (Go standard library, not in /repo: modelled from the
    library's source) that kagome uses: json.Marshal of TokenData and of the answer of the tokenize
    endpoint. *)
From Verif Require Export Tokenizer Dot.
Open Scope N_scope.

(** encodeState.string with HTML escaping, one rune at a time.  Go 1.22 began to write \b and \f
    for two control characters that were \u0008 and \u000c before; [newer] says which library. *)
Definition hex_digit (n : N) : byte := if n <? 10 then n2b (48 + n) else n2b (87 + n).
Definition html_safe (b : N) : bool :=
  (32 <=? b) && negb ((b =? 34) || (b =? 38) || (b =? 60) || (b =? 62) || (b =? 92)).
Definition json_rune (newer : bool) (g : N * bytes) : bytes :=
  let (c, raw) := g in
  if c <? 128 then
    if html_safe c then raw
    else if (c =? 92) || (c =? 34) then x5c :: raw
    else if newer && (c =? 8) then s2b "\b"
    else if newer && (c =? 12) then s2b "\f"
    else if c =? 10 then s2b "\n"
    else if c =? 13 then s2b "\r"
    else if c =? 9 then s2b "\t"
    else s2b "\u00" ++ [hex_digit (c / 16); hex_digit (c mod 16)]
  else if (c =? rune_error) && (length raw =? 1)%nat then s2b "\ufffd"
  else if (c =? 8232) || (c =? 8233) then s2b "\u202" ++ [hex_digit (c mod 16)]
  else raw.
Definition json_string (newer : bool) (s : bytes) : bytes :=
  quote ++ concat (map (json_rune newer) (segs s)) ++ quote.

(** An array of values already encoded; a nil slice is null. *)
Definition json_array (l : list bytes) : bytes := s2b "[" ++ join (s2b ",") l ++ s2b "]".
Definition json_strings (newer : bool) (l : strings) : bytes :=
  match l with None => s2b "null" | Some l => json_array (map (json_string newer) l) end.

(** A struct: the fields in order under the names of their json tags (no field of the two structs
    is omitted when empty). *)
Definition json_object (newer : bool) (l : list (bytes * bytes)) : bytes :=
  s2b "{" ++ join (s2b ",") (map (fun kv => json_string newer (fst kv) ++ s2b ":" ++ snd kv) l) ++ s2b "}".

(** json.Marshal(TokenData), token.go:265-276 *)
Definition marshal_token (newer : bool) (td : token_data) : bytes :=
  json_object newer
    [(s2b "id", itoa (td_id td)); (s2b "start", itoa (Z.of_nat (td_start td))); (s2b "end", itoa (Z.of_nat (td_end td)));
     (s2b "surface", json_string newer (td_surface td)); (s2b "class", json_string newer (td_class td));
     (s2b "pos", json_strings newer (td_pos td));
     (s2b "base_form", json_string newer (td_base_form td)); (s2b "reading", json_string newer (td_reading td));
     (s2b "pronunciation", json_string newer (td_pronunciation td)); (s2b "features", json_strings newer (td_features td))].

(** json.Marshal(TokenizerResponseBody), cmd/server/api.go:23-26; None is a nil slice. *)
Definition marshal_response (newer : bool) (status : bool) (tokens : option (list token_data)) : bytes :=
  json_object newer
    [(s2b "status", if status then s2b "true" else s2b "false");
     (s2b "tokens", match tokens with
                    | None => s2b "null"
                    | Some l => json_array (map (marshal_token newer) l)
                    end)].
