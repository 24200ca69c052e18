(** Model of json.NewDecoder(r.Body).Decode(&req) as api.go:30-31 calls it (encoding/json of the Go
    standard library, not in /repo: modelled from the library's source: scanner.go, stream.go,
    decode.go and fold.go), for a body that arrives whole and the type TokenizerRequestBody. *)
From Verif Require Export Server Text.
Open Scope N_scope.

(** ** scanner.go *)
(** parseObjectKey, parseObjectValue, parseArrayValue *)
Inductive jparse := PKey | PValue | PArray.
(** The function in s.step; stateError with what s.err tells. *)
Inductive jstep :=
| SBeginValue | SBeginValueOrEmpty | SBeginString | SBeginStringOrEmpty | SEndValue | SEndTop
| SInString | SEsc | SEscU | SEscU1 | SEscU12 | SEscU123
| SNeg | S1 | S0 | SDot | SDot0 | SE | SESign | SE0
| STr (rest word : bytes)
| SFail (c : byte) (context : bytes).
Inductive jop :=
| OContinue | OBeginLiteral | OBeginObject | OObjectKey | OObjectValue | OEndObject
| OBeginArray | OArrayValue | OEndArray | OSkipSpace | OEnd | OError.
(** step and parseState, the innermost first *)
Record jscan := Scan { sc_step : jstep; sc_stack : list jparse }.

(** isSpace *)
Definition json_space (c : byte) : bool := Byte.eqb c x20 || Byte.eqb c x09 || Byte.eqb c x0d || Byte.eqb c x0a.
Definition json_digit (c : byte) : bool := (48 <=? b2n c) && (b2n c <=? 57).
Definition json_digit19 (c : byte) : bool := (49 <=? b2n c) && (b2n c <=? 57).
Definition json_hex (c : byte) : bool :=
  json_digit c || ((97 <=? b2n c) && (b2n c <=? 102)) || ((65 <=? b2n c) && (b2n c <=? 70)).
(** scanner.error *)
Definition jfail (st : list jparse) (c : byte) (context : bytes) : jscan * jop := (Scan (SFail c context) st, OError).
(** pushParseState; maxNestingDepth is 10000 *)
Definition jpush (st : list jparse) (c : byte) (q : jstep) (p : jparse) (o : jop) : jscan * jop :=
  if N.of_nat (length (p :: st)) <=? 10000 then (Scan q (p :: st), o) else jfail (p :: st) c (s2b "exceeded max depth").
(** popParseState, the stack after it *)
Definition jpop (st : list jparse) : jscan := Scan (match st with [] => SEndTop | _ => SEndValue end) st.
(** stateEndTop *)
Definition end_top (st : list jparse) (c : byte) : jscan * jop :=
  if json_space c then (Scan SEndTop st, OEnd) else (Scan (SFail c (s2b "after top-level value")) st, OEnd).
(** stateEndValue *)
Definition end_value (st : list jparse) (c : byte) : jscan * jop :=
  match st with
  | [] => end_top st c
  | p :: st' =>
    if json_space c then (Scan SEndValue st, OSkipSpace)
    else match p with
         | PKey => if Byte.eqb c x3a then (Scan SBeginValue (PValue :: st'), OObjectKey) else jfail st c (s2b "after object key")
         | PValue =>
           if Byte.eqb c x2c then (Scan SBeginString (PKey :: st'), OObjectValue)
           else if Byte.eqb c x7d then (jpop st', OEndObject)
           else jfail st c (s2b "after object key:value pair")
         | PArray =>
           if Byte.eqb c x2c then (Scan SBeginValue st, OArrayValue)
           else if Byte.eqb c x5d then (jpop st', OEndArray)
           else jfail st c (s2b "after array element")
         end
  end.
(** stateBeginValue *)
Definition begin_value (st : list jparse) (q : jstep) (c : byte) : jscan * jop :=
  if json_space c then (Scan q st, OSkipSpace)
  else if Byte.eqb c x7b then jpush st c SBeginStringOrEmpty PKey OBeginObject
  else if Byte.eqb c x5b then jpush st c SBeginValueOrEmpty PArray OBeginArray
  else if Byte.eqb c x22 then (Scan SInString st, OBeginLiteral)
  else if Byte.eqb c x2d then (Scan SNeg st, OBeginLiteral)
  else if Byte.eqb c x30 then (Scan S0 st, OBeginLiteral)
  else if Byte.eqb c x74 then (Scan (STr (s2b "rue") (s2b "true")) st, OBeginLiteral)
  else if Byte.eqb c x66 then (Scan (STr (s2b "alse") (s2b "false")) st, OBeginLiteral)
  else if Byte.eqb c x6e then (Scan (STr (s2b "ull") (s2b "null")) st, OBeginLiteral)
  else if json_digit19 c then (Scan S1 st, OBeginLiteral)
  else jfail st c (s2b "looking for beginning of value").
(** stateBeginString *)
Definition begin_string (st : list jparse) (q : jstep) (c : byte) : jscan * jop :=
  if json_space c then (Scan q st, OSkipSpace)
  else if Byte.eqb c x22 then (Scan SInString st, OBeginLiteral)
  else jfail st c (s2b "looking for beginning of object key string").
(** state0 *)
Definition state_0 (st : list jparse) (c : byte) : jscan * jop :=
  if Byte.eqb c x2e then (Scan SDot st, OContinue)
  else if Byte.eqb c x65 || Byte.eqb c x45 then (Scan SE st, OContinue)
  else end_value st c.
(** stateESign *)
Definition state_esign (st : list jparse) (c : byte) : jscan * jop :=
  if json_digit c then (Scan SE0 st, OContinue) else jfail st c (s2b "in exponent of numeric literal").
(** stateInStringEscU and the three after it *)
Definition state_hex (st : list jparse) (next : jstep) (c : byte) : jscan * jop :=
  if json_hex c then (Scan next st, OContinue) else jfail st c (s2b "in \u hexadecimal character escape").
(** s.step(s, c).  The nine functions stateT to stateNul are one here: what is left of the word, the word. *)
Definition json_scan (s : jscan) (c : byte) : jscan * jop :=
  let st := sc_stack s in
  match sc_step s with
  | SBeginValueOrEmpty =>
    if json_space c then (s, OSkipSpace) else if Byte.eqb c x5d then end_value st c else begin_value st SBeginValue c
  | SBeginValue => begin_value st SBeginValue c
  | SBeginStringOrEmpty =>
    if json_space c then (s, OSkipSpace)
    else if Byte.eqb c x7d then end_value (match st with [] => [] | _ :: st' => PValue :: st' end) c
    else begin_string st SBeginString c
  | SBeginString => begin_string st SBeginString c
  | SEndValue => end_value st c
  | SEndTop => end_top st c
  | SInString =>
    if Byte.eqb c x22 then (Scan SEndValue st, OContinue)
    else if Byte.eqb c x5c then (Scan SEsc st, OContinue)
    else if b2n c <? 32 then jfail st c (s2b "in string literal")
    else (s, OContinue)
  | SEsc =>
    if existsb (Byte.eqb c) [x62; x66; x6e; x72; x74; x5c; x2f; x22] then (Scan SInString st, OContinue)
    else if Byte.eqb c x75 then (Scan SEscU st, OContinue)
    else jfail st c (s2b "in string escape code")
  | SEscU => state_hex st SEscU1 c
  | SEscU1 => state_hex st SEscU12 c
  | SEscU12 => state_hex st SEscU123 c
  | SEscU123 => state_hex st SInString c
  | SNeg =>
    if Byte.eqb c x30 then (Scan S0 st, OContinue)
    else if json_digit19 c then (Scan S1 st, OContinue)
    else jfail st c (s2b "in numeric literal")
  | S1 => if json_digit c then (s, OContinue) else state_0 st c
  | S0 => state_0 st c
  | SDot => if json_digit c then (Scan SDot0 st, OContinue) else jfail st c (s2b "after decimal point in numeric literal")
  | SDot0 =>
    if json_digit c then (s, OContinue)
    else if Byte.eqb c x65 || Byte.eqb c x45 then (Scan SE st, OContinue)
    else end_value st c
  | SE => if Byte.eqb c x2b || Byte.eqb c x2d then (Scan SESign st, OContinue) else state_esign st c
  | SESign => state_esign st c
  | SE0 => if json_digit c then (s, OContinue) else end_value st c
  | STr rest word =>
    match rest with
    | a :: rest' =>
      if Byte.eqb c a then (Scan (match rest' with [] => SEndValue | _ => STr rest' word end) st, OContinue)
      else jfail st c (s2b "in literal " ++ word ++ s2b " (expecting '" ++ [a] ++ s2b "')")
    | [] => end_value st c
    end
  | SFail _ _ => (s, OError)
  end.

(** quoteChar; string(c) of a byte is the rune of that number *)
Definition quote_char (printable : N -> bool) (c : byte) : bytes :=
  if Byte.eqb c x27 then s2b "'\''"
  else if Byte.eqb c x22 then s2b "'""'"
  else s2b "'" ++ removelast (tl (go_quote printable (encode_rune (b2n c)))) ++ s2b "'".
(** SyntaxError.Error *)
Definition scan_error (printable : N -> bool) (s : jscan) : bytes :=
  match sc_step s with
  | SFail c context => s2b "invalid character " ++ quote_char printable c ++ s2b " " ++ context
  | _ => []
  end.
(** scanner.eof: scanEnd or scanError *)
Definition scan_eof (s : jscan) : jop :=
  match sc_step s with
  | SFail _ _ => OError
  | SEndTop => OEnd
  | _ => match sc_step (fst (json_scan s x20)) with SEndTop => OEnd | _ => OError end
  end.

(** ** stream.go *)
(** Decoder.readValue: the length of the first value with the white space before it, or the error.
    [n] bytes have been scanned; [body] is the rest, [seen] says whether there was a byte that is no
    white space (nonSpace(dec.buf)). *)
Fixpoint read_loop (printable : N -> bool) (s : jscan) (n : nat) (seen : bool) (body : bytes) : nat + bytes :=
  match body with
  | [] =>
    match snd (json_scan s x20) with
    | OEnd => inl n
    | _ => inr (if seen then s2b "unexpected EOF" else s2b "EOF")
    end
  | c :: body' =>
    let seen' := seen || negb (json_space c) in
    let (s', o) := json_scan s c in
    match o with
    | OEnd => inl n
    | OEndObject | OEndArray =>
      let (s'', o') := end_value (sc_stack s') x20 in
      match o' with OEnd => inl (S n) | _ => read_loop printable s'' (S n) seen' body' end
    | OError => inr (scan_error printable s')
    | _ => read_loop printable s' (S n) seen' body'
    end
  end.

(** ** decode.go *)
(** getu4 *)
Definition json_unhex (c : byte) : option N :=
  if json_digit c then Some (b2n c - 48)
  else if (97 <=? b2n c) && (b2n c <=? 102) then Some (b2n c - 87)
  else if (65 <=? b2n c) && (b2n c <=? 70) then Some (b2n c - 55)
  else None.
Definition get_u4 (s : bytes) : option N :=
  match s with
  | x5c :: x75 :: a :: b :: c :: d :: _ =>
    match json_unhex a, json_unhex b, json_unhex c, json_unhex d with
    | Some a, Some b, Some c, Some d => Some (((a * 16 + b) * 16 + c) * 16 + d)
    | _, _, _, _ => None
    end
  | _ => None
  end.
(** utf16.DecodeRune; None is U+FFFD *)
Definition utf16_pair (r1 r2 : N) : option N :=
  if (55296 <=? r1) && (r1 <? 56320) && (56320 <=? r2) && (r2 <? 57344)
  then Some ((r1 - 55296) * 1024 + (r2 - 56320) + 65536) else None.
Definition put (p : bytes) (r : option bytes) : option bytes := match r with Some v => Some (p ++ v) | None => None end.
(** unquoteBytes, what is between the quotation marks.  The loop that copies a text without
    escapes and bytes that are not UTF-8 as it stands is left out: it copies what this one writes. *)
Fixpoint unquote_loop (fuel : nat) (s : bytes) : option bytes :=
  match fuel with
  | O => None
  | S f =>
    match s with
    | [] => Some []
    | c :: s1 =>
      if Byte.eqb c x5c then
        match s1 with
        | [] => None
        | e :: s2 =>
          if existsb (Byte.eqb e) [x22; x5c; x2f; x27] then put [e] (unquote_loop f s2)
          else if Byte.eqb e x62 then put [x08] (unquote_loop f s2)
          else if Byte.eqb e x66 then put [x0c] (unquote_loop f s2)
          else if Byte.eqb e x6e then put [x0a] (unquote_loop f s2)
          else if Byte.eqb e x72 then put [x0d] (unquote_loop f s2)
          else if Byte.eqb e x74 then put [x09] (unquote_loop f s2)
          else if Byte.eqb e x75 then
            match get_u4 s with
            | None => None
            | Some rr =>
              let s3 := skipn 6 s in
              if (55296 <=? rr) && (rr <? 57344) then
                match (match get_u4 s3 with Some rr1 => utf16_pair rr rr1 | None => None end) with
                | Some dec => put (encode_rune dec) (unquote_loop f (skipn 6 s3))
                | None => put (encode_rune rune_error) (unquote_loop f s3)
                end
              else put (encode_rune rr) (unquote_loop f s3)
            end
          else None
        end
      else if Byte.eqb c x22 || (b2n c <? 32) then None
      else if b2n c <? 128 then put [c] (unquote_loop f s1)
      else let (rr, size) := decode_rune s in put (encode_rune rr) (unquote_loop f (skipn size s))
    end
  end.
(** unquoteBytes *)
Definition unquote_bytes (s : bytes) : option bytes :=
  match s with
  | x22 :: s1 =>
    match rev s1 with
    | x22 :: m => unquote_loop (S (length s1)) (rev m)
    | _ => None
    end
  | _ => None
  end.

(** fold.go equalFoldRight, for a name with an s in it ("sentence").  caseMask clears the bit 32. *)
Definition mask_case (c : byte) : N := N.ldiff (b2n c) 32.
Fixpoint equal_fold_right (name key : bytes) : bool :=
  match name with
  | [] => match key with [] => true | _ => false end
  | sb :: name' =>
    match key with
    | [] => false
    | tb :: key' =>
      if b2n tb <? 128 then
        (if Byte.eqb sb tb then true
         else (65 <=? mask_case sb) && (mask_case sb <=? 90) && (mask_case sb =? mask_case tb))
        && equal_fold_right name' key'
      else
        let (tr, size) := decode_rune key in
        (if Byte.eqb sb x73 || Byte.eqb sb x53 then tr =? 383
         else if Byte.eqb sb x6b || Byte.eqb sb x4b then tr =? 8490 else false)
        && equal_fold_right name' (skipn size key)
    end
  end.
(** fold.go simpleLetterEqualFold, for a name of other letters ("mode") *)
Fixpoint simple_fold (name key : bytes) : bool :=
  match name, key with
  | [], [] => true
  | sb :: name', tb :: key' => (mask_case sb =? mask_case tb) && simple_fold name' key'
  | _, _ => false
  end.

(** Where a value goes: the struct or one of its fields (api.go:17-20). *)
Inductive target := TgStruct | TgInput | TgMode.
(** The field of a key: nameIndex, then the linear search. *)
Definition field_of (key : bytes) : option target :=
  if bytes_eqb key (s2b "sentence") then Some TgInput
  else if bytes_eqb key (s2b "mode") then Some TgMode
  else if equal_fold_right (s2b "sentence") key then Some TgInput
  else if simple_fold (s2b "mode") key then Some TgMode
  else None.

(** UnmarshalTypeError.Error with addErrorContext *)
Definition type_error (value : string) (t : target) : bytes :=
  s2b "json: cannot unmarshal " ++ s2b value ++ s2b " into Go " ++
  s2b (match t with
       | TgStruct => "value of type server.TokenizerRequestBody"
       | TgInput => "struct field TokenizerRequestBody.sentence of type string"
       | TgMode => "struct field TokenizerRequestBody.mode of type string"
       end).
(** The request so far and savedError *)
Record progress := Progress { pg_req : request; pg_err : option bytes }.
(** saveError *)
Definition save_error (e : bytes) (p : progress) : progress :=
  Progress (pg_req p) (match pg_err p with None => Some e | Some e => Some e end).
(** literalStore *)
Definition literal_store (item : bytes) (t : target) (p : progress) : res progress :=
  match item with
  | [] => Panic
  | c :: _ =>
    if Byte.eqb c x6e then Ok p
    else if Byte.eqb c x74 || Byte.eqb c x66 then Ok (save_error (type_error "bool" t) p)
    else if Byte.eqb c x22 then
      match unquote_bytes item with
      | None => Panic
      | Some s =>
        Ok match t with
           | TgStruct => save_error (type_error "string" t) p
           | TgInput => Progress (Request s (rq_mode (pg_req p))) (pg_err p)
           | TgMode => Progress (Request (rq_input (pg_req p)) s) (pg_err p)
           end
      end
    else if Byte.eqb c x2d || json_digit c then Ok (save_error (type_error "number" t) p)
    else Panic
  end.

(** decodeState: data[off-1], data[off:], scan, opcode *)
Record dstate := DState { ds_cur : byte; ds_rest : bytes; ds_scan : jscan; ds_op : jop }.
(** scanNext *)
Definition scan_next (d : dstate) : dstate :=
  match ds_rest d with
  | [] => DState (ds_cur d) [] (ds_scan d) (scan_eof (ds_scan d))
  | c :: r => let (s, o) := json_scan (ds_scan d) c in DState c r s o
  end.
(** scanWhile(scanSkipSpace) *)
Fixpoint scan_while (cur : byte) (s : jscan) (rest : bytes) : dstate :=
  match rest with
  | [] => DState cur [] s (scan_eof s)
  | c :: r =>
    let (s', o) := json_scan s c in
    match o with OSkipSpace => scan_while c s' r | _ => DState c r s' o end
  end.
Definition skip_spaces (d : dstate) : dstate := scan_while (ds_cur d) (ds_scan d) (ds_rest d).
Definition skip_spaces_if (d : dstate) : dstate := match ds_op d with OSkipSpace => skip_spaces d | _ => d end.
(** skip; data[off] is out of range at the end *)
Fixpoint skip_loop (depth : nat) (s : jscan) (rest : bytes) : res dstate :=
  match rest with
  | [] => Panic
  | c :: r =>
    let (s', o) := json_scan s c in
    if (length (sc_stack s') <? depth)%nat then Ok (DState c r s' o) else skip_loop depth s' r
  end.
Definition skip_value (d : dstate) : res dstate := skip_loop (length (sc_stack (ds_scan d))) (ds_scan d) (ds_rest d).
(** rescanLiteral: the bytes of the literal after its first, and what follows *)
Fixpoint rescan_string (s : bytes) : bytes * bytes :=
  match s with
  | [] => ([], [])
  | c :: s1 =>
    if Byte.eqb c x5c then
      match s1 with
      | [] => ([c], [])
      | e :: s2 => let (l, r) := rescan_string s2 in (c :: e :: l, r)
      end
    else if Byte.eqb c x22 then ([c], s1)
    else let (l, r) := rescan_string s1 in (c :: l, r)
  end.
Definition number_byte (c : byte) : bool := json_digit c || existsb (Byte.eqb c) [x2e; x65; x45; x2b; x2d].
Fixpoint rescan_number (s : bytes) : bytes * bytes :=
  match s with
  | [] => ([], [])
  | c :: s1 => if number_byte c then let (l, r) := rescan_number s1 in (c :: l, r) else ([], s)
  end.
Definition rescan_rest (c : byte) (s : bytes) : bytes * bytes :=
  if Byte.eqb c x22 then rescan_string s
  else if Byte.eqb c x2d || json_digit c then rescan_number s
  else if Byte.eqb c x74 then (firstn 3 s, skipn 3 s)
  else if Byte.eqb c x66 then (firstn 4 s, skipn 4 s)
  else if Byte.eqb c x6e then (firstn 3 s, skipn 3 s)
  else ([], s).
(** rescanLiteral, and data[start:d.readIndex()] *)
Definition rescan_literal (d : dstate) : bytes * dstate :=
  let (l, r) := rescan_rest (ds_cur d) (ds_rest d) in
  (ds_cur d :: l,
   match r with
   | [] => DState (ds_cur d) [] (ds_scan d) OEnd
   | c :: r' => let (s, o) := end_value (sc_stack (ds_scan d)) c in DState c r' s o
   end).

(** decodeState.value for a field, or for no field (reflect.Value{}) *)
Definition field_value (t : option target) (d : dstate) (p : progress) : res (dstate * progress) :=
  match ds_op d with
  | OBeginArray =>
    let* d' := skip_value d in
    Ok (scan_next d', match t with Some t => save_error (type_error "array" t) p | None => p end)
  | OBeginObject =>
    let* d' := skip_value d in
    Ok (scan_next d', match t with Some t => save_error (type_error "object" t) p | None => p end)
  | OBeginLiteral =>
    let (item, d') := rescan_literal d in
    match t with
    | Some t => let* p' := literal_store item t p in Ok (d', p')
    | None => Ok (d', p)
    end
  | _ => Panic
  end.
(** decodeState.object for the struct, its loop *)
Fixpoint object_loop (fuel : nat) (d : dstate) (p : progress) : res (dstate * progress) :=
  match fuel with
  | O => Diverge
  | S f =>
    let d := skip_spaces d in
    match ds_op d with
    | OEndObject => Ok (d, p)
    | OBeginLiteral =>
      let (item, d) := rescan_literal d in
      match unquote_bytes item with
      | None => Panic
      | Some key =>
        let d := skip_spaces_if d in
        match ds_op d with
        | OObjectKey =>
          let* (d, p) := field_value (field_of key) (skip_spaces d) p in
          let d := skip_spaces_if d in
          match ds_op d with
          | OEndObject => Ok (d, p)
          | OObjectValue => object_loop f d p
          | _ => Panic
          end
        | _ => Panic
        end
      end
    | _ => Panic
    end
  end.
(** decodeState.unmarshal with value for the struct *)
Definition unmarshal (data : bytes) : res (request + bytes) :=
  let d := scan_while x00 (Scan SBeginValue []) data in
  let p := Progress (Request [] []) None in
  let* p' :=
    match ds_op d with
    | OBeginObject => let* (_, p') := object_loop (S (length data)) d p in Ok p'
    | OBeginArray => let* _ := skip_value d in Ok (save_error (type_error "array" TgStruct) p)
    | OBeginLiteral => literal_store (fst (rescan_literal d)) TgStruct p
    | _ => Panic
    end in
  Ok match pg_err p' with None => inl (pg_req p') | Some e => inr e end.

(** Decoder.Decode *)
Definition json_decode (printable : N -> bool) (body : bytes) : res (request + bytes) :=
  match read_loop printable (Scan SBeginValue []) 0 false body with
  | inr e => Ok (inr e)
  | inl n => unmarshal (firstn n body)
  end.
(** The decoder of [serve_tokenize] (C102: the second branch is not taken). *)
Definition the_decoder (printable : N -> bool) (body : bytes) : request + bytes :=
  match json_decode printable body with Ok r => r | _ => inr [] end.
