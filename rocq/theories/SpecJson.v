(** JSON texts (RFC 8259), independently of the encoder: a reader of JSON values.  Numbers are
    integers only and \u escapes of surrogates are refused, so fewer texts are accepted than by the
    standard. *)
From Verif Require Export Utf8 Token.
Open Scope N_scope.

Inductive json :=
| JNull | JBool (b : bool) | JInt (z : Z) | JStr (s : bytes) | JArr (l : list json) | JObj (l : list (bytes * json)).

Fixpoint skip_ws (s : bytes) : bytes :=
  match s with
  | b :: s' => if Byte.eqb b x20 || Byte.eqb b x09 || Byte.eqb b x0a || Byte.eqb b x0d then skip_ws s' else s
  | [] => []
  end.

Definition hex_value (b : byte) : option N :=
  let n := b2n b in
  if (48 <=? n) && (n <=? 57) then Some (n - 48)
  else if (97 <=? n) && (n <=? 102) then Some (n - 87)
  else if (65 <=? n) && (n <=? 70) then Some (n - 55)
  else None.
Definition hex4 (a b c d : byte) : option N :=
  match hex_value a, hex_value b, hex_value c, hex_value d with
  | Some a, Some b, Some c, Some d => Some (((a * 16 + b) * 16 + c) * 16 + d)
  | _, _, _, _ => None
  end.
Definition short_escape (b : byte) : option byte :=
  if Byte.eqb b x22 then Some x22 else if Byte.eqb b x5c then Some x5c else if Byte.eqb b x2f then Some x2f
  else if Byte.eqb b x62 then Some x08 else if Byte.eqb b x66 then Some x0c else if Byte.eqb b x6e then Some x0a
  else if Byte.eqb b x72 then Some x0d else if Byte.eqb b x74 then Some x09 else None.

Definition prepend (p : bytes) (r : option (bytes * bytes)) : option (bytes * bytes) :=
  match r with Some (v, s) => Some (p ++ v, s) | None => None end.

(** After the opening quotation mark: the string (in UTF-8) and what follows it. *)
Fixpoint read_string (s : bytes) : option (bytes * bytes) :=
  match s with
  | [] => None
  | b :: s1 =>
    if Byte.eqb b x22 then Some ([], s1)
    else if Byte.eqb b x5c then
      match s1 with
      | [] => None
      | e :: s2 =>
        if Byte.eqb e x75 then
          match s2 with
          | h1 :: h2 :: h3 :: h4 :: s3 =>
            match hex4 h1 h2 h3 h4 with
            | Some c => if (55296 <=? c) && (c <=? 57343) then None else prepend (encode_rune c) (read_string s3)
            | None => None
            end
          | _ => None
          end
        else match short_escape e with
             | Some c => prepend [c] (read_string s2)
             | None => None
             end
      end
    else if b2n b <? 32 then None
    else prepend [b] (read_string s1)
  end.

Definition digit_value (b : byte) : option N :=
  let n := b2n b in if (48 <=? n) && (n <=? 57) then Some (n - 48) else None.
Fixpoint read_digits (acc : N) (s : bytes) : N * bytes :=
  match s with
  | b :: s' => match digit_value b with Some d => read_digits (acc * 10 + d) s' | None => (acc, s) end
  | [] => (acc, [])
  end.
(** One or more digits, no superfluous leading zero, not followed by a fraction or an exponent. *)
Definition read_nat (s : bytes) : option (N * bytes) :=
  match s with
  | b :: s' =>
    match digit_value b with
    | None => None
    | Some d =>
      let (n, rest) := read_digits d s' in
      if (d =? 0) && negb (length rest =? length s')%nat then None
      else match rest with
           | c :: _ => if Byte.eqb c x2e || Byte.eqb c x65 || Byte.eqb c x45 then None else Some (n, rest)
           | [] => Some (n, rest)
           end
    end
  | [] => None
  end.
Definition read_int (s : bytes) : option (Z * bytes) :=
  match s with
  | b :: s' =>
    if Byte.eqb b x2d then match read_nat s' with Some (n, r) => Some (Z.opp (Z.of_N n), r) | None => None end
    else match read_nat s with Some (n, r) => Some (Z.of_N n, r) | None => None end
  | [] => None
  end.

Fixpoint read_word (w s : bytes) : option bytes :=
  match w, s with
  | [], _ => Some s
  | a :: w', b :: s' => if Byte.eqb a b then read_word w' s' else None
  | _ :: _, [] => None
  end.

Definition read_opening (b : byte) (s : bytes) : option bytes :=
  match skip_ws s with c :: s' => if Byte.eqb b c then Some s' else None | [] => None end.

Fixpoint read_value (fuel : nat) (s : bytes) : option (json * bytes) :=
  match fuel with
  | O => None
  | S f =>
    let s := skip_ws s in
    match read_opening x22 s with
    | Some s' => match read_string s' with Some (v, r) => Some (JStr v, r) | None => None end
    | None =>
    match read_opening x5b s with
    | Some s' =>
      match read_opening x5d s' with
      | Some r => Some (JArr [], r)
      | None => match read_elems f s' with Some (l, r) => Some (JArr l, r) | None => None end
      end
    | None =>
    match read_opening x7b s with
    | Some s' =>
      match read_opening x7d s' with
      | Some r => Some (JObj [], r)
      | None => match read_members f s' with Some (l, r) => Some (JObj l, r) | None => None end
      end
    | None =>
    match read_word (s2b "null") s with
    | Some r => Some (JNull, r)
    | None =>
    match read_word (s2b "true") s with
    | Some r => Some (JBool true, r)
    | None =>
    match read_word (s2b "false") s with
    | Some r => Some (JBool false, r)
    | None => match read_int s with Some (z, r) => Some (JInt z, r) | None => None end
    end end end end end end
  end
with read_elems (fuel : nat) (s : bytes) : option (list json * bytes) :=
  match fuel with
  | O => None
  | S f =>
    match read_value f s with
    | None => None
    | Some (v, s1) =>
      match read_opening x2c s1 with
      | Some s2 => match read_elems f s2 with Some (l, r) => Some (v :: l, r) | None => None end
      | None => match read_opening x5d s1 with Some r => Some ([v], r) | None => None end
      end
    end
  end
with read_members (fuel : nat) (s : bytes) : option (list (bytes * json) * bytes) :=
  match fuel with
  | O => None
  | S f =>
    match read_opening x22 s with
    | None => None
    | Some s1 =>
      match read_string s1 with
      | None => None
      | Some (k, s2) =>
        match read_opening x3a s2 with
        | None => None
        | Some s3 =>
          match read_value f s3 with
          | None => None
          | Some (v, s4) =>
            match read_opening x2c s4 with
            | Some s5 => match read_members f s5 with Some (l, r) => Some ((k, v) :: l, r) | None => None end
            | None => match read_opening x7d s4 with Some r => Some ([(k, v)], r) | None => None end
            end
          end
        end
      end
    end
  end.

(** [s] is a JSON text with value [v]. *)
Definition json_text (s : bytes) (v : json) : Prop :=
  valid_utf8 s = true /\ exists fuel rest, read_value fuel s = Some (v, rest) /\ skip_ws rest = [].

(** The text of a string: bytes that are not UTF-8 are U+FFFD. *)
Definition as_text (s : bytes) : bytes := concat (map (fun g => encode_rune (fst g)) (segs s)).

(** The JSON value of a token's data, and of an answer of the tokenize endpoint. *)
Definition strings_value (l : strings) : json := match l with None => JNull | Some l => JArr (map (fun s => JStr (as_text s)) l) end.
Definition token_value (td : token_data) : json :=
  JObj [(s2b "id", JInt (td_id td)); (s2b "start", JInt (Z.of_nat (td_start td))); (s2b "end", JInt (Z.of_nat (td_end td)));
        (s2b "surface", JStr (as_text (td_surface td))); (s2b "class", JStr (as_text (td_class td)));
        (s2b "pos", strings_value (td_pos td));
        (s2b "base_form", JStr (as_text (td_base_form td))); (s2b "reading", JStr (as_text (td_reading td)));
        (s2b "pronunciation", JStr (as_text (td_pronunciation td))); (s2b "features", strings_value (td_features td))].
Definition response_value (status : bool) (tokens : option (list token_data)) : json :=
  JObj [(s2b "status", JBool status); (s2b "tokens", match tokens with None => JNull | Some l => JArr (map token_value l) end)].
