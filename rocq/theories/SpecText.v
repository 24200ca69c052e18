(** Reading Go string literals and the text of a token, independently of the code that writes them. *)
From Verif Require Export Utf8 Token SpecJson.
Open Scope N_scope.

Fixpoint hex_number (acc : N) (l : bytes) : option N :=
  match l with
  | [] => Some acc
  | b :: l' => match hex_value b with Some d => hex_number (acc * 16 + d) l' | None => None end
  end.
(** The escapes of one letter of the Go specification. *)
Definition go_escapes : list (byte * byte) :=
  [(x61, x07); (x62, x08); (x66, x0c); (x6e, x0a); (x72, x0d); (x74, x09); (x76, x0b); (x5c, x5c); (x22, x22)].
Fixpoint go_escape (l : list (byte * byte)) (e : byte) : option byte :=
  match l with [] => None | (k, v) :: l' => if Byte.eqb k e then Some v else go_escape l' e end.
(** A Unicode code point as \u and \U may denote it. *)
Definition code_point (c : N) : bool := (c <? 55296) || ((57343 <? c) && (c <=? 1114111)).

(** An interpreted string literal of the Go specification, after the opening quotation mark: its
    value and what follows it. *)
Fixpoint go_literal (s : bytes) : option (bytes * bytes) :=
  match s with
  | [] => None
  | b :: s1 =>
    if Byte.eqb b x22 then Some ([], s1)
    else if Byte.eqb b x0a then None
    else if Byte.eqb b x5c then
      match s1 with
      | [] => None
      | e :: s2 =>
        if Byte.eqb e x78 then
          match s2 with
          | h1 :: h2 :: s3 => match hex_number 0 [h1; h2] with Some c => prepend [n2b c] (go_literal s3) | None => None end
          | _ => None
          end
        else if Byte.eqb e x75 then
          match s2 with
          | h1 :: h2 :: h3 :: h4 :: s3 =>
            match hex_number 0 [h1; h2; h3; h4] with
            | Some c => if code_point c then prepend (encode_rune c) (go_literal s3) else None
            | None => None
            end
          | _ => None
          end
        else if Byte.eqb e x55 then
          match s2 with
          | h1 :: h2 :: h3 :: h4 :: h5 :: h6 :: h7 :: h8 :: s3 =>
            match hex_number 0 [h1; h2; h3; h4; h5; h6; h7; h8] with
            | Some c => if code_point c then prepend (encode_rune c) (go_literal s3) else None
            | None => None
            end
          | _ => None
          end
        else match go_escape go_escapes e with
             | Some c => prepend [c] (go_literal s2)
             | None => None
             end
      end
    else prepend [b] (go_literal s1)
  end.

(** A decimal integer and what follows its digits. *)
Definition read_decimal (s : bytes) : option (N * bytes) :=
  match s with
  | b :: s' => match digit_value b with Some d => Some (read_digits d s') | None => None end
  | [] => None
  end.
Definition read_integer (s : bytes) : option (Z * bytes) :=
  match s with
  | b :: s' =>
    if Byte.eqb b x2d then match read_decimal s' with Some (n, r) => Some ((- Z.of_N n)%Z, r) | None => None end
    else match read_decimal s with Some (n, r) => Some (Z.of_N n, r) | None => None end
  | [] => None
  end.
Fixpoint expect (lit s : bytes) : option bytes :=
  match lit, s with
  | [], _ => Some s
  | a :: lit', b :: s' => if Byte.eqb a b then expect lit' s' else None
  | _, [] => None
  end.
Fixpoint read_class (words : list (bytes * node_class)) (s : bytes) : option (node_class * bytes) :=
  match words with
  | [] => None
  | (w, c) :: l => match expect w s with Some r => Some (c, r) | None => read_class l s end
  end.
Definition class_words : list (bytes * node_class) :=
  [(s2b "DUMMY", DUMMY); (s2b "KNOWN", KNOWN); (s2b "UNKNOWN", UNKNOWN); (s2b "USER", USER)].

Definition obind {A B} (o : option A) (f : A -> option B) : option B := match o with Some a => f a | None => None end.
Notation "'let?' x := o 'in' e" := (obind o (fun x => e)) (x pattern, at level 200, right associativity).

Record token_fields := TokenFields { tf_index : Z; tf_surface : bytes; tf_position : Z; tf_start : Z; tf_end : Z; tf_class : node_class; tf_id : Z }.
(** index:"surface" (position: start, end) CLASS [id] *)
Definition read_token (s : bytes) : option token_fields :=
  let? (index, s) := read_integer s in let? s := expect (s2b ":""") s in
  let? (surface, s) := go_literal s in let? s := expect (s2b " (") s in
  let? (position, s) := read_integer s in let? s := expect (s2b ": ") s in
  let? (start, s) := read_integer s in let? s := expect (s2b ", ") s in
  let? (end_, s) := read_integer s in let? s := expect (s2b ") ") s in
  let? (class, s) := read_class class_words s in let? s := expect (s2b " [") s in
  let? (id, s) := read_integer s in
  if bytes_eqb s (s2b "]") then Some (TokenFields index surface position start end_ class id) else None.
Definition fields_of (t : token) : token_fields :=
  TokenFields (Z.of_nat (t_index t)) (t_surface t) (Z.of_nat (t_position t)) (Z.of_nat (t_start t)) (Z.of_nat (t_end t)) (t_class t) (t_id t).
(** No control character is printable (true of strconv.IsPrint). *)
Definition sober (printable : N -> bool) : Prop := forall r, r < 32 \/ r = 127 -> printable r = false.
