(** Model of the parts of Go's unicode/utf8 and of [range] over strings that kagome uses.
    Library code, not in /repo: modelled from the Go specification. *)
From Verif Require Export GoBase.
Open Scope N_scope.

(** utf8.RuneError *)
Definition rune_error : N := 65533.

Definition in_range (lo hi : N) (b : byte) : bool := (lo <=? b2n b) && (b2n b <=? hi).

(** Accepted range of the second byte for a leading byte (utf8.acceptRanges). *)
Definition second_lo (c0 : N) : N := if c0 =? 224 then 160 else if c0 =? 240 then 144 else 128.
Definition second_hi (c0 : N) : N := if c0 =? 237 then 159 else if c0 =? 244 then 143 else 191.

(** utf8.DecodeRuneInString / utf8.DecodeRune: rune and width; invalid encodings give
    (RuneError, 1), the empty string (RuneError, 0). *)
Definition decode_rune (s : bytes) : N * nat :=
  match s with
  | [] => (rune_error, 0%nat)
  | b0 :: t =>
    let c0 := b2n b0 in
    if c0 <? 128 then (c0, 1%nat)
    else if c0 <? 194 then (rune_error, 1%nat)
    else if c0 <? 224 then
      match t with
      | b1 :: _ =>
        if in_range 128 191 b1 then ((c0 - 192) * 64 + (b2n b1 - 128), 2%nat)
        else (rune_error, 1%nat)
      | _ => (rune_error, 1%nat)
      end
    else if c0 <? 240 then
      match t with
      | b1 :: b2 :: _ =>
        if in_range (second_lo c0) (second_hi c0) b1 && in_range 128 191 b2
        then ((c0 - 224) * 4096 + (b2n b1 - 128) * 64 + (b2n b2 - 128), 3%nat)
        else (rune_error, 1%nat)
      | _ => (rune_error, 1%nat)
      end
    else if c0 <? 245 then
      match t with
      | b1 :: b2 :: b3 :: _ =>
        if in_range (second_lo c0) (second_hi c0) b1 && in_range 128 191 b2 && in_range 128 191 b3
        then ((c0 - 240) * 262144 + (b2n b1 - 128) * 4096 + (b2n b2 - 128) * 64 + (b2n b3 - 128), 4%nat)
        else (rune_error, 1%nat)
      | _ => (rune_error, 1%nat)
      end
    else (rune_error, 1%nat)
  end.

(** The successive runes of a string with the bytes each was decoded from: what
    [for pos, ch := range s] visits. *)
Fixpoint segs_fuel (fuel : nat) (s : bytes) : list (N * bytes) :=
  match fuel with
  | O => []
  | S fuel' =>
    match s with
    | [] => []
    | _ :: _ => let '(r, w) := decode_rune s in (r, firstn w s) :: segs_fuel fuel' (skipn w s)
    end
  end.
Definition segs (s : bytes) : list (N * bytes) := segs_fuel (length s) s.

(** [for pos, ch := range s]: pairs of byte position and rune. *)
Fixpoint range_from (pos : nat) (l : list (N * bytes)) : list (nat * N) :=
  match l with
  | [] => []
  | (r, b) :: l' => (pos, r) :: range_from (pos + length b)%nat l'
  end.
Definition range_string (s : bytes) : list (nat * N) := range_from 0 (segs s).

(** utf8.RuneCountInString *)
Definition rune_count (s : bytes) : nat := length (segs s).

(** utf8.RuneLen for the runes that decoding produces. *)
Definition rune_len (r : N) : nat :=
  if r <? 128 then 1%nat else if r <? 2048 then 2%nat else if r <? 65536 then 3%nat else 4%nat.

(** utf8.RuneStart *)
Definition rune_start (b : byte) : bool := negb (in_range 128 191 b).

(** utf8.DecodeLastRuneInString; the inner loop looks back at most three more bytes. *)
Fixpoint scan_back (fuel : nat) (s : bytes) (start lim : Z) : Z :=
  match fuel with
  | O => start
  | S f =>
    if (start <? lim)%Z then start
    else if rune_start (nth (Z.to_nat start) s x00) then start
    else scan_back f s (start - 1)%Z lim
  end.

Definition decode_last_rune (s : bytes) : N * nat :=
  match s with
  | [] => (rune_error, 0%nat)
  | _ :: _ =>
    let e := Z.of_nat (length s) in
    let r := b2n (nth (length s - 1) s x00) in
    if r <? 128 then (r, 1%nat)
    else
      let lim := Z.max 0 (e - 4) in
      let start := Z.max 0 (scan_back 4 s (e - 2)%Z lim) in
      let '(r', size) := decode_rune (skipn (Z.to_nat start) s) in
      if (start + Z.of_nat size =? e)%Z then (r', size) else (rune_error, 1%nat)
  end.

(** Conversion string(r) of a rune. *)
Definition encode_rune (r : N) : bytes :=
  if r <? 128 then [n2b r]
  else if r <? 2048 then [n2b (192 + r / 64); n2b (128 + r mod 64)]
  else if ((55296 <=? r) && (r <=? 57343)) || (1114111 <? r) then [xef; xbf; xbd]
  else if r <? 65536 then [n2b (224 + r / 4096); n2b (128 + r / 64 mod 64); n2b (128 + r mod 64)]
  else [n2b (240 + r / 262144); n2b (128 + r / 4096 mod 64); n2b (128 + r / 64 mod 64); n2b (128 + r mod 64)].

(** A segment that utf8.ValidString accepts. *)
Definition seg_ok (g : N * bytes) : bool := negb ((fst g =? rune_error) && (length (snd g) =? 1)%nat).
(** utf8.ValidString *)
Definition valid_utf8 (s : bytes) : bool := forallb seg_ok (segs s).

(** unicode.IsSpace *)
Definition is_space (r : N) : bool :=
  ((9 <=? r) && (r <=? 13)) || (r =? 32) || (r =? 133) || (r =? 160) || (r =? 5760) ||
  ((8192 <=? r) && (r <=? 8202)) || (r =? 8232) || (r =? 8233) || (r =? 8239) || (r =? 8287) || (r =? 12288).
