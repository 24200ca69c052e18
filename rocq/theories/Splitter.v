(** Model of filter/sentence_splitter.go and of the line loop of filter/ja/loader.go. *)
From Verif Require Export Scanner Filter.

(** sentence_splitter.go:9-15.  Runes are natural numbers; a negative rune in Delim or Follower
    would never match, so leaving them out loses nothing. *)
Record splitter := Splitter {
  sp_delim : list N; sp_follower : list N; sp_skip : bool; sp_dlf : bool; sp_max : Z
}.

(** sentence_splitter.go:18-24 *)
Definition default_splitter : splitter :=
  Splitter [12290; 65294; 65281; 33; 65311; 63]%N
           [46; 65379; 12301; 12303; 41; 65289; 65373; 125; 12297; 12299]%N
           true true 128.

(** sentence_splitter.go:32-39, 41-48 *)
Definition is_delim (s : splitter) (r : N) : bool := existsb (fun d => (r =? d)%N) (sp_delim s).
Definition is_follower (s : splitter) (r : N) : bool := existsb (fun d => (r =? d)%N) (sp_follower s).

Definition line_feed : N := 10.

(** sentence_splitter.go:82-84, 112-114: copying a rune down inside data. *)
Fixpoint copy_rune (data : bytes) (dst src : nat) (size : nat) : res bytes :=
  match size with
  | O => Ok data
  | S k =>
    let* b := index data src in
    let* data := update data dst (fun _ => b) in
    copy_rune data (S dst) (S src) k
  end.

(** sentence_splitter.go:126-128: blanks from i on. *)
Fixpoint fill_blank (data : bytes) (i k : nat) : res bytes :=
  match k with
  | O => Ok data
  | S k' => let* data := update data i (fun _ => x20) in fill_blank data (S i) k'
  end.

(** data[p:] *)
Definition from (data : bytes) (p : nat) : bytes := skipn p data.

(** sentence_splitter.go:100-122: after a delimiter (or MaxRuneLen runes); returns data, p, end. *)
Fixpoint split_tail (s : splitter) (fuel : nat) (data : bytes) (p end_ : nat) (nn : bool) : res (bytes * nat * nat) :=
  match fuel with
  | O => Diverge
  | S f =>
    if (p <? length data)%nat then
      let (r, size) := decode_rune (from data p) in
      if sp_skip s && is_space r then
        let p := (p + size)%nat in
        if sp_dlf s && (r =? line_feed)%N then
          if nn then Ok (data, p, end_) else split_tail s f data p end_ true
        else split_tail s f data p end_ nn
      else if is_delim s r || is_follower s r then
        let* data := if negb (end_ =? p)%nat then copy_rune data end_ p size else Ok data in
        split_tail s f data (p + size)%nat (end_ + size)%nat nn
      else Ok (data, p, end_)
    else Ok (data, p, end_)
  end.

Inductive split_result :=
| SplitReturn (data : bytes) (p start end_ : nat)     (* return p, data[start:end], nil *)
| SplitExhausted (data : bytes) (start end_ : nat).   (* the loop ran to the end of data *)

(** sentence_splitter.go:61-123 *)
Fixpoint split_loop (s : splitter) (fuel : nat) (data : bytes) (p start end_ : nat) (rcount : Z) (head nn : bool) : res split_result :=
  match fuel with
  | O => Diverge
  | S f =>
    if (p <? length data)%nat then
      let (r, size) := decode_rune (from data p) in
      if sp_skip s && is_space r then
        let p := (p + size)%nat in
        if head then split_loop s f data p p p rcount head nn
        else if is_delim s r then Ok (SplitReturn data p start end_)
        else if sp_dlf s && (r =? line_feed)%N then
          if nn then Ok (SplitReturn data p start end_) else split_loop s f data p start end_ rcount head true
        else if nn then split_loop s f data p start end_ rcount head false
        else split_loop s f data p start end_ rcount head nn
      else
        let* data := if negb (end_ =? p)%nat then copy_rune data end_ p size else Ok data in
        let p := (p + size)%nat in
        let end_ := (end_ + size)%nat in
        let rcount := (rcount + 1)%Z in
        if sp_dlf s && (r =? line_feed)%N && nn then Ok (SplitReturn data p start end_)
        else
          let nn := if sp_dlf s && (r =? line_feed)%N then true else nn in
          if negb (is_delim s r) && (rcount <? sp_max s)%Z then split_loop s f data p start end_ rcount false nn
          else
            let* x := split_tail s (S (length data)) data p end_ false in
            let '(data, p, end_) := x in
            Ok (SplitReturn data p start end_)
    else Ok (SplitExhausted data start end_)
  end.

(** sentence_splitter.go:52-133 ScanSentences.  data[start:end] is never nil. *)
Definition scan_sentences (s : splitter) : split_func := fun data at_eof =>
  if at_eof && (length data =? 0)%nat then Ok (data, 0%nat, None)
  else
    let* x := split_loop s (S (length data)) data 0 0 0 0 true false in
    match x with
    | SplitReturn data p start end_ =>
      let* tok := slice data start end_ in Ok (data, p, Some tok)
    | SplitExhausted data start end_ =>
      if negb at_eof then
        let* data := fill_blank data end_ (length data - end_) in
        Ok (data, start, None)
      else
        let* tok := slice data start end_ in Ok (data, length data, Some tok)
    end.

(** ja/loader.go:9-26 loadConfig: a bufio.Scanner reading lines from a bytes.Reader. *)
Definition string_index (s : bytes) (c : byte) : option nat := index_byte s c.
Definition config_line (line : bytes) : res (option bytes) :=
  match string_index line x23 with
  | Some O => Ok None                       (* HasPrefix "#" *)
  | Some i =>
    let* line := slice line 0 i in
    Ok (if (length line =? 0)%nat then None else Some line)
  | None => Ok (if (length line =? 0)%nat then None else Some line)
  end.
Definition load_config (b : bytes) : res (list bytes * option scan_err) :=
  let* x := scan_texts scan_lines (Reader b [] EOF []) in
  let '(lines, err, _) := x in
  let* ret := foldM (fun ret line => let* l := config_line line in
                                     Ok (match l with Some l => ret ++ [l] | None => ret end)) lines [] in
  Ok (ret, err).

(** ja/filter.go:45-54, 67-81, 83-105: NewFilter from the two embedded assets and the options;
    inr for an error. *)
Definition default_base_form : list (list bytes) := [[s2b "動詞"]; [s2b "形容詞"]; [s2b "形容動詞"]].
Definition new_ja_filter (tags_asset words_asset : bytes) (opts : list ja_option) : res (ja_filter + scan_err) :=
  let* t := load_config tags_asset in
  match snd t with
  | Some e => Ok (inr e)
  | None =>
    let* w := load_config words_asset in
    match snd w with
    | Some e => Ok (inr e)
    | None =>
      Ok (inl (fold_left ja_apply_option opts
                 (JaFilter (new_pos_filter default_base_form) (stop_tag_filter (fst t)) (stop_word_filter (fst w)))))
    end
  end.
