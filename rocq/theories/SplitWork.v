(** The program of Splitter.v (filter/sentence_splitter.go) with its steps counted, run by the Scanner of Scanner.v.  A step is
    one turn of a loop written in kagome's own code: a rune looked at, a delimiter or follower compared with it, a byte
    copied or overwritten with a blank.  Each function here is the function of the same name in Splitter.v or Scanner.v with counts;
    SplitWorkFacts.v proves that the results are the same.  Not counted: the time inside bufio.Scanner. *)
From Verif Require Export Splitter Work.
Open Scope nat_scope.

(** sentence_splitter.go:32-48: the elements compared before the loop ends. *)
Fixpoint compared (l : list N) (r : N) : nat :=
  match l with
  | [] => 0
  | d :: l' => if (r =? d)%N then 1 else S (compared l' r)
  end.
Definition t_delim (s : splitter) (r : N) : timed bool := (compared (sp_delim s) r, Ok (is_delim s r)).
Definition t_follower (s : splitter) (r : N) : timed bool := (compared (sp_follower s) r, Ok (is_follower s r)).

(** sentence_splitter.go:80-84, 110-114 *)
Definition t_copy (data : bytes) (end_ p size : nat) : timed bytes :=
  if negb (end_ =? p) then (size, copy_rune data end_ p size) else (0, Ok data).

(** sentence_splitter.go:100-122 *)
Fixpoint t_split_tail (s : splitter) (fuel : nat) (data : bytes) (p end_ : nat) (nn : bool) : timed (bytes * nat * nat) :=
  match fuel with
  | O => (0, Diverge)
  | S f =>
    if p <? length data then
      charge 1
        (let (r, size) := decode_rune (from data p) in
         if sp_skip s && is_space r then
           let p := p + size in
           if sp_dlf s && (r =? line_feed)%N then
             if nn then (0, Ok (data, p, end_)) else t_split_tail s f data p end_ true
           else t_split_tail s f data p end_ nn
         else
           let+ d := t_delim s r in
           let+ d := if d then (0, Ok true) else t_follower s r in
           if d then
             let+ data := t_copy data end_ p size in
             t_split_tail s f data (p + size) (end_ + size) nn
           else (0, Ok (data, p, end_)))
    else (0, Ok (data, p, end_))
  end.

(** sentence_splitter.go:61-123 *)
Fixpoint t_split_loop (s : splitter) (fuel : nat) (data : bytes) (p start end_ : nat) (rcount : Z) (head nn : bool) : timed split_result :=
  match fuel with
  | O => (0, Diverge)
  | S f =>
    if p <? length data then
      charge 1
        (let (r, size) := decode_rune (from data p) in
         if sp_skip s && is_space r then
           let p := p + size in
           if head then t_split_loop s f data p p p rcount head nn
           else
             let+ d := t_delim s r in
             if d then (0, Ok (SplitReturn data p start end_))
             else if sp_dlf s && (r =? line_feed)%N then
               if nn then (0, Ok (SplitReturn data p start end_)) else t_split_loop s f data p start end_ rcount head true
             else if nn then t_split_loop s f data p start end_ rcount head false
             else t_split_loop s f data p start end_ rcount head nn
         else
           let+ data := t_copy data end_ p size in
           let p := p + size in
           let end_ := end_ + size in
           let rcount := (rcount + 1)%Z in
           if sp_dlf s && (r =? line_feed)%N && nn then (0, Ok (SplitReturn data p start end_))
           else
             let nn := if sp_dlf s && (r =? line_feed)%N then true else nn in
             let+ d := t_delim s r in
             if negb d && (rcount <? sp_max s)%Z then t_split_loop s f data p start end_ rcount false nn
             else
               let+ x := t_split_tail s (S (length data)) data p end_ false in
               let '(data, p, end_) := x in
               (0, Ok (SplitReturn data p start end_)))
    else (0, Ok (SplitExhausted data start end_))
  end.

(** sentence_splitter.go:52-133 ScanSentences *)
Definition t_scan_sentences (s : splitter) (data : bytes) (at_eof : bool) : timed (bytes * nat * option bytes) :=
  if at_eof && (length data =? 0) then (0, Ok (data, 0, None))
  else
    let+ x := t_split_loop s (S (length data)) data 0 0 0 0 true false in
    match x with
    | SplitReturn data p start end_ =>
      let+ tok := free_of_charge (slice data start end_) in (0, Ok (data, p, Some tok))
    | SplitExhausted data start end_ =>
      if negb at_eof then
        let+ data := (length data - end_, fill_blank data end_ (length data - end_)) in
        (0, Ok (data, start, None))
      else
        let+ tok := free_of_charge (slice data start end_) in (0, Ok (data, length data, Some tok))
    end.

(** bufio.Scanner with the steps of the split function. *)
Definition t_scan_step (split : bytes -> bool -> timed (bytes * nat * option bytes)) (s : scanner) (r : reader) : timed scan_outcome :=
  let counted := match sc_data s, sc_err s with
                 | [], None => 0
                 | _, _ => steps (split (sc_data s) (match sc_err s with Some _ => true | None => false end))
                 end in
  (counted, scan_step (fun data eof => result (split data eof)) s r).
Fixpoint t_scan_all (fuel : nat) (split : bytes -> bool -> timed (bytes * nat * option bytes)) (s : scanner) (r : reader) (acc : list bytes)
    : timed (list bytes * option scan_err * reader) :=
  match fuel with
  | O => (0, Diverge)
  | S f =>
    let+ o := t_scan_step split s r in
    match o with
    | ScanToken t s' => t_scan_all f split s' r (acc ++ [t])
    | ScanMore s' r' => t_scan_all f split s' r' acc
    | ScanStop e => (0, Ok (acc, scanner_err e, r))
    end
  end.
Definition t_scan_texts (split : bytes -> bool -> timed (bytes * nat * option bytes)) (r : reader) : timed (list bytes * option scan_err * reader) :=
  t_scan_all (scan_fuel new_scanner r) split new_scanner r [].
