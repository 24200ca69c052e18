(** Model of bufio.Scanner and bufio.ScanLines (Go standard library, not in /repo: modelled from
    the library's documented source, bufio/scan.go), and of the readers it is used with. *)
From Verif Require Export Utf8.

(** A SplitFunc: given the unread bytes and atEOF, it may rewrite the bytes in place and returns
    them with the advance and the token (None is nil).  Every split function of kagome returns a
    nil error, so errors are left out. *)
Definition split_func := bytes -> bool -> res (bytes * nat * option bytes).

(** bufio.ScanLines, dropCR *)
Fixpoint index_byte (s : bytes) (c : byte) : option nat :=
  match s with
  | [] => None
  | b :: s' => if Byte.eqb b c then Some 0%nat else option_map S (index_byte s' c)
  end.
Definition drop_cr (s : bytes) : bytes :=
  match rev s with
  | b :: r => if Byte.eqb b x0d then rev r else s
  | [] => s
  end.
Definition scan_lines : split_func := fun data at_eof =>
  if at_eof && (length data =? 0)%nat then Ok (data, 0%nat, None)
  else match index_byte data x0a with
       | Some i => let* line := slice data 0 i in Ok (data, S i, Some (drop_cr line))
       | None => if at_eof then Ok (data, length data, Some (drop_cr data)) else Ok (data, 0%nat, None)
       end.

(** ** Readers *)
Inductive scan_err := EOF | ErrTooLong | ErrNoProgress | ErrAdvanceTooFar | ErrRead.
Definition scan_err_eqb (a b : scan_err) : bool :=
  match a, b with
  | EOF, EOF | ErrTooLong, ErrTooLong | ErrNoProgress, ErrNoProgress | ErrAdvanceTooFar, ErrAdvanceTooFar | ErrRead, ErrRead => true
  | _, _ => false
  end.

(** A reader that delivers [rd_rest] and then fails with [rd_end] (io.EOF for a plain file).  The
    script lists, for the coming Read calls, the most bytes the call returns and whether it
    reports the end together with the last bytes; afterwards every call returns as much as fits.
    Any sequence of results of Read with these bytes is the behaviour of some script.  [rd_log]
    records the chunks returned so far (for the statements only). *)
Record reader := Reader { rd_rest : bytes; rd_script : list (nat * bool); rd_end : scan_err; rd_log : list bytes }.

(** Read into a buffer of [cap] bytes: chunk and error. *)
Definition read (r : reader) (cap : nat) : bytes * option scan_err * reader :=
  let (limit, eager) := match rd_script r with [] => (S cap, false) | op :: _ => op end in
  let n := Nat.min limit cap in
  let chunk := firstn n (rd_rest r) in
  let rest := skipn n (rd_rest r) in
  let stop := match limit, rd_rest r, rest with
              | O, _, _ => false                (* an empty read without error *)
              | S _, [], _ => true
              | S _, _ :: _, [] => eager
              | S _, _ :: _, _ :: _ => false
              end in
  (chunk, if stop then Some (rd_end r) else None,
   Reader rest (tl (rd_script r)) (rd_end r) (rd_log r ++ [chunk])).

(** A reader that never returns an empty read without an error. *)
Definition lively (r : reader) : Prop := Forall (fun op => (1 <= fst op)%nat) (rd_script r).
(** A reader that reports the end in a separate read, after all the bytes. *)
Definition plain (r : reader) : Prop := Forall (fun op => snd op = false) (rd_script r).

(** ** Scanner *)
(** The scanner: the unread bytes buf[start:end], start, len(buf), err and empties. *)
Record scanner := Scanner {
  sc_data : bytes; sc_start : N; sc_len : N; sc_err : option scan_err; sc_empties : nat
}.

(** Sizes: startBufSize 4096, MaxScanTokenSize 64*1024, maxConsecutiveEmptyReads 100. *)
Definition start_buf_size : N := 4096.
Definition max_token_size : N := 65536.
Definition max_empty_reads : nat := 100.

(** NewScanner: no buffer yet. *)
Definition new_scanner : scanner := Scanner [] 0 0 None 0.

(** setErr *)
Definition set_err (e : option scan_err) (x : scan_err) : option scan_err :=
  match e with None => Some x | Some EOF => Some x | Some y => Some y end.

(** Err: nil for EOF *)
Definition scanner_err (e : option scan_err) : option scan_err :=
  match e with Some EOF => None | _ => e end.

(** The loop around Read; [tries] is the number of empty reads still allowed plus one. *)
Fixpoint read_loop (tries : nat) (r : reader) (cap : nat) : bytes * option scan_err * reader :=
  match tries with
  | O => ([], Some ErrNoProgress, r)
  | S t =>
    let '(chunk, err, r') := read r cap in
    match err, chunk with
    | Some e, _ => (chunk, Some e, r')
    | None, _ :: _ => (chunk, None, r')
    | None, [] => read_loop t r' cap
    end
  end.

Inductive scan_outcome :=
| ScanToken (t : bytes) (s : scanner)   (* Scan returns true *)
| ScanMore (s : scanner) (r : reader)   (* next iteration of the loop in Scan *)
| ScanStop (e : option scan_err).       (* Scan returns false *)

(** The buffer part of the loop: shifting the data down, growing the buffer. *)
Definition make_room (s : scanner) : option scanner :=
  let end_ := (sc_start s + N.of_nat (length (sc_data s)))%N in
  let start := if ((0 <? sc_start s) && ((end_ =? sc_len s) || (sc_len s / 2 <? sc_start s)))%N then 0%N else sc_start s in
  let end_ := (start + N.of_nat (length (sc_data s)))%N in
  if (end_ =? sc_len s)%N then
    if (max_token_size <=? sc_len s)%N then None
    else
      let size := (if sc_len s * 2 =? 0 then start_buf_size else sc_len s * 2)%N in
      Some (Scanner (sc_data s) 0 (N.min size max_token_size) (sc_err s) (sc_empties s))
  else Some (Scanner (sc_data s) start (sc_len s) (sc_err s) (sc_empties s)).

(** After the split function: no token, so read more (or stop). *)
Definition scan_fill (s : scanner) (r : reader) : scan_outcome :=
  match sc_err s with
  | Some e => ScanStop (Some e)
  | None =>
    match make_room s with
    | None => ScanStop (Some ErrTooLong)
    | Some s =>
      let cap := N.to_nat (sc_len s - (sc_start s + N.of_nat (length (sc_data s)))) in
      let '(chunk, err, r') := read_loop (S max_empty_reads) r cap in
      let empties := match err, chunk with None, _ :: _ => 0%nat | _, _ => sc_empties s end in
      ScanMore (Scanner (sc_data s ++ chunk) (sc_start s) (sc_len s) err empties) r'
    end
  end.

(** One iteration of the loop of Scan. *)
Definition scan_step (split : split_func) (s : scanner) (r : reader) : res scan_outcome :=
  match sc_data s, sc_err s with
  | [], None => Ok (scan_fill s r)
  | _, _ =>
    let* x := split (sc_data s) (match sc_err s with Some _ => true | None => false end) in
    let '(data, adv, tok) := x in
    if (length data <? adv)%nat then Ok (ScanStop (set_err (sc_err s) ErrAdvanceTooFar))
    else
      let s' := Scanner (skipn adv data) (sc_start s + N.of_nat adv) (sc_len s) (sc_err s) (sc_empties s) in
      match tok with
      | Some t =>
        match sc_err s, adv with
        | Some _, O =>
          if (max_empty_reads <? S (sc_empties s))%nat then Panic
          else Ok (ScanToken t (Scanner (skipn adv data) (sc_start s + N.of_nat adv) (sc_len s) (sc_err s) (S (sc_empties s))))
        | _, _ => Ok (ScanToken t (Scanner (skipn adv data) (sc_start s + N.of_nat adv) (sc_len s) (sc_err s) 0))
        end
      | None => Ok (scan_fill s' r)
      end
  end.

(** for s.Scan() { collect s.Text() }: the texts in order, s.Err(), and the reader. *)
Fixpoint scan_all (fuel : nat) (split : split_func) (s : scanner) (r : reader) (acc : list bytes)
    : res (list bytes * option scan_err * reader) :=
  match fuel with
  | O => Diverge
  | S f =>
    let* o := scan_step split s r in
    match o with
    | ScanToken t s' => scan_all f split s' r (acc ++ [t])
    | ScanMore s' r' => scan_all f split s' r' acc
    | ScanStop e => Ok (acc, scanner_err e, r)
    end
  end.

(** Enough iterations for any split function that advances with every token. *)
Definition scan_fuel (s : scanner) (r : reader) : nat := (2 * length (rd_rest r) + length (sc_data s) + 3)%nat.

(** All the texts scanned from a reader. *)
Definition scan_texts (split : split_func) (r : reader) : res (list bytes * option scan_err * reader) :=
  scan_all (scan_fuel new_scanner r) split new_scanner r [].
