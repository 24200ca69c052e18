(** Model of the filters over a memory of arrays of tokens, in small steps: what Drop and Keep read and
    write, for any number of goroutines.  [Filter] has the same functions over values. *)
From Verif Require Export Filter.
From Verif Require Import Slices.

(** An address is an array and a position in it.  A slice is a window of an array (see [Slices]). *)
Definition tmemory := list (list token).
Definition t_get (m : tmemory) (s : sl) (i : nat) : res token :=
  if (i <? sl_len s)%nat then let* a := index m (sl_arr s) in index a (sl_off s + i) else Panic.
Definition t_put (m : tmemory) (s : sl) (i : nat) (v : token) : res tmemory :=
  if (i <? sl_len s)%nat then
    let* a := index m (sl_arr s) in
    let* a' := update a (sl_off s + i) (fun _ => v) in
    update m (sl_arr s) (fun _ => a')
  else Panic.
(** s[:n] *)
Definition t_head (s : sl) (n : nat) : res sl :=
  if (n <=? sl_cap s)%nat then Ok (Sl (sl_arr s) (sl_off s) n (sl_cap s)) else Panic.

(** One run of the loop of filter.go:17-32 (pos.go:39-54 and word.go:39-54 are copies of it): a question
    about a token, and whether it is dropped if the answer is yes.  Simplified: the question asked by
    Drop and Keep of filter.go is a function of the token without effects. *)
Record pass := Pass { ps_match : token -> res bool; ps_drop : bool }.
Inductive filter_call :=
| DropBy (p : token -> bool) (* filter.go:7-10 *)
| KeepBy (p : token -> bool) (* filter.go:12-15 *)
| PosDrop (f : fnode) (* pos.go:30-32 *)
| PosKeep (f : fnode) (* pos.go:35-37 *)
| WordDrop (f : list bytes) (* word.go:30-32 *)
| WordKeep (f : list bytes) (* word.go:35-37 *)
| JaDrop (f : ja_filter). (* ja/filter.go:129-132 *)
(** pos.go:45, word.go:45 *)
Definition ask_pos (f : fnode) (v : token) : res bool := let* p := token_pos v in Ok (pos_match f p).
Definition ask_word (f : list bytes) (v : token) : res bool := Ok (word_match f (t_surface v)).
Definition passes_of (c : filter_call) : list pass :=
  match c with
  | DropBy p => [Pass (fun v => Ok (p v)) true]
  | KeepBy p => [Pass (fun v => Ok (p v)) false]
  | PosDrop f => [Pass (ask_pos f) true]
  | PosKeep f => [Pass (ask_pos f) false]
  | WordDrop f => [Pass (ask_word f) true]
  | WordKeep f => [Pass (ask_word f) false]
  | JaDrop f => [Pass (ask_pos (jf_stop_tags f)) true; Pass (ask_word (jf_stop_words f)) true]
  end.

(** A goroutine inside a call, with [s] the caller's slice variable: at the head of the loop with i and
    tail, with element i read, returned, or panicked. *)
Inductive gstate :=
| GHead (s : sl) (i tail : nat) (p : pass) (rest : list pass)
| GRead (v : token) (s : sl) (i tail : nat) (p : pass) (rest : list pass)
| GDone (s : sl)
| GPanic.
Definition g_next (s : sl) (ps : list pass) : gstate := match ps with [] => GDone s | p :: rest => GHead s 0 0 p rest end.
Definition g_start (s : sl) (c : filter_call) : gstate := g_next s (passes_of c).
Definition stopped (g : gstate) : bool := match g with GDone _ | GPanic => true | _ => false end.

(** filter.go:21-31, one access to memory at a time *)
Definition g_step (m : tmemory) (g : gstate) : tmemory * gstate :=
  match g with
  | GHead s i tail p rest =>
    if (i <? sl_len s)%nat then
      match t_get m s i with Ok v => (m, GRead v s i tail p rest) | _ => (m, GPanic) end
    else match t_head s tail with Ok s' => (m, g_next s' rest) | _ => (m, GPanic) end
  | GRead v s i tail p rest =>
    match ps_match p v with
    | Ok b =>
      if Bool.eqb b (ps_drop p) then (m, GHead s (S i) tail p rest)
      else if negb (i =? tail)%nat then
        match t_put m s tail v with Ok m' => (m', GHead s (S i) (S tail) p rest) | _ => (m, GPanic) end
      else (m, GHead s (S i) (S tail) p rest)
    | _ => (m, GPanic)
    end
  | _ => (m, g)
  end.

(** The next access of a goroutine: whether it writes, the array and the position *)
Definition g_access (g : gstate) : option (bool * nat * nat) :=
  match g with
  | GHead s i _ _ _ => if (i <? sl_len s)%nat then Some (false, sl_arr s, sl_off s + i)%nat else None
  | GRead v s i tail p _ =>
    match ps_match p v with
    | Ok b => if Bool.eqb b (ps_drop p) then None else if negb (i =? tail)%nat then Some (true, sl_arr s, sl_off s + tail)%nat else None
    | _ => None
    end
  | _ => None
  end.

(** Any number of goroutines: some goroutine that has not stopped makes a step. *)
Inductive step_of : tmemory * list gstate -> tmemory * list gstate -> Prop :=
| step_one m l g r : stopped g = false -> step_of (m, l ++ g :: r) (fst (g_step m g), l ++ snd (g_step m g) :: r).
Inductive runs : nat -> tmemory * list gstate -> tmemory * list gstate -> Prop :=
| runs_none x : runs 0 x x
| runs_more n x y z : runs n x y -> step_of y z -> runs (S n) x z.
