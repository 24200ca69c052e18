(** What the filters leave in the caller's memory. *)
From Verif Require Export Inplace.
From Verif Require Import Slices.

Definition cell (m : tmemory) (a i : nat) : option token :=
  match nth_error m a with Some l => nth_error l i | None => None end.
(** The elements of s are ts. *)
Definition holds (m : tmemory) (s : sl) (ts : list token) : Prop :=
  length ts = sl_len s /\ (sl_len s <= sl_cap s)%nat /\ forall i, (i < sl_len s)%nat -> cell m (sl_arr s) (sl_off s + i) = nth_error ts i.
Definition reaches (s : sl) (a i : nat) : Prop := sl_arr s = a /\ (sl_off s <= i < sl_off s + sl_len s)%nat.
Definition apart (s s' : sl) : Prop := forall a i, reaches s a i -> reaches s' a i -> False.

(** What a call makes of the value of its slice (functions of [Filter], whose meaning C25-C31 tell). *)
Definition call_value (c : filter_call) (ts : list token) : res (option (list token)) :=
  match c with
  | DropBy p => let* r := filter_drop (Some ts) (fun (_ : unit) t => Ok (tt, p t)) tt in Ok (snd r)
  | KeepBy p => let* r := filter_keep (Some ts) (fun (_ : unit) t => Ok (tt, p t)) tt in Ok (snd r)
  | PosDrop f => pos_drop f (Some ts)
  | PosKeep f => pos_keep f (Some ts)
  | WordDrop f => word_drop f (Some ts)
  | WordKeep f => word_keep f (Some ts)
  | JaDrop f => ja_drop f (Some ts)
  end.
(** [new] written over the beginning of [old] *)
Definition over (new old : list token) : list token := new ++ skipn (length new) old.
(** The elements of the old slice afterwards, [out] being the new one: behind it the old tokens are
    still there, with Drop of filter/ja those that the first of its two filters has left. *)
Definition remains (c : filter_call) (ts out : list token) : list token :=
  match c with
  | JaDrop f => match pos_drop (jf_stop_tags f) (Some ts) with Ok (Some mid) => over out (over mid ts) | _ => ts end
  | _ => over out ts
  end.
Definition shortened (s : sl) (n : nat) : sl := Sl (sl_arr s) (sl_off s) n (sl_cap s).

(** Calls on slices that do not overlap *)
Definition job := (sl * filter_call)%type.
Definition starts (js : list job) : list gstate := map (fun j => g_start (fst j) (snd j)) js.
Definition separate (m : tmemory) (js : list job) : Prop :=
  (forall j, In j js -> exists ts, holds m (fst j) ts) /\
  (forall k k' j j', nth_error js k = Some j -> nth_error js k' = Some j' -> k <> k' -> apart (fst j) (fst j')).
