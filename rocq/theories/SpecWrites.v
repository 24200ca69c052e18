(** What may become of the output when writes fail. *)
From Verif Require Export Cmd Writes.
Open Scope Z_scope.

Definition is_prefix (a b : bytes) : Prop := exists c, b = a ++ c.
Definition taken (cs : list call) : bytes := concat (map fst cs).
Definition all_well (cs : list call) : Prop := forall c, In c cs -> snd c = false.

(** A block written through a buffer: the calls take the whole of it, or a prefix of it up to the first
    call that fails, which is the last. *)
Definition block_calls (b : bytes) (cs : list call) : Prop :=
  (all_well cs /\ taken cs = b) \/
  (exists cs' p, cs = cs' ++ [(p, true)] /\ all_well cs' /\ is_prefix (taken cs) b).
(** A text written in lines: one call for each, which takes the line or fails and takes a prefix of it. *)
Definition line_calls (b : bytes) (cs : list call) : Prop :=
  exists ls, b = concat ls /\ (forall l, In l ls -> exists l', l = l' ++ [x0a]) /\
    Forall2 (fun l c => if snd c : bool then is_prefix (fst c) l else fst c = l) ls cs.

(** The events of a run that may lose output, against those of one that does not. *)
Inductive with_losses (P : bytes -> list call -> Prop) : list event -> list wevent -> Prop :=
| wl_nil : with_losses P [] []
| wl_event e t t' : (forall b, e <> EOut b) -> (forall f b, e <> EFile f b) -> with_losses P t t' -> with_losses P (e :: t) (WEvent e :: t')
| wl_out b cs t t' : P b cs -> with_losses P t t' -> with_losses P (EOut b :: t) (map WCall cs ++ t')
| wl_file f b cs t t' : P b cs -> with_losses P t t' -> with_losses P (EFile f b :: t) (map WCall cs ++ t').

(** What a run writes to its output. *)
Definition events_output (t : list event) : bytes := concat (map (fun e => match e with EOut b => b | EFile _ b => b | _ => [] end) t).
Definition calls_output (t : list wevent) : bytes := concat (map (fun e => match e with WCall c => fst c | _ => [] end) t).
Definition no_failure (t : list wevent) : Prop := forall c, In (WCall c) t -> snd c = false.
(** After a call that failed the later ones take nothing: a full disk that stays full. *)
Definition gives_up (t : list wevent) : Prop := forall t1 q t2 c, t = t1 ++ WCall (q, true) :: t2 -> In (WCall c) t2 -> fst c = [].
(** Serving writes nothing to the standard output. *)
Definition serves_quietly (w : world) : Prop := forall addr t e, In e (fst (w_serve w addr t)) -> (forall b, e <> EOut b) /\ (forall f b, e <> EFile f b).
Definition out_calls (b : bytes) (cs : list call) : Prop := block_calls b cs \/ line_calls b cs.
