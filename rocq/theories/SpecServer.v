(** Specification of the HTTP server, independent of its code. *)
From Verif Require Export Token SpecOut SpecJson Server.
Open Scope Z_scope.

(** ** Request bodies *)
(** What encoding/json makes of a JSON value for a struct with the string fields "sentence" and
    "mode": names match up to case (the long s folds to s), the last member of a name counts, null
    leaves a field alone, other members are ignored, another type is an error. *)
Definition upper (b : byte) : byte := let n := b2n b in if ((97 <=? n) && (n <=? 122))%N then n2b (n - 32) else b.
Fixpoint fold_name (s : bytes) : bytes :=
  match s with
  | xc5 :: ((xbf :: s') as s1) => x53 :: fold_name s'
  | b :: s' => upper b :: fold_name s'
  | [] => []
  end.
Definition names (key : bytes) (field : string) : bool := bytes_eqb (fold_name key) (fold_name (s2b field)).
(** One member: the request so far, the request after it. *)
Definition set_member (r : request) (kv : bytes * json) : option request :=
  let '(k, v) := kv in
  if names k "sentence" then
    match v with JStr s => Some (Request s (rq_mode r)) | JNull => Some r | _ => None end
  else if names k "mode" then
    match v with JStr s => Some (Request (rq_input r) s) | JNull => Some r | _ => None end
  else Some r.
Fixpoint set_members (r : request) (l : list (bytes * json)) : option request :=
  match l with
  | [] => Some r
  | kv :: l' => match set_member r kv with Some r' => set_members r' l' | None => None end
  end.
Definition decoded (v : json) : option request :=
  match v with JObj l => set_members (Request [] []) l | JNull => Some (Request [] []) | _ => None end.
(** Nesting *)
Fixpoint depth (v : json) : Z :=
  match v with
  | JArr l => 1 + fold_right (fun v m => Z.max (depth v) m) 0 l
  | JObj l => 1 + fold_right (fun kv m => Z.max (depth (snd kv)) m) 0 l
  | _ => 0
  end.
(** [body] begins with a JSON value that encoding/json takes (its nesting limit is 10000); what
    follows the value is not looked at. *)
Definition begins_with (body : bytes) (v : json) : Prop :=
  valid_utf8 body = true /\ (exists fuel rest, read_value fuel body = Some (v, rest)) /\ depth v <= 10000.
(** What is assumed of json.NewDecoder(r.Body).Decode. *)
Definition json_decoder (decode : bytes -> request + bytes) : Prop :=
  forall body v, begins_with body v ->
    match decoded v with Some r => decode body = inl r | None => exists e, decode body = inr e end.

(** The modes of the endpoint. *)
Inductive request_mode : bytes -> Z -> Prop :=
| rm_search : request_mode (s2b "Search") mode_search
| rm_extended : request_mode (s2b "Extended") mode_extended
| rm_normal m : m <> s2b "Search" -> m <> s2b "Extended" -> request_mode m mode_normal.

(** An error text that needs no escape. *)
Definition plain_text (s : bytes) : Prop :=
  valid_utf8 s = true /\ Forall (fun b => (32 <= b2n b)%N /\ b <> x22 /\ b <> x5c) s.

(** ** The demo page *)
Definition star_unless (v : bytes * bool) : bytes := if snd v then fst v else s2b "*".
(** The row shown for a token. *)
Definition row (tk : token) (r : record) : Prop :=
  exists p b rd pr, token_pos tk = Ok p /\ base_form tk = Ok b /\ reading tk = Ok rd /\ pronunciation tk = Ok pr /\
    rc_surface r = t_surface tk /\
    (rc_pos r = join (s2b ",") (strings_list p) /\ rc_pos r <> [] \/
     rc_pos r = s2b "*" /\ join (s2b ",") (strings_list p) = []) /\
    rc_base r = star_unless b /\ rc_reading r = star_unless rd /\ rc_pron r = star_unless pr.
Inductive page_mode : bytes -> Z -> Prop :=
| pm_search : page_mode (s2b "Search") mode_search
| pm_extended : page_mode (s2b "Extended") mode_search
| pm_normal m : m <> s2b "Search" -> m <> s2b "Extended" -> page_mode m mode_normal.
(** From the first <svg on, or everything if there is none. *)
Definition from_svg (s t : bytes) : Prop :=
  (exists p, s = p ++ t /\ (exists q, t = s2b "<svg" ++ q) /\
     forall p' q, s = p' ++ s2b "<svg" ++ q -> (length p <= length p')%nat) \/
  t = s /\ forall p q, s <> p ++ s2b "<svg" ++ q.

(** ** Executions *)
Inductive many {S : Type} (step : S -> S -> Prop) : S -> S -> Prop :=
| many_refl s : many step s s
| many_step s t u : step s t -> many step t u -> many step s u.
Definition stuck {S : Type} (step : S -> S -> Prop) (s : S) : Prop := forall t, ~ step s t.
Definition no_infinite {S : Type} (step : S -> S -> Prop) : Prop := forall f : nat -> S, ~ forall i, step (f i) (f (Datatypes.S i)).
(** The process ends only once it has all of the graph: the handler closed its pipe, the copying
    goroutine has ended and the process has read what is left. *)
Definition reads_all (cap buf : nat) (s t : demo) : Prop :=
  demo_step cap buf s t /\ (dm_p s = PRunning -> dm_p t = PGone -> dm_h s = HWaiting /\ dm_c s = CEnded true /\ dm_fill s = 0%nat).
