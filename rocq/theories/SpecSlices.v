(** Tokens as values: every slice a token hands out is a vector of the caller's own. *)
From Verif Require Export Token.
From Verif Require Import Slices.
Open Scope Z_scope.

(** ** The dictionaries in memory *)
Definition shows (m : memory) (s : gslice) (l : list bytes) : Prop :=
  match s with
  | None => l = []
  | Some s => exists a, nth_error m (sl_arr s) = Some a /\ sl_len s = length l /\ exists p q, a = p ++ l ++ q /\ sl_off s = length p
  end.
Definition shows_dict (m : memory) (md : mdict) (d : dict) : Prop :=
  md_pos_ids md = d_pos_ids d /\ md_meta md = d_meta d /\ md_unk_meta md = d_unk_meta d /\ shows m (md_names md) (d_pos_names d) /\
  Forall2 (shows m) (md_unk md) (d_unk_contents d) /\
  match md_contents md, d_contents d with
  | None, None => True
  | Some rows, Some cs => Forall2 (shows m) rows cs
  | _, _ => False
  end.
Definition shows_content (m : memory) (mc : mcontent) (c : user_content) : Prop :=
  shows m (mc_tokens mc) (uc_tokens c) /\ shows m (mc_yomi mc) (uc_yomi c) /\ mc_pos mc = uc_pos c.
Definition shows_token (m : memory) (mt : mtoken) (t : token) : Prop :=
  mt_id mt = t_id t /\ mt_class mt = t_class t /\ shows_dict m (mt_dict mt) (t_dict t) /\
  match mt_udict mt, t_udict t with
  | None, None => True
  | Some mu, Some u => Forall2 (shows_content m) mu (u_contents u)
  | _, _ => False
  end.

(** ** A program over vectors
    A call gives vectors of its own, with no room behind them; a write changes one vector only. *)
Definition v_call (toks : list token) (kept : list (list bytes)) (c : call) : list (list bytes) * reply :=
  let slice_of (r : res strings) :=
    match r with
    | Ok (Some l) => (kept ++ [l], RVec l)
    | Ok None => (kept, RNil)
    | _ => (kept, RPanic)
    end in
  let string_of (r : res (bytes * bool)) := match r with Ok x => (kept, RPair x) | _ => (kept, RPanic) end in
  let on (k : nat) f := match nth_error toks k with Some t => f t | None => (kept, RPanic) end in
  match c with
  | Features k => on k (fun t => slice_of (features t))
  | Pos k => on k (fun t => slice_of (token_pos t))
  | Extra k => on k (fun t =>
      match user_extra t with
      | Ok (Some (a, b)) => (kept ++ [a; b], RTwo a b)
      | Ok None => (kept, RNil)
      | _ => (kept, RPanic)
      end)
  | Data k => on k (fun t =>
      match new_token_data t with
      | Ok d => (kept ++ [strings_list (td_pos d); strings_list (td_features d)],
          RData (strings_list (td_pos d)) (strings_list (td_features d)) (td_base_form d) (td_reading d) (td_pronunciation d))
      | _ => (kept, RPanic)
      end)
  | At k i => on k (fun t => string_of (feature_at t i))
  | Pick k key => on k (fun t => string_of (pickup t key))
  | Write h i v =>
    match nth_error kept h with
    | None => (kept, RPanic)
    | Some l => if (i <? length l)%nat then (firstn h kept ++ (firstn i l ++ v :: skipn (S i) l) :: skipn (S h) kept, RDone) else (kept, RPanic)
    end
  | Read h i =>
    match nth_error kept h with
    | None => (kept, RPanic)
    | Some l => match nth_error l i with Some v => (kept, RText v) | None => (kept, RPanic) end
    end
  end.
Fixpoint v_calls (toks : list token) (kept : list (list bytes)) (cs : list call) : list (list bytes) * list reply :=
  match cs with
  | [] => (kept, [])
  | c :: cs' => let (kept', r) := v_call toks kept c in let (kept'', rs) := v_calls toks kept' cs' in (kept'', r :: rs)
  end.
