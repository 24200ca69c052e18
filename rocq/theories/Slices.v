(** Model of tokenizer/token.go over a memory of arrays of strings: what is copied and what is shared.
    [Token] has the same functions over values. *)
From Verif Require Export Token.
Open Scope Z_scope.

(** Memory holds arrays of strings; an address is a position.  A slice is a window of an array: from
    [sl_off], [sl_len] elements, with room for [sl_cap].  None is nil. *)
Definition memory := list (list bytes).
Record sl := Sl { sl_arr : nat; sl_off : nat; sl_len : nat; sl_cap : nat }.
Definition gslice := option sl.
Definition g_len (s : gslice) : nat := match s with Some s => sl_len s | None => 0 end.
Definition g_cap (s : gslice) : nat := match s with Some s => sl_cap s | None => 0 end.

Definition zeros (k : nat) : list bytes := repeat [] k.

(** s[i] *)
Definition g_get (m : memory) (s : gslice) (i : Z) : res bytes :=
  match s with
  | None => Panic
  | Some s =>
    if (0 <=? i) && (i <? Z.of_nat (sl_len s)) then let* a := index m (sl_arr s) in index a (sl_off s + Z.to_nat i)
    else Panic
  end.
(** The elements of s *)
Definition g_read (m : memory) (s : gslice) : res (list bytes) :=
  match s with
  | None => Ok []
  | Some s => let* a := index m (sl_arr s) in slice a (sl_off s) (sl_off s + sl_len s)
  end.
(** s[i] = v *)
Definition g_put (m : memory) (s : gslice) (i : nat) (v : bytes) : res memory :=
  match s with
  | None => Panic
  | Some s =>
    if (i <? sl_len s)%nat then
      let* a := index m (sl_arr s) in
      let* a' := update a (sl_off s + i) (fun _ => v) in
      update m (sl_arr s) (fun _ => a')
    else Panic
  end.
(** make([]string, len, cap) and []string{...} *)
Definition g_make (m : memory) (len cap : nat) : memory * gslice := (m ++ [zeros cap], Some (Sl (length m) 0 len cap)).
Definition g_lit (m : memory) (l : list bytes) : memory * gslice := (m ++ [l], Some (Sl (length m) 0 (length l) (length l))).
(** append(s, xs...): in place if there is room, otherwise to a new array, with any further room
    ([grow]). *)
Definition g_append (grow : nat -> nat -> nat) (m : memory) (s : gslice) (xs : list bytes) : res (memory * gslice) :=
  let n := (g_len s + length xs)%nat in
  match s with
  | Some s' =>
    if (n <=? sl_cap s')%nat then
      let* a := index m (sl_arr s') in
      let* before := slice a 0 (sl_off s' + sl_len s') in
      let* after := slice a (sl_off s' + n) (length a) in
      let* m' := update m (sl_arr s') (fun _ => before ++ xs ++ after) in
      Ok (m', Some (Sl (sl_arr s') (sl_off s') n (sl_cap s')))
    else
      let* old := g_read m s in
      let more := grow (sl_cap s') n in
      Ok (m ++ [old ++ xs ++ zeros more], Some (Sl (length m) 0 n (n + more)))
  | None =>
    match xs with
    | [] => Ok (m, None)
    | _ => let more := grow 0%nat n in Ok (m ++ [xs ++ zeros more], Some (Sl (length m) 0 n (n + more)))
    end
  end.
(** copy(dst, src) *)
Definition g_copy (m : memory) (dst src : gslice) : res memory :=
  let* xs := g_read m src in
  foldM (fun m i => let* x := index xs i in g_put m dst i x) (seq 0 (Nat.min (g_len dst) (g_len src))) m.

(** The parts of the dictionaries that tokens read; the rows of Contents are slices, which may share
    arrays and have room. *)
Record mdict := MDict {
  md_pos_ids : list (list Z); md_names : gslice; md_contents : option (list gslice); md_meta : contents_meta;
  md_unk : list gslice; md_unk_meta : contents_meta
}.
Record mcontent := MContent { mc_tokens : gslice; mc_yomi : gslice; mc_pos : bytes }.
Record mtoken := MToken {
  mt_index : nat; mt_id : Z; mt_class : node_class; mt_position : nat; mt_start : nat; mt_end : nat; mt_surface : bytes;
  mt_dict : mdict; mt_udict : option (list mcontent)
}.
Definition m_content_of (t : mtoken) : res mcontent :=
  match mt_udict t with None => Panic | Some u => indexZ u (mt_id t) end.

(** token.go:63-65 / 160-162: appends the names of the POS ids to [s]. *)
Definition m_append_names (grow : nat -> nat -> nat) (m : memory) (t : mtoken) (s : gslice) : res (memory * gslice) :=
  let* ids := indexZ (md_pos_ids (mt_dict t)) (mt_id t) in
  foldM (fun ms id => let* x := g_get (fst ms) (md_names (mt_dict t)) id in g_append grow (fst ms) (snd ms) [x]) ids (m, s).
(** token.go:55-83 Features *)
Definition m_features (grow : nat -> nat -> nat) (m : memory) (t : mtoken) : res (memory * gslice) :=
  match mt_class t with
  | KNOWN =>
    let* c := match md_contents (mt_dict t) with
              | Some cs => let* row := indexZ cs (mt_id t) in Ok (g_len row)
              | None => Ok 0%nat
              end in
    let* ids := indexZ (md_pos_ids (mt_dict t)) (mt_id t) in
    let (m, s) := g_make m 0 (length ids + c) in
    let* ms := m_append_names grow m t s in
    let (m, s) := ms : memory * gslice in
    match md_contents (mt_dict t) with
    | Some cs => let* row := indexZ cs (mt_id t) in let* xs := g_read m row in g_append grow m s xs
    | None => Ok (m, s)
    end
  | UNKNOWN =>
    let* row := indexZ (md_unk (mt_dict t)) (mt_id t) in
    let (m, s) := g_make m (g_len row) (g_len row) in
    let* m := foldM (fun m i => let* x := g_get m row (Z.of_nat i) in g_put m s i x) (seq 0 (g_len row)) m in
    Ok (m, s)
  | USER =>
    let* c := m_content_of t in
    let* tokens := g_read m (mc_tokens c) in
    let* yomi := g_read m (mc_yomi c) in
    Ok (g_lit m [mc_pos c; join (s2b "/") tokens; join (s2b "/") yomi])
  | DUMMY => Ok (m, None)
  end.
(** token.go:86-132 FeatureAt *)
Definition m_feature_at (m : memory) (t : mtoken) (i : Z) : res (bytes * bool) :=
  if i <? 0 then Ok ([], false)
  else
    match mt_class t with
    | KNOWN =>
      let* pos := indexZ (md_pos_ids (mt_dict t)) (mt_id t) in
      if i <? Z.of_nat (length pos) then
        let* id := indexZ pos i in
        if Z.of_nat (g_len (md_names (mt_dict t))) <? id then Ok ([], false)
        else let* s := g_get m (md_names (mt_dict t)) id in Ok (s, true)
      else
        let i := i - Z.of_nat (length pos) in
        let cs := match md_contents (mt_dict t) with Some cs => cs | None => [] end in
        if Z.of_nat (length cs) <=? mt_id t then Ok ([], false)
        else
          let* c := indexZ cs (mt_id t) in
          if Z.of_nat (g_len c) <=? i then Ok ([], false)
          else let* s := g_get m c i in Ok (s, true)
    | UNKNOWN =>
      if Z.of_nat (length (md_unk (mt_dict t))) <=? mt_id t then Ok ([], false)
      else
        let* c := indexZ (md_unk (mt_dict t)) (mt_id t) in
        if Z.of_nat (g_len c) <=? i then Ok ([], false)
        else let* s := g_get m c i in Ok (s, true)
    | USER =>
      match mt_udict t with
      | None => Panic
      | Some u =>
        if Z.of_nat (length u) <=? mt_id t then Ok ([], false)
        else
          if i =? 0 then let* c := indexZ u (mt_id t) in Ok (mc_pos c, true)
          else if i =? 1 then let* c := indexZ u (mt_id t) in let* l := g_read m (mc_tokens c) in Ok (join (s2b "/") l, true)
          else if i =? 2 then let* c := indexZ u (mt_id t) in let* l := g_read m (mc_yomi c) in Ok (join (s2b "/") l, true)
          else Ok ([], false)
      end
    | DUMMY => Ok ([], false)
    end.
(** token.go:141-153 UserExtra *)
Definition m_user_extra (m : memory) (t : mtoken) : res (memory * option (gslice * gslice)) :=
  match mt_class t with
  | USER =>
    let* c := m_content_of t in
    let (m, tokens) := g_make m (g_len (mc_tokens c)) (g_len (mc_tokens c)) in
    let* m := g_copy m tokens (mc_tokens c) in
    let (m, yomi) := g_make m (g_len (mc_yomi c)) (g_len (mc_yomi c)) in
    let* m := g_copy m yomi (mc_yomi c) in
    Ok (m, Some (tokens, yomi))
  | _ => Ok (m, None)
  end.
(** token.go:156-187 POS *)
Definition m_pos (grow : nat -> nat -> nat) (m : memory) (t : mtoken) : res (memory * gslice) :=
  match mt_class t with
  | KNOWN =>
    let* ids := indexZ (md_pos_ids (mt_dict t)) (mt_id t) in
    let (m, s) := g_make m 0 (length ids) in
    m_append_names grow m t s
  | UNKNOWN =>
    let b := match meta_get (md_unk_meta (mt_dict t)) key_pos_start with Some v => v | None => 0 end in
    let e := match meta_get (md_unk_meta (mt_dict t)) key_pos_hierarchy with Some v => b + v | None => 1 end in
    let* feature := indexZ (md_unk (mt_dict t)) (mt_id t) in
    if (e <=? b) || (Z.of_nat (g_len feature) <? e) then Ok (m, None)
    else
      let (m, s) := g_make m 0 (Z.to_nat (e - b)) in
      foldM (fun ms k => let* x := g_get (fst ms) feature (b + Z.of_nat k) in g_append grow (fst ms) (snd ms) [x]) (seq 0 (Z.to_nat (e - b))) (m, s)
  | USER => let* c := m_content_of t in Ok (g_lit m [mc_pos c])
  | DUMMY => Ok (m, None)
  end.
(** token.go:237-250 pickupFromFeatures *)
Definition m_pickup (m : memory) (t : mtoken) (key : bytes) : res (bytes * bool) :=
  let meta := match mt_class t with KNOWN => md_meta (mt_dict t) | UNKNOWN => md_unk_meta (mt_dict t) | _ => [] end in
  match meta_get meta key with None => Ok ([], false) | Some i => m_feature_at m t i end.
(** token.go:279-299 NewTokenData: the slices of POS and Features, and BaseForm, Reading, Pronunciation. *)
Definition g_not_nil (m : memory) (s : gslice) : memory * gslice := match s with None => g_lit m [] | Some _ => (m, s) end.
Definition m_token_data (grow : nat -> nat -> nat) (m : memory) (t : mtoken) : res (memory * (gslice * gslice) * (bytes * bytes * bytes)) :=
  let* mp := m_pos grow m t in
  let (m, pos) := mp : memory * gslice in
  let* mf := m_features grow m t in
  let (m, fs) := mf : memory * gslice in
  let (m, pos) := g_not_nil m pos in
  let (m, fs) := g_not_nil m fs in
  let* b := m_pickup m t key_base in
  let* r := m_pickup m t key_reading in
  let* p := m_pickup m t key_pronunciation in
  Ok (m, (pos, fs), (fst b, fst r, fst p)).

(** ** A program that uses tokens
    It calls their methods, keeps every slice it gets, and writes into them wherever there is room
    (s[:cap(s)][i] = v). *)
Inductive call := Features (k : nat) | Pos (k : nat) | Extra (k : nat) | Data (k : nat) | At (k : nat) (i : Z) | Pick (k : nat) (key : bytes)
  | Write (h : nat) (i : nat) (v : bytes) | Read (h : nat) (i : nat).
Inductive reply := RNil | RVec (l : list bytes) | RTwo (a b : list bytes) | RData (a b : list bytes) (base reading pron : bytes)
  | RPair (p : bytes * bool) | RDone | RText (v : bytes) | RPanic.
(** The memory and the slices kept, each with all its room. *)
Record program := Program { pg_mem : memory; pg_kept : list sl }.
Definition keep (p : list sl) (s : gslice) : list sl := match s with None => p | Some s => p ++ [s] end.
Definition seen (m : memory) (s : gslice) : list bytes := match g_read m s with Ok l => l | _ => [] end.
Definition m_call (grow : nat -> nat -> nat) (toks : list mtoken) (p : program) (c : call) : program * reply :=
  let m := pg_mem p in let kept := pg_kept p in
  let slice_of (r : res (memory * gslice)) :=
    match r with
    | Ok (m', Some s) => (Program m' (kept ++ [s]), RVec (seen m' (Some s)))
    | Ok (m', None) => (Program m' kept, RNil)
    | _ => (p, RPanic)
    end in
  let string_of (r : res (bytes * bool)) := match r with Ok x => (p, RPair x) | _ => (p, RPanic) end in
  let on (k : nat) (f : mtoken -> program * reply) := match nth_error toks k with Some t => f t | None => (p, RPanic) end in
  match c with
  | Features k => on k (fun t => slice_of (m_features grow m t))
  | Pos k => on k (fun t => slice_of (m_pos grow m t))
  | Extra k => on k (fun t =>
      match m_user_extra m t with
      | Ok (m', Some (a, b)) => (Program m' (keep (keep kept a) b), RTwo (seen m' a) (seen m' b))
      | Ok (m', None) => (Program m' kept, RNil)
      | _ => (p, RPanic)
      end)
  | Data k => on k (fun t =>
      match m_token_data grow m t with
      | Ok (m', (a, b), (x, y, z)) => (Program m' (keep (keep kept a) b), RData (seen m' a) (seen m' b) x y z)
      | _ => (p, RPanic)
      end)
  | At k i => on k (fun t => string_of (m_feature_at m t i))
  | Pick k key => on k (fun t => string_of (m_pickup m t key))
  | Write h i v =>
    match nth_error kept h with
    | None => (p, RPanic)
    | Some s => match g_put m (Some (Sl (sl_arr s) (sl_off s) (sl_cap s) (sl_cap s))) i v with Ok m' => (Program m' kept, RDone) | _ => (p, RPanic) end
    end
  | Read h i =>
    match nth_error kept h with
    | None => (p, RPanic)
    | Some s => match g_get m (Some (Sl (sl_arr s) (sl_off s) (sl_cap s) (sl_cap s))) (Z.of_nat i) with Ok v => (p, RText v) | _ => (p, RPanic) end
    end
  end.
Fixpoint m_calls (grow : nat -> nat -> nat) (toks : list mtoken) (p : program) (cs : list call) : program * list reply :=
  match cs with
  | [] => (p, [])
  | c :: cs' => let (p', r) := m_call grow toks p c in let (p'', rs) := m_calls grow toks p' cs' in (p'', r :: rs)
  end.
