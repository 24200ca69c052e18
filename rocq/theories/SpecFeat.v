(** Specification of the feature accessors of tokens. *)
From Verif Require Export SpecOut.
Open Scope Z_scope.

(** Well-formedness of the data the accessors read. *)
Record wf_data (d : dict) : Prop := {
  wd_pos : (length (d_morphs d) <= length (d_pos_ids d))%nat;
  wd_names : forall ids id, In ids (d_pos_ids d) -> In id ids -> 0 <= id < Z.of_nat (length (d_pos_names d));
  wd_contents : match d_contents d with Some cs => (length (d_morphs d) <= length cs)%nat | None => True end;
  wd_unk : (length (d_unk_morphs d) <= length (d_unk_contents d))%nat;
  wd_start : forall v, meta_get (d_unk_meta d) key_pos_start = Some v -> 0 <= v
}.

Arguments wd_pos {d}.
Arguments wd_names {d}.
Arguments wd_contents {d}.
Arguments wd_unk {d}.
Arguments wd_start {d}.

(** Features by class and ID: POS names then contents; the contents of the unknown-word entry;
    POS, segmentation and reading of the user entry. None is nil. *)
Definition spec_pos_names (d : dict) (id : Z) : list bytes :=
  map (fun k => nth (Z.to_nat k) (d_pos_names d) []) (nth (Z.to_nat id) (d_pos_ids d) []).
Definition spec_features (d : dict) (u : option udict) (c : node_class) (id : Z) : strings :=
  match c with
  | KNOWN => Some (spec_pos_names d id ++
                   match d_contents d with Some cs => nth (Z.to_nat id) cs [] | None => [] end)
  | UNKNOWN => Some (nth (Z.to_nat id) (d_unk_contents d) [])
  | USER => match u with
            | Some ud => match nth_error (u_contents ud) (Z.to_nat id) with
                         | Some e => Some [uc_pos e; join (s2b "/") (uc_tokens e); join (s2b "/") (uc_yomi e)]
                         | None => None
                         end
            | None => None
            end
  | DUMMY => None
  end.

(** The i-th string, with the flag. *)
Definition lookup (fs : strings) (i : Z) : bytes * bool :=
  if i <? 0 then ([], false)
  else match fs with
       | Some l => match nth_error l (Z.to_nat i) with Some s => (s, true) | None => ([], false) end
       | None => ([], false)
       end.

(** How many entries the tables of a token's class hold. *)
Definition entry_count (tk : token) : nat :=
  match t_class tk with
  | KNOWN => length (d_pos_ids (t_dict tk))
  | UNKNOWN => length (d_unk_contents (t_dict tk))
  | USER => match t_udict tk with Some u => length (u_contents u) | None => 0%nat end
  | DUMMY => 0%nat
  end.

(** The metadata that applies to a token class. *)
Definition meta_of (d : dict) (c : node_class) : contents_meta :=
  match c with KNOWN => d_meta d | UNKNOWN => d_unk_meta d | _ => [] end.

(** What the named accessors should return. *)
Definition named (d : dict) (u : option udict) (c : node_class) (id : Z) (key : bytes) : bytes * bool :=
  match meta_get (meta_of d c) key with
  | Some i => lookup (spec_features d u c id) i
  | None => ([], false)
  end.

(** Part of speech. *)
Definition spec_pos (d : dict) (u : option udict) (c : node_class) (id : Z) : strings :=
  match c with
  | KNOWN => Some (spec_pos_names d id)
  | USER => match spec_features d u c id with Some (p :: _) => Some [p] | _ => None end
  | UNKNOWN =>
    let fs := nth (Z.to_nat id) (d_unk_contents d) [] in
    let s := match meta_get (d_unk_meta d) key_pos_start with Some v => v | None => 0 end in
    let e := match meta_get (d_unk_meta d) key_pos_hierarchy with Some v => s + v | None => 1 end in
    if (s <? e) && (e <=? Z.of_nat (length fs)) then Some (firstn (Z.to_nat (e - s)) (skipn (Z.to_nat s) fs)) else None
  | DUMMY => None
  end.

(** IDs in range. *)
Definition good_token (t : token) : Prop :=
  match t_class t with
  | KNOWN => 0 <= t_id t < Z.of_nat (length (d_morphs (t_dict t)))
  | UNKNOWN => 0 <= t_id t < Z.of_nat (length (d_unk_morphs (t_dict t)))
  | USER => exists ud, t_udict t = Some ud /\ 0 <= t_id t < Z.of_nat (length (u_contents ud))
  | DUMMY => True
  end.

(** Tokens returned by Analyze. *)
Definition from_analyze (d : dict) (u : option udict) (tk : token) : Prop :=
  exists ideo omit inp mode ts, analyze ideo (Tokenizer d u omit) inp mode = Ok ts /\ In tk ts.
