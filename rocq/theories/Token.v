(** Model of tokenizer/token.go. *)
From Verif Require Export Lattice.
Open Scope Z_scope.

(** token.go:42-52 (token.go:12 makes TokenClass the node class) *)
Record token := Token {
  t_index : nat; t_id : Z; t_class : node_class; t_position : nat;
  t_start : nat; t_end : nat; t_surface : bytes;
  t_dict : dict; t_udict : option udict
}.

(** A possibly nil []string: None is nil. *)
Definition strings := option (list bytes).
Definition strings_list (s : strings) : list bytes := match s with Some l => l | None => [] end.

(** token.go:25-39 TokenClass.String *)
Definition class_string (c : node_class) : bytes :=
  match c with
  | DUMMY => s2b "DUMMY" | KNOWN => s2b "KNOWN" | UNKNOWN => s2b "UNKNOWN" | USER => s2b "USER"
  end.

(** Dereference of the user dictionary pointer. *)
Definition user_content_of (t : token) : res user_content :=
  match t_udict t with
  | None => Panic
  | Some u => indexZ (u_contents u) (t_id t)
  end.

(** token.go:63-65 / 160-162: names of the POS ids of a known token. *)
Definition pos_names_of (t : token) : res (list bytes) :=
  let* ids := indexZ (d_pos_ids (t_dict t)) (t_id t) in
  mapM (fun id => indexZ (d_pos_names (t_dict t)) id) ids.

(** token.go:55-83 Features *)
Definition features (t : token) : res strings :=
  match t_class t with
  | KNOWN =>
    let* c := match d_contents (t_dict t) with
              | Some cs => indexZ cs (t_id t)
              | None => Ok []
              end in
    let* ns := pos_names_of t in
    Ok (Some (ns ++ c))
  | UNKNOWN =>
    let* c := indexZ (d_unk_contents (t_dict t)) (t_id t) in
    Ok (Some c)
  | USER =>
    let* uc := user_content_of t in
    Ok (Some [uc_pos uc; join (s2b "/") (uc_tokens uc); join (s2b "/") (uc_yomi uc)])
  | DUMMY => Ok None
  end.

(** token.go:86-132 FeatureAt; the pair (string, bool). *)
Definition feature_at (t : token) (i : Z) : res (bytes * bool) :=
  if i <? 0 then Ok ([], false)
  else
    match t_class t with
    | KNOWN =>
      let* pos := indexZ (d_pos_ids (t_dict t)) (t_id t) in
      if i <? Z.of_nat (length pos) then
        let* id := indexZ pos i in
        if Z.of_nat (length (d_pos_names (t_dict t))) <? id then Ok ([], false)
        else let* s := indexZ (d_pos_names (t_dict t)) id in Ok (s, true)
      else
        let i := i - Z.of_nat (length pos) in
        let cs := match d_contents (t_dict t) with Some cs => cs | None => [] end in
        if Z.of_nat (length cs) <=? t_id t then Ok ([], false)
        else
          let* c := indexZ cs (t_id t) in
          if Z.of_nat (length c) <=? i then Ok ([], false)
          else let* s := indexZ c i in Ok (s, true)
    | UNKNOWN =>
      if Z.of_nat (length (d_unk_contents (t_dict t))) <=? t_id t then Ok ([], false)
      else
        let* c := indexZ (d_unk_contents (t_dict t)) (t_id t) in
        if Z.of_nat (length c) <=? i then Ok ([], false)
        else let* s := indexZ c i in Ok (s, true)
    | USER =>
      match t_udict t with
      | None => Panic
      | Some u =>
        if Z.of_nat (length (u_contents u)) <=? t_id t then Ok ([], false)
        else
          if i =? 0 then let* uc := indexZ (u_contents u) (t_id t) in Ok (uc_pos uc, true)
          else if i =? 1 then let* uc := indexZ (u_contents u) (t_id t) in Ok (join (s2b "/") (uc_tokens uc), true)
          else if i =? 2 then let* uc := indexZ (u_contents u) (t_id t) in Ok (join (s2b "/") (uc_yomi uc), true)
          else Ok ([], false)
      end
    | DUMMY => Ok ([], false)
    end.

(** token.go:141-153 UserExtra: None is nil, otherwise (Tokens, Readings). *)
Definition user_extra (t : token) : res (option (list bytes * list bytes)) :=
  match t_class t with
  | USER => let* uc := user_content_of t in Ok (Some (uc_tokens uc, uc_yomi uc))
  | _ => Ok None
  end.

(** Lookup in a ContentsMeta map. *)
Definition meta_get (m : contents_meta) (k : bytes) : option Z := assoc bytes_eqb m k.

(** token.go:165-172: the slice bounds of the POS of unknown words. *)
Definition unk_pos_start (d : dict) : Z :=
  match meta_get (d_unk_meta d) key_pos_start with Some v => v | None => 0 end.
Definition unk_pos_end (d : dict) : Z :=
  match meta_get (d_unk_meta d) key_pos_hierarchy with Some v => unk_pos_start d + v | None => 1 end.

(** token.go:156-187 POS *)
Definition token_pos (t : token) : res strings :=
  match t_class t with
  | KNOWN => let* ns := pos_names_of t in Ok (Some ns)
  | UNKNOWN =>
    let s := unk_pos_start (t_dict t) in
    let e := unk_pos_end (t_dict t) in
    let* feature := indexZ (d_unk_contents (t_dict t)) (t_id t) in
    if (e <=? s) || (Z.of_nat (length feature) <? e) then Ok None
    else
      let* l := mapM (fun k => indexZ feature (s + Z.of_nat k)) (seq 0 (Z.to_nat (e - s))) in
      Ok (Some l)
  | USER => let* uc := user_content_of t in Ok (Some [uc_pos uc])
  | DUMMY => Ok None
  end.

(** token.go:200-210 EqualFeatures *)
Fixpoint equal_features_loop (i k : nat) (lhs rhs : list bytes) : res bool :=
  match k with
  | O => Ok true
  | S k' =>
    let* a := index lhs i in
    let* b := index rhs i in
    if negb (bytes_eqb a b) then Ok false else equal_features_loop (S i) k' lhs rhs
  end.
Definition equal_features (lhs rhs : list bytes) : res bool :=
  if negb (length lhs =? length rhs)%nat then Ok false
  else equal_features_loop 0 (length lhs) lhs rhs.

(** token.go:190-192 Token.EqualFeatures, 195-197 Token.EqualPOS *)
Definition token_equal_features (a b : token) : res bool :=
  let* f := features a in let* g := features b in equal_features (strings_list f) (strings_list g).
Definition token_equal_pos (a b : token) : res bool :=
  let* f := token_pos a in let* g := token_pos b in equal_features (strings_list f) (strings_list g).

(** token.go:237-250 pickupFromFeatures *)
Definition pickup (t : token) (key : bytes) : res (bytes * bool) :=
  let meta := match t_class t with
              | KNOWN => d_meta (t_dict t)
              | UNKNOWN => d_unk_meta (t_dict t)
              | _ => []
              end in
  match meta_get meta key with
  | None => Ok ([], false)
  | Some i => feature_at t i
  end.

(** token.go:213-235 *)
Definition inflectional_type (t : token) := pickup t key_inflectional_type.
Definition inflectional_form (t : token) := pickup t key_inflectional_form.
Definition base_form (t : token) := pickup t key_base.
Definition reading (t : token) := pickup t key_reading.
Definition pronunciation (t : token) := pickup t key_pronunciation.

(** token.go:258-262 Token.Equal *)
Definition token_equal (a b : token) : bool :=
  (t_id a =? t_id b) && class_eqb (t_class a) (t_class b) && bytes_eqb (t_surface a) (t_surface b).

(** token.go:265-276 *)
Record token_data := TokenData {
  td_id : Z; td_start : nat; td_end : nat; td_surface : bytes; td_class : bytes;
  td_pos : strings; td_base_form : bytes; td_reading : bytes; td_pronunciation : bytes;
  td_features : strings
}.

(** token.go:279-299 NewTokenData *)
Definition new_token_data (t : token) : res token_data :=
  let* pos := token_pos t in
  let* fs := features t in
  let pos := match pos with None => Some [] | Some l => Some l end in
  let fs := match fs with None => Some [] | Some l => Some l end in
  let* b := base_form t in
  let* r := reading t in
  let* p := pronunciation t in
  Ok (TokenData (t_id t) (t_start t) (t_end t) (t_surface t) (class_string (t_class t))
        pos (fst b) (fst r) (fst p) fs).
