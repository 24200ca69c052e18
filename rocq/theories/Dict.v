(** The data of github.com/ikawaha/kagome-dict that kagome reads.  That module is not in /repo;
    the fields below are those used by tokenizer/lattice/lattice.go and tokenizer/token.go.
    int16/int32/int8 values are Z (the well-formedness predicate bounds them). *)
From Verif Require Export Utf8.
Open Scope Z_scope.

(** dict.Morph *)
Record morph := Morph { m_left : Z; m_right : Z; m_weight : Z }.

(** The zero value of dict.Morph. *)
Definition zero_morph : morph := Morph 0 0 0.

(** dict.IndexTable: keywords with their ids, in id order. *)
Definition index_table := list (bytes * Z).

(** IndexTable.CommonPrefixSearchCallback(input, callback): the sequence of (id, length) pairs
    passed to the callback: every keyword that is a non-empty prefix of the input, shortest
    first, and for one keyword every id stored under it. Contract of library code. *)
Definition common_prefix_search (idx : index_table) (input : bytes) : list (Z * nat) :=
  flat_map
    (fun l => map (fun e => (snd e, l))
                  (filter (fun e => bytes_eqb (fst e) (firstn l input)) idx))
    (seq 1 (length input)).

(** dict.UserDicContent *)
Record user_content := UserContent { uc_tokens : list bytes; uc_yomi : list bytes; uc_pos : bytes }.

(** dict.UserDict *)
Record udict := UDict { u_index : index_table; u_contents : list user_content }.

(** dict.ContentsMeta: map[string]int8 *)
Definition contents_meta := list (bytes * Z).

(** dict.Dict together with dict.UnkDict, dict.ConnectionTable, dict.POSTable. *)
Record dict := Dict {
  d_index : index_table;                 (* Index *)
  d_morphs : list morph;                 (* Morphs *)
  d_conn_col : Z;                        (* Connection.Col *)
  d_conn_vec : list Z;                   (* Connection.Vec *)
  d_category : N -> nat;                 (* CharacterCategory *)
  d_invoke : list bool;                  (* InvokeList *)
  d_group : list bool;                   (* GroupList *)
  d_unk_index : list (Z * Z);            (* UnkDict.Index: map[int32]int32 *)
  d_unk_dup : list (Z * Z);              (* UnkDict.IndexDup: map[int32]int32 *)
  d_unk_morphs : list morph;             (* UnkDict.Morphs *)
  d_pos_ids : list (list Z);             (* POSTable.POSs *)
  d_pos_names : list bytes;              (* POSTable.NameList *)
  d_contents : option (list (list bytes)); (* Contents; None is nil *)
  d_meta : contents_meta;                (* ContentsMeta *)
  d_unk_contents : list (list bytes);    (* UnkDict.Contents *)
  d_unk_meta : contents_meta             (* UnkDict.ContentsMeta *)
}.

(** ConnectionTable.At(row, col): Vec[Col*row+col]. *)
Definition conn_at (d : dict) (row col : Z) : res Z := indexZ (d_conn_vec d) (d_conn_col d * row + col).

(** Lookup in a map[int32]int32: 0 if missing. *)
Definition map_get (m : list (Z * Z)) (k : Z) : Z :=
  match assoc Z.eqb m k with Some v => v | None => 0 end.

(** dict.POSStartIndex, dict.POSHierarchy and the feature keys: constants of kagome-dict, only
    their being distinct map keys matters. *)
Definition key_pos_start : bytes := s2b "_pos_start".
Definition key_pos_hierarchy : bytes := s2b "_pos_hierarchy".
Definition key_inflectional_type : bytes := s2b "_inflectional_type".
Definition key_inflectional_form : bytes := s2b "_inflectional_form".
Definition key_base : bytes := s2b "_base".
Definition key_reading : bytes := s2b "_reading".
Definition key_pronunciation : bytes := s2b "_pronunciation".
