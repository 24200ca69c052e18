(** What decides where the words are, and what a dictionary without its contents (-simple) leaves out. *)
From Verif Require Export SpecCmd SpecLocal.
Open Scope Z_scope.

(** Two dictionaries have the same keywords, costs, connections and character categories. They may call
    their words by different names. *)
Record same_search (d d' : dict) : Prop := {
  ss_index : d_index d' = d_index d;
  ss_morphs : d_morphs d' = d_morphs d;
  ss_col : d_conn_col d' = d_conn_col d;
  ss_vec : d_conn_vec d' = d_conn_vec d;
  ss_category : forall c, d_category d' c = d_category d c;
  ss_invoke : d_invoke d' = d_invoke d;
  ss_group : d_group d' = d_group d;
  ss_unk_index : d_unk_index d' = d_unk_index d;
  ss_unk_dup : d_unk_dup d' = d_unk_dup d;
  ss_unk_morphs : d_unk_morphs d' = d_unk_morphs d
}.
Arguments ss_index {d d'}.
Arguments ss_morphs {d d'}.
Arguments ss_col {d d'}.
Arguments ss_vec {d d'}.
Arguments ss_category {d d'}.
Arguments ss_invoke {d d'}.
Arguments ss_group {d d'}.
Arguments ss_unk_index {d d'}.
Arguments ss_unk_dup {d d'}.
Arguments ss_unk_morphs {d d'}.
(** The dictionary as ipa.DictShrink, uni.DictShrink and LoadShrink give it: Contents is nil. *)
Definition bare (d : dict) : dict :=
  Dict (d_index d) (d_morphs d) (d_conn_col d) (d_conn_vec d) (d_category d) (d_invoke d) (d_group d) (d_unk_index d) (d_unk_dup d)
    (d_unk_morphs d) (d_pos_ids d) (d_pos_names d) None (d_meta d) (d_unk_contents d) (d_unk_meta d).
(** The token of the bare dictionary has the same part of speech; only a word of the dictionary has lost features, and keeps its part of speech. *)
Inductive cut_token : token -> token -> Prop :=
| cut_known tk tk' ps rest : t_class tk = KNOWN -> token_pos tk = Ok (Some ps) -> token_pos tk' = Ok (Some ps) ->
    features tk = Ok (Some (ps ++ rest)) -> features tk' = Ok (Some ps) -> cut_token tk tk'
| cut_other tk tk' p f : t_class tk <> KNOWN -> token_pos tk = Ok p -> token_pos tk' = Ok p -> features tk = Ok f -> features tk' = Ok f -> cut_token tk tk'.
(** A line of tokenize and the same line of tokenize -simple. *)
Inductive cut_line : bytes -> bytes -> Prop :=
| cl_same l : cut_line l l
| cl_cut s ps rest : cut_line (s ++ [x09] ++ commas (ps ++ rest) ++ [x0a]) (s ++ [x09] ++ commas ps ++ [x0a]).
