(** Specification of several filters applied to one slice of tokens one after another. *)
From Verif Require Export SpecFilter FilterFacts.

(** A call of a filter on the slice: filter.Drop and filter.Keep with a match function, Drop and Keep of a POSFilter and of a
    WordFilter, Drop of a ja.Filter. *)
Inductive filter_call :=
| MatchDrop (m : token -> bool) | MatchKeep (m : token -> bool)
| PosDrop (pats : list (list bytes)) | PosKeep (pats : list (list bytes))
| WordDrop (words : list bytes) | WordKeep (words : list bytes)
| JaDrop (tags : list (list bytes)) (words : list bytes) (base : list (list bytes)).

(** What the call makes of the slice. *)
Definition call_filter (c : filter_call) (ts : option (list token)) : res (option (list token)) :=
  match c with
  | MatchDrop m => let* r := filter_drop ts (fun (s : unit) t => Ok (s, m t)) tt in Ok (snd r)
  | MatchKeep m => let* r := filter_keep ts (fun (s : unit) t => Ok (s, m t)) tt in Ok (snd r)
  | PosDrop pats => pos_drop (new_pos_filter pats) ts
  | PosKeep pats => pos_keep (new_pos_filter pats) ts
  | WordDrop words => word_drop (new_word_filter words) ts
  | WordKeep words => word_keep (new_word_filter words) ts
  | JaDrop tags words base => ja_drop (ja_of tags words base) ts
  end.
Fixpoint call_filters (cs : list filter_call) (ts : option (list token)) : res (option (list token)) :=
  match cs with
  | [] => Ok ts
  | c :: cs' => let* ts' := call_filter c ts in call_filters cs' ts'
  end.

(** The tokens that a call leaves. *)
Definition leaves (c : filter_call) (t : token) : Prop :=
  match c with
  | MatchDrop m => m t = false
  | MatchKeep m => m t = true
  | PosDrop pats => ~ pos_covered pats t
  | PosKeep pats => pos_covered pats t
  | WordDrop words => ~ In (t_surface t) words
  | WordKeep words => In (t_surface t) words
  | JaDrop tags words _ => ~ pos_covered tags t /\ ~ In (t_surface t) words
  end.
(** The patterns of the call are unambiguous. *)
Definition clear_call (c : filter_call) : Prop :=
  match c with
  | PosDrop pats | PosKeep pats | JaDrop pats _ _ => unambiguous pats
  | _ => True
  end.
(** Two calls with the same filter, one of which drops what the other one keeps. *)
Inductive opposite : filter_call -> filter_call -> Prop :=
| opp_match m : opposite (MatchDrop m) (MatchKeep m)
| opp_pos pats : opposite (PosDrop pats) (PosKeep pats)
| opp_word words : opposite (WordDrop words) (WordKeep words).
