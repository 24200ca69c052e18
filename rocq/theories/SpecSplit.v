(** Where a sentence ends, for any options of the splitter. *)
From Verif Require Export SpecSent Utf8Facts.
Open Scope N_scope.

Section Cut.
Variable s : splitter.
Let delim (g : N * bytes) : Prop := In (fst g) (sp_delim s).
Let follower (g : N * bytes) : Prop := In (fst g) (sp_follower s).
(** White space that is dropped; other runes are kept ([visible]). *)
Definition dropped (g : N * bytes) : Prop := sp_skip s = true /\ is_space (fst g) = true.

(** A second line feed ends a sentence, if no dropped white space stands between it and a first one
    that is not at the start. *)
Definition armed (a : list (N * bytes)) : Prop :=
  sp_dlf s = true /\
  exists x b y, a = x ++ (line_feed, b) :: y /\ (sp_skip s = true -> visible s x <> []) /\ Forall (fun g => ~ dropped g) y.
(** Nothing in [a] ends a sentence: no delimiter (but for white space at the start), no such pair of
    line feeds, and not too many runes. *)
Definition quiet (a : list (N * bytes)) : Prop :=
  (forall x g y, a = x ++ g :: y -> delim g -> visible s (x ++ [g]) = []) /\
  (forall x b y, a = x ++ (line_feed, b) :: y -> ~ armed x) /\
  (visible s a = [] \/ (Z.of_nat (length (visible s a)) < sp_max s)%Z).

(** What stands after the end of a sentence and belongs to it: delimiters, followers and dropped
    white space, up to and including a second dropped line feed. *)
Definition trailing (g : N * bytes) : Prop := delim g \/ follower g \/ dropped g.
Definition counted_feeds (l : list (N * bytes)) : nat :=
  length (filter (fun g => sp_dlf s && sp_skip s && (fst g =? line_feed)) l).
Definition tail_of (tail rest : list (N * bytes)) : Prop :=
  Forall trailing tail /\
  (((counted_feeds tail <= 1)%nat /\ match rest with [] => True | g :: _ => ~ trailing g end) \/
   (sp_dlf s = true /\ sp_skip s = true /\ exists t b, tail = t ++ [(line_feed, b)] /\ counted_feeds t = 1%nat)).

Inductive outcome := Sentence (kept rest : list (N * bytes)) | Unfinished (kept : list (N * bytes)).
Inductive cut : list (N * bytes) -> outcome -> Prop :=
(** a delimiter, or the rune that makes the sentence long enough *)
| cut_mark a m tail rest : quiet a -> ~ dropped m -> ~ (fst m = line_feed /\ armed a) ->
    delim m \/ (sp_max s <= Z.of_nat (length (visible s a)) + 1)%Z -> tail_of tail rest ->
    cut (a ++ m :: tail ++ rest) (Sentence (visible s (a ++ m :: tail)) rest)
(** a delimiter that is dropped *)
| cut_blank a m rest : quiet a -> dropped m -> delim m -> visible s a <> [] ->
    cut (a ++ m :: rest) (Sentence (visible s a) rest)
(** a second line feed *)
| cut_feeds a b rest : quiet a -> armed a -> cut (a ++ (line_feed, b) :: rest) (Sentence (visible s (a ++ [(line_feed, b)])) rest)
| cut_none a : quiet a -> cut a (Unfinished (visible s a)).

(** All sentences of a text. *)
Inductive sentences : list (N * bytes) -> list bytes -> Prop :=
| st_more l kept rest ts : cut l (Sentence kept rest) -> sentences rest ts -> sentences l (segs_text kept :: ts)
| st_last l kept : cut l (Unfinished kept) -> kept <> [] -> sentences l [segs_text kept]
| st_none l : cut l (Unfinished []) -> sentences l [].
End Cut.
(** The reads deliver the text in one piece. *)
Definition one_piece (text : bytes) (log : list bytes) : Prop := Forall (fun c => c = [] \/ c = text) log.
