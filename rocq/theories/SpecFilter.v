(** Specification of the filters, independent of the trie and of the in-place loops. *)
From Verif Require Export Filter SpecFeat.

(** Any stands for every feature. *)
Definition stands_for (p v : bytes) : Prop := p = any_feature \/ p = v.

(** The pattern is a prefix of the feature vector. *)
Inductive covers : list bytes -> list bytes -> Prop :=
| covers_nil vs : covers [] vs
| covers_cons p ps v vs : stands_for p v -> covers ps vs -> covers (p :: ps) (v :: vs).

(** Some non-empty pattern of the list covers the features. *)
Definition covered (pats : list (list bytes)) (fs : list bytes) : Prop :=
  exists p, In p pats /\ p <> [] /\ covers p fs.

(** No two patterns agree up to some position where exactly one of them has Any. *)
Definition unambiguous (pats : list (list bytes)) : Prop :=
  forall common v w r1 r2, In (common ++ v :: r1) pats -> In (common ++ w :: r2) pats ->
    v = any_feature -> w = any_feature.

(** At each depth the patterns with Any come after those with a literal there. *)
Definition literals_first (pats : list (list bytes)) : Prop :=
  forall l1 q1 l2 q2 l3 k w, pats = l1 ++ q1 :: l2 ++ q2 :: l3 ->
    nth_error q1 k = Some any_feature -> nth_error q2 k = Some w -> w = any_feature.

(** Where p has Any, no pattern before it has a literal. *)
Definition meets_no_literal (before : list (list bytes)) (p : list bytes) : Prop :=
  forall q k w, In q before -> nth_error p k = Some any_feature -> nth_error q k = Some w -> w = any_feature.

(** [picked P l out]: out has exactly the elements of l satisfying P, in order. *)
Inductive picked {A} (P : A -> Prop) : list A -> list A -> Prop :=
| picked_nil : picked P [] []
| picked_keep a l out : P a -> picked P l out -> picked P (a :: l) (a :: out)
| picked_skip a l out : ~ P a -> picked P l out -> picked P (a :: l) out.

(** Running a stateful predicate once per token, left to right, and keeping the tokens on which
    it answers [want]. *)
Fixpoint spec_select {S A} (pred : S -> A -> res (S * bool)) (want : bool) (s : S) (l : list A) : res (S * list A) :=
  match l with
  | [] => Ok (s, [])
  | a :: l' =>
    match pred s a with
    | Ok (s', b) =>
      match spec_select pred want s' l' with
      | Ok (s'', out) => Ok (s'', if Bool.eqb b want then a :: out else out)
      | Panic => Panic | Diverge => Diverge
      end
    | Panic => Panic | Diverge => Diverge
    end
  end.

(** What Yield returns for one token whose POS is p and base form is b (None: it has none). *)
Inductive yields (tags : list (list bytes)) (words : list bytes) (base : list (list bytes))
    (p : list bytes) (surface : bytes) (b : option bytes) : list bytes -> Prop :=
| y_stop_tag : covered tags p -> yields tags words base p surface b []
| y_stop_word : In surface words -> yields tags words base p surface b []
| y_base w : ~ covered tags p -> ~ In surface words -> covered base p -> b = Some w ->
    yields tags words base p surface b [w]
| y_no_base : ~ covered tags p -> ~ In surface words -> covered base p -> b = None ->
    yields tags words base p surface b []
| y_surface : ~ covered tags p -> ~ In surface words -> ~ covered base p ->
    yields tags words base p surface b [surface].

(** ** The text of a features filter *)
(** Reading an outline: the lines of the text (each ended by a line feed), each with its depth (two
    spaces per level). *)
Fixpoint outline_lines (s acc : bytes) : option (list bytes) :=
  match s with
  | [] => match acc with [] => Some [] | _ => None end
  | b :: s' =>
    if Byte.eqb b x0a then match outline_lines s' [] with Some l => Some (acc :: l) | None => None end
    else outline_lines s' (acc ++ [b])
  end.
Fixpoint unindent (s : bytes) : nat * bytes :=
  match s with
  | x20 :: (x20 :: r) => let (k, v) := unindent r in (S k, v)
  | _ => (0%nat, s)
  end.
(** The sequences of lines from the margin to a line that has nothing below it; [above] are the
    line before and the lines it is under. *)
Fixpoint outline_paths (above : list bytes) (l : list (nat * bytes)) : option (list (list bytes)) :=
  match l with
  | [] => Some []
  | (d, v) :: l' =>
    if (d <=? length above)%nat then
      let p := firstn d above ++ [v] in
      match outline_paths p l' with
      | Some r => Some (if match l' with (d', _) :: _ => (d <? d')%nat | [] => false end then r else p :: r)
      | None => None
      end
    else None
  end.
Definition read_outline (s : bytes) : option (list (list bytes)) :=
  match outline_lines s [] with
  | Some l => outline_paths [] (map unindent l)
  | None => None
  end.

(** A feature that can be told from indentation and line ends. *)
Definition readable (v : bytes) : Prop := ~ In x0a v /\ match v with x20 :: _ => False | _ => True end.
Definition readable_patterns (pats : list (list bytes)) : Prop := forall p v, In p pats -> In v p -> readable v.

(** A non-empty pattern none of whose non-empty proper prefixes is a pattern. *)
Definition shortest (pats : list (list bytes)) (p : list bytes) : Prop :=
  In p pats /\ p <> [] /\ forall q r, In q pats -> q <> [] -> p = q ++ r -> r = [].
