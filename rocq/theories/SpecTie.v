(** Specification of how Analyze chooses among segmentations of equal cost. *)
From Verif Require Export SpecTok.
Open Scope Z_scope.

(** id stands before id' under one key of the table. *)
Definition listed_before (idx : index_table) (key : bytes) (id id' : Z) : Prop :=
  id <> id' /\ exists l1 l2, idx = l1 ++ (key, id) :: l2 /\ ~ In (key, id') l1.

(** Of two words with the same end: the longer one; of two words of the same text, the one of the
    system dictionary before an unknown word, and within a dictionary the one listed first. *)
Definition preferred (d : dict) (u : option udict) (inp : bytes) (w w' : word) : Prop :=
  (w_start w < w_start w')%nat \/
  (w_start w = w_start w' /\
   match w_class w, w_class w' with
   | KNOWN, UNKNOWN => True
   | UNKNOWN, UNKNOWN => w_id w < w_id w'
   | KNOWN, KNOWN => listed_before (d_index d) (word_text inp w) (w_id w) (w_id w')
   | USER, USER => exists ud, u = Some ud /\ listed_before (u_index ud) (word_text inp w) (w_id w) (w_id w')
   | _, _ => False
   end).

(** ws has the preferred word at the last place where the two differ. *)
Definition right_before (d : dict) (u : option udict) (inp : bytes) (ws ws' : list word) : Prop :=
  exists a a' w w' b, ws = a ++ w :: b /\ ws' = a' ++ w' :: b /\ preferred d u inp w w'.

(** The segmentation chosen: a cheapest one, and before every other cheapest one. *)
Definition chosen (m : lmode) (ideo : N -> bool) (d : dict) (u : option udict) (inp : bytes) (ws : list word) : Prop :=
  segmentation d u inp ws /\
  forall ws', segmentation d u inp ws' ->
    seg_cost m ideo d inp ws <= seg_cost m ideo d inp ws' /\
    (seg_cost m ideo d inp ws' = seg_cost m ideo d inp ws -> ws' = ws \/ right_before d u inp ws ws').
