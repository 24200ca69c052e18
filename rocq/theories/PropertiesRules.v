(** C124: the patterns a features filter keeps decide what it matches. *)
From Verif Require Import GoBase Filter SpecRules Check RulesFacts.
From Coq Require Import List Lia.
Open Scope nat_scope.

(** ** C124 *)
(** For every list of patterns, ambiguous or not: the filter keeps some patterns, no more than were
    given, none twice and none that begins with another.  They are the ones its text shows, and a
    filter made of them is the same filter.  Each is one of the given patterns with some features
    replaced by Any, and each given pattern begins with one of them (up to Any).  The filter matches
    exactly the features that fit the kept pattern one finds by taking, feature by feature, the
    feature itself where some kept pattern goes on with it and Any otherwise. *)
Theorem C124_rules : forall pats, exists kept, new_features_filter kept = new_features_filter pats /\
  NoDup kept /\ prefix_free kept /\ length kept <= length pats /\
  (readable_patterns pats -> read_outline (features_string (new_features_filter pats)) = Some kept) /\
  (forall p, In p kept -> exists q, In q pats /\ q <> [] /\ weaker p q) /\
  (forall q, In q pats -> q <> [] -> exists p q1 q2, In p kept /\ q = q1 ++ q2 /\ weaker p q1) /\
  (forall fs, features_match (new_features_filter pats) fs = true <-> chosen kept fs).
Proof. exact rules. Qed.
Print Assumptions C124_rules.
(** Matching compares features at most as often as the patterns have features together, however many
    features it is given; making a filter of k patterns at most k times as often. *)
Theorem C124_work : forall pats fs, match_steps (new_features_filter pats) fs <= total_length pats /\
  build_steps (FNode []) pats <= length pats * total_length pats.
Proof. exact work. Qed.
Print Assumptions C124_work.

(** An ambiguous list: its kept patterns as its text shows them; what it matches; how often it compares. *)
Definition ex_rules : list (list bytes) :=
  [[s2b "n"; s2b "p"; s2b "x"]; [any_feature; s2b "q"]; [s2b "v"; s2b "c"]; [s2b "n"; s2b "p"]; [any_feature; s2b "q"; s2b "r"]; []; [s2b "n"; any_feature]].
Example C124_example :
  read_outline (features_string (new_features_filter ex_rules)) =
    Some [[s2b "n"; s2b "p"]; [s2b "n"; any_feature]; [any_feature; s2b "q"]; [any_feature; s2b "c"]] /\
  map (features_match (new_features_filter ex_rules))
    [[s2b "n"; s2b "p"]; [s2b "n"; s2b "z"; s2b "y"]; [s2b "n"]; [s2b "v"; s2b "c"]; [s2b "w"; s2b "c"]; [s2b "w"; s2b "z"]; []]
    = [true; true; false; true; true; false; false] /\
  (match_steps (new_features_filter ex_rules) [s2b "w"; s2b "z"; s2b "y"], total_length ex_rules, build_steps (FNode []) ex_rules) = (4, 14, 11).
Proof. split; [by_eval|]. split; by_eval. Qed.
Example C124_readable : readable_patterns ex_rules.
Proof.
  intros p v Hp Hv. cbn in Hp. intuition subst; cbn in Hv; intuition subst; cbn; (split; [intros H; repeat (destruct H as [H|H]; [discriminate|]); exact H|exact I]).
Qed.
