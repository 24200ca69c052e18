(** C129: how long the pages of the demo are. *)
From Coq Require Import Arith NArith.
From Verif Require Import Check SpecServer TokFacts AnalyzeFacts TokenFacts Example Page PageWork.
Open Scope nat_scope.

(** ** C129 *)
(** For each dictionary there is one factor: the page is at most that many times as long as the text, the mode and what graphviz
    printed (the picture, or its error) together. *)
Theorem C129_page : forall d u, wf_dict d -> wf_udict u -> wf_data d -> exists a, forall m gv addr ideo omit sen mode lattice page,
  (forall e, gv_start gv = Some e -> length (fl_text e) <= m) ->
  (forall g, match gv_run gv g with inl e => length (fl_text e) | inr out => length out end <= m) ->
  serve_root gv addr ideo (Tokenizer d u omit) sen mode lattice = Ok page -> length page <= a * (length sen + length mode + m + 1).
Proof.
  intros d u Hd Hu Hw. destruct (@root_size d u Hd Hu Hw) as (a & H). exists a. intros m gv addr ideo omit sen mode lattice page V1 V2 E.
  exact (H m gv addr ideo omit sen mode lattice page (conj V1 V2) E).
Qed.
Print Assumptions C129_page.

Definition ex_dot : graphviz := Graphviz true None (fun g => if length g <? 1000 then inr (s2b "<?xml ?><svg></svg>") else inl (Failure (s2b "exit status 1") false)).
Definition ex_dot_page (s m l : string) : N := N.of_nat
  (match serve_root ex_dot (fun _ => s2b "n") ex_ideo (Tokenizer ex_dict None true) (s2b s) (s2b m) (s2b l) with Ok p => length p | _ => 0 end).
Example C129_example : (forall e, gv_start ex_dot = Some e -> length (fl_text e) <= 19) /\
  (forall g, match gv_run ex_dot g with inl e => length (fl_text e) | inr out => length out end <= 19).
Proof. split; [discriminate|]. intros g. cbn [gv_run ex_dot]. destruct (length g <? 1000); vm_compute; lia. Qed.
(** A form, the empty text, one word, two, and a text whose drawing the example's dot refuses. *)
Example C129_met : (ex_dot_page "" "" "", ex_dot_page "" "" "1", ex_dot_page "a" "Search" "1", ex_dot_page "a東" "Search" "1", ex_dot_page "<東<東<東" "Search" "1") = (4633, 1209, 1337, 1473, 1287)%N.
Proof. by_eval. Qed.
