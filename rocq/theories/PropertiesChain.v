(** C122: several filters on one slice of tokens. *)
From Verif Require Import Example Check FilterFacts FilterMore ChainFacts.
From Verif Require Import SpecFilter SpecFeat SpecChain.
From Coq Require Import Permutation.
Open Scope Z_scope.

(** What is left are the tokens that every call leaves, in order. *)
Theorem C122_chain : forall cs ts, Forall clear_call cs -> (forall t, In t ts -> exists p, token_pos t = Ok p) ->
  exists out, call_filters cs (Some ts) = Ok (Some out) /\ picked (fun t => forall c, In c cs -> leaves c t) ts out.
Proof. exact c122_chain. Qed.
Print Assumptions C122_chain.
(** The order of the calls, and a call made again, change nothing, whatever the patterns are; the tokens of an analysis let no call
    panic. *)
Theorem C122_order : forall d u cs cs' ts, wf_dict d -> wf_udict u -> wf_data d -> (forall t, In t ts -> from_analyze d u t) ->
  (forall c, In c cs <-> In c cs') ->
  call_filters cs (Some ts) = call_filters cs' (Some ts) /\ exists out, call_filters cs (Some ts) = Ok (Some out).
Proof. exact c122_order. Qed.
Print Assumptions C122_order.
(** Keeping and dropping with one filter part what the other calls leave; one after the other they leave nothing. *)
Theorem C122_opposite : forall c c' cs ts, opposite c c' -> (forall t, In t ts -> exists p, token_pos t = Ok p) ->
  (In c cs -> In c' cs -> call_filters cs (Some ts) = Ok (Some [])) /\
  exists all dropped kept, call_filters cs (Some ts) = Ok (Some all) /\ call_filters (c :: cs) (Some ts) = Ok (Some dropped) /\
    call_filters (c' :: cs) (Some ts) = Ok (Some kept) /\ Permutation all (dropped ++ kept).
Proof. exact c122_opposite. Qed.
Print Assumptions C122_opposite.
(** Wherever Drop of a ja.Filter stands among the calls, Yield of that filter gives the same words with and without it. *)
Theorem C122_yield : forall tags words base cs1 cs2 ts, (forall t, In t ts -> exists p, token_pos t = Ok p) ->
  exists out out', call_filters (cs1 ++ cs2) (Some ts) = Ok (Some out) /\
    call_filters (cs1 ++ JaDrop tags words base :: cs2) (Some ts) = Ok (Some out') /\
    ja_yield (ja_of tags words base) out' = ja_yield (ja_of tags words base) out.
Proof. exact c122_yield. Qed.
Print Assumptions C122_yield.

(** Three filters on an analysis, in two orders and with a repetition. *)
Definition ex_calls : list filter_call :=
  [PosDrop [[s2b "助詞"]]; WordDrop [s2b "kagome"]; MatchDrop (fun t => class_eqb (t_class t) DUMMY)].
Example C122_example : exists ts, analyze ex_ideo (Tokenizer ex_dict (Some ex_udict) false) (s2b "東京に行くkagome") mode_normal = Ok ts /\
  (let names r := let* o := r in Ok (option_map (map t_surface) o) in
   (map t_surface ts, names (call_filters ex_calls (Some ts)), names (call_filters (rev ex_calls ++ ex_calls) (Some ts)),
    names (call_filters [PosKeep [[s2b "助詞"]]] (Some ts)), names (call_filters [PosKeep [[s2b "助詞"]]; PosDrop [[s2b "助詞"]]] (Some ts)))) =
  ([s2b "BOS"; s2b "東京"; s2b "に"; s2b "行く"; s2b "kagome"; s2b "EOS"],
   Ok (Some [s2b "東京"; s2b "行く"]), Ok (Some [s2b "東京"; s2b "行く"]), Ok (Some [s2b "に"]), Ok (Some [])).
Proof. apply run_ex. vm_compute. reflexivity. Qed.
Example C122_met : Forall clear_call ex_calls /\ (forall c, In c ex_calls <-> In c (rev ex_calls ++ ex_calls)) /\
  wf_dict ex_dict /\ wf_udict (Some ex_udict) /\ wf_data ex_dict /\
  opposite (PosDrop [[s2b "助詞"]]) (PosKeep [[s2b "助詞"]]).
Proof.
  split; [|split; [|split; [exact wf_ex|split; [exact wf_ex_udict|split; [exact wf_ex_data|constructor]]]]].
  - repeat constructor. cbn [clear_call]. apply no_any_unambiguous. intros p v [<-|[]] [<-|[]]. discriminate.
  - intros c. rewrite in_app_iff, <- in_rev. tauto.
Qed.
