(** Property theorems: what search and extended mode do to a result (additionalCost and Forward of
    tokenizer/lattice/lattice.go). *)
From Verif Require Import SpecMode SpecOut Example ModeFacts.
Open Scope Z_scope.

(** ** C106 *)
(** A result of normal mode without long words is also the result of search mode, and of extended mode
    if it has no unknown words. *)
Theorem C106_same : forall ideo d u omit inp, wf_dict d -> wf_udict u -> Z.of_nat (rcount inp) <= 31333 ->
  forall tn, analyze ideo (Tokenizer d u omit) inp mode_normal = Ok tn -> (forall w, In w (words_of tn) -> short ideo inp w) ->
  analyze ideo (Tokenizer d u omit) inp mode_search = Ok tn /\
  ((forall w, In w (words_of tn) -> w_class w <> UNKNOWN) -> analyze ideo (Tokenizer d u omit) inp mode_extended = Ok tn).
Proof. exact modes_same. Qed.
Print Assumptions C106_same.
(** Search mode never has more length in long words than normal mode; with the same length it has the
    same result, and what its words cost more is at most what it saves in length. *)
Theorem C106_differ : forall ideo d u omit inp, wf_dict d -> wf_udict u -> Z.of_nat (rcount inp) <= 31333 ->
  forall tn ts, analyze ideo (Tokenizer d u omit) inp mode_normal = Ok tn -> analyze ideo (Tokenizer d u omit) inp mode_search = Ok ts ->
  excess ideo inp (words_of ts) <= excess ideo inp (words_of tn) /\
  (excess ideo inp (words_of ts) = excess ideo inp (words_of tn) -> ts = tn) /\
  seg_cost LNormal ideo d inp (words_of ts) - seg_cost LNormal ideo d inp (words_of tn) <=
    excess ideo inp (words_of tn) - excess ideo inp (words_of ts).
Proof. exact modes_differ. Qed.
Print Assumptions C106_differ.
(** A word counts for something exactly if it is long. *)
Theorem C106_long : forall ideo inp w, (w_start w <= w_stop w <= rcount inp)%nat -> (0 < length_penalty ideo inp w <-> ~ short ideo inp w).
Proof. exact long_penalty. Qed.
Print Assumptions C106_long.

Definition mode_view (inp : bytes) (m : Z) :=
  match analyze ex_ideo (Tokenizer ex_dict None true) inp m with
  | Ok ts => Some (map (fun w => (w_class w, w_id w, w_start w, w_stop w)) (words_of ts), excess ex_ideo inp (words_of ts)) | _ => None end.
(** "京都に行く" is the same in all modes. "東京都" is one word in normal mode and 東京 and 都 in search mode. *)
Example C106_example :
  Forall (fun m => mode_view (s2b "京都に行く") m = Some ([(KNOWN, 4, 0%nat, 2%nat); (KNOWN, 6, 2%nat, 3%nat); (KNOWN, 7, 3%nat, 5%nat)], 0))
    [mode_normal; mode_search; mode_extended] /\
  mode_view (s2b "東京都") mode_normal = Some ([(KNOWN, 5, 0%nat, 3%nat)], 3000) /\
  mode_view (s2b "東京都") mode_search = Some ([(KNOWN, 3, 0%nat, 2%nat); (KNOWN, 2, 2%nat, 3%nat)], 0).
Proof. split; [repeat constructor; by_eval|]. split; by_eval. Qed.
