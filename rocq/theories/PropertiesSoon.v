(** C127: sentences are answered before reading on. *)
From Verif Require Import Example CmdExamples QuotaBusy CmdRuns SpecCmd SpecSoon SoonFacts OptFacts.
Open Scope nat_scope.

(** ** C127 *)
(** Whenever kagome sentence reads on and what it has read so far begins a valid UTF-8 text, all of it has been printed, but for white
    space and the beginning of one sentence.  A read may end inside a rune; q is the rest of that rune (or nothing). *)
Theorem C127_sentence : forall w args file r t, sen_args args file -> input_uses w file r t ->
  exists tr x, sen_run w args = (t ++ tr, x) /\ forall ta c tb, tr = ta ++ ERead c :: tb ->
    exists texts held, outs ta = concat (map (fun l => l ++ [x0a]) texts) /\ begun held /\
      forall q, valid_utf8 (reads ta ++ q) = true -> ~ In x20 q -> answered (reads ta ++ q) texts (held ++ q).
Proof. exact sen_soon. Qed.
Print Assumptions C127_sentence.
(** tokenize -split has answered as much. *)
Theorem C127_tokenize : forall w d u, wf_dict d -> wf_udict u -> wf_data d -> forall args o mode r t1 t2 t3,
  tok_args args o -> tok_uses w o d t1 -> user_uses w (to_udict o) u t2 -> input_uses w (to_file o) r t3 -> mode_of (to_mode o) mode -> to_split o = true ->
  exists tr x, tok_run w args = ((t1 ++ t2 ++ t3) ++ tr, x) /\ forall ta c tb, tr = ta ++ ERead c :: tb ->
    exists texts held blocks, outs ta = concat blocks /\
      Forall2 (fun text b => exists ts, analyze (w_ideo w) (Tokenizer d u false) text mode = Ok ts /\ block (to_json o) ts b) texts blocks /\
      begun held /\
      forall q, valid_utf8 (reads ta ++ q) = true -> ~ In x20 q -> answered (reads ta ++ q) texts (held ++ q).
Proof. exact tok_soon. Qed.
Print Assumptions C127_tokenize.
(** The beginning of a sentence is short. *)
Theorem C127_small : forall held, begun held -> length held <= 508.
Proof. exact begun_small. Qed.
Print Assumptions C127_small.

(** "!" is answered, "ab" waits without the white space. *)
Definition piece_view (e : event) : nat * bytes := match e with ERead b => (1, b) | EOut b => (2, b) | _ => (0, []) end.
Example C127_example :
  map piece_view (fst (sen_run (ex_world (s2b "!a bc。")) [])) = [(1, s2b "!a b"); (2, s2b "!" ++ [x0a]); (1, []); (1, s2b "c。"); (2, s2b "abc。" ++ [x0a])] /\
  (exists f, sen_args [] f /\ input_uses (ex_world (s2b "!a bc。")) f (w_stdin (ex_world (s2b "!a bc。"))) []) /\
  valid_utf8 (s2b "!a b" ++ []) = true /\ answered (s2b "!a b") [s2b "!"] (s2b "ab") /\ begun (s2b "ab").
Proof.
  split; [by_eval|]. split; [exists []; split; [apply sen_parse_ok; reflexivity|left; repeat split; reflexivity]|]. split; [reflexivity|]. split.
  - exists [(33, [x21]); (97, [x61]); (98, [x62])]%N. split; [|reflexivity]. change (segs (s2b "!a b")) with [(33, [x21]); (97, [x61]); (32, [x20]); (98, [x62])]%N.
    apply ds_keep, ds_keep, ds_drop; [reflexivity|]. apply ds_keep, ds_nil.
  - exists [(97, [x61]); (98, [x62])]%N. split; [reflexivity|]. split; [cbn; lia|]. split; [repeat constructor|].
    intros b1 g b2 E D. destruct b1 as [|x [|y [|z b1]]]; try discriminate E; injection E; intros; subst; exfalso; cbn in D; intuition discriminate.
Qed.
Example C127_met : exists o, tok_args [s2b "-split"] o /\ to_split o = true /\ tok_uses (ex_world (s2b "!a bc。")) o ex_dict [ESysDict (s2b "ipa") false] /\
    user_uses (ex_world (s2b "!a bc。")) (to_udict o) None [] /\ input_uses (ex_world (s2b "!a bc。")) (to_file o) (w_stdin (ex_world (s2b "!a bc。"))) [] /\ mode_of (to_mode o) mode_normal.
Proof.
  exists (tok_set tok_default (s2b "split", VBool true)). split; [apply OptFacts.tok_parse_ok; reflexivity|]. split; [reflexivity|].
  split; [right; split; [reflexivity|]; split; [reflexivity|]; left; auto|]. split; [left; repeat split; reflexivity|]. split; [left; repeat split; reflexivity|left; split; reflexivity].
Qed.
