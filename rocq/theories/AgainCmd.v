(** kagome sentence | kagome sentence. *)
From Verif Require Import ScannerFacts LoaderFacts OptFacts CmdFacts CmdRuns CmdMore PipeFacts AgainFacts SpecAgainCmd.
From Coq Require Import List Arith Lia ZifyBool ZifyNat ZifyN.
Import ListNotations.
Local Open Scope Z_scope.
Set Implicit Arguments.
Unset Strict Implicit.

Lemma pieces_app a b : pieces (a ++ b) = pieces a ++ pieces b.
Proof. apply flat_map_app. Qed.
Lemma pieces_reads l : pieces (map ERead l) = l.
Proof. induction l as [|x l IH]; [reflexivity|]. cbn [map]. unfold pieces in *. cbn [flat_map app]. rewrite IH. reflexivity. Qed.
Lemma pieces_bind A B (m : cmd A) (f : A -> cmd B) : pieces (fst (cbind m f)) = pieces (fst m) ++ match snd m with Ok a => pieces (fst (f a)) | _ => [] end.
Proof. destruct m as (t & [a| |]); cbn [cbind fst snd]; [|rewrite app_nil_r; reflexivity|rewrite app_nil_r; reflexivity]. destruct (f a). cbn [fst]. apply pieces_app. Qed.
Lemma fill_log s r s' r' : scan_fill s r = ScanMore s' r' -> exists x, rd_log r' = rd_log r ++ x.
Proof.
  unfold scan_fill. destruct (sc_err s) as [e|]; [discriminate|]. destruct (make_room s) as [s2|]; [|discriminate].
  destruct (read_loop (S max_empty_reads) r _) as [[chunk err] r2] eqn:Er. intros [= _ ->]. destruct (read_loop_log Er) as (n & ->). eauto.
Qed.
Lemma step_log split s r s' r' : scan_step split s r = Ok (ScanMore s' r') -> exists x, rd_log r' = rd_log r ++ x.
Proof.
  unfold scan_step. destruct (sc_data s) as [|b l], (sc_err s) as [e|]; try (intros [= H]; exact (fill_log H));
    destruct (split _ _) as [((data & adv) & tok)| |]; cbn [rbind]; try discriminate; destruct (length data <? adv)%nat; try discriminate;
    destruct tok as [t|]; try (intros [= H]; exact (fill_log H)); destruct adv; try discriminate; destruct (max_empty_reads <? _)%nat; discriminate.
Qed.
Lemma each_log split fuel : forall s r acc toks err r', scan_all fuel split s r acc = Ok (toks, err, r') ->
  rd_log r' = rd_log r ++ pieces (fst (scan_each fuel split s r sen_line)).
Proof.
  induction fuel as [|f IH]; intros s r acc toks err r' H; cbn [scan_all scan_each] in *; [discriminate|].
  destruct (scan_step split s r) as [o| |] eqn:E; cbn [rbind] in H; try discriminate. rewrite pieces_bind. cbn [lift fst snd]. change (pieces []) with (@nil bytes). cbn [app]. destruct o as [t s'|s' r1|e].
  - specialize (IH _ _ _ _ _ _ H). rewrite pieces_bind. exact IH.
  - destruct (step_log E) as (x & Ex). specialize (IH _ _ _ _ _ _ H). rewrite pieces_bind. cbn [fst snd].
    rewrite IH, Ex, skipn_app_exact, pieces_reads, app_assoc. reflexivity.
  - injection H as <- <- <-. cbn. rewrite app_nil_r. reflexivity.
Qed.
Lemma sen_pieces w args file r t texts err r' : sen_args args file -> input_uses w file r t ->
  scan_texts (scan_sentences default_splitter) r = Ok (texts, err, r') -> rd_log r = [] -> rd_log r' = pieces (fst (sen_run w args)).
Proof.
  intros Ha Hi E L. unfold sen_run. rewrite (proj2 (sen_parse_ok _ _) Ha). unfold sen_command. rewrite (open_input_ok Hi), cbind_ok.
  pose proof (each_log E) as H. rewrite L in H. cbn [app] in H. cbn [fst]. rewrite H, pieces_app.
  replace (pieces t) with (@nil bytes); [reflexivity|]. destruct Hi as [(_ & _ & ->)|(_ & _ & ->)]; reflexivity.
Qed.

Theorem again_cmd w w' args args' file r t : sen_args args file -> input_uses w file r t -> rd_log r = [] -> valid_utf8 (rd_rest r) = true ->
  whole_runes (pieces (fst (sen_run w args))) -> sen_args args' [] -> rd_log (w_stdin w') = [] -> rd_rest (w_stdin w') = outs (fst (sen_run w args)) ->
  snd (sen_run w' args') = Ok None ->
  forall ls ls', lines_of (outs (fst (sen_run w args))) ls -> lines_of (outs (fst (sen_run w' args'))) ls' ->
  (one_piece (rd_rest (w_stdin w')) (pieces (fst (sen_run w' args'))) \/ clean_cuts default_splitter (pieces (fst (sen_run w' args'))) ->
   settled default_splitter (nonempty ls) -> nonempty ls' = nonempty ls) /\
  (one_piece (rd_rest (w_stdin w')) (pieces (fst (sen_run w' args'))) -> (exists m, ls = nonempty ls ++ repeat [] m) ->
   nonempty ls' = nonempty ls -> settled default_splitter (nonempty ls)).
Proof.
  intros A U L V W A' L' D Ok' ls ls' Ls Ls'. destruct (sentence_prints A U) as (tr & texts & err & r1 & E1 & E2 & E3 & E4).
  assert (U' : input_uses w' [] (w_stdin w') []) by (left; auto). destruct (sentence_prints A' U') as (tr' & texts' & err' & r1' & F1 & F2 & F3 & F4).
  rewrite <- (sen_pieces A U E2 L) in W. rewrite E1 in *. rewrite F1 in *. cbn [fst snd] in *.
  rewrite (lines_fun Ls E4), (lines_fun Ls' F4). destruct err' as [e|]; [discriminate Ok'|].
  assert (P : rd_log r1' = pieces tr') by (rewrite (sen_pieces A' U' F2 L'), F1; reflexivity). rewrite <- P.
  assert (E : rd_rest (w_stdin w') = print_lines texts) by (rewrite D, E3; reflexivity).
  assert (Sd : solid_delims default_splitter) by (repeat constructor).
  destruct (@again_lemma default_splitter eq_refl Sd r texts err r1 L V E2) with (r2 := w_stdin w') (toks2 := texts') (r2' := r1') as (H1 & H2); auto.
  split; [exact H1|]. intros One (m & Em) Eq. exact (H2 m One Em Eq).
Qed.
