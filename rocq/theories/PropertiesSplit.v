(** Property theorems: the sentences of a text for any options (filter/sentence_splitter.go). *)
From Verif Require Import SpecSplit ScannerFacts AnySplit Check.
From Coq Require Import Lia.
Open Scope N_scope.

(** ** C81 *)
(** Every text has one outcome and one list of sentences. *)
Theorem C81_one : forall s data,
  (exists o, cut s (segs data) o) /\ (forall l o o', cut s l o -> cut s l o' -> o = o') /\
  (exists ts, sentences s (segs data) ts) /\ (forall l ts ts', sentences s l ts -> sentences s l ts' -> ts = ts').
Proof. exact (fun s data => conj (cut_exists s (segs data)) (conj (@cut_one s) (conj (sentences_exist s data) (@sentences_one s)))). Qed.
Print Assumptions C81_one.
Theorem C81_scan : forall s data eof o, data <> [] -> cut s (segs data) o ->
  match o with
  | Sentence kept rest => exists data' adv, scan_sentences s data eof = Ok (data', adv, Some (segs_text kept)) /\
      skipn adv data' = segs_text rest /\ segs (segs_text rest) = rest
  | Unfinished kept =>
      if eof then exists data', scan_sentences s data eof = Ok (data', length data, Some (segs_text kept))
      else exists data' adv k, scan_sentences s data eof = Ok (data', adv, None) /\ skipn adv data' = segs_text kept ++ repeat x20 k
  end.
Proof. exact any_scan. Qed.
Print Assumptions C81_scan.
(** A text that is read at once. *)
Theorem C81_text : forall s r toks r', sp_skip s = false \/ ~ In 32 (sp_delim s) -> valid_utf8 (rd_rest r) = true -> rd_log r = [] ->
  scan_texts (scan_sentences s) r = Ok (toks, None, r') -> one_piece (rd_rest r) (rd_log r') -> sentences s (segs (rd_rest r)) (nonempty toks).
Proof. exact any_piece. Qed.
Print Assumptions C81_text.
(** A text that is read in pieces as in C38. *)
Theorem C81_reads : forall s r toks r',
  sp_skip s = false \/ (~ In 32 (sp_delim s) /\ (sp_dlf s = false \/ lone_feeds s (segs (rd_rest r)))) -> rd_log r = [] ->
  scan_texts (scan_sentences s) r = Ok (toks, None, r') -> clean_cuts s (rd_log r') -> sentences s (segs (rd_rest r)) (nonempty toks).
Proof. exact any_reads. Qed.
Print Assumptions C81_reads.

(** White space kept, at most four runes, sentences end at 。 and at every second line feed. *)
Definition ex_sp : splitter := Splitter [12290] [12301] false true 4.
Definition ex_sp_text : bytes := s2b "a" ++ [x0a] ++ s2b "b" ++ [x0a; x0a] ++ s2b "c d e。」。f」g。".
Example C81_cut_example : cut ex_sp (segs ex_sp_text) (Sentence (segs (s2b "a" ++ [x0a] ++ s2b "b" ++ [x0a])) (segs ([x0a] ++ s2b "c d e。」。f」g。"))).
Proof.
  assert (E : segs ex_sp_text = [(97, s2b "a"); (10, [x0a]); (98, s2b "b")] ++ (line_feed, [x0a]) :: segs ([x0a] ++ s2b "c d e。」。f」g。")) by by_eval.
  rewrite E. apply (@cut_feeds ex_sp [(97, s2b "a"); (10, [x0a]); (98, s2b "b")]).
  - split; [|split].
    + intros x g y H1 H2. exfalso. assert (In g [(97, s2b "a"); (10, [x0a]); (98, s2b "b")]) by (rewrite H1; apply in_or_app; right; left; reflexivity).
      destruct H2 as [H2|[]]. destruct H as [<-|[<-|[<-|[]]]]; discriminate H2.
    + intros x b y H. unfold line_feed in H. destruct x as [|g1 [|g2 [|g3 x]]]; cbn [app] in H.
      * discriminate H.
      * intros (_ & [|h1 x1] & b1 & y1 & K & _); unfold line_feed in K; injection H as <- H; [discriminate K|]. injection K as _ K. destruct x1; discriminate K.
      * discriminate H.
      * injection H as _ _ _ H. destruct x; discriminate H.
    + right. vm_compute. reflexivity.
  - split; [reflexivity|]. exists [(97, s2b "a")], [x0a], [(98, s2b "b")]. split; [reflexivity|]. split; [discriminate|].
    constructor; [|constructor]. intros [H _]. discriminate H.
Qed.
Example C81_text_example :
  (sp_skip ex_sp = false \/ ~ In 32 (sp_delim ex_sp)) /\ valid_utf8 ex_sp_text = true /\
  exists r', scan_texts (scan_sentences ex_sp) (Reader ex_sp_text [] EOF []) =
    Ok ([s2b "a" ++ [x0a] ++ s2b "b" ++ [x0a]; [x0a] ++ s2b "c d"; s2b " e。」。"; s2b "f」g。"], None, r') /\ one_piece ex_sp_text (rd_log r').
Proof.
  split; [left; reflexivity|]. split; [by_eval|].
  exists (Reader [] [] EOF [ex_sp_text; []]). split; [vm_compute; reflexivity|]. constructor; [right; reflexivity|]. constructor; [left; reflexivity|constructor].
Qed.
