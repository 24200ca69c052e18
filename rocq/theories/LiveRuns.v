(** Runs of the demo page that go wrong, and a reader of JSON for the examples. *)
From Verif Require Export LiveFacts.
From Verif Require Import JsonFacts SpecFeat ServerFacts AnalyzeFacts Example Check.
From Coq Require Import ZifyBool ZifyNat ZifyN.
Set Implicit Arguments.
Unset Strict Implicit.
Open Scope Z_scope.

Definition example_parse (s : bytes) : option json :=
  if valid_utf8 s then
    match read_value (2 * length s + 1) s with
    | Some (v, rest) => if bytes_eqb (skip_ws rest) [] then Some v else None
    | None => None
    end
  else None.
Lemma read_value_less s f : read_value f (x3c :: s) = None.
Proof. destruct f; reflexivity. Qed.
Lemma example_parse_ok : js_parser example_parse.
Proof.
  split.
  - intros s v (V & f & rest & E & W). unfold example_parse. rewrite V, (proj1 (read_enough f) _ _ E), W. reflexivity.
  - intros s. unfold example_parse. rewrite read_value_less. destruct (valid_utf8 _); reflexivity.
Qed.

(** The words of a text are determined. *)
Lemma normal_mode mode : request_mode (s2b "Normal") mode -> mode = mode_normal.
Proof. intros H. inversion H as [E|E|m A B]; [reflexivity]. Qed.
Lemma datas_fun (tks : list token) : forall a b, Forall2 (fun tk td => new_token_data tk = Ok td) tks a -> mapM new_token_data tks = Ok b -> a = b.
Proof.
  induction tks as [|tk tks IH]; intros a b H; inversion_clear H as [|? td ? a' H1 H2]; cbn [mapM].
  - intros [= <-]. reflexivity.
  - rewrite H1. cbn [rbind]. destruct (mapM new_token_data tks) as [c| |] eqn:E; cbn [rbind]; try discriminate. intros [= <-].
    f_equal. exact (IH _ _ H2 eq_refl).
Qed.
Lemma word_data_fun ideo t s tds b : word_data ideo t s (s2b "Normal") tds ->
  (let* ts := analyze ideo t s mode_normal in mapM new_token_data (no_markers ts)) = Ok b -> tds = b.
Proof.
  intros (mode & ts & M & E & F). rewrite (normal_mode M) in E. rewrite E. cbn [rbind]. exact (datas_fun F).
Qed.

Lemma rows_count {A B} (R : A -> B -> Prop) a b : Forall2 R a b -> length a = length b.
Proof. induction 1; cbn [length]; congruence. Qed.
Section Wrong.
Variables (parse : bytes -> option json) (decode : bytes -> request + bytes) (newer : bool) (gv : graphviz) (addr : coord -> bytes).
Hypothesis Hparse : js_parser parse.
Hypothesis Hdecode : json_decoder decode.
Definition ex_page_tok : tokenizer := Tokenizer ex_dict None true.
(** A user dictionary with a word that is a tag. *)
Definition tag_udict : udict := UDict [(s2b "<b>", 0)] [UserContent [s2b "<b>"] [s2b "ビー"] (s2b "記号")].
Lemma wf_tag_udict : wf_udict (Some tag_udict).
Proof. apply check_index_ok. vm_compute. reflexivity. Qed.

Definition data_of (u : option udict) (s : bytes) : res (list token_data) :=
  let* ts := analyze ex_ideo (Tokenizer ex_dict u true) s mode_normal in mapM new_token_data (no_markers ts).
(** What the page shows for a text, by evaluation. *)
Lemma page_rows_of u s rs tb : wf_udict u -> valid_utf8 s = true -> ok_and (data_of u s) (fun tds => test_eq (map row_text tds) rs) = true ->
  exists tds, word_data ex_ideo (Tokenizer ex_dict u true) s (s2b "Normal") tds /\ length tds = length rs /\
    receive parse decode newer gv addr ex_ideo (Tokenizer ex_dict u true) (typed_post s (s2b "Normal")) tb = rs.
Proof.
  intros Hu V H. destruct (@receive_typed parse decode newer gv addr ex_ideo ex_dict u true wf_ex Hu wf_ex_data Hparse Hdecode s (s2b "Normal") tb V eq_refl) as (tds & W & E).
  apply run_ex in H. destruct H as (tds' & H1 & H2). pose proof (word_data_fun W H1) as ->. exists tds'. split; [exact W|].
  rewrite E, H2. split; [rewrite <- H2, map_length; reflexivity|reflexivity].
Qed.

Theorem row_hidden : exists td row, word_data ex_ideo ex_page_tok (s2b "<!--") (s2b "Normal") [td] /\
  receive parse decode newer gv addr ex_ideo ex_page_tok (typed_post (s2b "<!--") (s2b "Normal")) [] = [row] /\ ~ shows_row td row.
Proof.
  destruct (@page_rows_of None (s2b "<!--") [s2b "<tr><td><!--</td><td>記号,*</td><td>*</td><td>*</td><td>*</td></tr>"] [] I eq_refl) as (tds & W & L & E); [vm_compute; reflexivity|].
  destruct tds as [|td [|td2 tds]]; try discriminate L. eexists. eexists. split; [exact W|]. split; [exact E|].
  intros (evs & R & _). unfold reads in R. apply (f_equal fst) in R. vm_compute in R. discriminate R.
Qed.
Theorem row_tag : exists td row evs, word_data ex_ideo (Tokenizer ex_dict (Some tag_udict) true) (s2b "<b>") (s2b "Normal") [td] /\
  receive parse decode newer gv addr ex_ideo (Tokenizer ex_dict (Some tag_udict) true) (typed_post (s2b "<b>") (s2b "Normal")) [] = [row] /\
  reads row evs /\ In (Open (s2b "b") []) evs.
Proof.
  destruct (@page_rows_of (Some tag_udict) (s2b "<b>") [s2b "<tr><td><b></td><td>記号</td><td>*</td><td>*</td><td>*</td></tr>"] [] wf_tag_udict eq_refl) as (tds & W & L & E); [vm_compute; reflexivity|].
  destruct tds as [|td [|td2 tds]]; try discriminate L. eexists. eexists. eexists. split; [exact W|]. split; [exact E|]. split.
  - unfold reads. vm_compute. reflexivity.
  - vm_compute. auto 20.
Qed.

Notation step := (live_step parse decode newer gv addr ex_ideo ex_page_tok false).
Theorem table_stale : exists st, many step (live_start [] (s2b "Normal")) st /\ lv_pending st = [] /\
  lv_text st = s2b "東a" /\ lv_mode st = s2b "Normal" /\ ~ shows_words ex_ideo ex_page_tok (lv_text st) (lv_mode st) (lv_table st).
Proof.
  pose (p1 := typed_post (s2b "東") (s2b "Normal")). pose (p2 := typed_post (s2b "東a") (s2b "Normal")).
  pose (rcv := receive parse decode newer gv addr ex_ideo ex_page_tok).
  exists (Live (s2b "東a") (s2b "Normal") (rcv p1 (rcv p2 [])) [] [(s2b "東", s2b "Normal"); (s2b "東a", s2b "Normal")]).
  split.
  - eapply many_step; [apply (ls_type _ _ _ _ _ _ _ _ [] (s2b "Normal") [] [] [] (s2b "東")); reflexivity|].
    eapply many_step; [apply (ls_type _ _ _ _ _ _ _ _ (s2b "東") (s2b "Normal") [] _ _ (s2b "東a")); reflexivity|].
    eapply many_step; [exact (ls_answer parse decode newer gv addr ex_ideo ex_page_tok false (s2b "東a") (s2b "Normal") [] [p1] p2 [] _)|].
    eapply many_step; [exact (ls_answer parse decode newer gv addr ex_ideo ex_page_tok false (s2b "東a") (s2b "Normal") _ [] p1 [] _)|].
    apply many_refl.
  - split; [reflexivity|]. split; [reflexivity|]. split; [reflexivity|]. cbn [lv_text lv_mode lv_table].
    intros (tds & W & F). apply rows_count in F.
    destruct (@page_rows_of None (s2b "東") [s2b "<tr><td>東</td><td>名詞,一般</td><td>東</td><td>ヒガシ</td><td>*</td></tr>"] (rcv p2 []) I eq_refl) as (_ & _ & _ & E); [vm_compute; reflexivity|].
    fold ex_page_tok in E. unfold rcv, p1 in F. unfold rcv in E. rewrite E in F. cbn [length] in F.
    assert (H : exists tds0, data_of None (s2b "東a") = Ok tds0 /\ length tds0 = 2%nat) by (apply run_ex; vm_compute; reflexivity).
    destruct H as (tds0 & H1 & H2). pose proof (word_data_fun W H1) as ->. rewrite H2 in F. discriminate F.
Qed.
End Wrong.
