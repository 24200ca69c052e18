(** Concrete graphs for the theorems about Dot. *)
From Verif Require Export Example DotSyntax.
Open Scope Z_scope.

Definition no_quote_b (s : bytes) : bool := forallb (fun b => negb (Byte.eqb b x22)) s.
Lemma check_no_quote s : no_quote_b s = true -> no_quote s.
Proof.
  unfold no_quote_b, no_quote, lacks. rewrite forallb_forall. intros H Hin. specialize (H _ Hin). discriminate.
Qed.

Definition ex_addr (c : coord) : bytes := s2b "0xc" ++ itoa (Z.of_nat (fst c)) ++ s2b "a" ++ itoa (Z.of_nat (snd c)).
Lemma ex_addr_plain c : plain (ex_addr c).
Proof.
  unfold ex_addr. apply plain_app; [|apply plain_app; [apply itoa_plain|apply plain_app; [|apply itoa_plain]]];
    split; intros H; repeat destruct H as [H|H]; try discriminate; contradiction.
Qed.

Lemma ex_quote_free : quote_free ex_dict (Some ex_udict).
Proof.
  assert (A : forall l, forallb no_quote_b l = true -> forall s, In s l -> no_quote s).
  { intros l H s Hs. rewrite forallb_forall in H. apply check_no_quote. auto. }
  split; [|split].
  - apply A. vm_compute. reflexivity.
  - assert (B : forallb (forallb no_quote_b) (d_unk_contents ex_dict) = true) by (vm_compute; reflexivity).
    intros fs s H1 H2. rewrite forallb_forall in B. apply (A fs (B _ H1) s H2).
  - assert (B : forallb (fun e => no_quote_b (uc_pos e)) (u_contents ex_udict) = true) by (vm_compute; reflexivity).
    intros e He. rewrite forallb_forall in B. apply check_no_quote. auto.
Qed.

Lemma quote_stmts : graph_stmts ex_ideo (Tokenizer ex_dict None false) quote mode_normal =
  Ok ([SNode (0, 0)%nat (s2b "BOS") (s2b "---") 0 true] ++
      SNode (1, 0)%nat quote (s2b "記号") 900 true ::
      [SNode (2, 0)%nat (s2b "EOS") (s2b "---") 0 true; SEdge (0, 0)%nat (1, 0)%nat 10 true; SEdge (1, 0)%nat (2, 0)%nat 10 true]).
Proof. by_eval. Qed.

Theorem c19_refuted_lemma : exists d ideo inp, wf_dict d /\ wf_data d /\ valid_utf8 inp = true /\
  forall addr, (forall c, plain (addr c)) -> exists txt,
  graph_text addr ideo (Tokenizer d None false) inp mode_normal = Ok txt /\ ~ dot_document txt.
Proof.
  exists ex_dict, ex_ideo, quote. split; [exact wf_ex|]. split; [exact wf_ex_data|]. split; [reflexivity|].
  intros addr Ha. eexists. split; [unfold graph_text; rewrite quote_stmts; reflexivity|].
  intros (ts & name & body & E & _). rewrite quote_label in E; [discriminate|assumption|].
  intros s [<-|[]]. split; apply check_no_quote; reflexivity.
Qed.
