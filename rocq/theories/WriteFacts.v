(** Proofs about outputs whose writes may fail. *)
From Verif Require Export Writes SpecWrites.
From Coq Require Import ZifyBool ZifyNat ZifyN.
Set Implicit Arguments.
Unset Strict Implicit.
Open Scope nat_scope.

(** ** bufio.Writer *)
Lemma taken_app a b : taken (a ++ b) = taken a ++ taken b.
Proof. unfold taken. rewrite map_app, concat_app. reflexivity. Qed.
Lemma well_app a b : all_well a -> all_well b -> all_well (a ++ b).
Proof. intros H1 H2 c Hc. apply in_app_iff in Hc. destruct Hc; auto. Qed.
Lemma well_nil : all_well [].
Proof. intros c []. Qed.
Lemma well_one p : all_well [(p, false)].
Proof. intros c [<-|[]]. reflexivity. Qed.

(** All of [t] is in the calls and the buffer, or a call failed. *)
Definition sent (t : bytes) (l : list call) (b : bufw) : Prop :=
  (bw_err b = false /\ all_well l /\ taken l ++ bw_buf b = t /\ length (bw_buf b) <= buf_size) \/
  (bw_err b = true /\ exists l' q, l = l' ++ [(q, true)] /\ all_well l' /\ is_prefix (taken l) t).

Lemma sent_cons t t' l1 l2 b : all_well l1 -> t' = taken l1 ++ t -> sent t l2 b -> sent t' (l1 ++ l2) b.
Proof.
  intros W -> [(E & W2 & T & L)|(E & l' & q & -> & W2 & c & P)].
  - left. split; [exact E|]. split; [apply well_app; assumption|]. split; [rewrite taken_app, <- app_assoc, T; reflexivity|exact L].
  - right. split; [exact E|]. exists (l1 ++ l'), q. rewrite app_assoc. split; [reflexivity|]. split; [apply well_app; assumption|].
    exists c. rewrite <- app_assoc, taken_app, <- app_assoc, P. reflexivity.
Qed.

Lemma sink_cases k p : exists q e k', sink_write k p = ((q, e), k') /\ (e = false /\ q = p \/ e = true /\ is_prefix q p).
Proof.
  destruct k as [|[n|] k]; cbn [sink_write]; [exists p, false, []|exists (firstn n p), true, k|exists p, false, k]; split; try reflexivity; auto.
  right. split; [reflexivity|]. exists (skipn n p). symmetry. apply firstn_skipn.
Qed.

Lemma size_pos : 0 < buf_size.
Proof. unfold buf_size. lia. Qed.

Lemma buf_write_err fuel direct p b k : bw_err b = true -> buf_write (S fuel) direct p b k = Ok ([], b, k).
Proof. intros E. cbn [buf_write]. rewrite E. cbn [negb]. rewrite andb_false_r. reflexivity. Qed.

Lemma buf_write_ok fuel direct : forall p b k, bw_err b = false -> length (bw_buf b) <= buf_size ->
  length p + (if length (bw_buf b) =? 0 then 0 else 1) < fuel ->
  exists l b' k', buf_write fuel direct p b k = Ok (l, b', k') /\ sent (bw_buf b ++ p) l b'.
Proof.
  pose proof size_pos as SP. induction fuel as [|f IH]; intros p b k E L F; [lia|]. cbn [buf_write]. rewrite E. cbn [negb]. rewrite andb_true_r.
  destruct (Nat.ltb_spec (buf_size - length (bw_buf b)) (length p)) as [Hlt|Hge].
  - destruct ((length (bw_buf b) =? 0) && direct) eqn:Ed.
    + apply andb_true_iff in Ed. destruct Ed as [E0 _]. apply Nat.eqb_eq in E0. assert (Eb : bw_buf b = []) by (destruct (bw_buf b); [reflexivity|discriminate]). rewrite Eb in *.
      destruct (sink_cases k p) as (q & e & k' & Es & [[-> ->]|[-> [c P]]]); rewrite Es; cbn [fst snd].
      * rewrite skipn_all. destruct (IH [] (Bufw [] false) k') as (l & b' & k2 & -> & S); [reflexivity|cbn; lia|cbn in *; lia|].
        cbn [rbind]. exists ((p, false) :: l), b', k2. split; [reflexivity|]. apply (@sent_cons [] _ [(p, false)]); [apply well_one|cbn [app]; unfold taken; cbn [map fst concat]; rewrite !app_nil_r; reflexivity|exact S].
      * destruct f as [|f]; [lia|]. rewrite buf_write_err by reflexivity. cbn [rbind]. exists [(q, true)], (Bufw [] true), k'. split; [reflexivity|].
        right. split; [reflexivity|]. exists [], q. split; [reflexivity|]. split; [apply well_nil|]. exists c. unfold taken. cbn [map fst concat app]. rewrite app_nil_r. exact P.
    + set (n := buf_size - length (bw_buf b)) in *. unfold buf_flush. cbn [bw_err bw_buf].
      destruct (bw_buf b ++ firstn n p) as [|x xs] eqn:Ex.
      { exfalso. apply (f_equal (@length byte)) in Ex. rewrite app_length, firstn_length in Ex. cbn [length] in Ex. lia. }
      rewrite <- Ex. destruct (sink_cases k (bw_buf b ++ firstn n p)) as (q & e & k' & Es & [[-> ->]|[-> [c P]]]); rewrite Es; cbn [fst snd].
      * destruct (IH (skipn n p) (Bufw [] false) k') as (l & b' & k2 & -> & S); [reflexivity|cbn; lia| |].
        { cbn [bw_buf length Nat.eqb]. rewrite skipn_length. destruct (Nat.eqb_spec (length (bw_buf b)) 0); lia. }
        cbn [rbind]. eexists _, b', k2. split; [reflexivity|]. apply (@sent_cons (skipn n p)); [apply well_one| |exact S].
        unfold taken. cbn [map fst concat]. rewrite app_nil_r, <- app_assoc, firstn_skipn. reflexivity.
      * destruct f as [|f]; [destruct (Nat.eqb_spec (length (bw_buf b)) 0); lia|]. rewrite buf_write_err by reflexivity. cbn [rbind]. eexists _, _, k'. split; [reflexivity|].
        right. split; [reflexivity|]. exists [], q. split; [reflexivity|]. split; [apply well_nil|]. exists (c ++ skipn n p). unfold taken. cbn [map fst concat app]. rewrite app_nil_r.
        rewrite app_assoc, <- P, <- app_assoc, firstn_skipn. reflexivity.
  - exists [], (Bufw (bw_buf b ++ p) false), k. split; [reflexivity|]. left. split; [reflexivity|]. split; [apply well_nil|]. split; [reflexivity|]. cbn [bw_buf]. rewrite app_length. lia.
Qed.

Definition text_of (ps : list piece) : bytes := concat (map snd ps).
Lemma buf_writes_err direct ps : forall b k, bw_err b = true -> buf_writes direct ps b k = Ok ([], b, k).
Proof.
  induction ps as [|[w p] ps IH]; intros b k E; [reflexivity|]. cbn [buf_writes]. rewrite buf_write_err by exact E. cbn [rbind]. rewrite (IH _ _ E). reflexivity.
Qed.
Lemma buf_writes_ok direct ps : forall b k, bw_err b = false -> length (bw_buf b) <= buf_size ->
  exists l b' k', buf_writes direct ps b k = Ok (l, b', k') /\ sent (bw_buf b ++ text_of ps) l b'.
Proof.
  induction ps as [|[w p] ps IH]; intros b k E L; cbn [buf_writes].
  - exists [], b, k. split; [reflexivity|]. left. split; [exact E|]. split; [apply well_nil|]. split; [unfold text_of; cbn; rewrite app_nil_r; reflexivity|exact L].
  - destruct (@buf_write_ok (S (S (length p))) (w || direct) p b k E L) as (l & b1 & k1 & -> & S); [destruct (_ =? _); lia|]. cbn [rbind].
    unfold text_of. cbn [map snd concat]. fold (text_of ps). destruct S as [(E1 & W & T & L1)|(E1 & l' & q & -> & W & c & P)].
    + destruct (IH b1 k1 E1 L1) as (l2 & b2 & k2 & -> & S2). cbn [rbind]. exists (l ++ l2), b2, k2. split; [reflexivity|].
      eapply sent_cons; [exact W| |exact S2]. rewrite !app_assoc, T. reflexivity.
    + rewrite (buf_writes_err direct ps k1 E1). cbn [rbind]. eexists _, b1, k1. split; [reflexivity|]. rewrite app_nil_r.
      right. split; [exact E1|]. exists l', q. split; [reflexivity|]. split; [exact W|]. exists (c ++ text_of ps). rewrite app_assoc, P, <- app_assoc. reflexivity.
Qed.
Lemma buffered_ok direct ps k : exists cs k', buffered direct ps k = (map WCall cs, Ok tt, k') /\ block_calls (text_of ps) cs.
Proof.
  unfold buffered. destruct (@buf_writes_ok direct ps new_bufw k eq_refl) as (l & b & k1 & -> & S); [cbn; lia|]. cbn [new_bufw bw_buf app] in S.
  unfold buf_flush. destruct S as [(E & W & T & L)|(E & l' & q & -> & W & P)]; rewrite E.
  - destruct (bw_buf b) as [|x xs] eqn:Eb.
    + exists l, k1. rewrite app_nil_r. split; [reflexivity|]. left. split; [exact W|]. rewrite app_nil_r in T. exact T.
    + rewrite <- Eb in *. destruct (sink_cases k1 (bw_buf b)) as (q & e & k' & Es & [[-> ->]|[-> [c P]]]); rewrite Es.
      * eexists _, k'. split; [reflexivity|]. left. split; [apply well_app; [exact W|apply well_one]|]. rewrite taken_app. unfold taken at 2. cbn [map fst concat]. rewrite app_nil_r. exact T.
      * eexists _, k'. split; [reflexivity|]. right. exists l, q. split; [reflexivity|]. split; [exact W|]. exists c. rewrite taken_app. unfold taken at 2. cbn [map fst concat].
        rewrite app_nil_r, <- app_assoc, <- P. symmetry. exact T.
  - eexists _, k1. split; [reflexivity|]. rewrite app_nil_r. right. exists l', q. auto.
Qed.

(** ** The calls of the commands *)
Lemma unbuffered_ok ls : forall k, exists cs k', unbuffered ls k = (map WCall cs, Ok tt, k') /\
  Forall2 (fun l (c : call) => if snd c then is_prefix (fst c) l else fst c = l) ls cs.
Proof.
  induction ls as [|l ls IH]; intros k; cbn [unbuffered]; [exists [], k; split; [reflexivity|constructor]|].
  destruct (sink_cases k l) as (q & e & k1 & -> & H). destruct (IH k1) as (cs & k2 & -> & F). exists ((q, e) :: cs), k2. split; [reflexivity|]. constructor; [|exact F].
  cbn [fst snd]. destruct H as [[-> ->]|[-> P]]; [reflexivity|exact P].
Qed.
Lemma lines_ok ls k : (forall l, In l ls -> exists l', l = l' ++ [x0a]) -> exists cs k', unbuffered ls k = (map WCall cs, Ok tt, k') /\ line_calls (concat ls) cs.
Proof. intros H. destruct (unbuffered_ok ls k) as (cs & k' & E & F). exists cs, k'. split; [exact E|]. exists ls. auto. Qed.
Lemma graph_lines_text {P} (addr : P -> bytes) ss : concat (graph_lines addr ss) = dot_text addr ss.
Proof. unfold graph_lines, dot_text, header. rewrite !concat_app. cbn [concat]. rewrite !app_nil_r, <- !app_assoc. reflexivity. Qed.
Lemma graph_lines_end {P} (addr : P -> bytes) ss l : In l (graph_lines addr ss) -> exists l', l = l' ++ [x0a].
Proof.
  unfold graph_lines. intros H. apply in_app_iff in H. destruct H as [H|H].
  - cbn [In] in H. destruct H as [<-|[<-|[<-|[<-|[<-|[]]]]]]; eexists; reflexivity.
  - apply in_app_iff in H. destruct H as [H|[<-|[]]]; [|eexists; reflexivity]. apply in_map_iff in H. destruct H as (s & <- & _).
    destruct s as [c surf pos wt best|a b c best]; cbn [render]; unfold nl; rewrite !app_assoc; eexists; reflexivity.
Qed.
Lemma token_pieces_text ts : print_tokens ts = (text_of (fst (token_pieces ts)), snd (token_pieces ts)).
Proof.
  induction ts as [|v ts IH]; [reflexivity|]. cbn [print_tokens token_pieces]. destruct (t_id v =? bos_eos_id)%Z; [exact IH|].
  destruct (class_eqb (t_class v) DUMMY).
  - rewrite IH. destruct (token_pieces ts) as [ps r]. reflexivity.
  - destruct (features v) as [f| |]; [|unfold text_of; cbn [fst snd map concat]; rewrite app_nil_r; reflexivity ..].
    rewrite IH. destruct (token_pieces ts) as [ps r]. reflexivity.
Qed.
Lemma json_pieces_text newer ts : print_tokens_json newer ts = (text_of (fst (json_pieces newer ts)), snd (json_pieces newer ts)).
Proof.
  unfold print_tokens_json, json_pieces. destruct (mapM _ _) as [l| |]; destruct (0 <? length ts); unfold text_of; cbn [app fst snd map concat]; rewrite ?app_nil_r, <- ?app_assoc; reflexivity.
Qed.

(** ** Runs *)
Section Runs.
Variable P : bytes -> list call -> Prop.

(** The same result as m, with losses. *)
Definition lossy {A} (m : cmd A) (mw : wcmd A) : Prop := forall k, exists t k', mw k = (t, snd m, k') /\ with_losses P (fst m) t.
Definition no_output (t : list event) : Prop := forall e, In e t -> (forall b, e <> EOut b) /\ (forall f b, e <> EFile f b).

Lemma losses_app t1 t1' t2 t2' : with_losses P t1 t1' -> with_losses P t2 t2' -> with_losses P (t1 ++ t2) (t1' ++ t2').
Proof. intros H1 H2. induction H1; cbn [app]; rewrite <- ?app_assoc; try (constructor; assumption). exact H2. Qed.
Lemma losses_quiet t : no_output t -> with_losses P t (map WEvent t).
Proof.
  induction t as [|e t IH]; intros H; cbn [map]; [constructor|]. destruct (H e (or_introl eq_refl)) as [H1 H2]. constructor; [exact H1|exact H2|].
  apply IH. intros x Hx. apply H. right. exact Hx.
Qed.
Lemma lossy_quiet {A} (m : cmd A) : no_output (fst m) -> lossy m (quiet m).
Proof. intros H k. destruct m as [t r]. exists (map WEvent t), k. split; [reflexivity|]. apply losses_quiet. exact H. Qed.
Lemma lossy_ret {A} (a : A) : lossy (cret a) (wret a).
Proof. intros k. exists [], k. split; [reflexivity|constructor]. Qed.
Lemma lossy_bind {A B} (m : cmd A) (f : A -> cmd B) mw fw : lossy m mw -> (forall a, lossy (f a) (fw a)) -> lossy (cbind m f) (wbind mw fw).
Proof.
  intros H1 H2 k. destruct (H1 k) as (t & k1 & E & L). unfold wbind, cbind. rewrite E. destruct m as [tm [a| |]]; cbn [fst snd] in *.
  - destruct (H2 a k1) as (t2 & k2 & E2 & L2). rewrite E2. destruct (f a) as [tf rf]. cbn [fst snd] in *. exists (t ++ t2), k2. split; [reflexivity|]. apply losses_app; assumption.
  - exists t, k1. auto.
  - exists t, k1. auto.
Qed.
Lemma no_output_nil : no_output [].
Proof. intros e []. Qed.
Lemma lossy_lift {A} (r : res A) : lossy (lift r) (quiet (lift r)).
Proof. apply lossy_quiet. exact no_output_nil. Qed.
Lemma lossy_start {X Y B} (x : X) (y : Y) (f : X -> cmd B) (g : Y -> wcmd B) : lossy (f x) (g y) -> lossy (cbind (lift (Ok x)) f) (wbind (quiet (lift (Ok y))) g).
Proof.
  intros H k. destruct (H k) as (t & k' & E & L). unfold cbind, wbind, quiet, lift. cbn [map app]. rewrite E. destruct (f x) as [tf rf]. exists t, k'. auto.
Qed.
Lemma scan_each_lossy split body bodyw : (forall t, lossy (body t) (bodyw t)) -> forall fuel s r, lossy (scan_each fuel split s r body) (scan_each_w fuel split s r bodyw).
Proof.
  intros H. induction fuel as [|f IH]; intros s r; cbn [scan_each scan_each_w]; [apply lossy_lift|].
  apply lossy_bind; [apply lossy_lift|]. intros [t s'|s' r'|e].
  - apply lossy_bind; [apply H|]. intros [x|]; [apply lossy_ret|apply IH].
  - apply lossy_bind; [|intros _; apply IH]. apply lossy_quiet. cbn [fst]. intros e He. apply in_map_iff in He. destruct He as (c & <- & _). split; intros; discriminate.
  - apply lossy_ret.
Qed.
End Runs.

Lemma quiet_dict w p sys shrink : no_output (fst (tok_dict w p sys shrink)).
Proof.
  unfold tok_dict, select_sysdict, emit, cret, cbind. repeat (match goal with |- context [if ?b then _ else _] => destruct b | |- context [match ?x with Some _ => _ | None => _ end] => destruct x end; cbn [fst app]);
    intros e He; cbn [In] in He; repeat (destruct He as [<-|He]; [split; intros; discriminate|]); destruct He.
Qed.
Lemma quiet_sysdict un w name shrink : no_output (fst (select_sysdict un w name shrink)).
Proof.
  unfold select_sysdict, emit, cret, cbind. repeat (match goal with |- context [if ?b then _ else _] => destruct b end; cbn [fst app]);
    intros e He; cbn [In] in He; repeat (destruct He as [<-|He]; [split; intros; discriminate|]); destruct He.
Qed.
Lemma quiet_tokenizer w d u : no_output (fst (make_tokenizer w d u)).
Proof.
  unfold make_tokenizer, emit, cret, cbind. destruct (negb (bempty u)); [destruct (w_user w u)|]; cbn [fst app];
    try (destruct (new_tokenizer _ _); cbn [fst app]); intros e He; cbn [In] in He; repeat (destruct He as [<-|He]; [split; intros; discriminate|]); destruct He.
Qed.
Lemma quiet_input w f : no_output (fst (open_input w f)).
Proof.
  unfold open_input, emit, cret, cbind. destruct (negb (bempty f)); [destruct (w_open w f)|]; cbn [fst app];
    intros e He; cbn [In] in He; repeat (destruct He as [<-|He]; [split; intros; discriminate|]); destruct He.
Qed.

Lemma tok_line_lossy direct w t mode json text : lossy block_calls (tok_line w t mode json text) (tok_line_w direct w t mode json text).
Proof.
  unfold tok_line, tok_line_w. apply lossy_bind; [apply lossy_lift|]. intros ts.
  assert (E : (if json then print_tokens_json (w_newer w) ts else print_tokens ts) =
     (text_of (fst (if json then json_pieces (w_newer w) ts else token_pieces ts)), snd (if json then json_pieces (w_newer w) ts else token_pieces ts)))
    by (destruct json; [apply json_pieces_text|apply token_pieces_text]).
  rewrite E. destruct (if json then json_pieces (w_newer w) ts else token_pieces ts) as [ps r]. cbn [fst snd].
  apply lossy_bind; [|intros _; apply lossy_bind; [apply lossy_lift|intros _; apply lossy_ret]].
  intros k. destruct (buffered_ok direct ps k) as (cs & k' & Eb & B). exists (map WCall cs), k'. split; [exact Eb|]. cbn [emit fst].
  rewrite <- (app_nil_r (map WCall cs)). constructor; [exact B|constructor].
Qed.
Lemma tok_run_lossy direct w args : lossy block_calls (tok_run w args) (tok_run_w direct w args).
Proof.
  unfold tok_run_w. destruct (tok_parse args) as [o|e] eqn:Ep.
  - unfold tok_run. rewrite Ep. unfold tok_command, tok_command_w. apply lossy_bind; [apply lossy_quiet, quiet_dict|]. intros [d|e]; [|apply lossy_ret].
    apply lossy_bind; [apply lossy_quiet, quiet_tokenizer|]. intros [t|e]; [|apply lossy_ret].
    apply lossy_bind; [apply lossy_quiet, quiet_input|]. intros [r|e]; [|apply lossy_ret]. apply scan_each_lossy. intros text. apply tok_line_lossy.
  - apply lossy_quiet. unfold tok_run. rewrite Ep. unfold parse_report. intros x Hx. destruct e; cbn in Hx; repeat (destruct Hx as [<-|Hx]; [split; intros; discriminate|]); destruct Hx.
Qed.
Lemma sen_run_lossy w args : lossy line_calls (sen_run w args) (sen_run_w w args).
Proof.
  unfold sen_run_w. destruct (sen_parse args) as [o|e] eqn:Ep.
  - unfold sen_run. rewrite Ep. unfold sen_command, sen_command_w. apply lossy_bind; [apply lossy_quiet, quiet_input|]. intros [r|e]; [|apply lossy_ret].
    apply scan_each_lossy. intros text. apply lossy_bind; [|intros _; apply lossy_ret]. intros k.
    destruct (@lines_ok [text ++ nl] k) as (cs & k' & E & L); [intros l [<-|[]]; eexists; reflexivity|]. exists (map WCall cs), k'. split; [exact E|]. cbn [emit fst].
    rewrite <- (app_nil_r (map WCall cs)). constructor; [|constructor]. cbn [concat] in L. rewrite app_nil_r in L. exact L.
  - apply lossy_quiet. unfold sen_run. rewrite Ep. intros x Hx. cbn in Hx; repeat (destruct Hx as [<-|Hx]; [split; intros; discriminate|]); destruct Hx.
Qed.
Lemma lat_tokens_quiet ts : no_output (fst (lat_tokens ts)).
Proof.
  induction ts as [|v ts IH]; [exact no_output_nil|]. cbn [lat_tokens]. unfold lat_token, cbind, lift. destruct (features v) as [f| |]; try exact no_output_nil.
  destruct (class_eqb (t_class v) DUMMY); cbn [emit app]; destruct (lat_tokens ts) as [t r]; cbn [fst] in *; intros e [<-|He]; try (split; intros; discriminate); exact (IH e He).
Qed.
Lemma lat_run_lossy w args : lossy line_calls (lat_run w args) (lat_run_w w args).
Proof.
  unfold lat_run_w. destruct (lat_parse args) as [o|e] eqn:Ep.
  - unfold lat_run. rewrite Ep. unfold lat_command, lat_command_w. apply lossy_bind; [apply lossy_quiet, quiet_sysdict|]. intros [d|e]; [|apply lossy_ret].
    apply lossy_bind; [apply lossy_quiet, quiet_tokenizer|]. intros [t|e]; [|apply lossy_ret]. apply lossy_bind.
    { apply lossy_quiet. destruct (negb (bempty (lo_output o))); cbn; intros e He; repeat (destruct He as [<-|He]; [split; intros; discriminate|]); destruct He. }
    intros ok. destruct (negb ok); [apply lossy_ret|]. cbv zeta. apply lossy_bind; [apply lossy_lift|]. intros tokens.
    unfold graph_text. destruct (graph_stmts (w_ideo w) t (lo_input o) (select_mode (lo_mode o))) as [ss| |] eqn:Eg; cbn [rbind].
    2,3: intros k; exists [], k; split; [reflexivity|constructor].
    apply lossy_start. apply lossy_bind.
    + intros k. destruct (@lines_ok (graph_lines (w_addr w) ss) k (@graph_lines_end _ (w_addr w) ss)) as (cs & k' & E & L). rewrite graph_lines_text in L.
      exists (map WCall cs), k'. split; [exact E|]. cbn [emit fst]. rewrite <- (app_nil_r (map WCall cs)).
      destruct (bempty (lo_output o)); constructor; try exact L; constructor.
    + intros _. apply lossy_bind; [|intros _; apply lossy_ret]. destruct (lo_verbose o); [apply lossy_quiet, lat_tokens_quiet|apply lossy_ret].
  - apply lossy_quiet. unfold lat_run. rewrite Ep. unfold parse_report. intros x Hx. destruct e; cbn in Hx; repeat (destruct Hx as [<-|Hx]; [split; intros; discriminate|]); destruct Hx.
Qed.

(** ** kagome *)
Lemma losses_weaken (P Q : bytes -> list call -> Prop) t t' : (forall b cs, P b cs -> Q b cs) -> with_losses P t t' -> with_losses Q t t'.
Proof. intros H L. induction L; constructor; auto. Qed.
Lemma lossy_weaken (P Q : bytes -> list call -> Prop) {A} (m : cmd A) mw : (forall b cs, P b cs -> Q b cs) -> lossy P m mw -> lossy Q m mw.
Proof. intros H L k. destruct (L k) as (t & k' & E & W). exists t, k'. split; [exact E|]. exact (losses_weaken H W). Qed.
Lemma no_output_app t1 t2 : no_output t1 -> no_output t2 -> no_output (t1 ++ t2).
Proof. intros H1 H2 e He. apply in_app_iff in He. destruct He; auto. Qed.
Lemma srv_quiet w args : serves_quietly w -> no_output (fst (srv_run w args)).
Proof.
  intros H0. assert (H : forall addr t, no_output (fst (w_serve w addr t))) by (intros addr t; exact (H0 addr t)). unfold srv_run. destruct (srv_parse args) as [o|e].
  - unfold srv_command. assert (B : forall A B (m : cmd A) (f : A -> cmd B), no_output (fst m) -> (forall a, no_output (fst (f a))) -> no_output (fst (cbind m f))).
    { intros A B [t [a| |]] f H1 H2; cbn [cbind]; try exact H1. specialize (H2 a). destruct (f a) as [t' r']. cbn [fst] in *. apply no_output_app; assumption. }
    repeat first [apply B; [first [apply quiet_sysdict|apply quiet_tokenizer|apply H]|intros] | match goal with |- context [match ?x with inl _ => _ | inr _ => _ end] => destruct x end | apply H | exact no_output_nil].
  - unfold parse_report. intros x Hx. destruct e; cbn in Hx; repeat (destruct Hx as [<-|Hx]; [split; intros; discriminate|]); destruct Hx.
Qed.
Lemma finish_lossy P m mw k : lossy P m mw -> with_losses P (fst (finish m)) (fst (finish_w mw k)) /\ snd (finish_w mw k) = snd (finish m).
Proof.
  intros H. destruct (H k) as (t & k' & E & L). unfold finish, finish_w. rewrite E. destruct m as [tm [[e|]| |]]; cbn [fst snd] in *; (split; [|reflexivity]); try exact L.
  apply losses_app; [exact L|]. constructor; [intros; discriminate|intros; discriminate|constructor].
Qed.
Theorem kagome_losses direct w argv k : serves_quietly w ->
  with_losses out_calls (fst (kagome w argv)) (fst (kagome_w direct w argv k)) /\ snd (kagome_w direct w argv k) = snd (kagome w argv).
Proof.
  intros Hs. assert (T : forall a, lossy out_calls (tok_run w a) (tok_run_w direct w a)) by (intros a; eapply lossy_weaken; [|apply tok_run_lossy]; intros; left; assumption).
  assert (D : match argv with [] => True | _ :: options => with_losses out_calls
      (fst (match tok_check options with Some _ => ([EErr MTool; EErr MCommands; EErr MLine; EErr (MUsage (s2b "tokenize")); EErr (MDefaults (s2b "tokenize"))], Status 1) | None => finish (tok_run w options) end))
      (fst (match tok_check options with Some _ => (map WEvent [EErr MTool; EErr MCommands; EErr MLine; EErr (MUsage (s2b "tokenize")); EErr (MDefaults (s2b "tokenize"))], Status 1) | None => finish_w (tok_run_w direct w options) k end)) /\
      snd (match tok_check options with Some _ => (map WEvent [EErr MTool; EErr MCommands; EErr MLine; EErr (MUsage (s2b "tokenize")); EErr (MDefaults (s2b "tokenize"))], Status 1) | None => finish_w (tok_run_w direct w options) k end) =
      snd (match tok_check options with Some _ => ([EErr MTool; EErr MCommands; EErr MLine; EErr (MUsage (s2b "tokenize")); EErr (MDefaults (s2b "tokenize"))], Status 1) | None => finish (tok_run w options) end) end).
  { destruct argv as [|p options]; [exact I|]. destruct (tok_check options); [|apply finish_lossy, T]. split; [|reflexivity]. cbn [fst map].
    repeat (constructor; [intros; discriminate|intros; discriminate|]). constructor. }
  assert (L : forall n, match fold_left (fun run sc => if bytes_eqb n (fst sc) then Some (snd sc) else run) (subcommands w) None,
                  fold_left (fun run sc => if bytes_eqb n (fst sc) then Some (snd sc) else run) (subcommands_w direct w) None with
            | Some r, Some rw => forall a, lossy out_calls (r a) (rw a) | None, None => True | _, _ => False end).
  { intros n. cbn [fold_left subcommands subcommands_w fst snd].
    assert (V : forall a, lossy out_calls (version_run w a) (quiet (version_run w a))).
    { intros a. apply lossy_quiet. intros e He. cbn in He. destruct He as [<-|[]]. split; intros; discriminate. }
    assert (R : forall a, lossy out_calls (srv_run w a) (quiet (srv_run w a))) by (intros a; apply lossy_quiet, srv_quiet, Hs).
    assert (G : forall a, lossy out_calls (lat_run w a) (lat_run_w w a)) by (intros a; eapply lossy_weaken; [|apply lat_run_lossy]; intros; right; assumption).
    assert (N : forall a, lossy out_calls (sen_run w a) (sen_run_w w a)) by (intros a; eapply lossy_weaken; [|apply sen_run_lossy]; intros; right; assumption).
    repeat match goal with |- context [bytes_eqb n ?x] => destruct (bytes_eqb n x) end; auto. }
  unfold kagome, kagome_w. destruct argv as [|p [|name rest]].
  - split; [constructor|reflexivity].
  - destruct (tok_check []) eqn:Et; [exact D|exact D].
  - specialize (L name). destruct (fold_left _ (subcommands w) None) as [r|] eqn:E1; destruct (fold_left _ (subcommands_w direct w) None) as [rw|]; try contradiction.
    + apply finish_lossy. apply L.
    + exact D.
Qed.
Lemma calls_text b cs : out_calls b cs -> all_well cs -> concat (map (fun e => match e with WCall c => fst c | _ => [] end) (map WCall cs)) = b.
Proof.
  intros H W. rewrite map_map. destruct H as [[[_ H]|(cs' & q & -> & _)]|(ls & -> & _ & F)].
  - exact H.
  - specialize (W (q, true)). cbn [snd] in W. discriminate W. apply in_or_app. right. left. reflexivity.
  - induction F as [|l c ls cs H F IH]; [reflexivity|]. cbn [map concat]. rewrite IH by (intros x Hx; apply W; right; exact Hx). rewrite (W c (or_introl eq_refl)) in H. rewrite H. reflexivity.
Qed.
Lemma losses_output t t' : with_losses out_calls t t' -> no_failure t' -> calls_output t' = events_output t.
Proof.
  intros L. induction L as [|e t t' H1 H2 L IH|b cs t t' H L IH|f b cs t t' H L IH]; intros N; [reflexivity| | |].
  - cbn [map concat] in *. unfold calls_output, events_output. cbn [map concat]. fold (calls_output t') (events_output t).
    rewrite IH by (intros c Hc; apply N; right; exact Hc). destruct e; try reflexivity; exfalso; [eapply H1|eapply H2]; reflexivity.
  - unfold events_output. cbn [map concat]. fold (events_output t). rewrite <- IH by (intros c Hc; apply N, in_app_iff; right; exact Hc).
    unfold calls_output at 1. rewrite map_app, concat_app. fold (calls_output t'). f_equal. apply (@calls_text b cs); [exact H|].
    intros c Hc. apply N, in_app_iff. left. apply in_map. exact Hc.
  - unfold events_output. cbn [map concat]. fold (events_output t). rewrite <- IH by (intros c Hc; apply N, in_app_iff; right; exact Hc).
    unfold calls_output at 1. rewrite map_app, concat_app. fold (calls_output t'). f_equal. apply (@calls_text b cs); [exact H|].
    intros c Hc. apply N, in_app_iff. left. apply in_map. exact Hc.
Qed.

Lemma gives_up_tail a t : gives_up (a ++ t) -> gives_up t.
Proof. intros H t1 q t2 c E. apply (H (a ++ t1) q t2 c). rewrite E, app_assoc. reflexivity. Qed.
Lemma nothing_left t : (forall c, In (WCall c) t -> fst c = []) -> calls_output t = [].
Proof.
  induction t as [|e t IH]; intros H; [reflexivity|]. unfold calls_output. cbn [map concat]. fold (calls_output t). rewrite IH by (intros c Hc; apply H; right; exact Hc).
  destruct e as [e|c]; [reflexivity|]. rewrite (H c (or_introl eq_refl)). reflexivity.
Qed.
Lemma prefix_app a b c : is_prefix b c -> is_prefix (a ++ b) (a ++ c).
Proof. intros (x & ->). exists x. rewrite app_assoc. reflexivity. Qed.
Lemma prefix_more a b c : is_prefix a b -> is_prefix a (b ++ c).
Proof. intros (x & ->). exists (x ++ c). rewrite app_assoc. reflexivity. Qed.
Lemma calls_output_app a b : calls_output (a ++ b) = calls_output a ++ calls_output b.
Proof. unfold calls_output. rewrite map_app, concat_app. reflexivity. Qed.
Lemma calls_taken cs : calls_output (map WCall cs) = taken cs.
Proof. unfold calls_output, taken. rewrite map_map. reflexivity. Qed.

(** The output of a text and of what follows it. *)
Lemma lines_prefix ls cs : forall rest b, Forall2 (fun l (c : call) => if snd c then is_prefix (fst c) l else fst c = l) ls cs ->
  gives_up (map WCall cs ++ rest) -> (gives_up rest -> is_prefix (calls_output rest) b) -> is_prefix (calls_output (map WCall cs ++ rest)) (concat ls ++ b).
Proof.
  intros rest b F. induction F as [|l [q e] ls cs H F IH]; intros G R; [apply R; exact G|]. cbn [map app concat snd fst] in *.
  change (WCall (q, e) :: map WCall cs ++ rest) with ([WCall (q, e)] ++ (map WCall cs ++ rest)) in *. rewrite calls_output_app. destruct e.
  - assert (N : calls_output (map WCall cs ++ rest) = []) by (apply nothing_left; intros c Hc; exact (G [] q _ c eq_refl Hc)).
    rewrite N, app_nil_r. unfold calls_output. cbn [map concat fst]. rewrite app_nil_r, <- app_assoc. apply prefix_more. exact H.
  - unfold calls_output at 1. cbn [map concat fst]. rewrite app_nil_r, <- app_assoc, H. apply prefix_app. apply IH; [|exact R]. exact (gives_up_tail (a := [WCall (q, false)]) G).
Qed.
Lemma out_prefix text cs rest b : out_calls text cs -> gives_up (map WCall cs ++ rest) -> (gives_up rest -> is_prefix (calls_output rest) b) ->
  is_prefix (calls_output (map WCall cs ++ rest)) (text ++ b).
Proof.
  intros [[[W T]|(cs' & q & -> & W & Pf)]|(ls & -> & _ & F)] G R.
  - rewrite calls_output_app, calls_taken, T. apply prefix_app, R. exact (gives_up_tail G).
  - rewrite calls_output_app, calls_taken. rewrite (@nothing_left rest), app_nil_r; [apply prefix_more; exact Pf|].
    intros c Hc. apply (G (map WCall cs') q rest c); [|exact Hc]. rewrite map_app, <- app_assoc. reflexivity.
  - apply lines_prefix; assumption.
Qed.
Lemma losses_prefix t t' : with_losses out_calls t t' -> gives_up t' -> is_prefix (calls_output t') (events_output t).
Proof.
  intros L. induction L as [|e t t' H1 H2 L IH|b cs t t' H L IH|f b cs t t' H L IH]; intros G.
  - exists []. reflexivity.
  - unfold calls_output, events_output. cbn [map concat]. fold (calls_output t') (events_output t).
    assert (K : is_prefix (calls_output t') (events_output t)) by (apply IH; exact (gives_up_tail (a := [WEvent e]) G)).
    destruct e; try exact K; exfalso; [eapply H1|eapply H2]; reflexivity.
  - unfold events_output. cbn [map concat]. apply out_prefix; assumption.
  - unfold events_output. cbn [map concat]. apply out_prefix; assumption.
Qed.

Theorem whole_output direct w argv k : serves_quietly w -> no_failure (fst (kagome_w direct w argv k)) ->
  calls_output (fst (kagome_w direct w argv k)) = events_output (fst (kagome w argv)).
Proof. intros Hs. apply losses_output. apply kagome_losses. exact Hs. Qed.
Theorem prefix_output direct w argv k : serves_quietly w -> gives_up (fst (kagome_w direct w argv k)) ->
  is_prefix (calls_output (fst (kagome_w direct w argv k))) (events_output (fst (kagome w argv))).
Proof. intros Hs. apply losses_prefix. apply kagome_losses. exact Hs. Qed.
