(** Proofs: the text of a features filter (C70). *)
From Verif Require Import GoBase Token Filter SpecFilter Check TokenFacts FilterFacts FilterMore.
From Coq Require Import List Lia ZifyBool ZifyNat.
Import ListNotations.
Set Implicit Arguments.
Unset Strict Implicit.
Open Scope nat_scope.

(** ** Induction on tries *)
Lemma trie_ind (P : fnode -> Prop) : (forall es, (forall v c, In (v, c) es -> P c) -> P (FNode es)) -> forall n, P n.
Proof.
  intros H. fix IH 1. intros [es]. apply H. induction es as [|[v c] es IHes].
  - intros v c [].
  - intros v' c' [E|Hin]; [|exact (IHes v' c' Hin)]. injection E as _ <-. apply IH.
Qed.

(** ** Lines of the text *)
Fixpoint trie_lines (k : nat) (n : fnode) : list (nat * bytes) :=
  let 'FNode es := n in concat (map (fun e => (k, fst e) :: trie_lines (S k) (snd e)) es).

Definition line (kv : nat * bytes) : bytes := concat (repeat (s2b "  ") (fst kv)) ++ snd kv.
Definition text_of_lines (l : list (nat * bytes)) : bytes := concat (map (fun kv => line kv ++ [x0a]) l).

Lemma text_lines_app a b : text_of_lines (a ++ b) = text_of_lines a ++ text_of_lines b.
Proof. unfold text_of_lines. rewrite map_app, concat_app. reflexivity. Qed.

Lemma string_lines n : forall k, filter_string k n = text_of_lines (trie_lines k n).
Proof.
  induction n as [es IH] using trie_ind. intros k. cbn [filter_string trie_lines].
  induction es as [|[v c] es IHes]; [reflexivity|]. cbn [map concat]. rewrite text_lines_app, <- IHes by (intros v' c' Hin k'; apply (IH v' c'); right; exact Hin).
  cbn [fst snd]. rewrite (IH v c (or_introl eq_refl)). unfold text_of_lines at 2. cbn [map concat]. unfold line at 1. cbn [fst snd].
  fold (text_of_lines (trie_lines (S k) c)). rewrite <- !app_assoc. reflexivity.
Qed.

Lemma outline_lines_app s : forall acc r, ~ In x0a s -> outline_lines (s ++ [x0a] ++ r) acc =
  match outline_lines r [] with Some l => Some ((acc ++ s) :: l) | None => None end.
Proof.
  induction s as [|b s IH]; intros acc r H; cbn [app outline_lines].
  - change (Byte.eqb x0a x0a) with true. cbv iota. rewrite app_nil_r. reflexivity.
  - destruct (Byte.eqb b x0a) eqn:E; [exfalso; apply H; left; apply byte_test_ok in E; exact E|].
    change (s ++ x0a :: r) with (s ++ [x0a] ++ r). rewrite IH by (intros X; apply H; right; exact X). rewrite <- app_assoc. reflexivity.
Qed.
Lemma indent_no_lf k : ~ In x0a (concat (repeat (s2b "  ") k)).
Proof. induction k as [|k IH]; [intros []|]. cbn [repeat concat]. intros [E|[E|E]]; [discriminate|discriminate|exact (IH E)]. Qed.

Definition readable_lines (l : list (nat * bytes)) : Prop := forall k v, In (k, v) l -> readable v.

Lemma read_lines l : readable_lines l -> outline_lines (text_of_lines l) [] = Some (map line l).
Proof.
  induction l as [|[k v] l IH]; intros H; [reflexivity|]. unfold text_of_lines. cbn [map concat]. rewrite <- app_assoc.
  rewrite outline_lines_app.
  - fold (text_of_lines l). rewrite IH by (intros k' v' Hin; apply (H k'); right; exact Hin). reflexivity.
  - unfold line. cbn [fst snd]. intros X. apply in_app_or in X. destruct X as [X|X]; [exact (indent_no_lf X)|].
    exact (proj1 (H k v (or_introl eq_refl)) X).
Qed.
Lemma unindent_line k v : readable v -> unindent (line (k, v)) = (k, v).
Proof.
  intros (_ & H). unfold line. cbn [fst snd]. induction k as [|k IH].
  - cbn [repeat concat app]. destruct v as [|b v]; [reflexivity|]. destruct b; try reflexivity. destruct H.
  - change (concat (repeat (s2b "  ") (S k)) ++ v) with (s2b "  " ++ (concat (repeat (s2b "  ") k) ++ v)).
    assert (X : forall t, unindent (s2b "  " ++ t) = let (k, v) := unindent t in (S k, v)) by reflexivity.
    rewrite X, IH. reflexivity.
Qed.
Lemma unindent_lines l : readable_lines l -> map unindent (map line l) = l.
Proof.
  induction l as [|[k v] l IH]; intros H; [reflexivity|]. cbn [map].
  rewrite unindent_line by (apply (H k); left; reflexivity). rewrite IH by (intros k' v' Hin; apply (H k'); right; exact Hin). reflexivity.
Qed.
Lemma read_trie n : readable_lines (trie_lines 0 n) -> read_outline (features_string n) = outline_paths [] (trie_lines 0 n).
Proof. intros H. unfold read_outline, features_string. rewrite string_lines, read_lines, unindent_lines by exact H. reflexivity. Qed.

(** ** Paths *)
Fixpoint leaf_paths (pre : list bytes) (n : fnode) : list (list bytes) :=
  let 'FNode es := n in
  concat (map (fun e => match fanout (snd e) with [] => [pre ++ [fst e]] | _ => leaf_paths (pre ++ [fst e]) (snd e) end) es).

Definition shallow (k : nat) (rest : list (nat * bytes)) : Prop := match rest with (d, _) :: _ => d <= k | [] => True end.

Lemma trie_lines_head k n : match trie_lines k n with (d, _) :: _ => d = k /\ is_leaf n = false | [] => is_leaf n = true end.
Proof. destruct n as [[|[v c] es]]; cbn; [reflexivity|split; reflexivity]. Qed.

Lemma outline_trie n : forall k pre above rest, length pre = k -> firstn k above = pre -> shallow k rest ->
  exists above', firstn k above' = pre /\ k <= length above' /\
    (k <= length above -> outline_paths above (trie_lines k n ++ rest) =
       match outline_paths (match trie_lines k n with [] => above | _ => above' end) rest with Some r => Some (leaf_paths pre n ++ r) | None => None end).
Proof.
  induction n as [es IH] using trie_ind. intros k pre above rest Lp Fa Sh.
  assert (G : forall es', (forall v c, In (v, c) es' -> In (v, c) es) -> forall above, firstn k above = pre -> k <= length above ->
     exists above', firstn k above' = pre /\ k <= length above' /\
     outline_paths above (trie_lines k (FNode es') ++ rest) =
       match outline_paths above' rest with Some r => Some (leaf_paths pre (FNode es') ++ r) | None => None end /\
     (es' = [] -> above' = above)).
  { clear above Fa. induction es' as [|[v c] es' IHes]; intros Hsub above Fa La.
    - exists above. cbn [trie_lines leaf_paths map concat app]. destruct (outline_paths above rest); repeat split; assumption.
    - set (p := pre ++ [v]). assert (Lpp : length p = S k) by (unfold p; rewrite app_length, Lp; cbn; lia).
      assert (Fp : firstn k p = pre) by (unfold p; rewrite firstn_app, Lp, Nat.sub_diag, <- Lp, firstn_all, firstn_O, app_nil_r; reflexivity).
      set (rest2 := trie_lines k (FNode es') ++ rest).
      assert (Sh2 : shallow (S k) rest2).
      { unfold rest2, shallow. destruct es' as [|[v2 c2] es2]; cbn; [destruct rest as [|[d ?] ?]; cbn in *; lia|lia]. }
      destruct (IH v c (Hsub _ _ (or_introl eq_refl)) (S k) p p rest2 Lpp) as (ab1 & F1 & L1 & E1); [rewrite <- Lpp; apply firstn_all|exact Sh2|].
      specialize (E1 ltac:(lia)).
      set (ab2 := match trie_lines (S k) c with [] => p | _ => ab1 end) in *.
      assert (F2 : firstn k ab2 = pre /\ k <= length ab2).
      { unfold ab2. destruct (trie_lines (S k) c); [split; [exact Fp|lia]|]. split; [|lia].
        rewrite <- Fp, <- F1. rewrite firstn_firstn. f_equal. lia. }
      destruct (IHes (fun v' c' Hin => Hsub v' c' (or_intror Hin)) ab2 (proj1 F2) (proj2 F2)) as (ab3 & F3 & L3 & E3 & _).
      exists ab3. split; [exact F3|]. split; [exact L3|]. split; [|discriminate].
      cbn [trie_lines map concat]. cbn [fst snd app]. rewrite <- app_assoc.
      change (concat (map (fun e => (k, fst e) :: trie_lines (S k) (snd e)) es') ++ rest) with rest2.
      cbn [outline_paths]. rewrite (proj2 (Nat.leb_le _ _) La), Fa. fold p. rewrite E1. fold rest2 in E3. rewrite E3.
      destruct (outline_paths ab3 rest) as [r|]; [|reflexivity]. f_equal. cbn [leaf_paths map concat fst snd].
      change (concat (map (fun e => match fanout (snd e) with [] => [pre ++ [fst e]] | _ => leaf_paths (pre ++ [fst e]) (snd e) end) es')) with (leaf_paths pre (FNode es')).
      fold p. destruct c as [[|[v2 c2] es2]]; cbn [fanout].
      + cbn [trie_lines map concat leaf_paths app].
        assert (X : match rest2 with (d', _) :: _ => k <? d' | [] => false end = false).
        { unfold rest2. destruct es' as [|[v2 c2] es2]; cbn [trie_lines map concat app fst snd].
          - destruct rest as [|[d ?] ?]; [reflexivity|]. cbn [shallow] in Sh. apply Nat.ltb_ge. exact Sh.
          - apply Nat.ltb_ge. apply le_n. }
        rewrite X. reflexivity.
      + assert (X : match trie_lines (S k) (FNode ((v2, c2) :: es2)) ++ rest2 with (d', _) :: _ => k <? d' | [] => false end = true)
          by (cbn [trie_lines map concat app fst snd]; apply Nat.ltb_lt; lia).
        rewrite X. rewrite <- app_assoc. reflexivity. }
  destruct (le_lt_dec k (length above)) as [La|La].
  - destruct (G es (fun _ _ H => H) above Fa La) as (above' & F & L & E & N). exists above'. split; [exact F|]. split; [exact L|]. intros _.
    rewrite E. destruct es as [|[v c] es']; [rewrite (N eq_refl)|]; reflexivity.
  - exists pre. split; [rewrite <- Lp; apply firstn_all|]. split; [lia|]. intros; lia.
Qed.

Theorem read_leaf_paths n : readable_lines (trie_lines 0 n) -> read_outline (features_string n) = Some (leaf_paths [] n).
Proof.
  intros H. rewrite read_trie by exact H. rewrite <- (app_nil_r (trie_lines 0 n)).
  destruct (@outline_trie n 0 [] [] [] eq_refl eq_refl I) as (a & _ & _ & E). rewrite E by (cbn; lia).
  cbn [outline_paths]. rewrite app_nil_r. reflexivity.
Qed.

Definition below (c : fnode) (p : list bytes) : Prop := p = [] /\ is_leaf c = true \/ leafpath c p.
Lemma leafpath_cons n v p : leafpath n (v :: p) <-> exists c, In (v, c) (fanout n) /\ below c p.
Proof.
  split.
  - intros H. inversion H as [? w c Hin Hl|? w c r Hin Hl]; subst; exists c; (split; [exact Hin|]); [left; split; [reflexivity|exact Hl]|right; exact Hl].
  - intros (c & Hin & [(-> & Hl)|Hl]); [eapply lp_leaf; eassumption|eapply lp_step; eassumption].
Qed.
Lemma leafpath_nil n : ~ leafpath n [].
Proof. intros H. inversion H. Qed.

Lemma in_leaf_paths n : forall pre p, In p (leaf_paths pre n) <-> exists q, leafpath n q /\ p = pre ++ q.
Proof.
  induction n as [es IH] using trie_ind. intros pre p. cbn [leaf_paths]. rewrite in_concat. split.
  - intros (l & Hl & Hp). apply in_map_iff in Hl. destruct Hl as ([v c] & <- & Hin). cbn [fst snd] in Hp.
    destruct (fanout c) as [|e es'] eqn:Ec.
    + destruct Hp as [<-|[]]. exists [v]. split; [|reflexivity]. apply leafpath_cons. exists c. split; [exact Hin|left; split; [reflexivity|]].
      unfold is_leaf. rewrite Ec. reflexivity.
    + apply (IH v c Hin) in Hp. destruct Hp as (q & Hq & ->). exists (v :: q). split; [eapply lp_step; eassumption|]. rewrite <- app_assoc. reflexivity.
  - intros (q & Hq & ->). destruct q as [|v q]; [destruct (leafpath_nil Hq)|]. apply leafpath_cons in Hq. destruct Hq as (c & Hin & Hb). cbn [fanout] in Hin.
    eexists. split; [apply in_map_iff; exists (v, c); split; [reflexivity|exact Hin]|]. cbn [fst snd].
    destruct (fanout c) as [|e es'] eqn:Ec.
    + destruct Hb as [(-> & _)|Hb]; [left; reflexivity|]. exfalso. apply (leafpath_leaf (p := q) (n := c)); [unfold is_leaf; rewrite Ec; reflexivity|exact Hb].
    + destruct Hb as [(_ & Hb)|Hb]; [unfold is_leaf in Hb; rewrite Ec in Hb; discriminate|].
      apply (IH v c Hin). exists q. split; [exact Hb|]. rewrite <- app_assoc. reflexivity.
Qed.

(** ** No node has two edges with one label *)
Inductive tidy : fnode -> Prop :=
| tidy_node es : NoDup (map fst es) -> (forall v c, In (v, c) es -> tidy c) -> tidy (FNode es).
Lemma tidy_leaf : tidy (FNode []).
Proof. constructor; [constructor|intros v c []]. Qed.

Lemma tidy_add q : forall n, tidy n -> tidy (add_features n q).
Proof.
  induction q as [|s q IH]; intros n Hn; [exact Hn|]. cbn [add_features]. destruct (has n s) as [k|] eqn:E.
  - destruct (has_edge E) as (v & c & Ev & Ec & _). destruct (is_leaf (child n k)); [exact Hn|].
    inversion Hn as [es Nd Hc]; subst n. cbn [fanout] in Ev.
    assert (G : forall x, tidy x -> tidy (set_child (FNode es) k x)).
    { intros x Hx. unfold set_child. cbn [fanout]. constructor; [rewrite labels_update; exact Nd|]. intros v' c' Hin.
      apply In_nth_error in Hin. destruct Hin as (j & Hj). rewrite nth_update in Hj. destruct (j =? k).
      - destruct (nth_error es j) as [[a b]|]; [|discriminate]. injection Hj as _ <-. exact Hx.
      - apply nth_error_In in Hj. exact (Hc _ _ Hj). }
    destruct q as [|s2 q]; apply G; [apply tidy_leaf|]. apply IH. rewrite Ec. apply (Hc v). eapply nth_error_In. exact Ev.
  - inversion Hn as [es Nd Hc]; subst n. cbn [fanout]. constructor.
    + rewrite map_app. cbn [map fst]. unfold has in E. pose proof (proj1 (has_from_none _ _ _) E) as Hno. cbn [fanout] in Hno.
      assert (Hs : ~ In s (map fst es)).
      { intros X. apply in_map_iff in X. destruct X as ([a b] & X1 & X2). cbn [fst] in X1. subst a. apply (Hno s b X2). right. reflexivity. }
      clear - Nd Hs. induction es as [|[a b] es IHes]; cbn [map app fst] in *; [constructor; [intros []|constructor]|].
      inversion Nd as [|? ? N1 N2]; subst. constructor.
      * intros X. apply in_app_or in X. destruct X as [X|[X|[]]]; [exact (N1 X)|]. apply Hs. left. symmetry. exact X.
      * apply IHes; [exact N2|]. intros X. apply Hs. right. exact X.
    + intros v c Hin. apply in_app_or in Hin. destruct Hin as [Hin|[X|[]]]; [exact (Hc v c Hin)|]. injection X as _ <-. apply IH, tidy_leaf.
Qed.

Lemma nodup_concat (es : list (bytes * fnode)) (f : bytes * fnode -> list (list bytes)) (pre : list bytes) :
  NoDup (map fst es) -> (forall e, In e es -> NoDup (f e)) -> (forall e p, In e es -> In p (f e) -> exists q, p = pre ++ fst e :: q) ->
  NoDup (concat (map f es)).
Proof.
  induction es as [|e es IH]; intros Nd Hf Hp; cbn [map concat] in *; [constructor|]. inversion Nd as [|? ? N1 N2]; subst.
  assert (A : NoDup (f e)) by (apply Hf; left; reflexivity).
  assert (B : NoDup (concat (map f es))) by (apply IH; [exact N2|intros; apply Hf; right; assumption|intros e' p H1 H2; apply (Hp e' p); [right; exact H1|exact H2]]).
  assert (D : forall p, In p (f e) -> ~ In p (concat (map f es))).
  { intros p H1 H2. destruct (Hp e p (or_introl eq_refl) H1) as (q1 & E1). apply in_concat in H2. destruct H2 as (l & Hl & Hin).
    apply in_map_iff in Hl. destruct Hl as (e2 & <- & He2). destruct (Hp e2 p (or_intror He2) Hin) as (q2 & E2).
    rewrite E1 in E2. apply app_inv_head in E2. injection E2 as E2 _. apply N1. rewrite E2. apply in_map. exact He2. }
  clear - A B D. induction (f e) as [|x l IHl]; [exact B|]. cbn [app]. inversion A as [|? ? A1 A2]; subst. constructor.
  - intros X. apply in_app_or in X. destruct X as [X|X]; [exact (A1 X)|exact (D x (or_introl eq_refl) X)].
  - apply IHl; [exact A2|]. intros p H. apply D. right. exact H.
Qed.
Lemma nodup_leaf_paths n : forall pre, tidy n -> NoDup (leaf_paths pre n).
Proof.
  induction n as [es IH] using trie_ind. intros pre Hn. inversion Hn as [es' Nd Hc]; subst. cbn [leaf_paths]. apply nodup_concat with (pre := pre).
  - exact Nd.
  - intros [v c] Hin. cbn [fst snd]. destruct (fanout c); [constructor; [intros []|constructor]|]. apply (IH v c Hin). exact (Hc v c Hin).
  - intros [v c] p Hin Hp. cbn [fst snd] in *. destruct (fanout c).
    + destruct Hp as [<-|[]]. exists []. reflexivity.
    + apply in_leaf_paths in Hp. destruct Hp as (q & _ & ->). exists q. rewrite <- app_assoc. reflexivity.
Qed.

(** ** Leaf paths after an insertion *)
Lemma below_tidy n l s c r p : tidy n -> fanout n = l ++ (s, c) :: r -> (leafpath n (s :: p) <-> below c p).
Proof.
  intros Hn E. rewrite leafpath_cons. split; [|intros H; exists c; split; [rewrite E; apply in_or_app; right; left; reflexivity|exact H]].
  intros (c' & Hin & Hb). inversion Hn as [es Nd _]; subst n. cbn [fanout] in *. subst es. rewrite map_app in Nd. cbn [map fst] in Nd.
  apply NoDup_remove_2 in Nd. apply in_app_or in Hin. destruct Hin as [Hin|[X|Hin]].
  - exfalso. apply Nd. apply in_or_app. left. apply in_map_iff. exists (s, c'). split; [reflexivity|exact Hin].
  - injection X as <-. exact Hb.
  - exfalso. apply Nd. apply in_or_app. right. apply in_map_iff. exists (s, c'). split; [reflexivity|exact Hin].
Qed.
Lemma leafpath_other n l s c x r v p : fanout n = l ++ (s, c) :: r -> v <> s ->
  (leafpath (FNode (l ++ (s, x) :: r)) (v :: p) <-> leafpath n (v :: p)).
Proof.
  intros E Hv. rewrite !leafpath_cons. rewrite E. cbn [fanout].
  split; intros (d & Hin & Hb); exists d; (split; [|exact Hb]); apply in_app_or in Hin; apply in_or_app;
    (destruct Hin as [Hin|[X|Hin]]; [left; exact Hin|exfalso; injection X as X _; apply Hv; symmetry; exact X|right; right; exact Hin]).
Qed.

Definition extends (q p : list bytes) : Prop := exists r, r <> [] /\ p = q ++ r.
Definition reaches (n : fnode) (q : list bytes) : Prop := exists l r, leafpath n l /\ q = l ++ r.

Lemma homog_leaf : homog (FNode []).
Proof. intros common a b Ha. destruct common as [|x common]; inversion Ha as [|? ? ? ? Hin]; subst; destruct Hin. Qed.
Lemma fits_leaf q : fits (FNode []) q.
Proof. intros common a b r Ha. destruct common as [|x common]; inversion Ha as [|? ? ? ? Hin]; subst; destruct Hin. Qed.
Lemma leaf_no_path p : ~ leafpath (FNode []) p.
Proof. apply leafpath_leaf. reflexivity. Qed.

Lemma leafpath_add q : forall n p, homog n -> fits n q -> tidy n -> q <> [] ->
  (leafpath (add_features n q) p <-> leafpath n p /\ ~ extends q p \/ p = q /\ ~ reaches n q).
Proof.
  induction q as [|s q IH]; intros n p Hh Hf Ht Hq; [contradiction|]. clear Hq.
  destruct p as [|v p].
  { split; [intros H; destruct (leafpath_nil H)|]. intros [(H & _)|(H & _)]; [destruct (leafpath_nil H)|discriminate]. }
  cbn [add_features]. destruct (has n s) as [k|] eqn:E.
  - unfold has in E. apply has_from_spec in E. destruct E as (l & v' & c & r & E & -> & Hs & Hl). cbn [Nat.add].
    assert (v' = s) by (eapply found_label; eassumption). subst v'.
    assert (Ec : child n (length l) = c) by (unfold child; rewrite E, nth_error_mid; reflexivity). rewrite Ec.
    assert (Hcin : In (s, c) (fanout n)) by (rewrite E; apply in_or_app; right; left; reflexivity).
    pose proof (fun p => below_tidy p Ht E) as Bn.
    destruct (is_leaf c) eqn:Lc.
    + split.
      * intros H. left. split; [exact H|]. intros (r' & Hr & X). cbn [app] in X. injection X as -> X. rewrite Bn, X in H.
        destruct H as [(H & _)|H]; [apply app_eq_nil in H; exact (Hr (proj2 H))|exact (leafpath_leaf Lc H)].
      * intros [(H & _)|(X & H)]; [exact H|]. exfalso. apply H. exists [s], q. split; [|reflexivity]. apply Bn. left. split; [reflexivity|exact Lc].
    + assert (Es : forall x, set_child n (length l) x = FNode (l ++ (s, x) :: r)) by (intros x; unfold set_child; rewrite E, update_nth_mid; reflexivity).
      assert (G : forall x, tidy x -> (forall p', below x p' <-> leafpath c p' /\ ~ extends q p' \/ p' = q /\ ~ (q <> [] /\ reaches c q)) ->
        (leafpath (set_child n (length l) x) (v :: p) <-> leafpath n (v :: p) /\ ~ extends (s :: q) (v :: p) \/ v :: p = s :: q /\ ~ reaches n (s :: q))).
      { intros x Hx B. rewrite Es. destruct (list_eq_dec Byte.byte_eq_dec v s) as [->|Hv].
        - assert (Tx : tidy (FNode (l ++ (s, x) :: r))).
          { inversion Ht as [es Nd Hc X]. subst n. cbn [fanout] in E. subst es. constructor.
            - rewrite map_app in *. cbn [map fst] in *. exact Nd.
            - intros a b Hin. apply in_app_or in Hin. destruct Hin as [Hin|[X|Hin]].
              + apply (Hc a). apply in_or_app. left. exact Hin.
              + injection X as _ <-. exact Hx.
              + apply (Hc a). apply in_or_app. right. right. exact Hin. }
          rewrite (below_tidy p Tx eq_refl), B, Bn.
          assert (X1 : below c p <-> leafpath c p) by (unfold below; rewrite Lc; split; [intros [(_ & X)|X]; [discriminate|exact X]|intros X; right; exact X]).
          assert (X2 : extends (s :: q) (s :: p) <-> extends q p).
          { unfold extends. cbn [app]. split; intros (t & T1 & T2); exists t; (split; [exact T1|]); [injection T2 as T2; exact T2|rewrite T2; reflexivity]. }
          assert (X3 : reaches n (s :: q) <-> q <> [] /\ reaches c q).
          { unfold reaches. split.
            - intros (t & u & T1 & T2). destruct t as [|t0 t]; [destruct (leafpath_nil T1)|]. cbn [app] in T2. injection T2 as <- T2.
              rewrite Bn in T1. destruct T1 as [(_ & T1)|T1]; [rewrite Lc in T1; discriminate|].
              split; [|exists t, u; split; [exact T1|exact T2]]. intros ->. destruct t; [destruct (leafpath_nil T1)|discriminate].
            - intros (_ & t & u & T1 & T2). exists (s :: t), u. split; [|rewrite T2; reflexivity]. apply Bn. right. exact T1. }
          rewrite X1, X2, X3. split.
          + intros [H|(H1 & H2)]; [left; exact H|right; split; [rewrite H1; reflexivity|exact H2]].
          + intros [H|(H1 & H2)]; [left; exact H|right; split; [injection H1 as H1; exact H1|exact H2]].
        - rewrite (leafpath_other x p E Hv). split.
          + intros H. left. split; [exact H|]. intros (t & _ & T). injection T as T _. exact (Hv T).
          + intros [(H & _)|(X & _)]; [exact H|]. injection X as X _. destruct (Hv X). }
      destruct q as [|s2 q].
      * apply G; [apply tidy_leaf|]. intros p'. split.
        -- intros [(-> & _)|H]; [|destruct (leaf_no_path H)]. right. split; [reflexivity|]. intros (X & _). apply X. reflexivity.
        -- intros [(H & X)|(-> & _)]; [|left; split; reflexivity]. destruct p' as [|a p']; [destruct (leafpath_nil H)|].
           exfalso. apply X. exists (a :: p'). split; [discriminate|reflexivity].
      * assert (Tc : tidy c) by (inversion Ht as [es Nd Hc X]; subst n; exact (Hc s c Hcin)).
        apply G; [apply tidy_add; exact Tc|]. intros p'. unfold below. rewrite is_leaf_false_new.
        rewrite (IH c p' (homog_child Hh Hcin) (fits_child Hf Hcin) Tc) by discriminate.
        split.
        -- intros [(_ & X)|[H|(H1 & H2)]]; [discriminate|left; exact H|right; split; [exact H1|intros (_ & X); exact (H2 X)]].
        -- intros [H|(H1 & H2)]; right; [left; exact H|right; split; [exact H1|intros X; apply H2; split; [discriminate|exact X]]].
  - unfold has in E. pose proof (proj1 (has_from_none _ _ _) E) as Hno.
    assert (Hns : forall p, ~ leafpath n (s :: p)).
    { intros p' H. apply leafpath_cons in H. destruct H as (c & Hin & _). apply (Hno s c Hin). right. reflexivity. }
    assert (Hnr : ~ reaches n (s :: q)).
    { intros (t & u & T1 & T2). destruct t as [|t0 t]; [destruct (leafpath_nil T1)|]. injection T2 as <- _. exact (Hns _ T1). }
    rewrite leafpath_cons. cbn [fanout]. split.
    + intros (c & Hin & Hb). apply in_app_or in Hin. destruct Hin as [Hin|[X|[]]].
      * left. split; [apply leafpath_cons; exists c; split; assumption|]. intros (t & _ & T). injection T as -> _. apply (Hno s c Hin). right. reflexivity.
      * injection X as -> X. right. split; [|exact Hnr]. f_equal. subst c. destruct q as [|s2 q].
        -- destruct Hb as [(-> & _)|Hb]; [reflexivity|destruct (leaf_no_path Hb)].
        -- destruct Hb as [(_ & Hb)|Hb]; [rewrite is_leaf_false_new in Hb; discriminate|].
           apply (IH (FNode []) p homog_leaf (@fits_leaf _) tidy_leaf) in Hb; [|discriminate].
           destruct Hb as [(Hb & _)|(Hb & _)]; [destruct (leaf_no_path Hb)|exact Hb].
    + intros [(H & _)|(X & _)].
      * apply leafpath_cons in H. destruct H as (c & Hin & Hb). exists c. split; [apply in_or_app; left; exact Hin|exact Hb].
      * injection X as -> ->. eexists. split; [apply in_or_app; right; left; reflexivity|]. destruct q as [|s2 q]; [left; split; reflexivity|]. right.
        apply (IH (FNode []) _ homog_leaf (@fits_leaf _) tidy_leaf); [discriminate|]. right. split; [reflexivity|].
        intros (t & u & T & _). exact (leaf_no_path T).
Qed.

(** ** All insertions *)
Lemma minimal_prefix pats : forall k q, length q <= k -> In q pats -> q <> [] -> exists p r, shortest pats p /\ q = p ++ r.
Proof.
  induction k as [|k IH]; intros q Hk Hq Hn; [destruct q; [contradiction|cbn in Hk; lia]|].
  assert (D : (exists p r, In p pats /\ p <> [] /\ r <> [] /\ q = p ++ r) \/ ~ (exists p r, In p pats /\ p <> [] /\ r <> [] /\ q = p ++ r)).
  { clear. induction pats as [|a pats IHp]; [right; intros (p & r & [] & _)|].
    destruct IHp as [(p & r & H1 & H2)|IHp]; [left; exists p, r; split; [right; exact H1|exact H2]|].
    assert (X : (a <> [] /\ exists r, r <> [] /\ q = a ++ r) \/ ~ (a <> [] /\ exists r, r <> [] /\ q = a ++ r)).
    { destruct a as [|x a]; [right; intros (X & _); apply X; reflexivity|].
      destruct (list_eq_dec (list_eq_dec Byte.byte_eq_dec) (firstn (length (x :: a)) q) (x :: a)) as [E|E].
      - destruct (skipn (length (x :: a)) q) as [|y l] eqn:Es.
        + right. intros (_ & r & R1 & R2). subst q. rewrite skipn_app, skipn_all, Nat.sub_diag in Es. exact (R1 Es).
        + left. split; [discriminate|]. exists (y :: l). split; [discriminate|]. pose proof (firstn_skipn (length (x :: a)) q) as F. rewrite E, Es in F. symmetry. exact F.
      - right. intros (_ & r & R1 & R2). apply E. subst q. rewrite firstn_app, Nat.sub_diag, firstn_all, firstn_O, app_nil_r. reflexivity. }
    destruct X as [(X & r & R)|X]; [left; exists a, r; split; [left; reflexivity|split; [exact X|exact R]]|].
    right. intros (p & r & [<-|H1] & H2 & H3); [apply X; split; [exact H2|exists r; exact H3]|]. apply IHp. exists p, r. split; [exact H1|split; [exact H2|exact H3]]. }
  destruct D as [(p & r & H1 & H2 & H3 & ->)|D].
  - destruct (IH p) as (m & r' & M1 & ->); [rewrite app_length in Hk; destruct r; [contradiction|cbn in Hk; lia]|exact H1|exact H2|].
    exists m, (r' ++ r). split; [exact M1|]. rewrite app_assoc. reflexivity.
  - exists q, []. split; [|rewrite app_nil_r; reflexivity]. split; [exact Hq|]. split; [exact Hn|].
    intros p r H1 H2 H3. destruct r as [|y r]; [reflexivity|]. exfalso. apply D. exists p, (y :: r). split; [exact H1|split; [exact H2|split; [discriminate|exact H3]]].
Qed.

Lemma minimal_add pats q p : q <> [] ->
  (shortest (pats ++ [q]) p <-> shortest pats p /\ ~ extends q p \/ p = q /\ ~ (exists l r, shortest pats l /\ q = l ++ r)).
Proof.
  intros Hq. split.
  - intros (H1 & H2 & H3). apply in_app_or in H1. destruct H1 as [H1|[<-|[]]].
    + left. split.
      * split; [exact H1|]. split; [exact H2|]. intros a b Ha. apply (H3 a b). apply in_or_app. left. exact Ha.
      * intros (r & R1 & R2). apply R1. apply (H3 q r); [apply in_or_app; right; left; reflexivity|exact Hq|exact R2].
    + destruct (in_dec (list_eq_dec (list_eq_dec Byte.byte_eq_dec)) q pats) as [Hin|Hin].
      * left. split.
        -- split; [exact Hin|]. split; [exact H2|]. intros a b Ha. apply (H3 a b). apply in_or_app. left. exact Ha.
        -- intros (r & R1 & R2). apply R1. rewrite <- (app_nil_r q) in R2 at 1. apply app_inv_head in R2. symmetry. exact R2.
      * right. split; [reflexivity|]. intros (l & r & (L1 & L2 & _) & ->). apply Hin.
        rewrite (H3 l r); [rewrite app_nil_r; exact L1|apply in_or_app; left; exact L1|exact L2|reflexivity].
  - intros [((H1 & H2 & H3) & H4)|(-> & H)].
    + split; [apply in_or_app; left; exact H1|]. split; [exact H2|]. intros a b Ha Hn E. apply in_app_or in Ha. destruct Ha as [Ha|[<-|[]]].
      * exact (H3 a b Ha Hn E).
      * destruct b as [|y b]; [reflexivity|]. exfalso. apply H4. exists (y :: b). split; [discriminate|exact E].
    + split; [apply in_or_app; right; left; reflexivity|]. split; [exact Hq|]. intros a b Ha Hn E. apply in_app_or in Ha. destruct Ha as [Ha|[<-|[]]].
      * exfalso. apply H. destruct (@minimal_prefix pats (length a) a (le_n _) Ha Hn) as (m & r & M & ->). exists m, (r ++ b). split; [exact M|].
        rewrite E, app_assoc. reflexivity.
      * rewrite <- (app_nil_r q) in E at 1. apply app_inv_head in E. symmetry. exact E.
Qed.

Lemma minimal_nil pats p : shortest (pats ++ [[]]) p <-> shortest pats p.
Proof.
  unfold shortest. split; intros (H1 & H2 & H3).
  - apply in_app_or in H1. destruct H1 as [H1|[<-|[]]]; [|contradiction]. split; [exact H1|]. split; [exact H2|].
    intros a b Ha. apply (H3 a b). apply in_or_app. left. exact Ha.
  - split; [apply in_or_app; left; exact H1|]. split; [exact H2|]. intros a b Ha Hn. apply in_app_or in Ha. destruct Ha as [Ha|[<-|[]]]; [exact (H3 a b Ha Hn)|contradiction].
Qed.

Lemma fold_minimal pats : forall done n, built done n -> tidy n -> (forall p, leafpath n p <-> shortest done p) -> unambiguous (done ++ pats) ->
  tidy (fold_left add_features pats n) /\ forall p, leafpath (fold_left add_features pats n) p <-> shortest (done ++ pats) p.
Proof.
  induction pats as [|q pats IH]; intros done n Hb Ht Hl Hu; cbn [fold_left].
  - rewrite app_nil_r. split; assumption.
  - assert (Hu1 : unambiguous (done ++ [q])).
    { eapply unambiguous_incl; [|exact Hu]. intros p Hp. apply in_app_or in Hp. apply in_or_app. destruct Hp as [Hp|[<-|[]]]; [left; exact Hp|right; left; reflexivity]. }
    change (done ++ q :: pats) with (done ++ [q] ++ pats) in *. rewrite app_assoc in *. apply IH.
    + apply built_add; assumption.
    + apply tidy_add. exact Ht.
    + intros p. destruct q as [|s q]; [rewrite add_nil, minimal_nil; apply Hl|].
      rewrite leafpath_add; [|apply Hb|eapply built_fits; eassumption|exact Ht|discriminate].
      rewrite minimal_add by discriminate.
      assert (R : reaches n (s :: q) <-> exists l r, shortest done l /\ s :: q = l ++ r).
      { unfold reaches. split; intros (l & r & H1 & H2); exists l, r; (split; [apply Hl; exact H1|exact H2]). }
      rewrite R, Hl. reflexivity.
    + exact Hu.
Qed.

(** ** Labels *)
Inductive labels_in (P : bytes -> Prop) : fnode -> Prop :=
| labels_node es : (forall v c, In (v, c) es -> P v /\ labels_in P c) -> labels_in P (FNode es).
Lemma labels_add (P : bytes -> Prop) q : forall n, (forall v, In v q -> P v) -> labels_in P n -> labels_in P (add_features n q).
Proof.
  induction q as [|s q IH]; intros n Hq Hn; [exact Hn|]. assert (Hq' : forall v, In v q -> P v) by (intros v Hv; apply Hq; right; exact Hv).
  inversion Hn as [es Hes]; subst n. cbn [add_features]. destruct (has (FNode es) s) as [k|] eqn:E.
  - destruct (has_edge E) as (v & c & Ev & Ec & _). cbn [fanout] in Ev. destruct (is_leaf (child (FNode es) k)); [exact Hn|].
    assert (G : forall x, labels_in P x -> labels_in P (set_child (FNode es) k x)).
    { intros x Hx. unfold set_child. cbn [fanout]. constructor. intros v' c' Hin. apply In_nth_error in Hin. destruct Hin as (j & Hj).
      rewrite nth_update in Hj. destruct (nth_error es j) as [[a b]|] eqn:Ej; [|destruct (j =? k); discriminate].
      pose proof (Hes a b (nth_error_In _ _ Ej)) as (A & B). destruct (j =? k); cbn [option_map fst] in Hj; injection Hj as <- <-; split; assumption. }
    destruct q as [|s2 q]; apply G; [constructor; intros ? ? []|]. apply IH; [exact Hq'|]. rewrite Ec. apply (Hes v c). eapply nth_error_In. exact Ev.
  - constructor. intros v c Hin. cbn [fanout] in Hin. apply in_app_or in Hin. destruct Hin as [Hin|[X|[]]]; [exact (Hes v c Hin)|].
    injection X as <- <-. split; [apply Hq; left; reflexivity|]. apply IH; [exact Hq'|]. constructor. intros ? ? [].
Qed.
Lemma labels_lines (P : bytes -> Prop) n : forall k, labels_in P n -> forall d v, In (d, v) (trie_lines k n) -> P v.
Proof.
  induction n as [es IH] using trie_ind. intros k Hn d v Hin. inversion Hn as [es' Hes]; subst. cbn [trie_lines] in Hin.
  apply in_concat in Hin. destruct Hin as (l & Hl & Hv). apply in_map_iff in Hl. destruct Hl as ([w c] & <- & He). cbn [fst snd] in Hv.
  destruct (Hes w c He) as (A & B). destruct Hv as [X|Hv]; [injection X as _ <-; exact A|]. exact (IH w c He (S k) B d v Hv).
Qed.
Lemma readable_filter pats : readable_patterns pats -> readable_lines (trie_lines 0 (new_features_filter pats)).
Proof.
  intros H k v Hin. apply (@labels_lines readable (new_features_filter pats) 0) with (d := k); [|exact Hin]. unfold new_features_filter.
  assert (G : forall n, labels_in readable n -> labels_in readable (fold_left add_features pats n)).
  { clear Hin. induction pats as [|q pats IH]; intros n Hn; cbn [fold_left]; [exact Hn|]. apply IH; [intros p w Hp; apply (H p w); right; exact Hp|].
    apply labels_add; [|exact Hn]. intros w Hw. apply (H q w); [left; reflexivity|exact Hw]. }
  apply G. constructor. intros ? ? [].
Qed.

Theorem c70_minimal_lemma pats : unambiguous pats -> readable_patterns pats ->
  exists ps, read_outline (features_string (new_features_filter pats)) = Some ps /\ NoDup ps /\ forall p, In p ps <-> shortest pats p.
Proof.
  intros Hu Hr. destruct (@fold_minimal pats [] (FNode [])) as (Ht & Hl).
  - split; [exact homog_leaf|]. intros p Hp. intros Hne. inversion Hp as [|? ? ? ? Hin]; subst; [destruct (Hne eq_refl)|destruct Hin].
  - exact tidy_leaf.
  - intros p. split; [intros H; destruct (leaf_no_path H)|]. intros ([] & _).
  - exact Hu.
  - exists (leaf_paths [] (new_features_filter pats)). split; [apply read_leaf_paths, readable_filter, Hr|]. split; [apply nodup_leaf_paths; exact Ht|].
    intros p. rewrite in_leaf_paths. rewrite <- (Hl p). split; [intros (q & Hq & ->); exact Hq|intros H; exists p; split; [exact H|reflexivity]].
Qed.

(** ** The text determines the trie *)
Lemma shallow_split n : forall n' k rest rest', shallow k rest -> shallow k rest' ->
  trie_lines (S k) n ++ rest = trie_lines (S k) n' ++ rest' -> n = n' /\ rest = rest'.
Proof.
  induction n as [es IH] using trie_ind. intros [es'] k rest rest' S1 S2.
  assert (G : forall es', trie_lines (S k) (FNode es) ++ rest = trie_lines (S k) (FNode es') ++ rest' -> es = es' /\ rest = rest').
  { clear es'. induction es as [|[v c] es IHes]; intros [|[v' c'] es'].
    - cbn. intros ->. split; reflexivity.
    - cbn [trie_lines map concat app fst snd]. intros X. exfalso. rewrite X in S1. cbn [shallow] in S1. lia.
    - cbn [trie_lines map concat app fst snd]. intros X. exfalso. rewrite <- X in S2. cbn [shallow] in S2. lia.
    - cbn [trie_lines map concat app fst snd]. intros X. injection X as <- X. rewrite <- !app_assoc in X.
      change (concat (map (fun e => (S k, fst e) :: trie_lines (S (S k)) (snd e)) es)) with (trie_lines (S k) (FNode es)) in X.
      change (concat (map (fun e => (S k, fst e) :: trie_lines (S (S k)) (snd e)) es')) with (trie_lines (S k) (FNode es')) in X.
      apply (IH v c (or_introl eq_refl)) in X.
      + destruct X as (<- & X). apply IHes in X; [|intros v2 c2 Hin; apply (IH v2 c2); right; exact Hin]. destruct X as (<- & X). split; [reflexivity|exact X].
      + destruct es as [|[? ?] ?]; cbn [trie_lines map concat app fst snd shallow]; [destruct rest as [|[? ?] ?]; cbn [shallow app] in *; lia|lia].
      + destruct es' as [|[? ?] ?]; cbn [trie_lines map concat app fst snd shallow]; [destruct rest' as [|[? ?] ?]; cbn [shallow app] in *; lia|lia]. }
  intros X. apply G in X. destruct X as (<- & X). split; [reflexivity|exact X].
Qed.
Lemma trie_lines_shift n : forall k, trie_lines (S k) n = map (fun kv => (S (fst kv), snd kv)) (trie_lines k n).
Proof.
  induction n as [es IH] using trie_ind. intros k. cbn [trie_lines]. induction es as [|[v c] es IHes]; [reflexivity|].
  cbn [map concat]. rewrite map_app, <- IHes by (intros v' c' Hin; apply (IH v' c'); right; exact Hin). cbn [map fst snd app].
  rewrite (IH v c (or_introl eq_refl)). reflexivity.
Qed.

Theorem c70_text_lemma pats pats' : readable_patterns pats -> readable_patterns pats' ->
  features_string (new_features_filter pats) = features_string (new_features_filter pats') ->
  forall fs, features_match (new_features_filter pats) fs = features_match (new_features_filter pats') fs.
Proof.
  intros R R' E. assert (X : new_features_filter pats = new_features_filter pats').
  { unfold features_string in E. rewrite !string_lines in E.
    pose proof (read_lines (readable_filter R)) as L. rewrite E, read_lines in L by (apply readable_filter; exact R'). injection L as L.
    apply (f_equal (map unindent)) in L. rewrite !unindent_lines in L by (apply readable_filter; assumption).
    apply (f_equal (map (fun kv => (S (fst kv), snd kv)))) in L. rewrite <- !trie_lines_shift in L.
    apply (@shallow_split (new_features_filter pats) (new_features_filter pats') 0 [] [] I I). rewrite !app_nil_r. symmetry. exact L. }
  rewrite X. reflexivity.
Qed.
