(** Property theorems: the slices that tokens hand out (tokenizer/token.go). *)
From Verif Require Import Check Example Slices SpecSlices SlicesFacts.
Open Scope Z_scope.

(** ** C105: the slices a token hands out are the caller's own. *)
(** A program that calls the tokens' methods and writes into what it got sees what it would see if
    every slice were a vector of its own: the replies, the contents of every slice kept, and no room
    behind them.  The memory that was there before is unchanged and the dictionaries with it. *)
Theorem C105_own : forall grow m mts ts calls, Forall2 (shows_token m) mts ts ->
  let p := fst (m_calls grow mts (Program m []) calls) in let v := v_calls ts [] calls in
  snd (m_calls grow mts (Program m []) calls) = snd v /\
  Forall2 (fun s l => shows (pg_mem p) (Some s) l /\ sl_cap s = length l) (pg_kept p) (fst v) /\
  (exists new, pg_mem p = m ++ new) /\ Forall2 (shows_token (pg_mem p)) mts ts.
Proof. exact calls_own. Qed.
Print Assumptions C105_own.
(** Whatever else there is in memory, a call of a method changes none of it, and what it hands out is
    new; so calls of several goroutines do not get in each other's way. *)
Theorem C105_new : forall grow mts ts p c, Forall2 (shows_token (pg_mem p)) mts ts -> is_write c = false ->
  exists new ks, fst (m_call grow mts p c) = Program (pg_mem p ++ new) (pg_kept p ++ ks) /\ forall s, In s ks -> (length (pg_mem p) <= sl_arr s)%nat.
Proof. exact call_adds. Qed.
Print Assumptions C105_new.
(** Every token can be laid out in memory. *)
Theorem C105_layout : forall t, exists m mt, shows_token m mt t.
Proof. exact lay_token. Qed.
Print Assumptions C105_layout.

(** All rows of a table in one array, each with room up to its end: an append in place would overwrite
    the next row. *)
Fixpoint cuts (a off total : nat) (rows : list (list bytes)) : list gslice :=
  match rows with
  | [] => []
  | r :: rows' => Some (Sl a off (length r) (total - off)) :: cuts a (off + length r) total rows'
  end.
Lemma cuts_ok m a total rows : forall before, nth_error m a = Some (before ++ concat rows) -> Forall2 (shows m) (cuts a (length before) total rows) rows.
Proof.
  induction rows as [|r rows IH]; intros before E; cbn [cuts]; constructor.
  - eexists. split; [exact E|]. split; [reflexivity|]. exists before, (concat rows). auto.
  - rewrite <- app_length. apply IH. rewrite <- app_assoc. exact E.
Qed.
Definition rows_of (d : dict) : list (list bytes) := match d_contents d with Some cs => cs | None => [] end.
Definition ex_memory : memory := [d_pos_names ex_dict; concat (rows_of ex_dict); concat (d_unk_contents ex_dict); concat (map uc_tokens (u_contents ex_udict)); concat (map uc_yomi (u_contents ex_udict))].
Definition ex_mdict : mdict :=
  MDict (d_pos_ids ex_dict) (Some (Sl 0 0 5 5)) (Some (cuts 1 0 17 (rows_of ex_dict))) (d_meta ex_dict) (cuts 2 0 10 (d_unk_contents ex_dict)) (d_unk_meta ex_dict).
Definition ex_mudict : list mcontent := [MContent (Some (Sl 3 0 1 3)) (Some (Sl 4 0 1 3)) (s2b "カスタム名詞"); MContent (Some (Sl 3 1 2 2)) (Some (Sl 4 1 2 2)) (s2b "カスタム名詞")].
Definition ex_of (c : node_class) (id : Z) : mtoken * token :=
  (MToken 0 id c 0 0 1 (s2b "x") ex_mdict (Some ex_mudict), Token 0 id c 0 0 1 (s2b "x") ex_dict (Some ex_udict)).
Lemma ex_shows c id : shows_token ex_memory (fst (ex_of c id)) (snd (ex_of c id)).
Proof.
  split; [reflexivity|]. split; [reflexivity|]. split.
  - repeat (split; [reflexivity|]). split; [|split].
    + eexists. split; [reflexivity|]. split; [reflexivity|]. exists [], []. rewrite app_nil_r. auto.
    + apply (@cuts_ok ex_memory 2 10 _ []). reflexivity.
    + apply (@cuts_ok ex_memory 1 17 _ []). reflexivity.
  - assert (A := @cuts_ok ex_memory 3 3 (map uc_tokens (u_contents ex_udict)) [] eq_refl). assert (B := @cuts_ok ex_memory 4 3 (map uc_yomi (u_contents ex_udict)) [] eq_refl).
    cbn [map u_contents ex_udict] in A, B. inversion A as [|? ? ? ? A1 A']; inversion A' as [|? ? ? ? A2 _]; inversion B as [|? ? ? ? B1 B']; inversion B' as [|? ? ? ? B2 _]; subst.
    repeat constructor; assumption.
Qed.
Definition ex_toks : list (mtoken * token) := [ex_of KNOWN 3; ex_of UNKNOWN 1; ex_of USER 1; ex_of DUMMY 0].
(** What is written into the features of a word is not seen by the next call. *)
Definition ex_calls : list call :=
  [Features 0; Write 0 2 (s2b "!"); Write 0 4 (s2b "!"); Features 0; Read 0 2; Extra 2; Write 2 0 (s2b "!"); Features 2; Pos 1; Write 5 1 (s2b "!"); At 1 1; Data 0; Pos 3; Pick 0 key_reading; Features 9].
Example C105_example : Forall2 (shows_token ex_memory) (map fst ex_toks) (map snd ex_toks) /\
  snd (m_calls (fun _ _ => 1%nat) (map fst ex_toks) (Program ex_memory []) ex_calls) =
  [RVec [s2b "名詞"; s2b "固有名詞"; s2b "東京"; s2b "トウキョウ"]; RDone; RPanic; RVec [s2b "名詞"; s2b "固有名詞"; s2b "東京"; s2b "トウキョウ"]; RText (s2b "!");
   RTwo [s2b "ka"; s2b "gome"] [s2b "カ"; s2b "ゴメ"]; RDone; RVec [s2b "カスタム名詞"; s2b "ka/gome"; s2b "カ/ゴメ"]; RVec [s2b "名詞"; s2b "一般"]; RDone;
   RPair (s2b "一般", true); RData [s2b "名詞"; s2b "固有名詞"] [s2b "名詞"; s2b "固有名詞"; s2b "東京"; s2b "トウキョウ"] (s2b "東京") (s2b "トウキョウ") []; RNil; RPair (s2b "トウキョウ", true); RPanic].
Proof.
  assert (F : Forall2 (shows_token ex_memory) (map fst ex_toks) (map snd ex_toks)) by (unfold ex_toks; cbn [map]; repeat (constructor; [apply ex_shows|]); constructor).
  split; [exact F|]. destruct (C105_own (fun _ _ => 1%nat) ex_memory (map fst ex_toks) (map snd ex_toks) ex_calls F) as (E & _). rewrite E. vm_compute. reflexivity.
Qed.
