(** Property theorems: token accessors (tokenizer/token.go) and tokenizer construction. *)
From Verif Require Import Example TokenFacts.
Open Scope Z_scope.

(** ** C20 *)
Theorem C20_feature_at : forall d u tk, wf_dict d -> wf_udict u -> wf_data d -> from_analyze d u tk ->
  exists fs, features tk = Ok fs /\ forall i,
    feature_at tk i = Ok (if i <? 0 then ([], false)
                          else match nth_error (strings_list fs) (Z.to_nat i) with
                               | Some s => (s, true)
                               | None => ([], false)
                               end).
Proof. exact c20_feature_at_lemma. Qed.
Print Assumptions C20_feature_at.

(** ID and Class are exported, so a caller may put anything in them and the dictionaries may hold anything:
    whenever FeatureAt returns, false comes with the empty string, true only with an index and an ID inside the tables,
    and the answer is the entry of Features if Features returns as well. *)
Theorem C20_any : forall tk i s b, feature_at tk i = Ok (s, b) ->
  (b = false -> s = []) /\
  (b = true -> 0 <= i /\ 0 <= t_id tk < Z.of_nat (entry_count tk)) /\
  (forall fs, features tk = Ok fs -> (s, b) = lookup fs i).
Proof. exact feature_at_any. Qed.
Print Assumptions C20_any.

(** A token whose ID was set past the tables. *)
Example C20_any_example :
  map (fun c => feature_at (Token 0 99 c 0 0 3 (s2b "a") ex_dict (Some ex_udict)) 0) [UNKNOWN; USER; DUMMY] =
  [Ok ([], false); Ok ([], false); Ok ([], false)] /\
  feature_at (Token 0 1 USER 0 0 3 (s2b "a") ex_dict (Some ex_udict)) 1 = Ok (s2b "ka/gome", true).
Proof. split; vm_compute; reflexivity. Qed.

(** ** C21 *)
Theorem C21_pos : forall d u tk, wf_dict d -> wf_udict u -> wf_data d -> from_analyze d u tk ->
  exists fs ps, features tk = Ok fs /\ token_pos tk = Ok ps /\
  match t_class tk with
  | KNOWN => exists p c, ps = Some p /\ fs = Some (p ++ c) /\
      p = map (fun k => nth (Z.to_nat k) (d_pos_names d) []) (nth (Z.to_nat (t_id tk)) (d_pos_ids d) [])
  | USER => exists p a b, ps = Some [p] /\ fs = Some [p; a; b]
  | UNKNOWN => exists l, fs = Some l /\
      let s := match meta_get (d_unk_meta d) key_pos_start with Some v => v | None => 0 end in
      let e := match meta_get (d_unk_meta d) key_pos_hierarchy with Some v => s + v | None => 1 end in
      ps = if (s <? e) && (e <=? Z.of_nat (length l)) then Some (firstn (Z.to_nat (e - s)) (skipn (Z.to_nat s) l)) else None
  | DUMMY => fs = None /\ ps = None
  end.
Proof. exact c21_pos_lemma. Qed.
Print Assumptions C21_pos.

(** ** C56 *)
Theorem C56_features : forall d u tk, wf_dict d -> wf_udict u -> wf_data d -> from_analyze d u tk ->
  exists fs x, features tk = Ok fs /\ user_extra tk = Ok x /\
  match t_class tk with
  | DUMMY => fs = None /\ x = None
  | KNOWN => exists ids, nth_error (d_pos_ids d) (Z.to_nat (t_id tk)) = Some ids /\ x = None /\
      exists names, Forall2 (fun k n => 0 <= k /\ nth_error (d_pos_names d) (Z.to_nat k) = Some n) ids names /\
        match d_contents d with
        | Some cs => exists c, nth_error cs (Z.to_nat (t_id tk)) = Some c /\ fs = Some (names ++ c)
        | None => fs = Some names
        end
  | UNKNOWN => exists c, nth_error (d_unk_contents d) (Z.to_nat (t_id tk)) = Some c /\ fs = Some c /\ x = None
  | USER => exists ud e, u = Some ud /\ nth_error (u_contents ud) (Z.to_nat (t_id tk)) = Some e /\
      fs = Some [uc_pos e; join (s2b "/") (uc_tokens e); join (s2b "/") (uc_yomi e)] /\ x = Some (uc_tokens e, uc_yomi e)
  end.
Proof. exact c56_features_lemma. Qed.
Print Assumptions C56_features.

(** ** C22 *)
Theorem C22_named : forall d u tk, wf_dict d -> wf_udict u -> wf_data d -> from_analyze d u tk ->
  exists fs, features tk = Ok fs /\ forall f key,
    In (f, key) [(base_form, key_base); (reading, key_reading); (pronunciation, key_pronunciation);
                 (inflectional_type, key_inflectional_type); (inflectional_form, key_inflectional_form)] ->
    f tk = Ok (match t_class tk with
               | KNOWN => match meta_get (d_meta d) key with Some i => lookup fs i | None => ([], false) end
               | UNKNOWN => match meta_get (d_unk_meta d) key with Some i => lookup fs i | None => ([], false) end
               | _ => ([], false)
               end).
Proof. exact c22_named_lemma. Qed.
Print Assumptions C22_named.

(** ** C23 *)
Theorem C23_equal_features : forall a b, exists r, equal_features a b = Ok r /\ (r = true <-> a = b).
Proof. exact equal_features_ok. Qed.
Print Assumptions C23_equal_features.
Theorem C23_token_equal : forall a b, token_equal a b = true <-> t_id a = t_id b /\ t_class a = t_class b /\ t_surface a = t_surface b.
Proof. exact token_equal_ok. Qed.
Print Assumptions C23_token_equal.
Theorem C23_token_features_pos : forall d u d' u' a b, wf_dict d -> wf_udict u -> wf_data d -> from_analyze d u a ->
  wf_dict d' -> wf_udict u' -> wf_data d' -> from_analyze d' u' b ->
  exists fa fb pa pb r s, features a = Ok fa /\ features b = Ok fb /\ token_pos a = Ok pa /\ token_pos b = Ok pb /\
    token_equal_features a b = Ok r /\ (r = true <-> strings_list fa = strings_list fb) /\
    token_equal_pos a b = Ok s /\ (s = true <-> strings_list pa = strings_list pb).
Proof. exact c23_token_features_pos_lemma. Qed.
Print Assumptions C23_token_features_pos.

(** The first and the third token of this text are equal; those of different words are not. *)
Example C23_example : exists ts, analyze ex_ideo (Tokenizer ex_dict (Some ex_udict) true) (s2b "東に東行く") mode_normal = Ok ts /\
  (let f k := nth k ts (Token 0 0 DUMMY 0 0 0 [] ex_dict None) in
   map (fun k => (token_equal (f 0%nat) (f k), token_equal_features (f 0%nat) (f k), token_equal_pos (f 0%nat) (f k))) [1; 2; 3]%nat) =
  [(false, Ok false, Ok false); (true, Ok true, Ok true); (false, Ok false, Ok false)].
Proof. apply run_ex. vm_compute. reflexivity. Qed.

(** ** C24 *)
Theorem C24_token_data : forall d u tk, wf_dict d -> wf_udict u -> wf_data d -> from_analyze d u tk ->
  exists td fs ps b r p, new_token_data tk = Ok td /\
    features tk = Ok fs /\ token_pos tk = Ok ps /\ base_form tk = Ok b /\ reading tk = Ok r /\ pronunciation tk = Ok p /\
    td_id td = t_id tk /\ td_start td = t_start tk /\ td_end td = t_end tk /\ td_surface td = t_surface tk /\
    td_class td = match t_class tk with DUMMY => s2b "DUMMY" | KNOWN => s2b "KNOWN" | UNKNOWN => s2b "UNKNOWN" | USER => s2b "USER" end /\
    td_pos td = Some (strings_list ps) /\ td_features td = Some (strings_list fs) /\
    td_base_form td = (if snd b then fst b else []) /\ td_reading td = (if snd r then fst r else []) /\
    td_pronunciation td = (if snd p then fst p else []).
Proof. exact c24_token_data_lemma. Qed.
Print Assumptions C24_token_data.

(** ** C50 *)
Theorem C50_no_panic : forall d u tk, wf_dict d -> wf_udict u -> wf_data d -> from_analyze d u tk ->
  (exists x, features tk = Ok x) /\ (forall i, exists x, feature_at tk i = Ok x) /\ (exists x, token_pos tk = Ok x) /\
  (exists x, user_extra tk = Ok x /\ (x <> None <-> t_class tk = USER)) /\ (forall key, exists x, pickup tk key = Ok x) /\
  (exists x, new_token_data tk = Ok x).
Proof. exact c50_no_panic_lemma. Qed.
Print Assumptions C50_no_panic.

(** The dictionary of the examples meets the hypotheses of C20-C24 and C50. *)
Example C20_C24_C50_example : wf_dict ex_dict /\ wf_udict (Some ex_udict) /\ wf_data ex_dict /\
  exists ts, analyze ex_ideo (Tokenizer ex_dict (Some ex_udict) false) (s2b "東kagomex") mode_normal = Ok ts /\
  map (fun t => (features t, token_pos t, feature_at t 2, feature_at t (-1), reading t, base_form t)) ts =
  [(Ok None, Ok None, Ok ([], false), Ok ([], false), Ok ([], false), Ok ([], false));
   (Ok (Some [s2b "名詞"; s2b "一般"; s2b "東"; s2b "ヒガシ"]), Ok (Some [s2b "名詞"; s2b "一般"]),
      Ok (s2b "東", true), Ok ([], false), Ok (s2b "ヒガシ", true), Ok (s2b "東", true));
   (Ok (Some [s2b "カスタム名詞"; s2b "ka/gome"; s2b "カ/ゴメ"]), Ok (Some [s2b "カスタム名詞"]), Ok (s2b "カ/ゴメ", true), Ok ([], false), Ok ([], false), Ok ([], false));
   (Ok (Some [s2b "名詞"; s2b "一般"]), Ok (Some [s2b "名詞"; s2b "一般"]), Ok ([], false), Ok ([], false), Ok ([], false), Ok ([], false));
   (Ok None, Ok None, Ok ([], false), Ok ([], false), Ok ([], false), Ok ([], false))].
Proof. split; [exact wf_ex|]. split; [exact wf_ex_udict|]. split; [exact wf_ex_data|]. apply run_ex. vm_compute. reflexivity. Qed.

(** ** C52: a POS id just past the name list makes FeatureAt panic; larger ones are reported absent. *)
Theorem C52_pos_id_refuted : exists tk i, t_class tk = KNOWN /\ 0 <= t_id tk < Z.of_nat (length (d_pos_ids (t_dict tk))) /\
  (exists ids, nth_error (d_pos_ids (t_dict tk)) (Z.to_nat (t_id tk)) = Some ids /\
     nth_error ids (Z.to_nat i) = Some (Z.of_nat (length (d_pos_names (t_dict tk))))) /\
  feature_at tk i = Panic.
Proof. exact c52_pos_id_refuted_lemma. Qed.
Print Assumptions C52_pos_id_refuted.
Theorem C52_pos_id_partial : forall tk i ids k, t_class tk = KNOWN ->
  0 <= i -> 0 <= t_id tk -> nth_error (d_pos_ids (t_dict tk)) (Z.to_nat (t_id tk)) = Some ids -> nth_error ids (Z.to_nat i) = Some k ->
  Z.of_nat (length (d_pos_names (t_dict tk))) < k -> feature_at tk i = Ok ([], false).
Proof. exact pos_id_large. Qed.
Print Assumptions C52_pos_id_partial.

Example C52_example : let d := Dict [] [] 0 [] (fun _ => 0%nat) [] [] [] [] [] [[0; 2]] [s2b "x"] None [] [] [] in
  let tk := Token 0 0 KNOWN 0 0 1 [] d None in
  nth_error (d_pos_ids d) 0 = Some [0; 2] /\ Z.of_nat (length (d_pos_names d)) < 2 /\ feature_at tk 0 = Ok (s2b "x", true) /\ feature_at tk 1 = Ok ([], false).
Proof. repeat split. Qed.

(** ** C44 *)
Theorem C44_new : forall d opts,
  match new_tokenizer d opts with
  | inl t => d = Some (tk_dict t) /\ ~ In (OptUserDict None) opts /\
      (forall ud, tk_udict t = Some ud <-> exists l1 l2, opts = l1 ++ OptUserDict (Some ud) :: l2 /\ forall o, ~ In (OptUserDict o) l2) /\
      (tk_omit t = true <-> In OptOmitBosEos opts)
  | inr EmptyDictionary => d = None
  | inr EmptyUserDictionary => d <> None /\ In (OptUserDict None) opts
  end.
Proof. exact new_ok. Qed.
Print Assumptions C44_new.
Example C44_example : new_tokenizer (Some ex_dict) [OptUserDict (Some (UDict [] [])); OptNop; OptUserDict (Some ex_udict); OptOmitBosEos] =
  inl (Tokenizer ex_dict (Some ex_udict) true).
Proof. reflexivity. Qed.
