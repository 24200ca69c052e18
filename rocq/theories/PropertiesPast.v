(** C116: what comes before a word bears on what follows only through one number, and the other way round. *)
From Verif Require Import Utf8Facts Example Check PastFacts.
From Verif Require Import SpecPast.
From Coq Require Import Lia.
Open Scope Z_scope.

(** Two texts with the same ending, cut where it begins: if the words before the cut leave with the same right id (or are both user words), the ending is cut into the same words. *)
Theorem C116_past : forall d u ideo omit omit' a b s mode ta tb pa qa pb qb, wf_dict d -> wf_udict u -> mode <> mode_extended -> valid_utf8 a = true -> valid_utf8 b = true ->
  Z.of_nat (rcount (a ++ s)) <= optimal_limit mode -> Z.of_nat (rcount (b ++ s)) <= optimal_limit mode ->
  analyze ideo (Tokenizer d u omit) (a ++ s) mode = Ok ta -> analyze ideo (Tokenizer d u omit') (b ++ s) mode = Ok tb ->
  words_of ta = pa ++ qa -> words_of tb = pb ++ qb -> ends_at pa (rcount a) -> ends_at pb (rcount b) -> leaving d pa = leaving d pb ->
  exists q, qa = map (moved (rcount a)) q /\ qb = map (moved (rcount b)) q.
Proof. exact past. Qed.
Print Assumptions C116_past.
(** Two texts with the same beginning, nothing in the dictionaries reaching across its end: both are cut there, and if the words after the cut enter with the same left id (or are both user words), the beginning is cut into the same words. *)
Theorem C116_future : forall d u ideo omit omit' a s t mode ta tb, wf_dict d -> wf_udict u -> mode <> mode_extended -> valid_utf8 a = true ->
  Z.of_nat (rcount (a ++ s)) <= optimal_limit mode -> Z.of_nat (rcount (a ++ t)) <= optimal_limit mode ->
  clear_cut d u (a ++ s) (rcount a) -> clear_cut d u (a ++ t) (rcount a) ->
  analyze ideo (Tokenizer d u omit) (a ++ s) mode = Ok ta -> analyze ideo (Tokenizer d u omit') (a ++ t) mode = Ok tb ->
  exists pa qa pb qb, words_of ta = pa ++ qa /\ words_of tb = pb ++ qb /\ ends_at pa (rcount a) /\ ends_at pb (rcount a) /\ (entering d qa = entering d qb -> pa = pb).
Proof. exact future. Qed.
Print Assumptions C116_future.

(** Deciding whether an index reaches across rune k. *)
Definition reaches (idx : index_table) (x : bytes) (k : nat) : bool :=
  existsb (fun i => existsb (fun j => existsb (fun e => bytes_eqb (fst e) (text x i j)) idx) (seq (S k) (rcount x - k))) (seq 0 k).
Lemma reaches_not idx x k : reaches idx x k = false -> forall id i j, (i < k < j)%nat -> ~ keyword_at idx x id i j.
Proof.
  intros R id i j L (B & H). assert (reaches idx x k = true) as E; [|rewrite R in E; discriminate E].
  apply existsb_exists. exists i. split; [apply in_seq; lia|]. apply existsb_exists. exists j. split; [apply in_seq; lia|].
  apply existsb_exists. exists (text x i j, id). split; [exact H|]. apply bytes_eqb_eq. reflexivity.
Qed.
Definition words (s : bytes) : res (list word) := let* ts := analyze ex_ideo (Tokenizer ex_dict (Some ex_udict) true) s mode_normal in Ok (words_of ts).

Lemma word_test_ok (x y : word) : test_eq (w_class x, w_id x, w_start x, w_stop x) (w_class y, w_id y, w_start y, w_stop y) = true <-> x = y.
Proof. rewrite test_eq_ok. destruct x, y. cbn. split; [intros E; injection E as -> -> -> ->; reflexivity|intros E; injection E as -> -> -> ->; reflexivity]. Qed.
#[export] Instance Eqb_word : Eqb word := {| test_eq := fun x y => test_eq (w_class x, w_id x, w_start x, w_stop x) (w_class y, w_id y, w_start y, w_stop y); test_eq_ok := word_test_ok |}.
(** Two texts that end in 行く: after に (right id 0) it is entry 7, whatever comes before; after 東京 (right id 1) it is entry 8. *)
Example C116_past_example :
  words (s2b "東に行く") = Ok [Word KNOWN 0 0 1; Word KNOWN 6 1 2; Word KNOWN 7 2 4] /\
  words (s2b "x京都に行く") = Ok [Word UNKNOWN 4 0 1; Word USER 0 1 3; Word KNOWN 6 3 4; Word KNOWN 7 4 6] /\
  words (s2b "東京行く") = Ok [Word KNOWN 3 0 2; Word KNOWN 8 2 4] /\
  leaving ex_dict [Word KNOWN 0 0 1; Word KNOWN 6 1 2] = Some 0 /\ leaving ex_dict [Word UNKNOWN 4 0 1; Word USER 0 1 3; Word KNOWN 6 3 4] = Some 0 /\
  leaving ex_dict [Word KNOWN 3 0 2] = Some 1 /\ ends_at [Word KNOWN 0 0 1; Word KNOWN 6 1 2] (rcount (s2b "東に")) /\
  s2b "東に行く" = s2b "東に" ++ s2b "行く" /\ s2b "x京都に行く" = s2b "x京都に" ++ s2b "行く" /\ valid_utf8 (s2b "東に") = true /\ valid_utf8 (s2b "x京都に") = true.
Proof. repeat match goal with |- _ /\ _ => split end; by_eval. Qed.
(** Two texts that begin with 東京: before に and before 行く the cut is clear. *)
Lemma cut_by a s : let x := a ++ s in let k := rcount a in
  reaches (d_index ex_dict) x k || reaches (u_index ex_udict) x k || ((k <? rcount x)%nat && groups ex_dict (cat ex_dict x (k - 1)) && Nat.eqb (cat ex_dict x (k - 1)) (cat ex_dict x k)) = false ->
  clear_cut ex_dict (Some ex_udict) x k.
Proof.
  cbv zeta. intros E. apply Bool.orb_false_elim in E. destruct E as (E & E3). apply Bool.orb_false_elim in E. destruct E as (E1 & E2). constructor.
  - apply reaches_not. exact E1.
  - intros ud id i j U. injection U as <-. apply reaches_not. exact E2.
  - intros L. destruct (groups ex_dict (cat ex_dict (a ++ s) (rcount a - 1))); [right|left; reflexivity]. intros Q. rewrite Q, Nat.eqb_refl in E3.
    assert (rcount a <? rcount (a ++ s) = true)%nat as B by (apply Nat.ltb_lt; lia). rewrite B in E3. discriminate E3.
Qed.
Example C116_future_example :
  clear_cut ex_dict (Some ex_udict) (s2b "東京" ++ s2b "に行く") (rcount (s2b "東京")) /\ clear_cut ex_dict (Some ex_udict) (s2b "東京" ++ s2b "にx") (rcount (s2b "東京")) /\
  words (s2b "東京" ++ s2b "に行く") = Ok ([Word KNOWN 3 0 2] ++ [Word KNOWN 6 2 3; Word KNOWN 7 3 5]) /\
  words (s2b "東京" ++ s2b "にx") = Ok ([Word KNOWN 3 0 2] ++ [Word KNOWN 6 2 3; Word UNKNOWN 4 3 4]) /\
  entering ex_dict [Word KNOWN 6 2 3; Word KNOWN 7 3 5] = Some 1 /\ valid_utf8 (s2b "東京") = true.
Proof. split; [apply cut_by; by_eval|]. split; [apply cut_by; by_eval|]. repeat match goal with |- _ /\ _ => split end; by_eval. Qed.
