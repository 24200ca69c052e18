(** Property theorems: the filters over memory (filter/filter.go, pos.go, word.go, ja/filter.go). *)
From Verif Require Import SpecInplace Slices Example InplaceFacts.

(** ** C107 *)
(** Goroutines that filter slices which do not overlap, in every interleaving: memory outside the slices stays
    as it is, and when a call has returned its slice variable and the array behind it are what the call
    alone makes of them. *)
Theorem C107_place : forall m0 js, separate m0 js -> forall n m gs, runs n (m0, starts js) (m, gs) ->
  (forall a i, (forall j, In j js -> ~ reaches (fst j) a i) -> cell m a i = cell m0 a i) /\
  (forall k s c g ts out, nth_error js k = Some (s, c) -> nth_error gs k = Some g -> holds m0 s ts -> call_value c ts = Ok (Some out) -> stopped g = true ->
    g = GDone (shortened s (length out)) /\ holds m s (remains c ts out)).
Proof. exact inplace. Qed.
Print Assumptions C107_place.
(** No run is longer than four steps a token and two a call. *)
Theorem C107_ends : forall m0 js, separate m0 js -> forall n x, runs n (m0, starts js) x ->
  (n <= fold_right (fun j k => 4 * sl_len (fst j) + 2 + k) 0 js)%nat.
Proof. exact inplace_bound. Qed.
Print Assumptions C107_ends.
(** Two goroutines never come to the same place at once. *)
Theorem C107_race : forall m0 js, separate m0 js -> forall n m gs, runs n (m0, starts js) (m, gs) ->
  forall k k' g g' b b' a i a' i', k <> k' -> nth_error gs k = Some g -> nth_error gs k' = Some g' ->
  g_access g = Some (b, a, i) -> g_access g' = Some (b', a', i') -> (a, i) <> (a', i').
Proof. exact inplace_race. Qed.
Print Assumptions C107_race.
(** What g_access says of a step is all there is: memory changes only where it says a write, and what the goroutine does
    depends on memory only where it says an access. *)
Theorem C107_access : forall m g,
  (forall a i, g_access g <> Some (true, a, i) -> cell (fst (g_step m g)) a i = cell m a i) /\
  (forall m', (forall b a i, g_access g = Some (b, a, i) -> cell m' a i = cell m a i) -> snd (g_step m' g) = snd (g_step m g)).
Proof. exact access_all. Qed.
Print Assumptions C107_access.
Example C107_access_example : forall v w, let s := Sl 0 0 2 2 in let p := Pass (fun _ => Ok false) true in
  g_access (GHead s 1 0 p []) = Some (false, 0, 1)%nat /\ g_step [[w; v]] (GHead s 1 0 p []) = ([[w; v]], GRead v s 1 0 p []) /\
  g_access (GRead v s 1 0 p []) = Some (true, 0, 0)%nat /\ g_step [[w; v]] (GRead v s 1 0 p []) = ([[v; v]], GHead s 2 1 p []).
Proof. intros v w. repeat split. Qed.
(** The new slice holds the result. *)
Theorem C107_result : forall c ts out m s, call_value c ts = Ok (Some out) -> holds m s (remains c ts out) ->
  holds m (shortened s (length out)) out.
Proof. exact inplace_result. Qed.
Print Assumptions C107_result.

(** One array holds the tokens of "東京に行く" twice. One goroutine drops two words from the first three, another
    runs Drop of filter/ja on the others; their steps alternate. Both are left with 行く. *)
Definition inplace_tokens : list token :=
  match analyze ex_ideo (Tokenizer ex_dict None true) (s2b "東京に行く") mode_normal with Ok ts => ts | _ => [] end.
Definition inplace_jobs : list job :=
  [(Sl 0 0 3 6, WordDrop (new_word_filter [s2b "に"; s2b "東京"]));
   (Sl 0 3 3 3, JaDrop (JaFilter (new_pos_filter []) (new_pos_filter [[s2b "助詞"]]) (new_word_filter [s2b "東京"])))]%nat.
Definition done_view (g : gstate) : option (nat * nat * nat * nat) :=
  match g with GDone s => Some (sl_arr s, sl_off s, sl_len s, sl_cap s) | _ => None end.
Definition mem_view (m : tmemory) : list (list bytes) := map (map t_surface) m.
Lemma inplace_three : exists a b c, inplace_tokens = [a; b; c].
Proof.
  assert (L : length inplace_tokens = 3%nat) by by_eval. destruct inplace_tokens as [|a [|b [|c [|d r]]]]; try discriminate. exists a, b, c. reflexivity.
Qed.
Example C107_example : separate [inplace_tokens ++ inplace_tokens] inplace_jobs /\
  exists n m gs, runs n ([inplace_tokens ++ inplace_tokens], starts inplace_jobs) (m, gs) /\
    map done_view gs = [Some (0, 0, 1, 6); Some (0, 3, 1, 3)]%nat /\
    mem_view m = [[s2b "行く"; s2b "に"; s2b "行く"; s2b "行く"; s2b "行く"; s2b "行く"]].
Proof.
  split.
  - destruct inplace_three as (a & b & c & ->). split.
    + intros j [<-|[<-|[]]]; exists [a; b; c]; (split; [reflexivity|]); (split; [cbn; lia|]); intros [|[|[|i]]] I; try reflexivity; cbn in I; lia.
    + intros [|[|k]] [|[|k']] j j' J J' K; cbn in J, J'; try congruence; try (destruct k; discriminate); try (destruct k'; discriminate);
        injection J as <-; injection J' as <-; intros x i (_ & A) (_ & B); cbn in A, B; lia.
  - destruct (@sched_ex (concat (repeat [0; 1]%nat 14)) ([inplace_tokens ++ inplace_tokens], starts inplace_jobs)
      (fun x => test_eq (map done_view (snd x), mem_view (fst x))
        ([Some (0, 0, 1, 6); Some (0, 3, 1, 3)]%nat, [[s2b "行く"; s2b "に"; s2b "行く"; s2b "行く"; s2b "行く"; s2b "行く"]]))) as (n & m & gs & R & V); [vm_compute; reflexivity|].
    exists n, m, gs. split; [exact R|]. apply by_test in V. cbn [fst snd] in V. injection V as V1 V2. split; assumption.
Qed.
