(** Property theorems: the text of a lattice. *)
From Verif Require Import Check Example Utf8Facts LatticeTextFacts.
Open Scope Z_scope.

(** ** C96 *)
(** After Build, String shows each candidate word of the text in the paragraph of the position where it ends,
    with its dictionary entry, without cost and without predecessor. *)
Theorem C96_built : forall addr d u inp, wf_dict d -> wf_udict u -> fffd_ok d inp ->
  exists la cells, build d u inp = Ok la /\ shows d u inp cells (0, s2b "<nil>") (lattice_string addr la) /\
  forall p w c a, (0 < p <= rcount inp)%nat -> In (w, c, a) (cells p) -> c = 0 /\ a = s2b "<nil>".
Proof. exact string_built. Qed.
Print Assumptions C96_built.
(** After Forward it shows, for EOS and for each word that can be reached, the cost of the cheapest way to it, and
    the address of the last node before it on such a way.  A word that starts where none ends shows the largest cost
    and no address. *)
Theorem C96_forward : forall addr d u inp, wf_dict d -> wf_udict u -> fffd_ok d inp ->
  forall ideo m, Z.of_nat (rcount inp) <= cost_limit m -> exists la la' cells c a,
  build d u inp = Ok la /\ forward d ideo m la = Ok la' /\ shows d u inp cells (c, a) (lattice_string addr la') /\
  (leads addr d u inp cells (rcount inp) a (fun ws => c = seg_cost m ideo d inp ws) /\
   forall ws, segmentation d u inp ws -> c <= seg_cost m ideo d inp ws) /\
  forall p w c' a', (0 < p <= rcount inp)%nat -> In (w, c', a') (cells p) ->
    ((exists ws, chain d u inp 0 ws (w_start w)) ->
     leads addr d u inp cells (w_start w) a' (fun ws => c' = way_cost m ideo d inp ws w) /\
     forall ws, chain d u inp 0 ws (w_start w) -> c' <= way_cost m ideo d inp ws w) /\
    ((0 < w_start w)%nat -> (forall v, candidate d u inp v -> w_stop v <> w_start w) -> c' = 2147483647 /\ a' = s2b "<nil>").
Proof. exact string_forwarded. Qed.
Print Assumptions C96_forward.
(** 東京 and 東 + 京, then a letter; the lists name no entry twice. *)
Definition ex_addr (c : nat * nat) : bytes := s2b "0xc0" ++ itoa (Z.of_nat (fst c)) ++ itoa (Z.of_nat (snd c)).
Fixpoint nodupb (l : index_table) : bool := match l with [] => true | (k, i) :: l => negb (existsb (fun e => bytes_eqb (fst e) k && Z.eqb (snd e) i) l) && nodupb l end.
Lemma nodupb_ok l : nodupb l = true -> NoDup l.
Proof.
  induction l as [|[k i] l IH]; cbn [nodupb]; intros H; [constructor|]. apply andb_true_iff in H. destruct H as [H1 H2]. constructor; [|exact (IH H2)].
  intros Hin. apply negb_true_iff in H1. assert (existsb (fun e => bytes_eqb (fst e) k && Z.eqb (snd e) i) l = true); [|congruence].
  apply existsb_exists. exists (k, i). split; [exact Hin|]. cbn [fst snd]. apply andb_true_iff. split; [apply bytes_eqb_eq; reflexivity|apply Z.eqb_refl].
Qed.
Example C96_example : wf_dict ex_dict /\ wf_udict (Some ex_udict) /\ fffd_ok ex_dict (s2b "東京a") /\ NoDup (d_index ex_dict) /\ NoDup (u_index ex_udict) /\
  exists la, build ex_dict (Some ex_udict) (s2b "東京a") = Ok la /\ lattice_string ex_addr la = s2b "[0] :
&{-1 0 0 DUMMY 0 0 0 0  <nil>}

[1] :
&{0 0 0 KNOWN 0 0 0 600 東 <nil>}

[2] :
&{3 0 0 KNOWN 0 1 1 200 東京 <nil>}
&{1 3 1 KNOWN 0 0 0 600 京 <nil>}

[3] :
&{4 6 2 UNKNOWN 0 1 0 700 a <nil>}

[4] :
&{-1 7 3 DUMMY 0 0 0 0  <nil>}

".
Proof.
  split; [exact wf_ex|]. split; [exact wf_ex_udict|]. split; [right; reflexivity|]. split; [apply nodupb_ok; vm_compute; reflexivity|].
  split; [apply nodupb_ok; vm_compute; reflexivity|]. apply run_ex. vm_compute. reflexivity.
Qed.
Example C96_example_forward : Z.of_nat (rcount (s2b "東京a")) <= cost_limit LSearch /\
  exists la', (let* la := build ex_dict (Some ex_udict) (s2b "東京a") in forward ex_dict ex_ideo LSearch la) = Ok la' /\ lattice_string ex_addr la' = s2b "[0] :
&{-1 0 0 DUMMY 0 0 0 0  <nil>}

[1] :
&{0 0 0 KNOWN 610 0 0 600 東 0xc000}

[2] :
&{3 0 0 KNOWN 220 1 1 200 東京 0xc000}
&{1 3 1 KNOWN 1220 0 0 600 京 0xc010}

[3] :
&{4 6 2 UNKNOWN 960 1 0 700 a 0xc020}

[4] :
&{-1 7 3 DUMMY 970 0 0 0  0xc030}

".
Proof. split; [vm_compute; discriminate|]. apply run_ex. vm_compute. reflexivity. Qed.
