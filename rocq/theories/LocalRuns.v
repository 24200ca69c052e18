(** Examples for C88 and C89. *)
From Verif Require Import Check Example SpecLocal LocalFacts FilterFacts Utf8Facts.
From Coq Require Import Lia ZifyBool ZifyNat ZifyN.
Set Implicit Arguments.
Unset Strict Implicit.
Open Scope nat_scope.

Definition insideb (w s : bytes) : bool := existsb (fun k => bytes_eqb w (firstn (length w) (skipn k s))) (seq 0 (S (length s))).
Lemma insideb_ok w s : insideb w s = true <-> inside w s.
Proof.
  unfold insideb. rewrite existsb_exists. split.
  - intros (k & _ & E). apply bytes_eqb_eq in E. exists (firstn k s), (skipn (length w) (skipn k s)).
    rewrite E at 1. rewrite firstn_skipn, firstn_skipn. reflexivity.
  - intros (p & q & ->). exists (length p). split; [apply in_seq; rewrite !app_length; lia|].
    rewrite skipn_app, skipn_all, Nat.sub_diag. cbn [app skipn]. rewrite firstn_app, Nat.sub_diag, firstn_all, firstn_O, app_nil_r. apply bytes_eqb_eq. reflexivity.
Qed.
Lemma same_entries_check s a b : filter (fun e => insideb (fst e) s) a = filter (fun e => insideb (fst e) s) b -> same_entries s a b.
Proof.
  intros E. exists (filter (fun e => insideb (fst e) s) a). split; [|rewrite E]; apply picked_filter; intros e _; apply insideb_ok.
Qed.
(** Entries are taken away, and where one of them begins there is another. *)
Lemma candidates_fewer P d idx inp : picked P (d_index d) idx ->
  (forall i, i < rcount inp -> invokes d (cat d inp i) = true \/ (exists id j, keyword_at idx inp id i j) \/ no_keyword (d_index d) inp i) ->
  forall w, candidate (with_index idx d) None inp w -> candidate d None inp w.
Proof.
  intros HP H w Hc. inversion Hc as [ud id i j E|id i j N [K1 K2]|id i j e N K U J B]; subst; [discriminate| |].
  - apply cand_known; [exact I|]. split; [exact K1|]. cbn in K2. apply (picked_sub HP K2).
  - eapply (@cand_unknown d None inp id i j e); [exact I| |exact U|exact J|exact B]. destruct K as [K|K]; [|right; exact K].
    destruct U as [U _]. destruct (H i ltac:(lia)) as [L|[(id' & j' & L)|L]]; [right; exact L| |left; exact L]. contradiction (K id' j' L).
Qed.
