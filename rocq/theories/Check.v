(** Boolean equality tests, so that examples are checked by evaluating one boolean. *)
From Verif Require Export Lattice.
From Coq Require Import ZifyBool ZifyNat ZifyN.

Class Eqb (A : Type) := { test_eq : A -> A -> bool; test_eq_ok : forall x y, test_eq x y = true <-> x = y }.

#[export] Instance Eqb_nat : Eqb nat := {| test_eq := Nat.eqb; test_eq_ok := Nat.eqb_eq |}.
#[export] Instance Eqb_Z : Eqb Z := {| test_eq := Z.eqb; test_eq_ok := Z.eqb_eq |}.
#[export] Instance Eqb_N : Eqb N := {| test_eq := N.eqb; test_eq_ok := N.eqb_eq |}.
Lemma bool_test_ok x y : Bool.eqb x y = true <-> x = y.
Proof. apply Bool.eqb_true_iff. Qed.
#[export] Instance Eqb_bool : Eqb bool := {| test_eq := Bool.eqb; test_eq_ok := bool_test_ok |}.
Lemma byte_test_ok x y : Byte.eqb x y = true <-> x = y.
Proof. split; [apply Byte.byte_dec_bl|apply Byte.byte_dec_lb]. Qed.
#[export] Instance Eqb_byte : Eqb byte := {| test_eq := Byte.eqb; test_eq_ok := byte_test_ok |}.
Lemma class_test_ok x y : class_eqb x y = true <-> x = y.
Proof. destruct x, y; cbn; split; congruence. Qed.
#[export] Instance Eqb_class : Eqb node_class := {| test_eq := class_eqb; test_eq_ok := class_test_ok |}.

Fixpoint list_test {A} (f : A -> A -> bool) (l1 l2 : list A) : bool :=
  match l1, l2 with
  | [], [] => true
  | x :: l1', y :: l2' => f x y && list_test f l1' l2'
  | _, _ => false
  end.
Lemma list_test_ok {A} `{Eqb A} (x y : list A) : list_test test_eq x y = true <-> x = y.
Proof.
  revert y. induction x as [|a l IH]; intros [|b l']; cbn; try (split; congruence).
  rewrite andb_true_iff, test_eq_ok, IH. split; [intros [-> ->]; reflexivity|intros [= -> ->]; auto].
Qed.
#[export] Instance Eqb_list {A} `{Eqb A} : Eqb (list A) := {| test_eq := list_test test_eq; test_eq_ok := list_test_ok |}.

Definition prod_test {A B} `{Eqb A} `{Eqb B} (x y : A * B) : bool := test_eq (fst x) (fst y) && test_eq (snd x) (snd y).
Lemma prod_test_ok {A B} `{Eqb A} `{Eqb B} (x y : A * B) : prod_test x y = true <-> x = y.
Proof.
  destruct x, y. unfold prod_test. cbn. rewrite andb_true_iff, !test_eq_ok. split; [intros [-> ->]; reflexivity|intros [= -> ->]; auto].
Qed.
#[export] Instance Eqb_prod {A B} `{Eqb A} `{Eqb B} : Eqb (A * B) := {| test_eq := prod_test; test_eq_ok := prod_test_ok |}.

Definition option_test {A} `{Eqb A} (x y : option A) : bool :=
  match x, y with Some a, Some b => test_eq a b | None, None => true | _, _ => false end.
Lemma option_test_ok {A} `{Eqb A} (x y : option A) : option_test x y = true <-> x = y.
Proof. destruct x, y; cbn; rewrite ?test_eq_ok; split; congruence. Qed.
#[export] Instance Eqb_option {A} `{Eqb A} : Eqb (option A) := {| test_eq := option_test; test_eq_ok := option_test_ok |}.

Definition sum_test {A B} `{Eqb A} `{Eqb B} (x y : A + B) : bool :=
  match x, y with inl a, inl b => test_eq a b | inr a, inr b => test_eq a b | _, _ => false end.
Lemma sum_test_ok {A B} `{Eqb A} `{Eqb B} (x y : A + B) : sum_test x y = true <-> x = y.
Proof. destruct x, y; cbn; rewrite ?test_eq_ok; split; congruence. Qed.
#[export] Instance Eqb_sum {A B} `{Eqb A} `{Eqb B} : Eqb (A + B) := {| test_eq := sum_test; test_eq_ok := sum_test_ok |}.

Definition res_test {A} `{Eqb A} (x y : res A) : bool :=
  match x, y with Ok a, Ok b => test_eq a b | Panic, Panic => true | Diverge, Diverge => true | _, _ => false end.
Lemma res_test_ok {A} `{Eqb A} (x y : res A) : res_test x y = true <-> x = y.
Proof. destruct x, y; cbn; rewrite ?test_eq_ok; split; congruence. Qed.
#[export] Instance Eqb_res {A} `{Eqb A} : Eqb (res A) := {| test_eq := res_test; test_eq_ok := res_test_ok |}.

Lemma by_test {A} `{Eqb A} (x y : A) : test_eq x y = true -> x = y.
Proof. apply test_eq_ok. Qed.
Lemma by_test_neq {A} `{Eqb A} (x y : A) : test_eq x y = false -> x <> y.
Proof. intros E Hx. apply test_eq_ok in Hx. congruence. Qed.

(** The call succeeds and its result passes the test. *)
Definition ok_and {A} (r : res A) (P : A -> bool) : bool := match r with Ok a => P a | _ => false end.
Lemma ok_and_ex {A} (r : res A) P : ok_and r P = true -> exists a, r = Ok a /\ P a = true.
Proof. destruct r as [a| |]; try discriminate. intros H. exists a. auto. Qed.

(** The call succeeds and f of its result is b. *)
Lemma run_ex {A B} `{Eqb B} (r : res A) (f : A -> B) (b : B) : ok_and r (fun a => test_eq (f a) b) = true ->
  exists a, r = Ok a /\ f a = b.
Proof. intros E. apply ok_and_ex in E. destruct E as (a & E1 & E2). exists a. split; [assumption|apply test_eq_ok; assumption]. Qed.

Lemma run_ex_and {A B} `{Eqb B} (r : res A) (f : A -> B) (b : B) (Q : Prop) : ok_and r (fun a => test_eq (f a) b) = true -> Q ->
  exists a, r = Ok a /\ f a = b /\ Q.
Proof. intros E HQ. apply run_ex in E. destruct E as (a & E1 & E2). exists a. auto. Qed.

(** Closing x = y and x <> y by evaluating the test. *)
Ltac by_eval := first [apply by_test | apply by_test_neq]; vm_compute; reflexivity.
