(** Model of Lattice.String (tokenizer/lattice/lattice.go:180-190) with fmt's %v of a *Node.  Addresses
    are the parameter [addr], as in Dot.v. *)
From Verif Require Export Dot Token.
Open Scope Z_scope.

(** %v of a *Node: the fields of the struct between &{ and }; Class has a String method; prev, a pointer
    inside a struct, is an address or <nil>. *)
Definition node_text (addr : nat * nat -> bytes) (n : node) : bytes :=
  s2b "&{" ++ join (s2b " ")
    [itoa (n_id n); itoa (Z.of_nat (n_position n)); itoa (Z.of_nat (n_start n)); class_string (n_class n);
     itoa (n_cost n); itoa (n_left n); itoa (n_right n); itoa (n_weight n); n_surface n;
     match n_prev n with Some c => addr c | None => s2b "<nil>" end] ++ s2b "}".
(** lattice.go:182-188: the loop over la.list, from index i *)
Fixpoint lists_text (addr : nat * nat -> bytes) (i : nat) (l : table) : bytes :=
  match l with
  | [] => []
  | nodes :: l' =>
    s2b "[" ++ itoa (Z.of_nat i) ++ s2b "] :" ++ nl ++
    concat (map (fun node => node_text addr node ++ nl) nodes) ++ nl ++ lists_text addr (S i) l'
  end.
Definition lattice_string (addr : nat * nat -> bytes) (la : table) : bytes := lists_text addr 0 la.
