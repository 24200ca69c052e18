(** Model of programs that use the exported methods of tokenizer/lattice themselves, beside calls
    of the tokenizer: New, then Build, Forward and Backward in any order and any number of times,
    then reading Output, then Free. *)
From Verif Require Export Heap.
Open Scope Z_scope.

(** lattice.go:102, 213, 244 *)
Inductive lop := LBuild (inp : bytes) | LForward (m : lmode) | LBackward (m : lmode).
Definition h_op (ideo : ideographic) (la : addr) (o : lop) : prog unit :=
  match o with
  | LBuild inp => h_build la inp
  | LForward m => h_forward ideo m la
  | LBackward m => h_backward m la
  end.

(** for _, n := range la.Output: the fields of the nodes but prev, which is not exported
    (lattice.go:42, node.go:37-48). *)
Definition h_outputs (la : addr) : prog (list node) :=
  do l <- lat_read la;
  pfold (fun out p =>
           do a <- deref p;
           do n <- node_read a;
           Ret (out ++ [h_val n None]))
        (gs_list (l_output l)) [].

(** One lattice from New (lattice.go:49-55) to Free (lattice.go:57-73). *)
Definition h_use (ideo : ideographic) (d : dict) (u : option udict) (ops : list lop) : prog (list node) :=
  do la <- h_new d u;
  peach (h_op ideo la) ops;;
  do out <- h_outputs la;
  h_free la;;
  Ret out.

(** What a goroutine does: calls of a tokenizer and lattices of its own. *)
Inductive work := Call (j : job) | Use (d : dict) (u : option udict) (ops : list lop).
Inductive outcome := Called (a : answer) | Used (out : list node).
Definition h_work (ideo : ideographic) (w : work) : prog outcome :=
  match w with
  | Call j => do a <- h_job ideo j; Ret (Called a)
  | Use d u ops => do out <- h_use ideo d u ops; Ret (Used out)
  end.
Fixpoint h_works (ideo : ideographic) (ws : list work) : prog (list outcome) :=
  match ws with
  | [] => Ret []
  | w :: ws' =>
    do o <- h_work ideo w;
    do os <- h_works ideo ws';
    Ret (o :: os)
  end.
Definition h_clients (g : memory) (ideo : ideographic) (clients : list (list work)) : memory * list (thread (list outcome)) :=
  (g, map (fun ws => start_thread (h_works ideo ws)) clients).
