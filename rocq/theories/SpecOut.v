(** Vocabulary for the token lists Analyze returns. *)
From Verif Require Export SpecTok Tokenizer.
Open Scope Z_scope.

(** BOS/EOS tokens are those with ID -1. *)
Definition is_marker (t : token) : bool := t_id t =? -1.
Definition no_markers (ts : list token) : list token := filter (fun t => negb (is_marker t)) ts.

(** The surfaces of the tokens other than BOS/EOS, concatenated. *)
Definition surfaces (ts : list token) : bytes := concat (map t_surface (no_markers ts)).

(** The words the tokens other than BOS/EOS stand for. *)
Definition word_of (t : token) : word := Word (t_class t) (t_id t) (t_start t) (t_end t).
Definition words_of (ts : list token) : list word := map word_of (no_markers ts).

Definition set_index (k : nat) (t : token) : token :=
  Token k (t_id t) (t_class t) (t_position t) (t_start t) (t_end t) (t_surface t) (t_dict t) (t_udict t).

(** Index fields set to k, k+1, ... *)
Fixpoint renumber (k : nat) (ts : list token) : list token :=
  match ts with
  | [] => []
  | t :: ts' => set_index k t :: renumber (S k) ts'
  end.

(** Either no literal U+FFFD in the input, or its category is grouped. *)
Definition fffd_ok (d : dict) (inp : bytes) : Prop :=
  (forall i, ~ literal_fffd inp i) \/ groups d (d_category d rune_error) = true.

(** One DUMMY token per rune of the token t of the input. *)
Definition per_rune (inp : bytes) (t : token) : list token :=
  map (fun k => Token 0 (t_id t) DUMMY (offset inp k) k (S k) (encode_rune (rune_at inp k)) (t_dict t) (t_udict t))
      (seq (t_start t) (t_end t - t_start t)).

(** Extended mode: unknown words are replaced by their runes. *)
Definition expand (inp : bytes) (t : token) : list token :=
  match t_class t with UNKNOWN => per_rune inp t | _ => [t] end.

(** Each token starts where the preceding one ends. *)
Fixpoint contiguous (ts : list token) : Prop :=
  match ts with
  | a :: ((b :: _) as r) => t_start b = t_end a /\ contiguous r
  | _ => True
  end.

(** Every position inside the input is the end of some candidate word. *)
Definition no_gaps (d : dict) (u : option udict) (inp : bytes) : Prop :=
  forall k, (0 < k < rcount inp)%nat -> exists w, candidate d u inp w /\ w_stop w = k.

(** ** Lengths *)
(** Numbers of runes up to which the 32 bit costs are exact enough. *)
Definition lossless_limit (mode : Z) : Z :=
  if (mode =? mode_search) || (mode =? mode_extended) then 31333 else 32768.
Definition optimal_limit (mode : Z) : Z :=
  if (mode =? mode_search) || (mode =? mode_extended) then 31333 else 32767.
(** No position is skipped when costs cannot saturate or no position is a gap. *)
Definition no_loss (d : dict) (u : option udict) (inp : bytes) (mode : Z) : Prop :=
  Z.of_nat (rcount inp) <= lossless_limit mode \/ no_gaps d u inp.
