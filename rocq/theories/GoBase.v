(** Go basics used by the model: byte strings, slices, panics. *)
From Coq Require Export Strings.String.
From Coq Require Export List Arith NArith ZArith Lia Bool.
From Coq Require Export Strings.Byte.
Export ListNotations.
Set Implicit Arguments.

(** Result of running Go code: a value, a run-time panic, or exhausted fuel (a loop that the
    model could not finish; the theorems show it never happens). *)
Inductive res (A : Type) : Type :=
| Ok (a : A)
| Panic
| Diverge.
Arguments Ok {A} a.
Arguments Panic {A}.
Arguments Diverge {A}.

Definition rbind {A B : Type} (x : res A) (f : A -> res B) : res B :=
  match x with
  | Ok a => f a
  | Panic => Panic
  | Diverge => Diverge
  end.

Notation "'let*' x ':=' e1 'in' e2" := (rbind e1 (fun x => e2))
  (at level 200, x pattern, e1 at level 100, e2 at level 200, right associativity).

(** A loop [for _, x := range l { s = f(s, x) }] whose body may panic. *)
Fixpoint foldM {A B : Type} (f : A -> B -> res A) (l : list B) (a : A) : res A :=
  match l with
  | [] => Ok a
  | x :: l' => let* a' := f a x in foldM f l' a'
  end.

(** [mapM f l]: build a slice element by element. *)
Fixpoint mapM {A B : Type} (f : A -> res B) (l : list A) : res (list B) :=
  match l with
  | [] => Ok []
  | x :: l' => let* y := f x in let* ys := mapM f l' in Ok (y :: ys)
  end.

(** Go strings and []byte contents are byte sequences. *)
Definition bytes := list byte.

Definition b2n (b : byte) : N := Byte.to_N b.
Definition n2b (n : N) : byte := match Byte.of_N n with Some b => b | None => x00 end.

(** String literals of the Go source (UTF-8, like Go's). *)
Definition s2b (s : string) : bytes := list_byte_of_string s.

Fixpoint bytes_eqb (a b : bytes) : bool :=
  match a, b with
  | [], [] => true
  | x :: a', y :: b' => Byte.eqb x y && bytes_eqb a' b'
  | _, _ => false
  end.

(** Slice expression s[i:j]. *)
Definition slice {A : Type} (s : list A) (i j : nat) : res (list A) :=
  if (i <=? j) && (j <=? length s) then Ok (firstn (j - i) (skipn i s)) else Panic.

(** Index expression s[i] with an int index. *)
Definition indexZ {A : Type} (s : list A) (i : Z) : res A :=
  if (i <? 0)%Z then Panic
  else match nth_error s (Z.to_nat i) with Some x => Ok x | None => Panic end.

Definition index {A : Type} (s : list A) (i : nat) : res A :=
  match nth_error s i with Some x => Ok x | None => Panic end.

(** Assignment s[i] = f(s[i]). *)
Fixpoint update_nth {A : Type} (s : list A) (i : nat) (f : A -> A) : list A :=
  match s, i with
  | [], _ => []
  | x :: s', O => f x :: s'
  | x :: s', S i' => x :: update_nth s' i' f
  end.

Definition update {A : Type} (s : list A) (i : nat) (f : A -> A) : res (list A) :=
  if i <? length s then Ok (update_nth s i f) else Panic.

(** Go maps: lookup with the zero value for a missing key ([m[k]]) and the two-value form. *)
Fixpoint assoc {K V : Type} (eqb : K -> K -> bool) (m : list (K * V)) (k : K) : option V :=
  match m with
  | [] => None
  | (k', v) :: m' => if eqb k k' then Some v else assoc eqb m' k
  end.

(** strings.Join *)
Fixpoint join (sep : bytes) (l : list bytes) : bytes :=
  match l with
  | [] => []
  | [x] => x
  | x :: l' => x ++ sep ++ join sep l'
  end.

(** int32(x) conversion of an int64. *)
Definition wrap32 (x : Z) : Z := ((x + 2147483648) mod 4294967296 - 2147483648)%Z.
