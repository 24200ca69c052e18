(** When the answer to a body is settled, independent of the decoder. *)
From Verif Require Export SpecDecode.
From Verif Require Import Stream.
Open Scope N_scope.

(** The bytes that arrive, up to the end or the error. *)
Inductive delivers : arrivals -> bytes -> option read_error -> Prop :=
| dl_none : delivers [] [] None
| dl_more c s b e : delivers s b e -> delivers ((c, None) :: s) (c ++ b) e
| dl_end c e s : delivers ((c, Some e) :: s) c (Some e).

(** The bytes so far hold a whole value, or cannot be continued to one.  An object or array ends with
    its bracket; the other values end where something else begins. *)
Definition whole (body : bytes) : Prop :=
  exists w t v rest, body = w ++ t ++ rest /\ blank w /\ reads t v /\ N.of_nat (nesting v) <= 10000 /\
    (In (kind v) ["object"; "array"]%string \/ exists c r, rest = c :: r /\ (v = TNum -> forall q, ~ number_text (t ++ c :: q))).
Definition settled (body : bytes) : Prop := whole body \/ exists p c, offends body p c.
