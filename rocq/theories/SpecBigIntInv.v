(** * SpecBigIntInv: the number of divisions of Euclid's algorithm *)

From Coq Require Export ZArith.
Local Open Scope Z_scope.

(** [divisions a b n]: Euclid's algorithm on [a] and [b] divides [n] times before it meets a zero. *)
Inductive divisions : Z -> Z -> nat -> Prop :=
  | no_division a : divisions a 0 0
  | one_division a b n : b <> 0 -> divisions b (a mod b) n -> divisions a b (S n).
