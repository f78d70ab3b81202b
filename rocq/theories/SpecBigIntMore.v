(** * SpecBigIntMore: powers, inverses and texts in other radixes *)

From Verif Require Export SpecBigInt.
Local Open Scope Z_scope.

(** What is assumed of [Math.pow]: exact where doubles are, and not below 2^53 for larger powers. *)
Definition faithful_pow (math_pow : Z -> Z -> Z) : Prop :=
  forall a b, 1 < Z.abs a -> 0 < b ->
  (Z.abs (a ^ b) < 2 ^ 53 -> math_pow a b = a ^ b) /\ (2 ^ 53 <= Z.abs (a ^ b) -> 2 ^ 53 <= Z.abs (math_pow a b)).

(** What is assumed of the quotient of logarithms [bigint(text, radix)] compares lengths with: texts it calls short
    have values a double holds. *)
Definition short_enough (radix : Z) (short : nat -> bool) : Prop :=
  forall k, short k = true -> radix ^ Z.of_nat k <= 2 ^ 53.

(** The small letter of a capital one. *)
Definition small_letter (b : byte) : byte :=
  if (65 <=? Byte.to_N b)%N && (Byte.to_N b <=? 90)%N then default b (Byte.of_N (Byte.to_N b + 32)) else b.
(** A text denotes a number: an optional minus sign, then at least one digit below the radix, in either case. *)
Definition denotes (radix : Z) (t : list byte) (z : Z) : Prop :=
  exists (minus : bool) ds n, t = (if minus then txt "-" else []) ++ ds /\ ds <> []
    /\ text_value radix 0 (map small_letter ds) = Some n /\ z = if minus then - n else n.

(** What is assumed of [Math.floor(Math.random()*top)]: a natural number below [top] (0 for [top = 0]). *)
Definition drawn_below (random : nat -> Z -> Z) : Prop :=
  forall k top, 0 <= top -> 0 <= random k top /\ (0 < top -> random k top < top) /\ (top = 0 -> random k top = 0).

(** Miller's test of the odd number [n] for the base [a], with n - 1 = 2^s * b for an odd b: a^b is 1 modulo n, or one
    of a^b, a^(2*b), ..., a^(n-1) is -1.  (Usually the last of these is not looked at; it is never -1 unless an earlier
    one is.) *)
Definition passes_miller (n a : Z) : Prop :=
  exists s b, 0 <= s /\ Z.odd b = true /\ n - 1 = 2 ^ s * b
    /\ ((a ^ b) mod n = 1 \/ exists k, 0 <= k <= s /\ (a ^ (b * 2 ^ k)) mod n = n - 1).
