(** * SpecBigInt: what the integers of JavaScript tracers stand for *)

From Verif Require Export BigInt.
Local Open Scope Z_scope.

(** The value of a list of digits of base 10^7, least significant first. *)
Fixpoint digits_value (l : list Z) : Z :=
  match l with [] => 0 | d :: l => d + 10 ^ 7 * digits_value l end.

(** An object of the library in proper form, and the integer it stands for. *)
Definition stands_for (i : integer) (z : Z) : Prop :=
  match i with
  | Small v s => z = v /\ Z.abs v < 2 ^ 53 /\ (v <> 0 -> s = (v <? 0))
  | Big ds s =>
      z = (if s then - digits_value ds else digits_value ds)
      /\ Forall (fun d => 0 <= d < 10 ^ 7) ds /\ last ds <> Some 0 /\ 2 ^ 53 <= digits_value ds
  end.

(** The three answers of a JavaScript comparison. *)
Definition comparison_number (c : comparison) : Z := match c with Lt => -1 | Eq => 0 | Gt => 1 end.

(** The value of a digit [0]-[9], [a]-[z]. *)
Definition char_value (b : byte) : option Z :=
  let c := Z.of_N (Byte.to_N b) in
  if (48 <=? c) && (c <=? 57) then Some (c - 48) else if (97 <=? c) && (c <=? 122) then Some (c - 87) else None.
(** The value of a positional numeral, digit by digit from the left, every digit below the radix. *)
Fixpoint text_value (radix acc : Z) (t : list byte) : option Z :=
  match t with
  | [] => Some acc
  | b :: t => match char_value b with
              | Some d => if d <? radix then text_value radix (radix * acc + d) t else None
              | None => None
              end
  end.
(** The text is the numeral of [z]: a minus sign for negative numbers, at least one digit, no leading zero. *)
Definition writes (radix z : Z) (t : list byte) : Prop :=
  exists ds, t = (if z <? 0 then txt "-" else []) ++ ds /\ ds <> [] /\ text_value radix 0 ds = Some (Z.abs z)
    /\ (hd_error ds = Some x30 -> z = 0 /\ length ds = 1%nat).
