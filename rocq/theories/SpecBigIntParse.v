(** * SpecBigIntParse: what integers are read in texts, numbers and lists of digits *)

From Verif Require Export BigIntParse SpecBigIntMore.
Local Open Scope Z_scope.

(** The text is a minus sign or nothing, decimal digits, perhaps a point and more digits, and perhaps an exponent: [e] or [E],
    a plus sign or nothing, digits.  [z] is the integer it denotes, the digits after the point being no more than the
    exponent. *)
Record numeral := Numeral {
  nm_minus : bool;
  nm_digits : list byte;
  nm_point : option (list byte);
  nm_exponent : option (bool * bool * list byte)     (* capital E, plus sign, digits *)
}.
Definition numeral_text (n : numeral) : list byte :=
  (if nm_minus n then txt "-" else []) ++ nm_digits n
  ++ match nm_point n with Some fs => txt "." ++ fs | None => [] end
  ++ match nm_exponent n with
     | Some (capital, plus, ks) => (if (capital : bool) then txt "E" else txt "e") ++ (if (plus : bool) then txt "+" else []) ++ ks
     | None => []
     end.
(** All the digits, without the point. *)
Definition numeral_digits (n : numeral) : list byte := nm_digits n ++ default [] (nm_point n).
(** The integer denoted is [m * 10^k], [k] being the exponent less the number of digits after the point. *)
Definition denotes_integer (n : numeral) (k z : Z) : Prop :=
  numeral_digits n <> []
  /\ (exists e, match nm_exponent n with
                | Some (_, _, ks) => ks <> [] /\ text_value 10 0 ks = Some e
                | None => e = 0 /\ nm_point n = None
                end /\ k = e - Z.of_nat (length (default [] (nm_point n))) /\ 0 <= k)
  /\ exists m, text_value 10 0 (numeral_digits n) = Some m /\ z = (if nm_minus n then -1 else 1) * (m * 10 ^ k).

(** The JavaScript number nearest to an integer (53 bits; beyond 2^1023 it may be infinite). *)
Definition nearest (r : js_number) (z : Z) : Prop :=
  r = JInt (rnd z) \/ (2 ^ 1023 <= Z.abs z /\ r = JNotFinite).
(** A text that is not longer than the texts of JavaScript can be. *)
Definition short_text (n : numeral) : Prop := Z.of_nat (length (numeral_text n)) < 2 ^ 52.
(** JavaScript reads in the text of an integer the number nearest to it. *)
Definition reads_numbers (number : list byte -> js_number) : Prop :=
  forall n k z, denotes_integer n k z -> nearest (number (numeral_text n)) z.
(** JavaScript writes for a number that is an integer of 2^53 or more the text of an integer that is nearest to this
    number (with an exponent below 2^32-1). *)
Definition writes_numbers (to_text : js_number -> list byte) : Prop :=
  forall v, 2 ^ 53 <= Z.abs v < 2 ^ 1024 -> rnd v = v ->
  exists n k z, to_text (JInt v) = numeral_text n /\ denotes_integer n k z /\ short_text n /\ k <= 2 ^ 32 - 2 /\ rnd z = v.

(** The value of a list of digits, the most significant first. *)
Fixpoint horner (base acc : Z) (ds : list Z) : Z :=
  match ds with [] => acc | d :: ds => horner base (base * acc + d) ds end.
(** An argument of the methods of the library - a number, a text or an object - and the integer the library sees in it. *)
Definition means (number : list byte -> js_number) (to_text : js_number -> list byte) (a : js_argument) (x : Z) : Prop :=
  exists i, parse_value number to_text a = Some i /\ stands_for i x.
