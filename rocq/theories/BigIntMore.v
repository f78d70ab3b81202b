(** * BigIntMore: powers, divisors and texts in other radixes (/repo/src/tracing/js/bigint.js)

    Same conventions as in BigInt.v.  Arguments are integers of the library ([parseValue] leaves them as they are);
    a loop has as much fuel as its argument has binary digits ([text_fuel] is a bound on their number). *)

From Verif Require Export BigInt.
Local Open Scope Z_scope.

(** [divide], [mod]/[remainder]; [Panic] stands for "Cannot divide by zero" where the caller has excluded it *)
Definition int_divide (a b : integer) : res integer :=
  let! r := div_mod a b in let! r := expect r in Ok (fst r).
Definition int_mod (a b : integer) : res integer :=
  let! r := div_mod a b in let! r := expect r in Ok (snd r).

(** ** Powers *)
Section Powers.
  (** [useKaratsuba] as in [multiply]; [Math.pow] of two integers (an infinity is any number of 2^53 or more) *)
  Context (uk : nat -> nat -> bool) (math_pow : Z -> Z -> Z).

  (** [pow]: its loop.  ([b&1===1] is [b&true]; [b/=2] is exact, [b] being even then) *)
  Fixpoint pow_loop (fuel : nat) (x y : integer) (b : Z) : res integer :=
    let! y := (if Z.land b 1 =? 1 then multiply uk y x else Ok y) in
    let b := if Z.land b 1 =? 1 then b ⊖ 1 else b in
    if b =? 0 then Ok y
    else match fuel with
         | O => OutOfFuel
         | S fuel => pow_loop fuel (int_square x) y (b / 2)
         end.
  Definition is_value (n : integer) (c : Z) : bool := match n with Small v _ => v =? c | Big _ _ => false end.
  (** [pow]; [None]: "The exponent is too large" *)
  Definition int_pow (this n : integer) : res (option integer) :=
    if is_value n 0 then Ok (Some (mk_small 1))
    else if is_value this 0 then Ok (Some (mk_small 0))
    else if is_value this 1 then Ok (Some (mk_small 1))
    else if is_value this (-1) then Ok (Some (if is_even n then mk_small 1 else mk_small (-1)))
    else if int_sign n then Ok (Some (mk_small 0))
    else
      match n with
      | Big _ _ => Ok None
      | Small b _ =>
          let loop := rmap Some (pow_loop (text_fuel n) this (mk_small 1) b) in
          match this with
          | Small a _ => let value := math_pow a b in if is_precise value then Ok (Some (mk_small value)) else loop
          | Big _ _ => loop
          end
      end.

  (** [modPow]: its loop *)
  Fixpoint mod_pow_loop (fuel : nat) (exp base r m : integer) : res integer :=
    if is_positive exp then
      if is_zero base then Ok (mk_small 0)
      else
        match fuel with
        | O => OutOfFuel
        | S fuel =>
            let! r := (if is_odd exp then let! p := multiply uk r base in int_mod p m else Ok r) in
            let! exp := int_divide exp (mk_small 2) in
            let! base := int_mod (int_square base) m in
            mod_pow_loop fuel exp base r m
        end
    else Ok r.
  (** [modPow]; [None]: "Cannot take modPow with modulus 0" *)
  Definition int_mod_pow (this exp m : integer) : res (option integer) :=
    if is_zero m then Ok None
    else
      let! base := int_mod this m in
      rmap Some (mod_pow_loop (S (text_fuel exp)) exp base (mk_small 1) m).

  (** [modInv]: its loop *)
  Fixpoint mod_inv_loop (fuel : nat) (t new_t r new_r : integer) : res (integer * integer) :=
    if equals new_r (mk_small 0) then Ok (t, r)
    else
      match fuel with
      | O => OutOfFuel
      | S fuel =>
          let! q := int_divide r new_r in
          let! p := multiply uk q new_t in
          let! s := multiply uk q new_r in
          mod_inv_loop fuel new_t (subtract t p) new_r (subtract r s)
      end.
  (** [modInv]; [None]: "are not co-prime" *)
  Definition int_mod_inv (this n : integer) : res (option integer) :=
    let! done := mod_inv_loop (2 * S (text_fuel this)) (mk_small 0) (mk_small 1) n (int_abs this) in
    let '(t, r) := done in
    if negb (equals r (mk_small 1)) then Ok None
    else
      let t := if int_compare t (mk_small 0) =? -1 then add t n else t in
      Ok (Some (if is_negative this then negate t else t)).
End Powers.

(** ** Divisors *)

(** [isDivisibleBy] *)
Definition is_divisible_by (this n : integer) : res bool :=
  if is_value n 0 then Ok false
  else if is_value n 1 then Ok true
  else if is_value n 2 then Ok (is_even this)
  else let! r := int_mod this n in Ok (equals r (mk_small 0)).

(** [max], [min] *)
Definition int_max (a b : integer) : integer := if greater a b then a else b.
Definition int_min (a b : integer) : integer := if lesser a b then a else b.

(** JavaScript's conversion of the operands of [|] and [&] *)
Definition to_int32 (z : Z) : Z := (z + 2 ^ 31) mod 2 ^ 32 - 2 ^ 31.
(** [LOBMASK_I], [LOBMASK_BI]: [BASE&-BASE] is 2^7 *)
Definition LOBMASK_I : Z := Z.shiftl 1 30.
Definition LOBMASK_BI : Z := Z.lor (Z.land BASE (- BASE) * Z.land BASE (- BASE)) LOBMASK_I.
(** [roughLOB].  (An array has at least two digits here.) *)
Definition rough_lob (n : integer) : Z :=
  let x := match n with
           | Small v _ => Z.lor (to_int32 v) LOBMASK_I
           | Big v _ => Z.lor (to_int32 (nth 0 v 0 ⊕ nth 1 v 0 ⊗ BASE)) LOBMASK_BI
           end in
  Z.land x (to_int32 (- x)).

(** [gcd]: the loop [while(a.isEven()&&b.isEven())] *)
Fixpoint gcd_both_even (uk : nat -> nat -> bool) (fuel : nat) (a b c : integer) : res (integer * integer * integer) :=
  if is_even a && is_even b then
    match fuel with
    | O => OutOfFuel
    | S fuel =>
        let d := mk_small (Z.min (rough_lob a) (rough_lob b)) in
        let! a := int_divide a d in
        let! b := int_divide b d in
        let! c := multiply uk c d in
        gcd_both_even uk fuel a b c
    end
  else Ok (a, b, c).
(** [gcd]: the loops [while(a.isEven())] and [while(b.isEven())] *)
Fixpoint gcd_make_odd (fuel : nat) (a : integer) : res integer :=
  if is_even a then
    match fuel with
    | O => OutOfFuel
    | S fuel => let! a := int_divide a (mk_small (rough_lob a)) in gcd_make_odd fuel a
    end
  else Ok a.
(** [gcd]: the loop [do ... while(!b.isZero())] *)
Fixpoint gcd_loop (fuel : nat) (a b : integer) : res integer :=
  match fuel with
  | O => OutOfFuel
  | S fuel =>
      let! b := gcd_make_odd (S (text_fuel b)) b in
      let '(a, b) := if greater a b then (b, a) else (a, b) in
      let b := subtract b a in
      if is_zero b then Ok a else gcd_loop fuel a b
  end.
(** [gcd] *)
Definition int_gcd (uk : nat -> nat -> bool) (a b : integer) : res integer :=
  let a := int_abs a in
  let b := int_abs b in
  if equals a b then Ok a
  else if is_zero a then Ok b
  else if is_zero b then Ok a
  else
    let! x := gcd_both_even uk (S (text_fuel a)) a b (mk_small 1) in
    let '(a, b, c) := x in
    let! a := gcd_make_odd (S (text_fuel a)) a in
    let! a := gcd_loop (S (S (text_fuel a) + S (text_fuel b))) a b in
    if is_unit c then Ok a else multiply uk a c.
(** [lcm]; [None]: "Cannot divide by zero" *)
Definition int_lcm (uk : nat -> nat -> bool) (a b : integer) : res (option integer) :=
  let a := int_abs a in
  let b := int_abs b in
  let! g := int_gcd uk a b in
  let! r := div_mod a g in
  match r with
  | None => Ok None
  | Some (q, _) => rmap Some (multiply uk q b)
  end.

(** ** Texts in other radixes *)

(** [toLowerCase], on ASCII *)
Definition lower_case (b : byte) : byte :=
  let c := Byte.to_N b in if (65 <=? c)%N && (c <=? 90)%N then default b (Byte.of_N (c + 32)) else b.
(** the tests [/[0-9]/] and [/[a-z]/], with the value of the digit: [+c] and [c.charCodeAt(0)-87] *)
Definition base_digit (c : byte) : option Z :=
  let v := Z.of_N (Byte.to_N c) in
  if (48 <=? v) && (v <=? 57) then Some (v - 48) else if (97 <=? v) && (v <=? 122) then Some (v - 87) else None.
(** [parseBase]: its first loop, for a radix of at least 2: are all letters and digits valid? *)
Definition base_chars_valid (text : list byte) (base : Z) : bool :=
  forallb (fun b => match base_digit (lower_case b) with Some d => negb (base <=? d) | None => true end) text.
(** [parseInt]: the longest prefix of digits; [None]: there is none, [NaN] *)
Fixpoint parse_int_digits (text : list byte) (base : Z) (found : bool) (acc : Z) : option Z :=
  match text with
  | b :: text =>
      match base_digit (lower_case b) with
      | Some d => if d <? base then parse_int_digits text base true (base * acc + d) else if found then Some acc else None
      | None => if found then Some acc else None
      end
  | [] => if found then Some acc else None
  end.
(** [parseInt(text, base)], for a text that does not begin with a blank; the result of the texts it is used for stays
    below 2^53.  ([0x] is not skipped: with radix 16, [parseBase] has refused the [x].) *)
Definition parse_int (text : list byte) (base : Z) : option Z :=
  match text with
  | b :: rest =>
      if Byte.eqb b x2d then option_map Z.opp (parse_int_digits rest base false 0)
      else if Byte.eqb b x2b then parse_int_digits rest base false 0
      else parse_int_digits text base false 0
  | [] => None
  end.
(** [parseBase]: the digits; [None]: "is not a valid character".  A [<] is left out (it is refused here, while the
    library reads a number up to the next [>]: [base_digits_any] in BigIntRadix.v). *)
Fixpoint base_digits (text : list byte) : option (list integer) :=
  match text with
  | [] => Some []
  | b :: text =>
      match base_digit (lower_case b), base_digits text with
      | Some d, Some ds => Some (mk_small d :: ds)
      | _, _ => None
      end
  end.
(** [parseBaseFromArray]: its loop, from the last digit; the result is [val] and [pow] *)
Fixpoint from_digits_loop (uk : nat -> nat -> bool) (digits : list integer) (base : integer) : res (integer * integer) :=
  match digits with
  | [] => Ok (mk_small 0, mk_small 1)
  | d :: digits =>
      let! x := from_digits_loop uk digits base in
      let '(val, power) := x in
      let! p := multiply uk d power in
      let! power := multiply uk power base in
      Ok (add val p, power)
  end.
(** [parseBaseFromArray] *)
Definition parse_base_from_array (uk : nat -> nat -> bool) (digits : list integer) (base : integer) (is_negative : bool) : res integer :=
  let! x := from_digits_loop uk digits base in
  Ok (if is_negative then negate (fst x) else fst x).
(** [bigint(text, radix)] for a radix from 2 to 36; [None]: an exception.  [short n] tells whether [n] is at most
    [LOG_MAX_INT/Math.log(base)], a quotient of two rounded logarithms. *)
Definition parse_base (uk : nat -> nat -> bool) (short : nat -> bool) (text : list byte) (base : Z) : res (option integer) :=
  if base =? 10 then Ok (parse_string text)
  else if negb (base_chars_valid text base) then Ok None
  else if short (length text) then Ok (option_map mk_small (parse_int text base))
  else
    let is_negative := match text with b :: _ => Byte.eqb b x2d | [] => false end in
    match base_digits (if is_negative then drop 1 text else text) with
    | None => Ok None
    | Some digits => rmap Some (parse_base_from_array uk digits (mk_small base) is_negative)
    end.
