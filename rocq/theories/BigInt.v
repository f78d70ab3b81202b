(** * BigInt: the integers of JavaScript tracers (/repo/src/tracing/js/bigint.js)

    Every 256-bit number a JavaScript tracer sees is made by the global [bigint], the bundled library modelled here.
    The whole library is line 1 of bigint.js, so definitions cite the JavaScript function they model.

    A JavaScript number is an IEEE double.  Here it is the integer it stands for, and every [+], [-], [*] and [/] of
    the library that can act on numbers of unbounded size is followed by the rounding a double makes ([rnd],
    [floor_div]).  Simplifications: no infinities, no NaN (neither is reached) and no difference between 0 and -0 (no
    function of the library looks at it); array lengths and array positions are natural numbers; a JavaScript array is
    a list, so an array that the library changes in place is returned instead; a thrown error is [None]. *)

From Verif Require Export JsObjects.
Local Open Scope Z_scope.

(** ** Numbers *)

(** The double nearest to an integer. *)
Definition rnd (z : Z) : Z := Z.sgn z * Z.of_N (f64_of (Z.abs_N z)).
Definition nadd (a b : Z) : Z := rnd (a + b).
Definition nsub (a b : Z) : Z := rnd (a - b).
Definition nmul (a b : Z) : Z := rnd (a * b).
Infix "⊕" := nadd (at level 50, left associativity).
Infix "⊖" := nsub (at level 50, left associativity).
Infix "⊗" := nmul (at level 40, left associativity).

(** The double nearest to [|x| / |y|], in units of 2^-121: the quotient to 121 binary places, its last place standing
    for whatever is cut off, is rounded to 53 significant ones.  (Exact: it has more than 55 significant places
    whenever it is not zero, because [y] stays below 2^65.) *)
Definition quo (x y : Z) : N :=
  let n := (2 ^ 120 * Z.abs_N x)%N in
  let d := Z.abs_N y in
  f64_of (2 * (n / d) + (if n mod d =? 0 then 0 else 1))%N.
(** [Math.floor(x / y)], for [y > 0] *)
Definition floor_div (x y : Z) : Z :=
  if 0 <=? x then Z.of_N (quo x y / 2 ^ 121) else - Z.of_N ((quo x y + 2 ^ 121 - 1) / 2 ^ 121).
(** [Math.ceil(x / y)], for [y > 0] *)
Definition ceil_div (x y : Z) : Z := - floor_div (- x) y.
(** [truncate(x / y)] *)
Definition trunc_div (x y : Z) : Z := Z.sgn x * Z.sgn y * floor_div (Z.abs x) (Z.abs y).

Definition BASE : Z := 10000000.
Definition MAX_INT : Z := 9007199254740992.

(** [isPrecise] *)
Definition is_precise (n : Z) : bool := (- MAX_INT <? n) && (n <? MAX_INT).

(** ** Arrays of digits, least significant first *)

(** [smallToArray] *)
Definition small_to_array (n : Z) : list Z :=
  if n <? 10000000 then [n]
  else if n <? 100000000000000 then [Z.rem n 10000000; floor_div n 10000000]
  else [Z.rem n 10000000; Z.rem (floor_div n 10000000) 10000000; floor_div n 100000000000000].
Definition MAX_INT_ARR : list Z := small_to_array MAX_INT.

(** [trim] *)
Fixpoint trim (v : list Z) : list Z :=
  match v with
  | [] => []
  | d :: v => match trim v with [] => if d =? 0 then [] else [d] | v' => d :: v' end
  end.

(** [createArray] *)
Definition create_array (length : nat) : list Z := replicate length 0.

(** the loop of [compareAbs], from the most significant digit *)
Fixpoint compare_digits (a b : list Z) : Z :=
  match a, b with
  | x :: a, y :: b => if x =? y then compare_digits a b else if y <? x then 1 else -1
  | _, _ => 0
  end.
(** [compareAbs] (on arrays) *)
Definition compare_arrays (a b : list Z) : Z :=
  if (length a =? length b)%nat then compare_digits (rev a) (rev b)
  else if (length b <? length a)%nat then 1 else -1.

(** A number or an array. *)
Inductive num_or_array := ANum (n : Z) | AArr (v : list Z).

(** [arrayToSmall] *)
Definition array_to_small (arr : list Z) : num_or_array :=
  let arr := trim arr in
  if (length arr <? 4)%nat && (compare_arrays arr MAX_INT_ARR <? 0) then
    match arr with
    | [] => ANum 0
    | [d0] => ANum d0
    | [d0; d1] => ANum (d0 ⊕ d1 ⊗ BASE)
    | d0 :: d1 :: d2 :: _ => ANum (d0 ⊕ (d1 ⊕ d2 ⊗ BASE) ⊗ BASE)
    end
  else AArr arr.

(** [add]: the array [a] is at least as long as [b] *)
Fixpoint add_loop (a b : list Z) (carry : Z) : list Z :=
  match a, b with
  | x :: a, y :: b =>
      let sum := x ⊕ y ⊕ carry in
      let carry := if BASE <=? sum then 1 else 0 in
      (sum ⊖ carry ⊗ BASE) :: add_loop a b carry
  | x :: a, [] =>
      let sum := x ⊕ carry in
      let carry := if sum =? BASE then 1 else 0 in
      (sum ⊖ carry ⊗ BASE) :: add_loop a [] carry
  | [], _ => if 0 <? carry then [carry] else []
  end.
Definition add_arrays (a b : list Z) : list Z := add_loop a b 0.
(** [addAny] *)
Definition add_any (a b : list Z) : list Z :=
  if (length b <=? length a)%nat then add_arrays a b else add_arrays b a.

(** the loop [while(carry>0)] of [addSmall] and [multiplySmall]; a carry has at most three digits *)
Fixpoint push_carry (fuel : nat) (carry : Z) : list Z :=
  match fuel with
  | O => []
  | S fuel => if 0 <? carry then Z.rem carry BASE :: push_carry fuel (floor_div carry BASE) else []
  end.
(** [addSmall] *)
Fixpoint add_small (a : list Z) (carry : Z) : list Z :=
  match a with
  | [] => push_carry 4 carry
  | x :: a =>
      let sum := x ⊖ BASE ⊕ carry in
      let carry := floor_div sum BASE in
      (sum ⊖ carry ⊗ BASE) :: add_small a (carry ⊕ 1)
  end.

(** [subtract]: its second and third loop *)
Fixpoint sub_rest (a : list Z) (borrow : Z) : list Z :=
  match a with
  | [] => []
  | x :: a =>
      let difference := x ⊖ borrow in
      if difference <? 0 then (difference ⊕ BASE) :: sub_rest a borrow else difference :: a
  end.
(** [subtract]: its first loop *)
Fixpoint sub_loop (a b : list Z) (borrow : Z) : list Z :=
  match a, b with
  | x :: a, y :: b =>
      let difference := x ⊖ borrow ⊖ y in
      if difference <? 0 then (difference ⊕ BASE) :: sub_loop a b 1 else difference :: sub_loop a b 0
  | a, _ => sub_rest a borrow
  end.
(** [subtract]: the array [a] is at least as long as [b] *)
Definition sub_arrays (a b : list Z) : list Z := trim (sub_loop a b 0).

(** [subtractSmall]: its loop *)
Fixpoint sub_small_loop (a : list Z) (carry : Z) : list Z :=
  match a with
  | [] => []
  | x :: a =>
      let difference := x ⊕ carry in
      let carry := floor_div difference BASE in
      let difference := Z.rem difference BASE in
      (if difference <? 0 then difference ⊕ BASE else difference) :: sub_small_loop a carry
  end.

(** [multiplyLong]: one row, from position [i+j] of [r] *)
Fixpoint mul_row (a_i : Z) (b r : list Z) : list Z :=
  match b, r with
  | b_j :: b, r0 :: r1 :: r =>
      let product := a_i ⊗ b_j ⊕ r0 in
      let carry := floor_div product BASE in
      (product ⊖ carry ⊗ BASE) :: mul_row a_i b ((r1 ⊕ carry) :: r)
  | _, r => r
  end.
(** [multiplyLong]: all rows; position [i] of [r] is final after row [i] *)
Fixpoint mul_loop (a b r : list Z) : list Z :=
  match a with
  | [] => r
  | a_i :: a => match mul_row a_i b r with r0 :: r => r0 :: mul_loop a b r | [] => [] end
  end.
(** [multiplyLong] *)
Definition mul_long (a b : list Z) : list Z := trim (mul_loop a b (create_array (length a + length b))).
(** [square] (on arrays): the loops of [multiplyLong] with both arrays the same *)
Definition square_array (a : list Z) : list Z := trim (mul_loop a a (create_array (length a + length a))).

(** [multiplySmall]: its first loop *)
Fixpoint mul_small_loop (a : list Z) (b carry : Z) : list Z :=
  match a with
  | [] => push_carry 4 carry
  | x :: a =>
      let product := x ⊗ b ⊕ carry in
      let carry := floor_div product BASE in
      (product ⊖ carry ⊗ BASE) :: mul_small_loop a b carry
  end.
(** [multiplySmall] *)
Definition mul_small (a : list Z) (b : Z) : list Z := mul_small_loop a b 0.

(** [shiftLeft] (on arrays) *)
Definition shift_array (x : list Z) (n : nat) : list Z := replicate n 0 ++ x.

(** [multiplyKaratsuba]; the fuel is the larger length *)
Fixpoint mul_karatsuba (fuel : nat) (x y : list Z) : res (list Z) :=
  let n := Nat.max (length x) (length y) in
  if (n <=? 30)%nat then Ok (mul_long x y)
  else
    match fuel with
    | O => OutOfFuel
    | S fuel =>
        let n := Nat.div2 (S n) in
        let b := drop n x in let a := take n x in
        let d := drop n y in let c := take n y in
        let! ac := mul_karatsuba fuel a c in
        let! bd := mul_karatsuba fuel b d in
        let! abcd := mul_karatsuba fuel (add_any a b) (add_any c d) in
        Ok (trim (add_any (add_any ac (shift_array (sub_arrays (sub_arrays abcd ac) bd) n))
                          (shift_array bd (2 * n))))
    end.

(** ** Division of arrays *)

(** [divModSmall]: from the most significant digit; the result is the quotient's digits, least significant first, and
    the remainder.  [q|0] and [remainder|0] leave numbers below 2^31 as they are. *)
Fixpoint div_small_loop (value : list Z) (lambda : Z) : list Z * Z :=
  match value with
  | [] => ([], 0)
  | v :: value =>
      let '(quotient, remainder) := div_small_loop value lambda in
      let divisor := remainder ⊗ BASE ⊕ v in
      let q := trunc_div divisor lambda in
      (q :: quotient, divisor ⊖ q ⊗ lambda)
  end.
Definition div_small (value : list Z) (lambda : Z) : list Z * Z := div_small_loop value lambda.

(** [divMod1]: subtract [quotientDigit] times the divisor from the part of the remainder above [shift] *)
Fixpoint sub_mul (divisor window : list Z) (quotient_digit carry borrow : Z) : list Z * Z :=
  match divisor, window with
  | d :: divisor, r :: window =>
      let carry := carry ⊕ quotient_digit ⊗ d in
      let q := floor_div carry BASE in
      let borrow := borrow ⊕ (r ⊖ (carry ⊖ q ⊗ BASE)) in
      if borrow <? 0 then
        let '(window, last) := sub_mul divisor window quotient_digit q (-1) in (borrow ⊕ BASE :: window, last)
      else
        let '(window, last) := sub_mul divisor window quotient_digit q 0 in (borrow :: window, last)
  | _, _ => ([], borrow)
  end.
(** [divMod1]: add the divisor back *)
Fixpoint add_back (divisor window : list Z) (carry : Z) : list Z * Z :=
  match divisor, window with
  | d :: divisor, r :: window =>
      let carry := carry ⊕ (r ⊖ BASE ⊕ d) in
      if carry <? 0 then
        let '(window, last) := add_back divisor window 0 in (carry ⊕ BASE :: window, last)
      else
        let '(window, last) := add_back divisor window 1 in (carry :: window, last)
  | _, _ => ([], carry)
  end.
(** [divMod1]: the loop [while(borrow!==0)] *)
Fixpoint correct (fuel : nat) (divisor window : list Z) (quotient_digit borrow : Z) : res (list Z * Z) :=
  if borrow =? 0 then Ok (window, quotient_digit)
  else
    match fuel with
    | O => OutOfFuel
    | S fuel =>
        let '(window, carry) := add_back divisor window 0 in
        correct fuel divisor window (quotient_digit ⊖ 1) (borrow ⊕ carry)
    end.
(** [divMod1]: the loop over [shift]; [k] is [shift + 1].  [result] holds the digits found so far. *)
Fixpoint div1_loop (k b_l : nat) (divisor : list Z) (msd : Z) (remainder result : list Z) : res (list Z * list Z) :=
  match k with
  | O => Ok (result, remainder)
  | S shift =>
      let top := nth (shift + b_l) remainder 0 in
      let quotient_digit :=
        if top =? msd then BASE ⊖ 1
        else floor_div (top ⊗ BASE ⊕ nth (shift + b_l - 1) remainder 0) msd in
      let l := length divisor in
      let '(window, borrow) := sub_mul divisor (take l (drop shift remainder)) quotient_digit 0 0 in
      let! done := correct 4 divisor window quotient_digit borrow in
      let '(window, quotient_digit) := done in
      div1_loop shift b_l divisor msd (take shift remainder ++ window ++ drop (shift + l) remainder)
                (quotient_digit :: result)
  end.
(** [divMod1] *)
Definition div_mod1 (a b : list Z) : res (num_or_array * num_or_array) :=
  let a_l := length a in
  let b_l := length b in
  let lambda := ceil_div BASE (2 ⊗ nth (b_l - 1) b 0) in
  let remainder := mul_small a lambda in
  let divisor := mul_small b lambda ++ [0] in
  let remainder := if (length remainder <=? a_l)%nat then remainder ++ [0] else remainder in
  let msd := nth (b_l - 1) divisor 0 in
  let! done := div1_loop (a_l - b_l + 1) b_l divisor msd remainder [] in
  let '(result, remainder) := done in
  let result := result ++ create_array (b_l - length result) in
  Ok (array_to_small result, array_to_small (fst (div_small remainder lambda))).

(** [divMod2]: the loop [do ... while(guess)] *)
Fixpoint find_guess (fuel : nat) (part b : list Z) (guess : Z) : res (Z * list Z) :=
  match fuel with
  | O => OutOfFuel
  | S fuel =>
      let check := mul_small b guess in
      if compare_arrays check part <=? 0 then Ok (guess, check)
      else
        let guess := guess ⊖ 1 in
        if guess =? 0 then Ok (guess, check) else find_guess fuel part b guess
  end.
(** [divMod2]: the loop over the digits of [a], most significant first; [result] in the order of [result.reverse()] *)
Fixpoint div2_loop (a : list Z) (b part result : list Z) : res (list Z * list Z) :=
  match a with
  | [] => Ok (result, part)
  | x :: a =>
      let part := trim (x :: part) in
      if compare_arrays part b <? 0 then div2_loop a b part (0 :: result)
      else
        let xlen := length part in
        let b_l := length b in
        let highx := nth (xlen - 1) part 0 ⊗ BASE ⊕ nth (xlen - 2) part 0 in
        let highy := nth (b_l - 1) b 0 ⊗ BASE ⊕ nth (b_l - 2) b 0 in
        let highx := if (b_l <? xlen)%nat then (highx ⊕ 1) ⊗ BASE else highx in
        let guess := ceil_div highx highy in
        let! found := find_guess (S (Z.to_nat guess)) part b guess in
        let '(guess, check) := found in
        div2_loop a b (sub_arrays part check) (guess :: result)
  end.
(** [divMod2] *)
Definition div_mod2 (a b : list Z) : res (num_or_array * num_or_array) :=
  let! done := div2_loop (rev a) b [] [] in
  let '(result, part) := done in
  Ok (array_to_small result, array_to_small part).

(** ** Integers *)

(** [SmallInteger] (the flag [sign] is a field of its own: [negate] sets it to the opposite even for 0) and
    [BigInteger]. *)
Inductive integer := Small (value : Z) (sign : bool) | Big (value : list Z) (sign : bool).
(** [new SmallInteger(value)] *)
Definition mk_small (value : Z) : integer := Small value (value <? 0).
Definition int_sign (n : integer) : bool := match n with Small _ s | Big _ s => s end.
(** [new SmallInteger(±value)] or [new BigInteger(value, sign)] *)
Definition mk_integer (value : num_or_array) (sign : bool) : integer :=
  match value with ANum n => mk_small (if sign then - n else n) | AArr v => Big v sign end.

(** [negate] *)
Definition negate (n : integer) : integer :=
  match n with Small v s => Small (- v) (negb s) | Big v s => Big v (negb s) end.
(** [abs] *)
Definition int_abs (n : integer) : integer :=
  match n with Small v _ => mk_small (Z.abs v) | Big v _ => Big v false end.

(** [subtractAny] *)
Definition sub_any (a b : list Z) (sign : bool) : integer :=
  if 0 <=? compare_arrays a b then mk_integer (array_to_small (sub_arrays a b)) sign
  else mk_integer (array_to_small (sub_arrays b a)) (negb sign).
(** [subtractSmall] *)
Definition sub_small (a : list Z) (b : Z) (sign : bool) : integer :=
  mk_integer (array_to_small (sub_small_loop a (- b))) sign.

(** what [add] and [subtract] compare with [n.sign]: [a<0] for a [SmallInteger], [this.sign] for a [BigInteger] *)
Definition this_sign (this : integer) : bool := match this with Small v _ => v <? 0 | Big _ s => s end.
(** [add], after its first test *)
Definition add_same (this n : integer) : integer :=
  match this, n with
  | Big a s, Small b _ => Big (add_small a (Z.abs b)) s
  | Big a s, Big b _ => Big (add_any a b) s
  | Small a _, Small b _ =>
      if is_precise (a ⊕ b) then mk_small (a ⊕ b)
      else Big (add_small (small_to_array (Z.abs b)) (Z.abs a)) (a <? 0)
  | Small a _, Big b _ => Big (add_small b (Z.abs a)) (a <? 0)
  end.
(** [subtract], after its first test *)
Definition sub_same (this n : integer) : integer :=
  match this, n with
  | Big a s, Small b _ => sub_small a (Z.abs b) s
  | Big a s, Big b _ => sub_any a b s
  | Small a _, Small b _ => mk_small (a ⊖ b)
  | Small a _, Big b _ => sub_small b (Z.abs a) (0 <=? a)
  end.
(** [add]/[plus]: with different signs [this.subtract(n.negate())], whose own test then finds equal signs *)
Definition add (this n : integer) : integer :=
  if Bool.eqb (this_sign this) (int_sign n) then add_same this n else sub_same this (negate n).
(** [subtract]/[minus] *)
Definition subtract (this n : integer) : integer :=
  if Bool.eqb (this_sign this) (int_sign n) then sub_same this n else add_same this (negate n).

(** [multiplySmallAndArray] *)
Definition mul_small_and_array (a : Z) (b : list Z) (sign : bool) : integer :=
  if a <? BASE then Big (mul_small b a) sign else Big (mul_long b (small_to_array a)) sign.
(** [BigInteger.prototype.multiply] on two arrays.  [useKaratsuba] compares doubles that depend on the lengths only;
    here it is any function of the lengths. *)
Definition mul_big (use_karatsuba : nat -> nat -> bool) (a b : list Z) (sign : bool) : res integer :=
  if use_karatsuba (length a) (length b)
  then let! v := mul_karatsuba (Nat.max (length a) (length b)) a b in Ok (Big v sign)
  else Ok (Big (mul_long a b) sign).
(** [multiply]/[times], [_multiplyBySmall] *)
Definition multiply (use_karatsuba : nat -> nat -> bool) (this n : integer) : res integer :=
  match this, n with
  | Big a s, Small b s' =>
      let sign := negb (Bool.eqb s s') in
      if b =? 0 then Ok (mk_small 0)
      else if b =? 1 then Ok this
      else if b =? -1 then Ok (negate this)
      else
        let abs := Z.abs b in
        if abs <? BASE then Ok (Big (mul_small a abs) sign)
        else mul_big use_karatsuba a (small_to_array abs) sign
  | Big a s, Big b s' => mul_big use_karatsuba a b (negb (Bool.eqb s s'))
  | Small a s, Small b s' =>
      if is_precise (a ⊗ b) then Ok (mk_small (a ⊗ b))
      else Ok (mul_small_and_array (Z.abs a) (small_to_array (Z.abs b)) (negb (Bool.eqb s' s)))
  | Small a s, Big b s' =>
      if a =? 0 then Ok (mk_small 0)
      else if a =? 1 then Ok n
      else if a =? -1 then Ok (negate n)
      else Ok (mul_small_and_array (Z.abs a) b (negb (Bool.eqb s' s)))
  end.
(** [square] *)
Definition int_square (this : integer) : integer :=
  match this with
  | Big a _ => Big (square_array a) false
  | Small a _ =>
      let value := a ⊗ a in
      if is_precise value then mk_small value else Big (square_array (small_to_array (Z.abs a))) false
  end.

(** [divModAny], from the comparison on *)
Definition div_mod_arrays (self n : integer) (a b : list Z) : res (integer * integer) :=
  let comparison := compare_arrays a b in
  if comparison =? -1 then Ok (mk_small 0, self)
  else if comparison =? 0 then
    Ok (mk_small (if Bool.eqb (int_sign self) (int_sign n) then 1 else -1), mk_small 0)
  else
    let! value := (if (length a + length b <=? 200)%nat then div_mod1 a b else div_mod2 a b) in
    Ok (mk_integer (fst value) (negb (Bool.eqb (int_sign self) (int_sign n))),
        mk_integer (snd value) (int_sign self)).
(** [divModAny]/[divmod]; [None]: "Cannot divide by zero" *)
Definition div_mod (self n : integer) : res (option (integer * integer)) :=
  match self, n with
  | Small a _, Small b _ =>
      if b =? 0 then Ok None else Ok (Some (mk_small (trunc_div a b), mk_small (Z.rem a b)))
  | Small _ _, Big _ _ => Ok (Some (mk_small 0, self))
  | Big a s, Small b s' =>
      if b =? 0 then Ok None
      else if b =? 1 then Ok (Some (self, mk_small 0))
      else if b =? -1 then Ok (Some (negate self, mk_small 0))
      else
        let abs := Z.abs b in
        if abs <? BASE then
          let '(quotient, remainder) := div_small a abs in
          Ok (Some (mk_integer (array_to_small quotient) (negb (Bool.eqb s s')),
                    mk_small (if s then - remainder else remainder)))
        else let! r := div_mod_arrays self n a (small_to_array abs) in Ok (Some r)
  | Big a _, Big b _ => let! r := div_mod_arrays self n a b in Ok (Some r)
  end.

(** [BigInteger.prototype.compareAbs]/[SmallInteger.prototype.compareAbs] *)
Definition compare_abs (this n : integer) : Z :=
  match this, n with
  | Big _ _, Small _ _ => 1
  | Big a _, Big b _ => compare_arrays a b
  | Small a _, Small b _ => if Z.abs a =? Z.abs b then 0 else if Z.abs b <? Z.abs a then 1 else -1
  | Small _ _, Big _ _ => -1
  end.
(** [compare]/[compareTo] (with an integer) *)
Definition int_compare (this n : integer) : Z :=
  match this, n with
  | Big a s, _ =>
      if negb (Bool.eqb s (int_sign n)) then (if int_sign n then 1 else -1)
      else match n with
           | Small _ _ => if s then -1 else 1
           | Big b _ => compare_arrays a b * (if s then -1 else 1)
           end
  | Small a _, Small b _ => if a =? b then 0 else if b <? a then 1 else -1
  | Small a _, Big _ s' =>
      if negb (Bool.eqb (a <? 0) s') then (if a <? 0 then -1 else 1) else (if a <? 0 then 1 else -1)
  end.
(** [equals]/[eq], [greater]/[gt], [lesser]/[lt], [greaterOrEquals]/[geq], [lesserOrEquals]/[leq] *)
Definition equals (this n : integer) : bool := int_compare this n =? 0.
Definition greater (this n : integer) : bool := 0 <? int_compare this n.
Definition lesser (this n : integer) : bool := int_compare this n <? 0.
Definition greater_or_equals (this n : integer) : bool := 0 <=? int_compare this n.
Definition lesser_or_equals (this n : integer) : bool := int_compare this n <=? 0.

(** [isEven], [isOdd] ([&1] looks at the lowest bit) *)
Definition is_even (n : integer) : bool :=
  match n with Small v _ => Z.land v 1 =? 0 | Big v _ => Z.land (nth 0 v 0) 1 =? 0 end.
Definition is_odd (n : integer) : bool :=
  match n with Small v _ => Z.land v 1 =? 1 | Big v _ => Z.land (nth 0 v 0) 1 =? 1 end.
(** [isPositive], [isNegative], [isZero], [isUnit] *)
Definition is_positive (n : integer) : bool := match n with Small v _ => 0 <? v | Big _ s => negb s end.
Definition is_negative (n : integer) : bool := match n with Small v _ => v <? 0 | Big _ s => s end.
Definition is_zero (n : integer) : bool := match n with Small v _ => v =? 0 | Big _ _ => false end.
Definition is_unit (n : integer) : bool := match n with Small v _ => Z.abs v =? 1 | Big _ _ => false end.

(** [next] *)
Definition next (n : integer) : integer :=
  match n with
  | Big v s => if s then sub_small v 1 s else Big (add_small v 1) s
  | Small v _ => if v ⊕ 1 <? MAX_INT then mk_small (v ⊕ 1) else Big MAX_INT_ARR false
  end.
(** [prev] *)
Definition prev (n : integer) : integer :=
  match n with
  | Big v s => if s then Big (add_small v 1) true else sub_small v 1 s
  | Small v _ => if - MAX_INT <? v ⊖ 1 then mk_small (v ⊖ 1) else Big MAX_INT_ARR true
  end.

(** ** Shifts and bitwise functions *)

(** [powersOfTwo]: the powers of two up to [BASE] *)
Definition powers_of_two : list Z := (fun i => 2 ^ Z.of_nat i) <$> seq 0 24.
Definition highest_power2 : Z := 8388608.

(** What a shift is called with: a number or an integer of the library. *)
Inductive shift_by := ByNumber (n : Z) | ByInteger (n : integer).
(** [shift_isSmall].  ([n instanceof BigInteger] is false for a [SmallInteger].) *)
Definition shift_is_small (n : shift_by) : bool :=
  match n with
  | ByNumber n => Z.abs n <=? BASE
  | ByInteger (Big v _) => (length v <=? 1)%nat
  | ByInteger (Small _ _) => false
  end.
(** [+n] *)
Definition shift_number (n : shift_by) : Z :=
  match n with
  | ByNumber n => n
  | ByInteger (Small v _) => v
  | ByInteger (Big v s) => if s then - nth 0 v 0 else nth 0 v 0
  end.

(** [shiftLeft], for [n >= 0]; the fuel is [n] *)
Fixpoint shl_loop (uk : nat -> nat -> bool) (fuel : nat) (result : integer) (n : Z) : res integer :=
  if n <? 24 then multiply uk result (mk_small (nth (Z.to_nat n) powers_of_two 0))
  else
    match fuel with
    | O => OutOfFuel
    | S fuel => let! r := multiply uk result (mk_small highest_power2) in shl_loop uk fuel r (n ⊖ 23)
    end.
(** [shiftRight]: one division, rounded down *)
Definition shr_step (result : integer) (by' : Z) : res integer :=
  let! r := div_mod result (mk_small by') in
  let! r := expect r in
  Ok (if is_negative (snd r) then prev (fst r) else fst r).
(** [shiftRight], for [n >= 0]; the fuel is [n] *)
Fixpoint shr_loop (fuel : nat) (result : integer) (n : Z) : res integer :=
  if n <? 24 then shr_step result (nth (Z.to_nat n) powers_of_two 0)
  else if is_zero result then Ok result
  else
    match fuel with
    | O => OutOfFuel
    | S fuel => let! r := shr_step result highest_power2 in shr_loop fuel r (n ⊖ 23)
    end.
(** [shiftLeft]; [None]: "is too large for shifting".  (Shifts by a fraction are left out.) *)
Definition shift_left (uk : nat -> nat -> bool) (this : integer) (n : shift_by) : res (option integer) :=
  if shift_is_small n then
    let n := shift_number n in
    rmap Some (if n <? 0 then shr_loop (Z.to_nat (- n)) this (- n) else shl_loop uk (Z.to_nat n) this n)
  else Ok None.
(** [shiftRight] *)
Definition shift_right (uk : nat -> nat -> bool) (this : integer) (n : shift_by) : res (option integer) :=
  if shift_is_small n then
    let n := shift_number n in
    rmap Some (if n <? 0 then shl_loop uk (Z.to_nat (- n)) this (- n) else shr_loop (Z.to_nat n) this n)
  else Ok None.

(** [not] *)
Definition int_not (n : integer) : integer := prev (negate n).
(** [toJSNumber]: the double nearest to the value ([+this.toString()] for a [BigInteger]) *)
Definition to_js_number (n : integer) : Z :=
  match n with
  | Small v _ => v
  | Big v s => rnd ((if s then -1 else 1) * foldr (fun d r => d + BASE * r) 0 v)
  end.
(** a bound on the number of base-2^23 digits *)
Definition bit_fuel (n : integer) : nat := match n with Small _ _ => 4 | Big v _ => 2 * length v + 4 end.
(** [bitwise]: its first loop; the digits of the result, least significant first *)
Fixpoint bitwise_loop (fuel : nat) (x_sign y_sign : bool) (fn : Z -> Z -> Z) (x_rem y_rem : integer) : res (list Z) :=
  if is_zero x_rem && is_zero y_rem then Ok []
  else
    match fuel with
    | O => OutOfFuel
    | S fuel =>
        let! x := div_mod x_rem (mk_small highest_power2) in
        let! x := expect x in
        let x_digit := to_js_number (snd x) in
        let x_digit := if x_sign then highest_power2 ⊖ 1 ⊖ x_digit else x_digit in
        let! y := div_mod y_rem (mk_small highest_power2) in
        let! y := expect y in
        let y_digit := to_js_number (snd y) in
        let y_digit := if y_sign then highest_power2 ⊖ 1 ⊖ y_digit else y_digit in
        let! rest := bitwise_loop fuel x_sign y_sign fn (fst x) (fst y) in
        Ok (fn x_digit y_digit :: rest)
    end.
(** [bitwise]: its second loop *)
Fixpoint bitwise_sum (uk : nat -> nat -> bool) (result : list Z) (sum : integer) : res integer :=
  match result with
  | [] => Ok sum
  | r :: result =>
      let! sum := bitwise_sum uk result sum in
      let! p := multiply uk sum (mk_small highest_power2) in
      Ok (add p (mk_small r))
  end.
(** [bitwise] *)
Definition int_bitwise (uk : nat -> nat -> bool) (fn : Z -> Z -> Z) (x y : integer) : res integer :=
  let x_sign := is_negative x in
  let y_sign := is_negative y in
  let x_rem := if x_sign then int_not x else x in
  let y_rem := if y_sign then int_not y else y in
  let! result := bitwise_loop (bit_fuel x_rem + bit_fuel y_rem) x_sign y_sign fn x_rem y_rem in
  bitwise_sum uk result
    (if fn (if x_sign then 1 else 0) (if y_sign then 1 else 0) =? 0 then mk_small 0 else mk_small (-1)).
(** [and], [or], [xor]: JavaScript's [&], [|] and [^] on numbers below 2^23 *)
Definition int_and (uk : nat -> nat -> bool) := int_bitwise uk Z.land.
Definition int_or (uk : nat -> nat -> bool) := int_bitwise uk Z.lor.
Definition int_xor (uk : nat -> nat -> bool) := int_bitwise uk Z.lxor.

(** ** Texts *)

(** JavaScript's [String(n)] for an integer below 2^53 *)
Definition num_text (n : Z) : list byte := (if n <? 0 then txt "-" else []) ++ dec_text (Z.abs_N n).
(** [zeros.slice(digit.length)+digit] *)
Definition pad_digit (d : Z) : list byte := let t := num_text d in drop (length t) (txt "0000000") ++ t.
(** [toString] with radix 10, [toJSON] *)
Definition to_string (n : integer) : list byte :=
  match n with
  | Small v _ => num_text v
  | Big v s =>
      (if s then txt "-" else []) ++
      match rev v with [] => [] | top :: rest => num_text top ++ concat (pad_digit <$> rest) end
  end.

(** [stringify] *)
Definition stringify (digit : Z) : list byte :=
  if digit <=? 35 then take 1 (drop (Z.to_nat digit) (txt "0123456789abcdefghijklmnopqrstuvwxyz"))
  else txt "<" ++ num_text digit ++ txt ">".
(** a bound on the number of binary digits *)
Definition text_fuel (n : integer) : nat := match n with Small _ _ => 60 | Big v _ => 24 * length v + 60 end.
(** [toBase]: its loop, for an integer that is not negative; the texts come most significant first *)
Fixpoint to_base_loop (fuel : nat) (left base : integer) : res (list byte) :=
  if compare_abs left base <? 0 then Ok (stringify (to_js_number left))
  else
    match fuel with
    | O => OutOfFuel
    | S fuel =>
        let! r := div_mod left base in
        let! r := expect r in
        let! rest := to_base_loop fuel (fst r) base in
        Ok (rest ++ stringify (to_js_number (snd r)))
    end.
(** [toString(radix)] with another radix, [toBase], for a radix of at least 2 *)
Definition to_base (n : integer) (base : Z) : res (list byte) :=
  let! t := to_base_loop (text_fuel n) (if is_negative n then int_abs n else n) (mk_small base) in
  Ok ((if is_negative n then txt "-" else []) ++ t).
(** [toString(radix)] *)
Definition to_string_radix (n : integer) (radix : Z) : res (list byte) :=
  if radix =? 10 then Ok (to_string n) else to_base n radix.

(** the value of one decimal digit *)
Definition digit_value (b : byte) : option Z :=
  let v := Z.of_N (Byte.to_N b) in if (48 <=? v) && (v <=? 57) then Some (v - 48) else None.
(** [+v] for a text of decimal digits, before it is rounded *)
Fixpoint digits_number (t : list byte) (acc : Z) : option Z :=
  match t with
  | [] => Some acc
  | b :: t => match digit_value b with Some d => digits_number t (10 * acc + d) | None => None end
  end.
(** [parseStringValue]: the loop cutting the text into digits of base 10^7, from its end *)
Fixpoint cut_digits (fuel : nat) (v : list byte) : list Z :=
  match fuel with
  | O => []
  | S fuel =>
      match v with
      | [] => []
      | _ => let min := (length v - 7)%nat in default 0 (digits_number (drop min v) 0) :: cut_digits fuel (take min v)
      end
  end.
(** [parseStringValue], for texts of decimal digits after an optional minus sign.  (Other texts that JavaScript reads as
    numbers - with an exponent, a point, another base or spaces - are left out: [None].) *)
Definition parse_string (v : list byte) : option integer :=
  let sign := match v with b :: _ => Byte.eqb b x2d | [] => false end in
  let digits := if sign then drop 1 v else v in
  match digits, digits_number digits 0 with
  | [], _ | _, None => None
  | _, Some n =>
      let x := rnd (if sign then - n else n) in
      if is_precise x then Some (mk_small x) else Some (Big (trim (cut_digits (length digits) digits)) sign)
  end.
(** [parseNumberValue], for an integer below 2^53 *)
Definition parse_number (v : Z) : option integer := if is_precise v then Some (mk_small v) else None.
