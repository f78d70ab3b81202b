(** * BigIntPrime: tests of primality and random integers (/repo/src/tracing/js/bigint.js)

    Same conventions as in BigIntMore.v. *)

From Verif Require Export BigIntMore.
Local Open Scope Z_scope.

(** [isBasicPrime]; [None] is [undefined] *)
Definition is_basic_prime (v : integer) : res (option bool) :=
  let n := int_abs v in
  if is_unit n then Ok (Some false)
  else if equals n (mk_small 2) || equals n (mk_small 3) || equals n (mk_small 5) then Ok (Some true)
  else
    let! by3 := is_divisible_by n (mk_small 3) in
    let! by5 := is_divisible_by n (mk_small 5) in
    if is_even n || by3 || by5 then Ok (Some false)
    else if lesser n (mk_small 25) then Ok (Some true)
    else Ok None.

(** [isPrime]: the loop [while(b.isEven())b=b.divide(2)] *)
Fixpoint halve_loop (fuel : nat) (b : integer) : res integer :=
  if is_even b then
    match fuel with
    | O => OutOfFuel
    | S fuel => let! b := int_divide b (mk_small 2) in halve_loop fuel b
    end
  else Ok b.
(** [isPrime]: the loop [for(t=true,d=b; t&&d.lesser(nPrev); d=d.multiply(2))]; the result is [t] *)
Fixpoint square_loop (uk : nat -> nat -> bool) (fuel : nat) (x d n n_prev : integer) : res bool :=
  if lesser d n_prev then
    match fuel with
    | O => OutOfFuel
    | S fuel =>
        let! x := int_mod (int_square x) n in
        if equals x n_prev then Ok false
        else let! d := multiply uk d (mk_small 2) in square_loop uk fuel x d n n_prev
    end
  else Ok true.
(** [isPrime]: the loop over the bases *)
Fixpoint bases_loop (uk : nat -> nat -> bool) (bases : list Z) (b n n_prev : integer) : res bool :=
  match bases with
  | [] => Ok true
  | a :: bases =>
      let! x := int_mod_pow uk (mk_small a) b n in
      let! x := expect x in
      if equals x (mk_small 1) || equals x n_prev then bases_loop uk bases b n n_prev
      else
        let! t := square_loop uk (S (text_fuel n_prev)) x b n n_prev in
        if t : bool then Ok false else bases_loop uk bases b n n_prev
  end.
(** [isPrime] *)
Definition is_prime (uk : nat -> nat -> bool) (this : integer) : res bool :=
  let! basic := is_basic_prime this in
  match basic with
  | Some b => Ok b
  | None =>
      let n := int_abs this in
      let n_prev := prev n in
      let! b := halve_loop (S (text_fuel n_prev)) n_prev in
      bases_loop uk [2; 3; 5; 7; 11; 13; 17; 19] b n n_prev
  end.

(** [randBetween]: its loop over the digits of the range, from the most significant one.  [random k top] is
    [Math.floor(Math.random()*top)] (or [truncate] of it) for the [k]-th number drawn. *)
Fixpoint random_digits (random : nat -> Z -> Z) (k : nat) (restricted : bool) (tops : list Z) : list Z :=
  match tops with
  | [] => []
  | t :: tops =>
      let top := if restricted then t else BASE in
      let digit := random k top in
      random_digits random (S k) (restricted && negb (digit <? top)) tops ++ [digit]
  end.
(** [randBetween]; [k] numbers have been drawn before *)
Definition rand_between (random : nat -> Z -> Z) (k : nat) (a b : integer) : integer :=
  let low := int_min a b in
  let high := int_max a b in
  let range := add (subtract high low) (mk_small 1) in
  match range with
  | Small v _ => add low (mk_small (random k v))
  | Big v _ =>
      add low (mk_integer (array_to_small (random_digits random k true (rev v))) false)
  end.
(** [isProbablePrime]: its loop.  Every number of [n] that is drawn takes at most one draw for each of its digits;
    the draws of round [i] are [random i]. *)
Fixpoint probable_loop (uk : nat -> nat -> bool) (random : nat -> nat -> Z -> Z) (i : nat) (rounds : nat) (n : integer) : res bool :=
  match rounds with
  | O => Ok true
  | S rounds =>
      let a := rand_between (random i) 0 (mk_small 2) (subtract n (mk_small 2)) in
      let! p := int_mod_pow uk a (prev n) n in
      let! p := expect p in
      if negb (is_unit p) then Ok false else probable_loop uk random (S i) rounds n
  end.
(** [isProbablePrime] *)
Definition is_probable_prime (uk : nat -> nat -> bool) (random : nat -> nat -> Z -> Z) (iterations : option nat) (this : integer) : res bool :=
  let! basic := is_basic_prime this in
  match basic with
  | Some b => Ok b
  | None => probable_loop uk random 0 (default 5%nat iterations) (int_abs this)
  end.
