(** * BigIntRadix: texts of the integers of JavaScript tracers in any radix

    [src/tracing/js/bigint.js], one line: [stringify], [toBase], [toString(radix)] and [parseBase] in full. *)

From Verif Require Export BigIntParse.
Local Open Scope Z_scope.

(** [String(v)] of an array: its elements with commas *)
Fixpoint array_text (v : list Z) : list byte :=
  match v with [] => [] | [d] => num_text d | d :: v => num_text d ++ txt "," ++ array_text v end.
(** [stringify] *)
Definition stringify_any (digit : integer) : list byte :=
  match digit with
  | Small v _ => stringify v
  | Big [v] _ => stringify v
  | Big v _ => txt "<" ++ array_text v ++ txt ">"
  end.
(** [new Array(length).join(text)]; [None]: the length is not that of an array *)
Definition array_join (length : Z) (text : list byte) : option (list byte) :=
  if (0 <=? length) && (length <=? 2 ^ 32 - 1) then Some (concat (replicate (Z.to_nat (length - 1)) text)) else None.
(** [toBase]: its loop *)
Fixpoint to_base_any_loop (fuel : nat) (n base : integer) : res (list byte) :=
  if is_negative n || (0 <=? compare_abs n base) then
    match fuel with
    | O => OutOfFuel
    | S fuel =>
        let! r := div_mod n base in
        let! r := expect r in
        let '(rest, digit) := r in
        let '(rest, digit) := if is_negative digit then (next rest, int_abs (subtract base digit)) else (rest, digit) in
        let! t := to_base_any_loop fuel rest base in
        Ok (t ++ stringify_any digit)
    end
  else Ok (stringify_any n).
(** [toBase]; [None]: an exception *)
Definition to_base_any (n base : integer) : res (option (list byte)) :=
  if is_zero base then Ok (if is_zero n then Some (txt "0") else None)
  else if equals base (mk_small (-1)) then
    Ok (if is_zero n then Some (txt "0")
        else if is_negative n then array_join (1 ⊖ to_js_number n) (txt "10")
        else option_map (app (txt "1")) (array_join (to_js_number n) (txt "01")))
  else
    let minus := is_negative n && is_positive base in
    let minus_sign := if minus then txt "-" else [] in
    let n := if minus then int_abs n else n in
    if equals base (mk_small 1) then
      Ok (if is_zero n then Some (txt "0") else option_map (app minus_sign) (array_join (to_js_number n ⊕ 1) (txt "1")))
    else
      let! t := to_base_any_loop (S (2 * S (text_fuel n))) n base in
      Ok (Some (minus_sign ++ t)).
(** [toString(radix)].  (The object of ten is not the number 10 for [radix!==10]: integers of 2^53 and more then go through
    [toBase], to the same text.) *)
Definition to_string_any (n radix : integer) : res (option (list byte)) :=
  if equals radix (mk_small 10) then Ok (Some (to_string n)) else to_base_any n radix.

(** [parseBase]: its first loop, for any radix; [abs_base] is [Math.abs(base)] *)
Definition base_chars_valid_any (text : list byte) (abs_base : Z) : bool :=
  forallb (fun b =>
    let c := lower_case b in
    match base_digit c with
    | Some d => negb (abs_base <=? d) || (Byte.eqb c x31 && (abs_base =? 1))
    | None => true
    end) text.
(** [parseBase]: the text up to the next [>], and what follows it.  ([None]: there is none, and the loop does not end, or
    rather is ended by the engine.) *)
Fixpoint split_gt (text : list byte) : option (list byte * list byte) :=
  match text with
  | [] => None
  | b :: text =>
      if Byte.eqb b x3e then Some ([], text)
      else match split_gt text with Some (a, r) => Some (b :: a, r) | None => None end
  end.
(** [parseBase]: the digits; [None]: an exception *)
Fixpoint base_digits_any (number : list byte -> js_number) (fuel : nat) (text : list byte) : option (list integer) :=
  match fuel with
  | O => match text with [] => Some [] | _ => None end
  | S fuel =>
      match text with
      | [] => Some []
      | b :: text =>
          match base_digit (lower_case b) with
          | Some d => option_map (cons (mk_small d)) (base_digits_any number fuel text)
          | None =>
              if Byte.eqb b x3c then
                match split_gt text with
                | None => None
                | Some (t, rest) =>
                    match parse_string_value number t with
                    | None => None
                    | Some d => option_map (cons d) (base_digits_any number fuel rest)
                    end
                end
              else None
          end
      end
  end.
(** [bigint(text, radix)] for any radix; [None]: an exception.  [short base n] tells whether [n] is at most
    [LOG_MAX_INT/Math.log(base)], a quotient of two rounded logarithms. *)
Definition parse_base_any (uk : nat -> nat -> bool) (number : list byte -> js_number) (short : Z -> nat -> bool)
    (text : list byte) (base : integer) : res (option integer) :=
  let b := to_js_number base in
  if b =? 10 then Ok (parse_string_value number text)
  else if negb (base_chars_valid_any text (Z.abs b)) then Ok None
  else if (2 <=? b) && (b <=? 36) && short b (length text) then Ok (option_map mk_small (parse_int text b))
  else
    let is_negative := match text with b :: _ => Byte.eqb b x2d | [] => false end in
    match base_digits_any number (length text) (if is_negative then drop 1 text else text) with
    | None => Ok None
    | Some digits => rmap Some (parse_base_from_array uk digits base is_negative)
    end.
