(** * BigIntParse: how the integers of JavaScript tracers are read, in full

    [src/tracing/js/bigint.js], one line: [parseStringValue], [parseNumberValue], [parseValue] and [fromArray]. *)

From Verif Require Export BigIntMore.
Local Open Scope Z_scope.

(** A JavaScript number: an integer, a number with a fractional part, or one of NaN and the infinities.  (Zero has no sign
    here.  Numbers of 2^53 and more have no fractional part.) *)
Inductive js_number := JInt (z : Z) | JFraction | JNotFinite.

(** [isPrecise], of any number (comparisons with NaN are false) *)
Definition precise_number (n : js_number) : bool :=
  match n with JInt z => is_precise z | JFraction => true | JNotFinite => false end.

(** [v.split(/e/i)] *)
Fixpoint split_e (v : list byte) : list (list byte) :=
  match v with
  | [] => [[]]
  | b :: v =>
      if Byte.eqb b x65 || Byte.eqb b x45 then [] :: split_e v
      else match split_e v with part :: parts => (b :: part) :: parts | [] => [[b]] end
  end.
(** [text.indexOf(".")] *)
Fixpoint index_of_point (text : list byte) : option nat :=
  match text with
  | [] => None
  | b :: text => if Byte.eqb b x2e then Some O else option_map S (index_of_point text)
  end.
(** [v.slice(min,max)]: a negative start counts from the end *)
Definition js_slice (v : list byte) (min max : Z) : list byte :=
  let start := if min <? 0 then Z.max 0 (Z.of_nat (length v) + min) else min in
  take (Z.to_nat (max - start)) (drop (Z.to_nat start) v).
(** [parseStringValue]: the loop cutting the text into digits of base 10^7, from its end *)
Fixpoint js_cut (fuel : nat) (v : list byte) (min max : Z) : list Z :=
  match fuel with
  | O => []
  | S fuel =>
      if max <=? 0 then []
      else default 0 (digits_number (js_slice v min max) 0) :: js_cut fuel v (if min - 7 <? 0 then 0 else min - 7) (max - 7)
  end.
(** [parseStringValue]: the text with its exponent carried out, [None] for an exception.  [number] is the number that
    JavaScript reads in a text, [+exp].  [new Array(exp+1)] throws beyond 2^32-1. *)
Definition expand_exponent (number : list byte -> js_number) (v : list byte) : option (list byte) :=
  match split_e v with
  | [_] => Some v
  | [text; exp] =>
      let exp := match exp with b :: t => if Byte.eqb b x2b then t else exp | [] => exp end in
      match number exp with
      | JInt exp =>
          if negb (is_precise exp) then None
          else
            let '(exp, text) := match index_of_point text with
                                | Some at_ => (exp - (Z.of_nat (length text) - Z.of_nat at_ - 1), take at_ text ++ drop (S at_) text)
                                | None => (exp, text)
                                end in
            if exp <? 0 then None
            else if 2 ^ 32 - 1 <? exp + 1 then None
            else Some (text ++ replicate (Z.to_nat exp) x30)
      | _ => None
      end
  | _ => None
  end.
(** [parseStringValue], of any text; [None] for an exception *)
Definition parse_string_value (number : list byte -> js_number) (v : list byte) : option integer :=
  if precise_number (number v) then
    match number v with JInt x => Some (mk_small x) | _ => None end
  else
    let sign := match v with b :: _ => Byte.eqb b x2d | [] => false end in
    let v := if sign then drop 1 v else v in
    match expand_exponent number v with
    | None => None
    | Some v =>
        match v, digits_number v 0 with
        | [], _ | _, None => None
        | _, Some _ => Some (Big (trim (js_cut (length v) v (Z.of_nat (length v) - 7) (Z.of_nat (length v)))) sign)
        end
    end.
(** [parseNumberValue], of any number; [to_text] is [toString] of numbers *)
Definition parse_number_value (number : list byte -> js_number) (to_text : js_number -> list byte) (v : js_number) : option integer :=
  if precise_number v then match v with JInt x => Some (mk_small x) | _ => None end
  else parse_string_value number (to_text v).
(** [parseValue], of any argument of the methods: a number, a text, or an object of the library *)
Inductive js_argument := ANumber (n : js_number) | AText (t : list byte) | AInteger (i : integer).
Definition parse_value (number : list byte -> js_number) (to_text : js_number -> list byte) (a : js_argument) : option integer :=
  match a with
  | ANumber n => parse_number_value number to_text n
  | AText t => parse_string_value number t
  | AInteger i => Some i
  end.
(** [fromArray]: [digits.map(parseValue)], then [parseValue(base||10)] - the number 0 and the empty text are false, objects
    are not - then [parseBaseFromArray] *)
Definition from_array (uk : nat -> nat -> bool) (number : list byte -> js_number) (to_text : js_number -> list byte)
    (digits : list js_argument) (base : option js_argument) (is_negative : bool) : res (option integer) :=
  let base := match base with
              | None | Some (ANumber (JInt 0)) | Some (AText []) => ANumber (JInt 10)
              | Some b => b
              end in
  match mapM (parse_value number to_text) digits, parse_value number to_text base with
  | Some digits, Some base => rmap Some (parse_base_from_array uk digits base is_negative)
  | _, _ => Ok None
  end.
