(** * Text: strings as lists of bytes, decimal numbers ([Display] for unsigned integers) *)

From Verif Require Export Utils.
Local Open Scope N_scope.

(** The bytes of a Rust string (its UTF-8 text). *)
Definition txt (s : string) : list byte := String.list_byte_of_string s.

(** One decimal digit as an ASCII byte. *)
Definition dec_digit (n : N) : byte := default x00 (Byte.of_N (48 + n)).

(** Decimal digits, most significant first; the fuel is the number's bit length. *)
Fixpoint dec_digits (fuel : nat) (n : N) (acc : list byte) : list byte :=
  match fuel with
  | O => acc
  | S fuel =>
      let acc' := dec_digit (n mod 10) :: acc in
      if n / 10 =? 0 then acc' else dec_digits fuel (n / 10) acc'
  end.

(** core::fmt [Display for u64/usize] *)
Definition dec_text (n : N) : list byte := dec_digits (S (N.to_nat (N.log2 n))) n [].
