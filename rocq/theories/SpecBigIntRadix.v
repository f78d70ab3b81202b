(** * SpecBigIntRadix: positional texts in any radix, positive or negative *)

From Verif Require Export BigIntRadix SpecBigIntParse.
Local Open Scope Z_scope.

(** A digit is written as a single character up to 35, and in decimal between angle brackets from 36 on. *)
Definition digit_written (d : Z) (u : list byte) : Prop :=
  (0 <= d <= 35 /\ exists c, u = [c] /\ char_value c = Some d)
  \/ (36 <= d /\ exists t, u = txt "<" ++ t ++ txt ">" /\ writes 10 d t).
(** The digits of a radix: from 0 on, below its absolute value; 0 and 1 for the radixes 1 and -1. *)
Definition digit_of (b d : Z) : Prop := 0 <= d < Z.max 2 (Z.abs b).
(** The text is that of [x] in radix [b]: a minus sign for a negative number in a positive radix; then digits whose value
    is the number. *)
Definition writes_any (b x : Z) (t : list byte) : Prop :=
  exists ds us, t = (if (0 <? b) && (x <? 0) then txt "-" else []) ++ concat us
    /\ Forall2 digit_written ds us /\ Forall (digit_of b) ds /\ ds <> []
    /\ horner b 0 ds = (if 0 <? b then Z.abs x else x).
(** There is one such text without leading zeros, for a radix other than 1 and -1. *)
Definition no_leading_zero (b x : Z) (t : list byte) : Prop :=
  hd_error (if (0 <? b) && (x <? 0) then drop 1 t else t) = Some x30 -> x = 0 /\ length t = 1%nat.
(** A digit of 2^53 or more is not written in decimal: its digits in radix 10^7 are, the last first, with commas. *)
Fixpoint with_commas (ts : list (list byte)) : list byte :=
  match ts with [] => [] | [t] => t | t :: ts => t ++ txt "," ++ with_commas ts end.
Definition digit_shown (d : Z) (u : list byte) : Prop :=
  (d < 2 ^ 53 /\ digit_written d u)
  \/ (2 ^ 53 <= d /\ exists limbs ts, u = txt "<" ++ with_commas ts ++ txt ">" /\ Forall2 (writes 10) limbs ts
        /\ Forall (fun l => 0 <= l < 10 ^ 7) limbs /\ last limbs <> Some 0 /\ horner (10 ^ 7) 0 (rev limbs) = d).
(** The text as it is when the radix is 2^53 or more. *)
Definition shows_any (b x : Z) (t : list byte) : Prop :=
  exists ds us, t = (if (0 <? b) && (x <? 0) then txt "-" else []) ++ concat us
    /\ Forall2 digit_shown ds us /\ Forall (digit_of b) ds /\ (hd_error ds = Some 0 -> ds = [0]) /\ ds <> []
    /\ horner b 0 ds = (if 0 <? b then Z.abs x else x).
