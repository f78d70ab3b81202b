(** * SpecReason: what the data of a revert says *)

From Verif Require Export SpecAgree SpecWriter RevertReason.
Local Open Scope N_scope.

(** ** Solidity's encoding of errors *)

(** [n] as [k] bytes, most significant first. *)
Fixpoint big_endian (k : nat) (n : N) : list byte :=
  match k with O => [] | S k => big_endian k (n / 256) ++ [default x00 (Byte.of_N (n mod 256))] end.
Definition word (n : N) : list byte := big_endian 32 n.

(** [revert(reason)], i.e. [Error(string)]: the selector 0x08c379a0, the position of the string, its length, its bytes
    filled up to whole words. *)
Definition error_data (reason : list byte) : list byte :=
  [x08; xc3; x79; xa0] ++ word 32 ++ word (N.of_nat (length reason)) ++ reason ++
  replicate (N.to_nat ((32 - N.of_nat (length reason) mod 32) mod 32)) x00.
(** [Panic(uint256)]: the selector 0x4e487b71 and the code. *)
Definition panic_data (code : N) : list byte := [x4e; x48; x7b; x71] ++ word code.

(** ** What a reader is shown *)

(** The beginning of some character. *)
Definition begins_char (x : list byte) : Prop := exists y, utf8_char (x ++ y).
(** [shown] is [raw] with U+FFFD for what is not a character: for each byte no character starts with, and for the
    longest beginning of a character otherwise. *)
Inductive replaced : list byte -> list byte -> Prop :=
  | rp_nil : replaced [] []
  | rp_char c s t : utf8_char c -> replaced s t -> replaced (c ++ s) (c ++ t)
  | rp_bad x s t : (forall c u, utf8_char c -> x ++ s <> c ++ u) ->
      x <> [] -> (length x = 1%nat \/ begins_char x) -> (forall b u, s = b :: u -> ~ begins_char (x ++ [b])) ->
      replaced s t -> replaced (x ++ s) ([xef; xbf; xbd] ++ t).

(** The string an [Error(string)] body of any layout contains: its position and its length are the last eight bytes of
    their words. *)
Definition body_string (body : list byte) (s : list byte) : Prop :=
  exists position size,
    take 8 (drop 24 body) = big_endian 8 position /\ position < 2 ^ 64 /\
    take 8 (drop (N.to_nat position + 24) body) = big_endian 8 size /\ size < 2 ^ 64 /\
    position + 32 + size <= N.of_nat (length body) /\
    s = take (N.to_nat size) (drop (N.to_nat position + 32) body).

(** What is shown for a failed call that ended with the data [out]; nothing else is. *)
Inductive shown_reason (panic_text : N -> string) (out : list byte) (text : string) : Prop :=
  | sh_error body s : out = [x08; xc3; x79; xa0] ++ body -> body_string body s -> replaced s (txt text) ->
      shown_reason panic_text out text
  | sh_panic code rest : code < 2 ^ 256 -> out = panic_data code ++ rest -> text = panic_text code ->
      shown_reason panic_text out text
  | sh_text : utf8 out -> out = txt text -> (forall code rest, out <> panic_data code ++ rest) ->
      shown_reason panic_text out text.

(** A reason given by the contract: by [revert(reason)] or a failed check of the compiler. *)
Inductive given_reason (panic_text : N -> string) (out : list byte) (text : string) : Prop :=
  | gv_error : out = error_data (txt text) -> given_reason panic_text out text
  | gv_panic code : code < 2 ^ 256 -> out = panic_data code -> text = panic_text code -> given_reason panic_text out text.
