(** * RevertReason: the decoder of revert data behind /repo/src/tracing/utils.rs:58-75

    [GenericRevertReason::decode] belongs to alloy-sol-types 0.7, which is not in /repo; this file models what that
    function does with [validate = false], as utils.rs:59 calls it. *)

From Verif Require Export Text.
Local Open Scope N_scope.

(** The number a sequence of bytes stands for, most significant first. *)
Definition be_value (l : list byte) : N := fold_left (fun a b => a * 256 + Byte.to_N b) l 0.

(** [buf.get(pos..pos + len)] (an overflowing end is out of range as well) *)
Definition slice (buf : list byte) (pos len : N) : option (list byte) :=
  if pos + len <=? N.of_nat (length buf) then Some (take (N.to_nat len) (drop (N.to_nat pos) buf)) else None.

(** alloy [Decoder::take_offset] without validation: the low 64 bits of the word at [pos] *)
Definition take_offset (buf : list byte) (pos : N) : option N :=
  match slice buf pos 32 with Some w => Some (be_value (drop 24 w)) | None => None end.

(** alloy [PackedSeqToken::decode_from]: the string parameter of an error; its bytes *)
Definition decode_string (body : list byte) : option (list byte) :=
  match take_offset body 0 with
  | None => None
  | Some offset =>
      if offset <=? N.of_nat (length body) then
        let child := drop (N.to_nat offset) body in
        match take_offset child 0 with Some len => slice child 32 len | None => None end
      else None
  end.

(** core [Utf8Chunks]: whether the text starts with a character, and the length of that character or of the invalid
    sequence that is replaced by one U+FFFD *)
Definition utf8_chunk (l : list byte) : bool * nat :=
  let is lo hi (k : nat) := match l !! k with Some b => (lo <=? Byte.to_N b) && (Byte.to_N b <=? hi) | None => false end in
  let three lo hi := if is lo hi 1%nat then (if is 0x80 0xBF 2%nat then (true, 3%nat) else (false, 2%nat)) else (false, 1%nat) in
  let four lo hi :=
    if is lo hi 1%nat
    then (if is 0x80 0xBF 2%nat then (if is 0x80 0xBF 3%nat then (true, 4%nat) else (false, 3%nat)) else (false, 2%nat))
    else (false, 1%nat) in
  if is 0x00 0x7F 0%nat then (true, 1%nat)
  else if is 0xC2 0xDF 0%nat then (if is 0x80 0xBF 1%nat then (true, 2%nat) else (false, 1%nat))
  else if is 0xE0 0xE0 0%nat then three 0xA0 0xBF
  else if is 0xE1 0xEC 0%nat || is 0xEE 0xEF 0%nat then three 0x80 0xBF
  else if is 0xED 0xED 0%nat then three 0x80 0x9F
  else if is 0xF0 0xF0 0%nat then four 0x90 0xBF
  else if is 0xF1 0xF3 0%nat then four 0x80 0xBF
  else if is 0xF4 0xF4 0%nat then four 0x80 0x8F
  else (false, 1%nat).

(** core [String::from_utf8_lossy]; the fuel is the length of the text *)
Fixpoint lossy_loop (fuel : nat) (l : list byte) : list byte :=
  match fuel, l with
  | S fuel, _ :: _ =>
      let '(valid, n) := utf8_chunk l in
      (if valid then take n l else [xef; xbf; xbd]) ++ lossy_loop fuel (drop n l)
  | _, _ => []
  end.
Definition from_utf8_lossy (l : list byte) : list byte := lossy_loop (length l) l.

(** core [str::from_utf8] *)
Fixpoint utf8_loop (fuel : nat) (l : list byte) : bool :=
  match fuel, l with
  | S fuel, _ :: _ => let '(valid, n) := utf8_chunk l in valid && utf8_loop fuel (drop n l)
  | _, _ => true
  end.
Definition from_utf8 (l : list byte) : option (list byte) := if utf8_loop (length l) l then Some l else None.

(** A string from its bytes. *)
Definition str (l : list byte) : string := String.string_of_list_byte l.

(** [strip_prefix] *)
Fixpoint strip_prefix (p l : list byte) : option (list byte) :=
  match p, l with
  | [], _ => Some l
  | a :: p, b :: l => if Byte.eqb a b then strip_prefix p l else None
  | _ :: _, [] => None
  end.

Section decode.
  (** The text alloy prints for [Panic(code)]: any function here. *)
  Context (panic_text : N -> string).

  (** alloy [ContractError::abi_decode]: [Error(string)] or [Panic(uint256)], by the first four bytes *)
  Definition contract_error (out : list byte) : option RevertReason :=
    match strip_prefix [x08; xc3; x79; xa0] out with
    | Some body =>
        match decode_string body with Some r => Some (ContractRevert (str (from_utf8_lossy r))) | None => None end
    | None =>
        match strip_prefix [x4e; x48; x7b; x71] out with
        | Some body => match slice body 0 32 with Some w => Some (ContractOther (panic_text (be_value w))) | None => None end
        | None => None
        end
    end.

  (** alloy [GenericRevertReason::decode] *)
  Definition alloy_decode (out : list byte) : option RevertReason :=
    match out with
    | [] => None
    | _ =>
        match contract_error out with
        | Some e => Some e
        | None => match from_utf8 out with Some s => Some (RawString (str s)) | None => None end
        end
    end.
End decode.
