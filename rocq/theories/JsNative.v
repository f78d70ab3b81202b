(** * JsNative: the native functions handed to JavaScript tracers
    (/repo/src/tracing/js/builtins.rs and /repo/src/tracing/js/bindings.rs)

    boa's values are represented by what the functions look at.  Texts of error messages are omitted. *)

From Verif Require Export Text Db.
From Coq Require Export QArith.QArith_base.
Local Open Scope N_scope.

(** ** Numbers *)

(** An [f64].  A finite one is the rational it denotes (so the theorems range over more numbers than [f64] has). *)
Inductive jsnum := JNaN | JPosInf | JNegInf | JFinite (q : Q).

(** [a < b] of [f64] *)
Definition jlt (a b : jsnum) : bool :=
  match a, b with
  | JNaN, _ | _, JNaN => false
  | JNegInf, JNegInf => false | JNegInf, _ => true
  | _, JNegInf => false
  | JPosInf, _ => false | _, JPosInf => true
  | JFinite p, JFinite q => negb (Qle_bool q p)
  end.
Definition jzero : jsnum := JFinite 0.

(** [x as uN] for an [f64]: NaN is 0, otherwise rounded towards zero and saturated; [max] is the largest value. *)
Definition jcast (max : N) (a : jsnum) : N :=
  match a with
  | JNaN | JNegInf => 0
  | JPosInf => max
  | JFinite q => N.min max (Z.to_N (Z.quot (Qnum q) (Zpos (Qden q))))
  end.
Definition USIZE_MAX : N := 18446744073709551615.
Definition as_usize (a : jsnum) : N := jcast USIZE_MAX a.
Definition as_u8 (a : jsnum) : N := jcast 255 a.

(** What a native function returns to JavaScript. *)
Inductive jsres (A : Type) := JReturn (a : A) | JThrow.
Arguments JReturn {A} a.
Arguments JThrow {A}.
Definition jbind {A B} (m : jsres A) (f : A -> jsres B) : jsres B :=
  match m with JReturn a => f a | JThrow => JThrow end.

(** ** Buffers *)

(** The values [from_buf_value] tells apart.  The elements of an array are given by what [to_number] makes of them
    ([None]: it throws); a string by its UTF-8 text ([None]: not valid UTF-16). *)
Inductive jsval :=
  | VTypedArray (elements : list (option jsnum))   (** the elements of the arrays of bigints are not numbers *)
  | VArrayBuffer (data : option (list byte))   (** [None]: detached *)
  | VStringObject (s : option (list byte))     (** an object wrapping a string *)
  | VArray (elements : list (option jsnum))
  | VString (s : option (list byte))
  | VOther.

(** [hex::decode] (const-hex): an optional [0x], then an even number of digits of either case *)
Definition hex_value (c : byte) : option N :=
  let n := Byte.to_N c in
  if (48 <=? n) && (n <=? 57) then Some (n - 48)
  else if (97 <=? n) && (n <=? 102) then Some (n - 87)
  else if (65 <=? n) && (n <=? 70) then Some (n - 55)
  else None.
Fixpoint hex_pairs (s : list byte) : option (list byte) :=
  match s with
  | [] => Some []
  | a :: b :: s =>
      match hex_value a, hex_value b, hex_pairs s with
      | Some x, Some y, Some l => Some (default x00 (Byte.of_N (16 * x + y)) :: l)
      | _, _, _ => None
      end
  | [_] => None
  end.
Definition strip_0x (s : list byte) : list byte :=
  match s with x30 :: x78 :: s => s | s => s end.
Definition hex_decode (s : list byte) : option (list byte) := hex_pairs (strip_0x s).

(** builtins.rs:288-301 [hex_decode_js_string] *)
Definition hex_decode_js_string (s : option (list byte)) : jsres (list byte) :=
  match s with
  | Some s => match hex_decode s with Some d => JReturn d | None => JThrow end
  | None => JThrow
  end.

Definition u8_byte (a : jsnum) : byte := default x00 (Byte.of_N (as_u8 a)).
(** builtins.rs:94-102 and 116-122: the elements one by one, the first failing conversion throws *)
Fixpoint array_bytes (l : list (option jsnum)) : jsres (list byte) :=
  match l with
  | [] => JReturn []
  | Some a :: l => jbind (array_bytes l) (fun r => JReturn (u8_byte a :: r))
  | None :: _ => JThrow
  end.

(** builtins.rs:92-133 [from_buf_value] *)
Definition from_buf_value (v : jsval) : jsres (list byte) :=
  match v with
  | VTypedArray l => array_bytes l
  | VArrayBuffer (Some d) => JReturn d
  | VArrayBuffer None => JThrow
  | VStringObject s => hex_decode_js_string s
  | VArray l => array_bytes l
  | VString s => hex_decode_js_string s
  | VOther => JThrow
  end.

(** [dst[from..].copy_from_slice(src)]: a slice start beyond the end and unequal lengths panic *)
Definition copy_tail (dst : list byte) (from : nat) (src : list byte) : res (list byte) :=
  if (length dst <? from)%nat then Panic PIndex
  else if (length dst - from =? length src)%nat then Ok (take from dst ++ src) else Panic PIndex.

(** builtins.rs:170-181 [bytes_to_address] and 183-197 [bytes_to_hash]: the same code for lengths 20 and 32 *)
Definition bytes_to_array (n : nat) (buf : list byte) : res (list byte) :=
  let arr := replicate n x00 in
  let buf := if (n <? length buf)%nat then drop (length buf - n)%nat buf else buf in
  if (n <? length buf)%nat then Panic PUnderflow
  else copy_tail arr (n - length buf)%nat buf.
Definition bytes_to_address (buf : list byte) : res (list byte) := bytes_to_array 20 buf.
Definition bytes_to_hash (buf : list byte) : res (list byte) := bytes_to_array 32 buf.

(** A native function body after [from_buf_value(..)?] *)
Definition with_buf {A} (v : jsval) (k : list byte -> res (jsres A)) : res (jsres A) :=
  match from_buf_value v with JReturn b => k b | JThrow => Ok JThrow end.

(** builtins.rs:263-269 [to_address]; the result is the content of the [Uint8Array] *)
Definition to_address (v : jsval) : res (jsres (list byte)) :=
  with_buf v (fun b => let! a := bytes_to_address b in Ok (JReturn a)).
(** builtins.rs:271-277 [to_word] *)
Definition to_word (v : jsval) : res (jsres (list byte)) :=
  with_buf v (fun b => let! h := bytes_to_hash b in Ok (JReturn h)).
(** builtins.rs:279-285 [to_hex] *)
Definition to_hex (v : jsval) : res (jsres (list byte)) :=
  with_buf v (fun b => Ok (JReturn (hex_encode b))).

(** Big-endian value of bytes: [Address]/[B256] as numbers *)
Definition be_value (l : list byte) : N := fold_left (fun acc b => 256 * acc + Byte.to_N b) l 0.

(** builtins.rs:246-261 [to_contract]; [create] is alloy's [Address::create] *)
Definition to_contract (create : address -> u64 -> list byte) (from : jsval) (nonce : option jsnum) : res (jsres (list byte)) :=
  match nonce with
  | None => Ok JThrow
  | Some n => with_buf from (fun b => let! a := bytes_to_address b in Ok (JReturn (create (be_value a) (as_usize n))))
  end.
(** builtins.rs:211-244 [to_contract2]; the salt is given by what [to_string] makes of it *)
Definition to_contract2 (create2 : address -> U256 -> list byte -> list byte) (from : jsval)
    (salt : option (option (list byte))) (initcode : jsval) : res (jsres (list byte)) :=
  match salt with
  | None => Ok JThrow
  | Some s =>
      match hex_decode_js_string s with
      | JThrow => Ok JThrow
      | JReturn sb =>
          let! h := bytes_to_hash sb in
          with_buf from (fun b =>
            let! a := bytes_to_address b in
            with_buf initcode (fun code => Ok (JReturn (create2 (be_value a) (be_value h) code))))
      end
  end.

(** builtins.rs:307-324 [isPrecompiled] *)
Definition is_precompiled (precompiles : address -> bool) (v : jsval) : res (jsres bool) :=
  with_buf v (fun b => let! a := bytes_to_address b in Ok (JReturn (precompiles (be_value a)))).

(** ** Guarded references *)

(** bindings.rs:58-154 [GuardedNullableGc]/[GcGuard]: a cell shared by every clone of the handle and by the guard; a
    handle is the number of its cell. *)
Notation cells V := (list (option V)) (only parsing).
(** bindings.rs:98-107 [new]: the handle (and guard) of the new cell *)
Definition gc_new {V} (h : cells V) (v : V) : cells V * nat := (h ++ [Some v], length h).
(** bindings.rs:150-154 [Drop for GcGuard] *)
Definition gc_drop {V} (h : cells V) (i : nat) : cells V := <[i := None]> h.
(** bindings.rs:109-115 [with_inner] *)
Definition with_inner {V R} (h : cells V) (i : nat) (f : V -> R) : option R :=
  match h !! i with Some (Some v) => Some (f v) | _ => None end.

(** ** Memory *)

(** revm [SharedMemory::slice] on the memory of the current frame *)
Definition sm_slice (mem : list byte) (offset size : N) : res (list byte) :=
  if offset + size <=? N.of_nat (length mem)
  then Ok (take (N.to_nat size) (drop (N.to_nat offset) mem)) else Panic PIndex.

(** What a memory handle gives access to: [Some] the memory, or [None] once its guard is dropped.
    bindings.rs:246-248 [len] *)
Definition mem_len (m : option (list byte)) : N := match m with Some m => N.of_nat (length m) | None => 0 end.
(** [with_inner(|mem| mem.slice(..).to_vec()).unwrap_or_default()] *)
Definition mem_read (m : option (list byte)) (offset size : N) : res (list byte) :=
  match m with Some m => sm_slice m offset size | None => Ok [] end.

(** bindings.rs:263-291 [slice].  [end - start] is an unchecked subtraction. *)
Definition mem_slice (m : option (list byte)) (start_arg end_arg : option jsnum) : res (jsres (list byte)) :=
  match start_arg, end_arg with
  | Some s, Some e =>
      if jlt e s || jlt s jzero || (as_usize e <? mem_len m) then Ok JThrow
      else if as_usize e <? as_usize s then Panic PUnderflow
      else let! b := mem_read m (as_usize s) (as_usize e - as_usize s) in Ok (JReturn b)
  | _, _ => Ok JThrow
  end.

(** bindings.rs:293-312 [getUint].  [offset + 32] is an unchecked addition. *)
Definition mem_get_uint (m : option (list byte)) (off_arg : option jsnum) : res (jsres (list byte)) :=
  match off_arg with
  | None => Ok JThrow
  | Some o =>
      if USIZE_MAX <? as_usize o + 32 then Panic POverflow
      else if (mem_len m <? as_usize o + 32) || jlt o jzero then Ok JThrow
      else let! b := mem_read m (as_usize o) 32 in Ok (JReturn b)
  end.

(** ** Stack *)

(** revm [Stack::peek]; the stack is listed bottom first *)
Definition stack_peek_rs (st : list U256) (idx : N) : option U256 :=
  if N.of_nat (length st) <=? idx then None else st !! (length st - N.to_nat idx - 1)%nat.

(** bindings.rs:431-449 [StackRef::peek]; the bigint is its value *)
Definition stack_ref_peek (s : option (list U256)) (idx : N) : jsres U256 :=
  match s with
  | Some st => match stack_peek_rs st idx with Some v => JReturn v | None => JThrow end
  | None => JThrow
  end.
(** bindings.rs:461-481 [peek]; [len] is the length captured when the object was made *)
Definition stack_peek (len : N) (s : option (list U256)) (idx_arg : option jsnum) : jsres U256 :=
  match idx_arg with
  | None => JThrow
  | Some a => if (len <=? as_usize a) || jlt a jzero then JThrow else stack_ref_peek s (as_usize a)
  end.

(** ** Database *)

(** The journaled state and the database as an [EvmDbRef] sees them ([None] in the database: an error). *)
Record StateView := mkSV { sv_account : address -> option AccountInfo; sv_slot : address -> U256 -> option U256 }.
Record DbView := mkDV {
  dv_basic : address -> option (option AccountInfo);
  dv_code : U256 -> option (list byte);   (** what revm's [Bytecode::bytecode] gives: of analysed code, with its padding *)
  dv_storage : address -> U256 -> option U256 }.

(** bindings.rs:771-786 [read_basic]; [st], [db] are the contents of the guarded cells *)
Definition read_basic (st : option StateView) (db : option DbView) (a : jsval) : res (jsres (option AccountInfo)) :=
  with_buf a (fun b =>
    let! ad := bytes_to_address b in
    let addr := be_value ad in
    match (match st with Some s => sv_account s addr | None => None end) with
    | Some acc => Ok (JReturn (Some acc))
    | None =>
        match db with
        | Some d => match dv_basic d addr with Some r => Ok (JReturn r) | None => Ok JThrow end
        | None => Ok JThrow
        end
    end).
Definition rmap_js {A B} (f : A -> jsres B) (m : res (jsres A)) : res (jsres B) :=
  let! r := m in Ok (jbind r f).
(** bindings.rs:834-847 [exists] *)
Definition db_exists st db a : res (jsres bool) :=
  rmap_js (fun acc => JReturn (match acc with Some _ => true | None => false end)) (read_basic st db a).
(** bindings.rs:849-862 [getBalance] *)
Definition db_get_balance st db a : res (jsres U256) :=
  rmap_js (fun acc => JReturn (match acc with Some i => ai_balance i | None => 0 end)) (read_basic st db a).
(** bindings.rs:864-877 [getNonce] *)
Definition db_get_nonce st db a : res (jsres u64) :=
  rmap_js (fun acc => JReturn (match acc with Some i => ai_nonce i | None => 0 end)) (read_basic st db a).
(** bindings.rs:788-804 [read_code] *)
Definition db_get_code st (db : option DbView) a : res (jsres (list byte)) :=
  rmap_js (fun acc =>
    let h := match acc with Some i => ai_code_hash i | None => KECCAK_EMPTY end in
    if h =? KECCAK_EMPTY then JReturn []
    else match db with
         | Some d => match dv_code d h with Some c => JReturn c | None => JThrow end
         | None => JThrow
         end) (read_basic st db a).
(** [U256] to [B256]: 32 bytes, most significant first *)
Fixpoint be_bytes (n : nat) (v : N) : list byte :=
  match n with O => [] | S n => be_bytes n (v / 256) ++ [default x00 (Byte.of_N (v mod 256))] end.
(** bindings.rs:806-830 [read_state]: only the database is read *)
Definition db_get_state (st : option StateView) (db : option DbView) (a slot : jsval) : res (jsres (list byte)) :=
  with_buf a (fun b =>
    let! ad := bytes_to_address b in
    with_buf slot (fun sb =>
      let! sl := bytes_to_hash sb in
      match db with
      | Some d =>
          match dv_storage d (be_value ad) (be_value sl) with
          | Some v => Ok (JReturn (be_bytes 32 v))
          | None => Ok JThrow
          end
      | None => Ok JThrow
      end)).
