(** * OpcodeGas: /repo/src/opcode.rs, [OpcodeGasInspector] *)

From Verif Require Export Evm.
Local Open Scope N_scope.

(** opcode.rs:10-17; the [u64] counts are unbounded here (they would take 2^64 instructions), the gas totals are not. *)
Record OpcodeGasInspector := mkOG {
  og_counts : gmap u8 u64; og_gas : gmap u8 u64; og_last : option (u8 * u64) }.

(** opcode.rs:21-23 [new] *)
Definition og_new : OpcodeGasInspector := mkOG ∅ ∅ None.

(** [*map.entry(k).or_default() += n] *)
Definition add_entry (k : u8) (n : u64) (m : gmap u8 u64) : gmap u8 u64 :=
  <[k := default 0 (m !! k) + n]> m.

(** opcode.rs:61-70 [step] *)
Definition og_step (s : OpcodeGasInspector) (i : Interp) : OpcodeGasInspector :=
  let op := i.(in_op) in
  if op_known op
  then mkOG (add_entry op 1 s.(og_counts)) s.(og_gas) (Some (op, i.(in_gas).(g_remaining)))
  else s.

(** opcode.rs:72-78 [step_end]; the addition is on [u64] *)
Definition og_step_end (s : OpcodeGasInspector) (i : Interp) : res OpcodeGasInspector :=
  match s.(og_last) with
  | Some (op, gas_remaining) =>
      let gas_cost := gas_remaining - i.(in_gas).(g_remaining) in
      if default 0 (s.(og_gas) !! op) + gas_cost <? 2 ^ 64
      then Ok (mkOG s.(og_counts) (add_entry op gas_cost s.(og_gas)) None)
      else Panic POverflow
  | None => Ok s
  end.

(** opcode.rs:57-79 [impl Inspector]; the other hooks are the trait's defaults *)
Definition og_handle : inspector OpcodeGasInspector := fun s e =>
  match e with
  | EStep i _ => Ok (og_step s i, RInterp i)
  | EStepEnd i _ => let! s := og_step_end s i in Ok (s, RInterp i)
  | e => Ok (s, default_response e)
  end.

(** opcode.rs:38-43 [opcode_iter] (also 48-54 [opcode_gas_iter], which prints the opcode) *)
Definition og_iter (s : OpcodeGasInspector) : list (u8 * (u64 * u64)) :=
  map (fun p => (fst p, (snd p, default 0 (s.(og_gas) !! fst p)))) (map_to_list s.(og_counts)).
