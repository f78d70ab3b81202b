(** * SpecVmCode: vm traces with the code fields filled in *)

From Verif Require Export SpecVm.

(** The code that the database has for an account. *)
Definition stored_code (db : Db) (a : address) (code : bytes) : Prop :=
  exists o, db_basic db a = Some o /\
    let h := ai_code_hash (default info_default o) in
    if (h =? KECCAK_EMPTY)%N then code = [] else db_code_by_hash db h = Some code.

(** [t] is the vm trace of node [i], its code and those of its sub-traces being as [P] says. *)
Inductive vm_coded (P : CallTraceNode -> bytes -> Prop) (ns : list CallTraceNode) : nat -> VmTrace -> Prop :=
  | vm_coded_node i n code subs :
      ns !! i = Some n -> P n code -> Forall2 (vm_coded P ns) (nd_children n) subs ->
      vm_coded P ns i (mkVm code (attach n.(nd_trace).(tr_steps) subs)).

(** The traces attached to the instructions of a trace, in order. *)
Definition subtraces (t : VmTrace) : list VmTrace := omap vi_sub (vm_ops t).
(** The traces nested [k] levels below [t], left to right. *)
Fixpoint trace_level (t : VmTrace) (k : nat) : list VmTrace :=
  match k with O => [t] | S k => flat_map subtraces (trace_level t k) end.
(** All traces of the tree, level by level. *)
Definition traces_by_level (t : VmTrace) : list VmTrace := concat (map (trace_level t) (seq 0 (vm_size t))).

(** A trace without any codes. *)
Fixpoint without_codes (t : VmTrace) : VmTrace :=
  match t with
  | mkVm _ ops =>
      mkVm [] (map (fun i => match i with
                             | mkVmI pc cost ex sub op =>
                                 mkVmI pc cost ex (match sub with Some s => Some (without_codes s) | None => None end) op
                             end) ops)
  end.
