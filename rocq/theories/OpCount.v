(** * OpCount: /repo/src/tracing/opcount.rs *)

From Verif Require Export Evm.

(** opcount.rs:9-12; the counter is unbounded here *)
Record OpcodeCountInspector := mkOC { oc_count : nat }.
(** derive Default *)
Definition oc_new : OpcodeCountInspector := mkOC 0.
(** opcount.rs:22-29 [impl Inspector] *)
Definition oc_handle : inspector OpcodeCountInspector := fun s e =>
  match e with
  | EStep i _ => Ok (mkOC (S s.(oc_count)), RInterp i)
  | e => Ok (s, default_response e)
  end.
