(** * SpecMoved: the struct log of an instruction in a call, and in the same call as a transaction of its own *)

From Verif Require Export SpecLogs SpecAgree.

(** [l] is the log [l'] moved [k] levels deeper. The storage shown may have more slots, as it also has those seen before the
    call; the memory is the same give or take zero words at the end. *)
Record log_moved (k : nat) (l' l : StructLog) : Prop := {
  lm_depth : sl_depth l = k + sl_depth l';
  lm_pc : sl_pc l = sl_pc l';
  lm_op : sl_op l = sl_op l';
  lm_gas : sl_gas l = sl_gas l';
  lm_cost : sl_gas_cost l = sl_gas_cost l';
  lm_error : sl_error l = sl_error l';
  lm_stack : sl_stack l = sl_stack l';
  lm_return_data : sl_return_data l = sl_return_data l';
  lm_storage : match sl_storage l', sl_storage l with Some m', Some m => m' ⊆ m | None, None => True | _, _ => False end;
  lm_memory : match sl_memory l', sl_memory l with
              | Some ws', Some ws => exists m, words_show ws' m /\ words_show ws m
              | None, None => True
              | _, _ => False
              end }.

(** The refund counters of the instructions are not negative. *)
Definition counters_ok (f : frame) : Prop :=
  every_frame (fun g => Forall (fun o => 0 <= g_refunded (in_gas (op_pre o)) < 18446744073709551616)%Z (instrs (f_body g))) f.
