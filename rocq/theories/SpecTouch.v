(** * SpecTouch: what recorded steps say about touched accounts and slots *)

From Verif Require Export Inspector.
Local Open Scope N_scope.

(** A step in the recorded trace. *)
Definition in_trace (s : TracingInspector) (st : CallTraceStep) : Prop :=
  exists n, In n (ti_traces s) /\ In st (tr_steps (nd_trace n)).

(** The step is an SLOAD or SSTORE of slot [k] of account [a]. *)
Definition step_accesses_slot (st : CallTraceStep) (a : address) (k : U256) : Prop :=
  (st_op st = 0x54 \/ st_op st = 0x55) /\ st_contract st = a /\ exists rest, st_stack st = Some (rest ++ [k]).

(** The step names account [a]: on top of the stack for BALANCE, EXTCODESIZE, EXTCODECOPY, EXTCODEHASH and SELFDESTRUCT,
    second from the top for CALL, CALLCODE, DELEGATECALL and STATICCALL. *)
Definition step_names_account (st : CallTraceStep) (a : address) : Prop :=
  exists w, a = w mod 2 ^ 160 /\
    (In (st_op st) [0x31; 0x3b; 0x3c; 0x3f; 0xff] /\ (exists rest, st_stack st = Some (rest ++ [w])) \/
     In (st_op st) [0xf1; 0xf2; 0xf4; 0xfa] /\ exists rest top, st_stack st = Some (rest ++ [w; top])).
