(** * Transfer: /repo/src/transfer.rs *)

From Verif Require Export Evm.

(** transfer.rs:119-130 *)
Inductive TransferKind := TKCall | TKCreate | TKCreate2 | TKSelfDestruct.
(** transfer.rs:106-117 *)
Record TransferOperation := mkTransfer { tf_kind : TransferKind; tf_from : address; tf_to : address; tf_value : U256 }.
(** transfer.rs:11-14 *)
Record TransferInspector := mkTF { tf_internal_only : bool; tf_transfers : list TransferOperation }.

(** transfer.rs:21-23 [new] *)
Definition tf_new (internal_only : bool) : TransferInspector := mkTF internal_only [].

(** revm [CallInputs::transfers_value]: a [Transfer] of more than zero *)
Definition transfers_value (i : CallInputs) : bool :=
  match ci_transfer_value i with Some v => (0 <? v)%N | None => false end.

(** [transfers.push(..)] *)
Definition tf_push (s : TransferInspector) (t : TransferOperation) : TransferInspector :=
  mkTF s.(tf_internal_only) (s.(tf_transfers) ++ [t]).

(** transfer.rs:50-70 [call] *)
Definition tf_call (s : TransferInspector) (c : Ctx) (i : CallInputs) : TransferInspector :=
  if s.(tf_internal_only) && (c.(cx_depth) =? 0) then s
  else if transfers_value i
  then tf_push s (mkTransfer TKCall i.(ci_caller) i.(ci_target_address) (ci_call_value i))
  else s.

(** transfer.rs:72-94 [create_end] *)
Definition tf_create_end (s : TransferInspector) (c : Ctx) (i : CreateInputs) (o : CreateOutcome) : TransferInspector :=
  if s.(tf_internal_only) && (c.(cx_depth) =? 0) then s
  else match o.(cro_address) with
       | Some a =>
           let kind := match i.(cr_scheme) with CrCreate => TKCreate | CrCreate2 _ => TKCreate2 end in
           tf_push s (mkTransfer kind i.(cr_caller) a i.(cr_value))
       | None => s
       end.

(** transfer.rs:46-104 [impl Inspector] ([selfdestruct]: 96-103) *)
Definition tf_handle : inspector TransferInspector := fun s e =>
  match e with
  | ECall c i => Ok (tf_call s c i, RCall i None)
  | ECreateEnd c i o => Ok (tf_create_end s c i o, RCreateEnd o)
  | ESelfdestruct a b v => Ok (tf_push s (mkTransfer TKSelfDestruct a b v), RUnit)
  | e => Ok (s, default_response e)
  end.
