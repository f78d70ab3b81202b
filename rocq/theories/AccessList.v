(** * AccessList: /repo/src/access_list.rs *)

From Verif Require Export Evm.
From stdpp Require Import sorting.
Local Open Scope N_scope.

(** alloy [AccessListItem]: address and storage keys *)
Definition AccessListItem : Type := address * list U256.

(** access_list.rs:13-18 *)
Record AccessListInspector := mkAL {
  al_excluded : gset address; al_list : gmap address (gset U256) }.

(** access_list.rs:24-38 [new]: collecting into a HashMap keeps the last entry of an address *)
Definition al_new (request : list AccessListItem) (from to : address) (precompiles : list address)
    : AccessListInspector :=
  mkAL (list_to_set (from :: to :: precompiles))
       (fold_left (fun m it => <[fst it := list_to_set (snd it)]> m) request ∅).

(** [BTreeSet] iteration: ascending *)
Definition btree_elements (s : gset U256) : list U256 := merge_sort N.le (elements s).

(** access_list.rs:42-58 [access_list] / [into_access_list] *)
Definition al_access_list (s : AccessListInspector) : list AccessListItem :=
  map (fun p => (fst p, btree_elements (snd p))) (map_to_list s.(al_list)).

(** revm [Stack::peek(n)] *)
Definition stack_peek (stack : list U256) (n : nat) : option U256 := reverse stack !! n.

(** [Address::from_word]: the last 20 bytes *)
Definition address_from_word (w : U256) : address := w mod 2 ^ 160.

(** [entry(a).or_default()] *)
Definition al_touch (a : address) (m : gmap address (gset U256)) : gmap address (gset U256) :=
  <[a := default ∅ (m !! a)]> m.

(** access_list.rs:75-80 and 84-89 *)
Definition al_touch_operand (s : AccessListInspector) (o : option U256) : AccessListInspector :=
  match o with
  | Some slot =>
      let addr := address_from_word slot in
      if decide (addr ∈ s.(al_excluded)) then s else mkAL s.(al_excluded) (al_touch addr s.(al_list))
  | None => s
  end.

(** access_list.rs:65-98 [step] *)
Definition al_step (s : AccessListInspector) (i : Interp) : AccessListInspector :=
  let op := i.(in_op) in
  if existsb (N.eqb op) [OP_SLOAD; OP_SSTORE] then
    match stack_peek i.(in_stack) 0 with
    | Some slot =>
        let cur := i.(in_contract) in
        mkAL s.(al_excluded) (<[cur := {[slot]} ∪ default ∅ (s.(al_list) !! cur)]> s.(al_list))
    | None => s
    end
  else if existsb (N.eqb op) [OP_EXTCODECOPY; OP_EXTCODEHASH; OP_EXTCODESIZE; OP_BALANCE; OP_SELFDESTRUCT] then
    al_touch_operand s (stack_peek i.(in_stack) 0)
  else if existsb (N.eqb op) [OP_DELEGATECALL; OP_CALL; OP_STATICCALL; OP_CALLCODE] then
    al_touch_operand s (stack_peek i.(in_stack) 1)
  else s.

(** access_list.rs:61-99 [impl Inspector] *)
Definition al_handle : inspector AccessListInspector := fun s e =>
  match e with
  | EStep i _ => Ok (al_step s i, RInterp i)
  | e => Ok (s, default_response e)
  end.
