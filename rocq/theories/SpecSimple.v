(** * SpecSimple: what the counting and collecting inspectors should report *)

From Verif Require Export SpecExec.
Local Open Scope N_scope.

(** ** Opcode counts and gas *)

(** Steps with opcode [op] in a history. *)
Definition is_step_of (op : u8) (e : event) : bool :=
  match e with EStep i _ => in_op i =? op | _ => false end.
Definition count_steps (op : u8) (es : list event) : N := N.of_nat (length (List.filter (is_step_of op) es)).

(** The [step_end] belonging to a step: the first one after it, unless another (valid) step comes first. *)
Fixpoint own_step_end (es : list event) : option Interp :=
  match es with
  | [] => None
  | EStepEnd i _ :: _ => Some i
  | EStep i _ :: r => if op_known (in_op i) then None else own_step_end r
  | _ :: r => own_step_end r
  end.

(** Sum over the completed steps of [op] of the gas that disappeared in between. *)
Fixpoint gas_of_steps (op : u8) (es : list event) : N :=
  match es with
  | [] => 0
  | EStep i _ :: r =>
      (if (in_op i =? op) && op_known op
       then match own_step_end r with
            | Some i' => Z.to_N (Z.max 0 (Z.of_N (g_remaining (in_gas i)) - Z.of_N (g_remaining (in_gas i'))))
            | None => 0
            end
       else 0) + gas_of_steps op r
  | _ :: r => gas_of_steps op r
  end.

(** All instructions of an execution. *)
Fixpoint all_instrs (f : frame) : list instr :=
  match f with
  | Frame _ body _ =>
      flat_map (fun it => match it with IOp o => [o] | IHook _ => [] | ISub g => all_instrs g end) body
  end.

(** ** Access list *)

(** The step reads or writes storage slot [k] of account [a]. *)
Definition accesses_slot (e : event) (a : address) (k : U256) : Prop :=
  exists i c rest, e = EStep i c /\ (in_op i = 0x54 \/ in_op i = 0x55) /\ in_contract i = a /\
    in_stack i = rest ++ [k].

(** The step names account [a] as operand: on top of the stack for EXTCODESIZE, EXTCODECOPY, EXTCODEHASH,
    BALANCE and SELFDESTRUCT, second from the top for CALL, CALLCODE, DELEGATECALL and STATICCALL. *)
Definition names_account (e : event) (a : address) : Prop :=
  exists i c rest w, e = EStep i c /\ a = w mod 2 ^ 160 /\
    (In (in_op i) [0x31; 0x3b; 0x3c; 0x3f; 0xff] /\ in_stack i = rest ++ [w] \/
     In (in_op i) [0xf1; 0xf2; 0xf4; 0xfa] /\ exists top, in_stack i = rest ++ [w; top]).

(** ** Transfers *)

Inductive moved_by := ByCall | ByCreate | ByCreate2 | BySelfdestruct.
Definition movement : Type := moved_by * address * address * U256.

Definition call_movement (s : fstart) : list movement :=
  match s with
  | SCall _ i => match ci_value i with
                 | Transfer v => if 0 <? v then [(ByCall, ci_caller i, ci_target_address i, v)] else []
                 | Apparent _ => []
                 end
  | SCreate _ _ => []
  end.
Definition create_movement (s : fstart) (e : fend) : list movement :=
  match s, fe_address e with
  | SCreate _ i, Some a =>
      [(match cr_scheme i with CrCreate => ByCreate | CrCreate2 _ => ByCreate2 end, cr_caller i, a, cr_value i)]
  | _, _ => []
  end.
Definition hook_movement (h : hook) : list movement :=
  match h with HSelfdestruct a b v => [(BySelfdestruct, a, b, v)] | HLog _ _ => [] end.

(** The value movement announced by a single hook; with [internal_only] the calls and creates at depth 0 are left out. *)
Definition hook_movements (internal_only : bool) (e : event) : list movement :=
  match e with
  | ECall c i =>
      match ci_value i with
      | Transfer v =>
          if (0 <? v) && negb (internal_only && (cx_depth c =? 0)%nat)
          then [(ByCall, ci_caller i, ci_target_address i, v)] else []
      | Apparent _ => []
      end
  | ECreateEnd c i o =>
      match cro_address o with
      | Some a =>
          if negb (internal_only && (cx_depth c =? 0)%nat)
          then [(match cr_scheme i with CrCreate => ByCreate | CrCreate2 _ => ByCreate2 end, cr_caller i, a, cr_value i)]
          else []
      | None => []
      end
  | ESelfdestruct a b v => [(BySelfdestruct, a, b, v)]
  | _ => []
  end.

(** The value movements of an execution in order: a call's when it starts, a create's when it ends.
    [top] says whether to list the frame's own. *)
Fixpoint movements (top : bool) (f : frame) : list movement :=
  match f with
  | Frame s body e =>
      (if top then call_movement s else [])
      ++ flat_map (fun it => match it with
                             | IOp o => flat_map hook_movement (op_hooks o)
                             | IHook h => hook_movement h
                             | ISub g => movements true g
                             end) body
      ++ (if top then create_movement s e else [])
  end.

(** The same without anything done by a frame that failed. *)
Definition frame_ok_result (e : fend) : bool :=
  match ir_result (fe_result e) with Stop | Return | SelfDestruct | ReturnContract | Continue => true | _ => false end.
Fixpoint effective_movements (top : bool) (f : frame) : list movement :=
  match f with
  | Frame s body e =>
      if frame_ok_result e then
        (if top then call_movement s else [])
        ++ flat_map (fun it => match it with
                               | IOp o => flat_map hook_movement (op_hooks o)
                               | IHook h => hook_movement h
                               | ISub g => effective_movements true g
                               end) body
        ++ (if top then create_movement s e else [])
      else []
  end.

(** [ks] are the keys of the last entry a request has for the address [a]. *)
Definition last_entry (request : list (address * list U256)) (a : address) (ks : list U256) : Prop :=
  exists r1 r2, request = r1 ++ (a, ks) :: r2 /\ ~ In a (map fst r2).
