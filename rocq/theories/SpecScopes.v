(** * SpecScopes: when a JavaScript tracer's scopes and the geth call tree tell the same *)

From Verif Require Export SpecParties SpecJs.
Local Open Scope N_scope.

(** Entering and leaving the calls inside a frame of a call tree. *)
Inductive tree_scope := TEnter (i : FrameInfo) | TExit (i : FrameInfo).
Fixpoint tree_scopes (c : CallFrame) : list tree_scope :=
  match c with
  | mkCF _ calls =>
      (fix go (l : list CallFrame) : list tree_scope :=
         match l with
         | [] => []
         | x :: l => TEnter (cf_info x) :: tree_scopes x ++ TExit (cf_info x) :: go l
         end) calls
  end.

(** The object given to [enter] and a frame of the call tree are about the same call. If not [exact], two differences are
    let pass: a DELEGATECALL whose value is shown to the tracer as zero, and a delegated call (DELEGATECALL, CALLCODE) for
    which the call tree names the caller as the called account (C93). *)
Record same_enter (exact : bool) (f : JsFrame) (i : FrameInfo) : Prop := {
  sn_typ : fi_typ i = spec_call_name (jf_kind f);
  sn_from : fi_from i = jc_caller (jf_contract f);
  sn_to : fi_to i = Some (jc_contract (jf_contract f)) \/
          (exact = false /\ (jf_kind f = KDelegateCall \/ jf_kind f = KCallCode) /\ fi_to i = Some (jc_caller (jf_contract f)));
  sn_value : fi_value i = match jf_kind f with KStaticCall => None | _ => Some (jc_value (jf_contract f)) end \/
             (exact = false /\ jf_kind f = KDelegateCall /\ jc_value (jf_contract f) = 0);
  sn_gas : fi_gas i = jf_gas f;
  sn_input : fi_input i = jc_input (jf_contract f) }.
(** ... and the object given to [exit]. *)
Definition same_exit (r : JsFrameResult) (i : FrameInfo) : Prop :=
  fi_gas_used i = jr_gas_used r /\ same_output (fi_output i) (jr_output r).

(** The scopes shown to a tracer are those of the call tree, with [n] scopes of selfdestructs in between. *)
Inductive scopes_agree (P : JsFrame -> FrameInfo -> Prop) : nat -> list seen -> list tree_scope -> Prop :=
  | sa_nil : scopes_agree P 0 [] []
  | sa_enter n f i l t : P f i -> scopes_agree P n l t -> scopes_agree P n (SEnter f :: l) (TEnter i :: t)
  | sa_exit n r i l t : same_exit r i -> scopes_agree P n l t -> scopes_agree P n (SExit r :: l) (TExit i :: t)
  | sa_selfdestruct n f l t : scopes_agree P n l t -> scopes_agree P (S n) (SEnter f :: SExit empty_result :: l) t.

(** EVM facts: DELEGATECALL, and only it, has an apparent value; a CALL or STATICCALL runs the code of its target. *)
Definition evm_inputs (f : frame) : Prop :=
  every_frame (fun g =>
    match f_start g with
    | SCall _ i =>
        (match ci_value i with Apparent _ => ci_scheme i = CSDelegateCall | Transfer _ => ci_scheme i <> CSDelegateCall end) /\
        (match ci_scheme i with CSCall | CSStaticCall => ci_target_address i = ci_bytecode_address i | _ => True end)
    | SCreate _ _ => True
    end) f.

(** The SELFDESTRUCTs run by an execution. *)
Definition selfdestruct_count (f : frame) : nat :=
  length (flat_map (fun g => selfdestructs_of (hooks (f_body g))) (frames_of f)).
