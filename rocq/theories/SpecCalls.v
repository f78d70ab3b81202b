(** * SpecCalls: the call tree compared with the lists of selectors and of transfers *)

From Verif Require Export SpecAgree SpecSimple.
Local Open Scope N_scope.

(** The frame of the call tree is a message call (not a creation) whose input starts with this selector and has this many
    further bytes. *)
Definition selects (sel : list byte) (size : nat) (i : FrameInfo) : bool :=
  bool_decide (In (fi_typ i) ["CALL"; "STATICCALL"; "CALLCODE"; "DELEGATECALL"]) &&
  bool_decide (take 4 (fi_input i) = sel) && (length (fi_input i) =? 4 + size)%nat.

(** The transfer made by a frame of the call tree when it is entered: CALL sends its value to the called account, CALLCODE
    to the calling account itself. *)
Definition sends (i : FrameInfo) : list movement :=
  match fi_value i, fi_to i with
  | Some v, Some to =>
      if 0 <? v then
        if bool_decide (fi_typ i = "CALL") then [(ByCall, fi_from i, to, v)]
        else if bool_decide (fi_typ i = "CALLCODE") then [(ByCall, fi_from i, fi_from i, v)]
        else []
      else []
  | _, _ => []
  end.

Definition by_call (m : movement) : bool := match m with (ByCall, _, _, _) => true | _ => false end.

(** EVM facts: CALL and CALLCODE may send value, CALLCODE runs in the name of the account that makes it, DELEGATECALL only
    repeats a value and STATICCALL has none. *)
Definition evm_schemes (f : frame) : Prop :=
  every_frame (fun g =>
    match f_start g with
    | SCall _ i =>
        match ci_scheme i with
        | CSCall => exists v, ci_value i = Transfer v
        | CSCallCode => ci_caller i = ci_target_address i /\ exists v, ci_value i = Transfer v
        | CSDelegateCall => exists v, ci_value i = Apparent v
        | CSStaticCall => ci_value i = Transfer 0
        end
    | SCreate _ _ => True
    end) f.
