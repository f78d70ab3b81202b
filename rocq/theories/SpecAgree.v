(** * SpecAgree: when two kinds of traces tell the same about an execution *)

From Verif Require Export SpecTx.

(** The frame of a geth call tree that a parity trace address leads to. *)
Fixpoint frame_at (c : CallFrame) (path : list nat) : option CallFrame :=
  match path with
  | [] => Some c
  | k :: path => match cf_calls c !! k with Some x => frame_at x path | None => None end
  end.

(** Geth's name of a parity call type. *)
Definition geth_name (t : CallType) : string :=
  match t with
  | CTCall => "CALL" | CTStaticCall => "STATICCALL" | CTCallCode => "CALLCODE" | CTDelegateCall => "DELEGATECALL"
  | CTAuthCall => "AUTHCALL" | CTNone => ""
  end.

(** Geth leaves out an output without bytes. *)
Definition same_output (geth : option bytes) (parity : bytes) : Prop :=
  (parity = [] /\ geth = None) \/ (parity <> [] /\ geth = Some parity).

(** A parity entry and a geth frame that report the same call: parties, value (not shown by geth for a static call), gas
    given, input, error and, where parity reports a result, output, created address and (but for the top call, whose gas
    used is set by the user) gas used. *)
Record same_call (e : TransactionTrace) (i : FrameInfo) : Prop := {
  sc_action : match tt_action e with
    | ActCall from to value gas input ct =>
        fi_typ i = geth_name ct /\ fi_from i = from /\ fi_to i = Some to /\ fi_gas i = gas /\ fi_input i = input /\
        fi_value i = match ct with CTStaticCall => None | _ => Some value end
    | ActCreate from value gas init =>
        (fi_typ i = "CREATE" \/ fi_typ i = "CREATE2") /\ fi_from i = from /\ fi_gas i = gas /\ fi_input i = init /\
        fi_value i = Some value
    | ActSelfdestruct _ _ _ => False
    end;
  sc_error : fi_error i = tt_error e;
  sc_result : match tt_result e with
    | Some (OutCall gas out) => same_output (fi_output i) out /\ (tt_address e <> [] -> fi_gas_used i = gas)
    | Some (OutCreate gas code a) =>
        same_output (fi_output i) code /\ fi_to i = Some a /\ (tt_address e <> [] -> fi_gas_used i = gas)
    | None => is_Some (fi_error i)
    end }.

(** ** Revert reasons *)

(** The text the revert data of a frame decodes to: the reason given to [revert], the text of another well-known error,
    or the data itself. *)
Definition decodes_to (decode : bytes -> option RevertReason) (out : bytes) (text : string) : Prop :=
  decode out = Some (ContractRevert text) \/ decode out = Some (ContractOther text) \/ decode out = Some (RawString text).
(** What a frame should report as its revert reason. *)
Definition reason_of (decode : bytes -> option RevertReason) (g : frame) (i : FrameInfo) : Prop :=
  forall text, fi_revert_reason i = Some text <->
    spec_success (status (f_end g)) = false /\ text <> "" /\ decodes_to decode (ir_output (fe_result (f_end g))) text.
(** The frames of an execution in the order they are entered. *)
Fixpoint frames_of (f : frame) : list frame :=
  match f with
  | Frame s body e =>
      f :: (fix go (l : list item) : list frame :=
              match l with
              | [] => []
              | ISub g :: r => frames_of g ++ go r
              | _ :: r => go r
              end) body
  end.
