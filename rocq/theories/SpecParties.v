(** * SpecParties: who is called, and who is destroyed *)

From Verif Require Export SpecAgree.

(** The frames the parity traces list: all but the sub-calls the user asked to leave out. [v] is the value of the frame. *)
Fixpoint listed_frames (cfg : TracingInspectorConfig) (w : world) (v : U256) (f : frame) : list frame :=
  match f with
  | Frame s body e =>
      f :: (fix go (l : list item) : list frame :=
              match l with
              | [] => []
              | ISub g :: r =>
                  (if hidden_call cfg w v (f_start g) then [] else listed_frames cfg w (call_value v (f_start g)) g) ++ go r
              | _ :: r => go r
              end) body
  end.

(** The account a call entry names as the one that is called: for a create the account in its result, if it has one. *)
Definition named_callee (t : TransactionTrace) : option address :=
  match tt_action t with
  | ActCall _ to _ _ _ _ => Some to
  | _ => match tt_result t with Some (OutCreate _ _ a) => Some a | _ => None end
  end.

(** A frame that runs another account's code in its own name, and destroys itself doing so. *)
Definition destroyed_by_library (g : frame) : Prop :=
  executing_account (f_start g) <> code_address (f_start g) /\ selfdestructs_of (hooks (f_body g)) <> [].

(** ** Destroyed contracts *)

(** The SELFDESTRUCT frames of a call tree. *)
Fixpoint selfdestruct_infos (c : CallFrame) : list FrameInfo :=
  match c with
  | mkCF i calls =>
      (if bool_decide (fi_typ i = "SELFDESTRUCT") then [i] else [])
        ++ (fix go (l : list CallFrame) : list FrameInfo :=
              match l with [] => [] | x :: l => selfdestruct_infos x ++ go l end) calls
  end.

(** The report of one frame's SELFDESTRUCT, [from] being named as the contract: nothing but the refund. *)
Definition destruction (from : frame -> address) (g : frame) : list FrameInfo :=
  match refund_of g with
  | Some refund =>
      [mkFI "SELFDESTRUCT" (from g) (option_map fst refund) (option_map snd refund) 0%N 0%N [] None None None []]
  | None => []
  end.
(** ... and in the parity traces; if the refund was not announced, with the account whose code ran and zeros. *)
Definition destruction_action (g : frame) : list Action :=
  match refund_of g with
  | Some (Some (target, amount)) => [ActSelfdestruct (executing_account (f_start g)) target amount]
  | Some None => [ActSelfdestruct (code_address (f_start g)) 0 0]%N
  | None => []
  end.
Definition selfdestruct_actions (l : list TransactionTrace) : list Action :=
  map tt_action (List.filter (fun t => match tt_action t with ActSelfdestruct _ _ _ => true | _ => false end) l).
