(** * SpecWrites: the storage changes of an execution, and reading them off the recorded calls *)

From Verif Require Export SpecGeth SpecRecord SpecDiff SpecSimple.

Global Instance journal_entry_eq_dec : EqDecision JournalEntry.
Proof. solve_decision. Defined.

(** A change: contract, slot, value. *)
Notation change_of_slot := (address * U256 * U256)%type (only parsing).

(** The change an SSTORE makes: the journal's newest list grew, and its newest entry is a change of storage. *)
Definition change_made (o : instr) : list change_of_slot :=
  if (in_op (op_pre o) =? 0x55)%N then
    match last (j_journal (op_pre_j o)), last (j_journal (op_post_j o)) with
    | Some before, Some after =>
        if bool_decide (before = take (length before) after) && (length before <? length after) then
          match last after with
          | Some (JStorageChanged a k _) => match j_present (op_post_j o) a k with Some v => [(a, k, v)] | None => [] end
          | _ => []
          end
        else []
    | _, _ => []
    end
  else [].

(** The changes of an execution in their order, without those of frames that fail. *)
Fixpoint changes_by (f : frame) : list change_of_slot :=
  match f with
  | Frame s body e =>
      if frame_ok_result e
      then flat_map (fun it => match it with IOp o => change_made o | IHook _ => [] | ISub g => changes_by g end) body
      else []
  end.
(** What the slot is left with, if it was changed. *)
Definition left_in_slot (l : list change_of_slot) (a : address) (k : U256) : option U256 :=
  last (flat_map (fun c => if bool_decide (fst c = (a, k)) then [snd c] else []) l).

(** EVM facts: SSTORE changes the storage of the executing account; precompiles run no instructions. *)
Definition evm_writes (w : world) (f : frame) : Prop :=
  every_frame (fun g =>
    Forall (fun o => forall a k v, In (a, k, v) (change_made o) -> a = executing_account (f_start g)) (instrs (f_body g)) /\
    (is_call (f_start g) = true -> w_precompiles w (code_address (f_start g)) = true -> instrs (f_body g) = [])) f.
(** No SSTORE that changes nothing comes right after a change in the journal. *)
Definition no_leftover (f : frame) : Prop :=
  every_frame (fun g =>
    Forall (fun o => in_op (op_pre o) = 0x55%N -> change_made o = [] ->
       forall l a k had, last (j_journal (op_post_j o)) = Some l -> last l <> Some (JStorageChanged a k had)) (instrs (f_body g))) f.

(** An SSTORE that changes nothing may come after a change in the journal if that was one of the executing account, made
    during the call ([acc]: its changes so far), and the slot still has that value. *)
Fixpoint leftovers_in (a : address) (acc : list change_of_slot) (l : list item) : Prop :=
  match l with
  | [] => True
  | IOp o :: r =>
      (in_op (op_pre o) = 0x55%N -> change_made o = [] ->
       forall j b k had, last (j_journal (op_post_j o)) = Some j -> last j = Some (JStorageChanged b k had) ->
       b = a /\ exists v, j_present (op_post_j o) b k = Some v /\ left_in_slot acc b k = Some v) /\
      leftovers_in a (acc ++ change_made o) r
  | IHook _ :: r => leftovers_in a acc r
  | ISub g :: r => leftovers_in a (acc ++ changes_by g) r
  end.
Definition own_leftovers (f : frame) : Prop :=
  every_frame (fun g => leftovers_in (executing_account (f_start g)) [] (f_body g)) f.

(** Reading the changes off the recorded calls: those of the SSTOREs of calls that succeeded, in order; [fuel] is the
    number of calls. *)
Definition step_change (n : CallTraceNode) (st : CallTraceStep) : list change_of_slot :=
  match st_storage_change st with
  | Some ch => match sc_reason ch with RSSTORE => [(nd_execution_address n, sc_key ch, sc_value ch)] | RSLOAD => [] end
  | None => []
  end.
Fixpoint recorded_changes (fuel : nat) (ns : list CallTraceNode) (i : nat) : list change_of_slot :=
  match fuel, ns !! i with
  | S fuel, Some n =>
      if tr_success (nd_trace n) then
        flat_map (fun m =>
          match m with
          | OStep j => match tr_steps (nd_trace n) !! j with Some st => step_change n st | None => [] end
          | OCall j => match nd_children n !! j with Some c => recorded_changes fuel ns c | None => [] end
          | OLog _ => []
          end) (nd_ordering n)
      else []
  | _, _ => []
  end.

(** The state map holds the storage after the execution. *)
Definition stored (state : list (address * Account)) (f : frame) : Prop :=
  forall a acc, In (a, acc) state ->
    (forall k s, In (k, s) (ac_storage acc) -> sl_present s = default (sl_original s) (left_in_slot (changes_by f) a k)) /\
    (forall k v, left_in_slot (changes_by f) a k = Some v -> exists s, In (k, s) (ac_storage acc)).
