(** * SpecSession: what a history of uses of an inspector amounts to *)

From Verif Require Export Session SpecTree SpecRecord SpecOptions.

(** The configuration in force after the uses. *)
Fixpoint config_after (c : TracingInspectorConfig) (us : list use) : TracingInspectorConfig :=
  match us with
  | [] => c
  | UConfig f :: us => config_after (f c) us
  | _ :: us => config_after c us
  end.

(** The uses that are not changes of the configuration, each with the configuration in force at that moment. *)
Fixpoint in_force (c : TracingInspectorConfig) (us : list use) : list (TracingInspectorConfig * use) :=
  match us with
  | [] => []
  | UConfig f :: us => in_force (f c) us
  | u :: us => (c, u) :: in_force c us
  end.

(** The two histories are the same but for changes of the configuration, and at no moment do the configurations in
    force treat the parts [k] of a recording differently. *)
Definition alike (k : keep) (c c' : TracingInspectorConfig) (us us' : list use) : Prop :=
  Forall2 (fun p p' => snd p = snd p' /\ same_options k (fst p) (fst p')) (in_force c us) (in_force c' us').

(** At most one top-level call starts between two resets. *)
Fixpoint one_transaction (started : bool) (us : list use) : Prop :=
  match us with
  | [] => True
  | UHook e :: us =>
      if is_root_start e then started = false /\ one_transaction true us else one_transaction started us
  | UFuse :: us => one_transaction false us
  | _ :: us => one_transaction started us
  end.

(** The hooks called, if nothing but hooks and changes of the configuration happen. *)
Fixpoint hooks_called (us : list use) : option (list event) :=
  match us with
  | [] => Some []
  | UHook e :: us => cons e <$> hooks_called us
  | UConfig _ :: us => hooks_called us
  | _ => None
  end.

(** The end of an instruction with opcode [op] can be recorded: the conditions of [snapshot_safe]. *)
Definition recordable (c : TracingInspectorConfig) (op : u8) (i : Interp) (x : Ctx) : Prop :=
  (snap_is_pushes (record_stack_snapshots c) = true -> stack_push_count op <= length (in_stack i)) /\
  (record_state_diff c = true ->
     exists jn, last (cx_journal x) = Some jn /\
       forall a k h, op = 0x54%N \/ op = 0x55%N ->
         last jn = Some (JStorageChanged a k h) -> cx_present x a k <> None).

(** The configuration is changed with care: [exclude_precompile_calls] stays, [record_steps] stays while an instruction
    is in progress ([cur]: its opcode and whether it is being recorded), and the end of every recorded instruction is
    [recordable] under the configuration in force there. *)
Fixpoint careful (c : TracingInspectorConfig) (cur : option (u8 * bool)) (us : list use) : Prop :=
  match us with
  | [] => True
  | UConfig f :: us =>
      exclude_precompile_calls (f c) = exclude_precompile_calls c /\
      (cur <> None -> record_steps (f c) = record_steps c) /\
      careful (f c) cur us
  | UHook (EStep i _) :: us => careful c (Some (in_op i, selected c (in_op i))) us
  | UHook (EStepEnd i x) :: us =>
      match cur with Some (op, true) => recordable c op i x | _ => True end /\ careful c None us
  | _ :: us => careful c cur us
  end.
