(** * SpecExec: executions as trees, and the hook calls revm makes for them

    This is the description of the environment: revm (revm-10 [Inspector] protocol) calls
    [call]/[create] when a frame is entered (journal depth = number of open frames), then for every
    instruction of the frame [step] and [step_end] with the [log]/[selfdestruct] hooks of that
    instruction in between, runs sub-frames between instructions, and finally calls
    [call_end]/[create_end] with the outcome.  A frame that is refused before running (depth limit,
    balance) is a frame with an empty body. *)

From Verif Require Export Evm.

(** Transaction-wide constants. *)
Record world := mkWorld {
  w_spec : SpecId; w_tx_gas_limit : u64; w_precompiles : address -> bool }.

(** The journal as visible to a hook. *)
Record jview := mkJ {
  j_journal : list (list JournalEntry); j_present : address -> U256 -> option U256 }.

Definition ctx_of (w : world) (d : nat) (j : jview) : Ctx :=
  mkCtx (w_spec w) (w_tx_gas_limit w) (w_precompiles w) d (j_journal j) (j_present j).

(** Hooks fired by an instruction. *)
Inductive hook := HLog (j : jview) (l : Log) | HSelfdestruct (contract target : address) (value : U256).

(** One executed instruction: interpreter and journal before and after, hooks in between. *)
Record instr := mkInstr {
  op_pre : Interp; op_pre_j : jview; op_hooks : list hook; op_post : Interp; op_post_j : jview }.

(** How a frame starts and ends. *)
Inductive fstart := SCall (j : jview) (i : CallInputs) | SCreate (j : jview) (i : CreateInputs).
Record fend := mkEnd { fe_j : jview; fe_result : InterpreterResult; fe_address : option address }.

(** A frame executes instructions and sub-frames. *)
Inductive frame := Frame (s : fstart) (body : list item) (e : fend)
with item := IOp (o : instr) | IHook (h : hook) | ISub (f : frame).

Definition f_start (f : frame) := match f with Frame s _ _ => s end.
Definition f_body (f : frame) := match f with Frame _ b _ => b end.
Definition f_end (f : frame) := match f with Frame _ _ e => e end.

(** ** The hook calls of an execution *)

Definition hook_event (w : world) (d : nat) (h : hook) : event :=
  match h with
  | HLog j l => ELog l (ctx_of w d j)
  | HSelfdestruct a b v => ESelfdestruct a b v
  end.

Definition instr_events (w : world) (d : nat) (o : instr) : list event :=
  EStep (op_pre o) (ctx_of w d (op_pre_j o))
    :: map (hook_event w d) (op_hooks o)
    ++ [EStepEnd (op_post o) (ctx_of w d (op_post_j o))].

Definition start_event (w : world) (d : nat) (s : fstart) : event :=
  match s with
  | SCall j i => ECall (ctx_of w d j) i
  | SCreate j i => ECreate (ctx_of w d j) i
  end.

Definition end_event (w : world) (d : nat) (s : fstart) (e : fend) : event :=
  match s with
  | SCall _ i => ECallEnd (ctx_of w d (fe_j e)) i (mkCallOutcome (fe_result e))
  | SCreate _ i => ECreateEnd (ctx_of w d (fe_j e)) i (mkCreateOutcome (fe_result e) (fe_address e))
  end.

(** All hook calls of a frame entered at depth [d]; inside it the journal depth is [S d]. *)
Fixpoint frame_events (w : world) (d : nat) (f : frame) : list event :=
  match f with
  | Frame s body e =>
      start_event w d s
        :: flat_map (fun it =>
             match it with
             | IOp o => instr_events w (S d) o
             | IHook h => [hook_event w (S d) h]
             | ISub g => frame_events w (S d) g
             end) body
        ++ [end_event w d s e]
  end.

(** The hook calls of a transaction. *)
Definition tx_events (w : world) (f : frame) : list event := frame_events w 0 f.

(** ** Declarative views of an execution *)

(** Direct sub-frames, in order. *)
Definition subs (body : list item) : list frame :=
  flat_map (fun it => match it with ISub g => [g] | _ => [] end) body.
(** Instructions executed by the frame itself, in order. *)
Definition instrs (body : list item) : list instr :=
  flat_map (fun it => match it with IOp o => [o] | _ => [] end) body.
(** Hooks fired by the frame itself, in order. *)
Definition hooks (body : list item) : list hook :=
  flat_map (fun it => match it with IOp o => op_hooks o | IHook h => [h] | ISub _ => [] end) body.
(** Logs emitted by the frame itself, in order. *)
Definition logs_of (hs : list hook) : list Log :=
  flat_map (fun h => match h with HLog _ l => [l] | _ => [] end) hs.
(** The selfdestructs of the frame itself, in order. *)
Definition selfdestructs_of (hs : list hook) : list (address * address * U256) :=
  flat_map (fun h => match h with HSelfdestruct a b v => [(a, b, v)] | _ => [] end) hs.

(** Number of frames. *)
Fixpoint frame_size (f : frame) : nat :=
  match f with
  | Frame _ body _ =>
      S ((fix go (l : list item) : nat :=
            match l with
            | [] => 0
            | ISub g :: r => frame_size g + go r
            | _ :: r => go r
            end) body)
  end.

(** The frames in the order they are entered, each with the position of the frame that entered it
    and its nesting depth. [pos] is the position of [f] itself. *)
Fixpoint entered (par : option nat) (pos d : nat) (f : frame) : list (option nat * nat * frame) :=
  match f with
  | Frame s body e =>
      (par, d, f)
        :: (fix go (next : nat) (l : list item) : list (option nat * nat * frame) :=
              match l with
              | [] => []
              | ISub g :: r => entered (Some pos) next (S d) g ++ go (next + frame_size g) r
              | _ :: r => go next r
              end) (S pos) body
  end.

(** ** Induction over executions *)

Section frame_ind.
  Variable P : frame -> Prop.
  Hypothesis H : forall s body e, Forall P (subs body) -> P (Frame s body e).
  Fixpoint frame_ind' (f : frame) : P f :=
    match f with
    | Frame s body e =>
        H s body e
          ((fix go (l : list item) : Forall P (subs l) :=
              match l return Forall P (subs l) with
              | [] => Forall_nil_2 P
              | ISub g :: r => Forall_cons_2 P g (subs r) (frame_ind' g) (go r)
              | IOp _ :: r => go r
              | IHook _ :: r => go r
              end) body)
    end.
End frame_ind.

(** Some property of every frame of the execution. *)
Inductive every_frame (P : frame -> Prop) : frame -> Prop :=
  | every_intro s body e :
      P (Frame s body e) -> Forall (every_frame P) (subs body) -> every_frame P (Frame s body e).

(** ** Facts about call inputs, by call scheme *)

(** The account whose code runs. *)
Definition code_address (s : fstart) : address :=
  match s with
  | SCall _ i =>
      match ci_scheme i with
      | CSDelegateCall | CSCallCode => ci_bytecode_address i
      | CSCall | CSStaticCall => ci_target_address i
      end
  | SCreate _ i => cr_created_address i
  end.

Definition is_call (s : fstart) : bool := match s with SCall _ _ => true | SCreate _ _ => false end.

(** EVM fact: calling a precompile executes no sub-frames. *)
Definition precompiles_are_leaves (w : world) (f : frame) : Prop :=
  every_frame (fun g => is_call (f_start g) = true -> w_precompiles w (code_address (f_start g)) = true ->
                        subs (f_body g) = []) f.
