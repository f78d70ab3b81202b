(** * SpecReading: reading struct logs as a tree of calls *)

From Verif Require Export SpecGasFlow.

(** For each instruction of an execution, in the order they were executed, the position of the call that executed it
    among the calls in the order they were entered ([pos] is the position of [f]). *)
Fixpoint ran_in (pos : nat) (f : frame) : list nat :=
  match f with
  | Frame s body e =>
      (fix go (next : nat) (l : list item) : list nat :=
         match l with
         | [] => []
         | IOp _ :: r => pos :: go next r
         | IHook _ :: r => go next r
         | ISub g :: r => ran_in next g ++ go (next + frame_size g) r
         end) (S pos) body
  end.

(** ** What a reader sees who has nothing but the lines *)

Definition depth_at (ls : list StructLog) (j : nat) : nat := default 0 (sl_depth <$> ls !! j).
(** Between line [j] and the later line [k] the depth does not fall below the depth of line [j]. *)
Definition no_return (ls : list StructLog) (j k : nat) : Prop := forall m, j < m < k -> depth_at ls j <= depth_at ls m.
(** Two lines of one call: the same depth and no return in between. *)
Definition same_call (ls : list StructLog) (j k : nat) : Prop := depth_at ls j = depth_at ls k /\ no_return ls j k.
(** The line that called: the last earlier line at a lower depth. *)
Definition calling_line (ls : list StructLog) (j k : nat) : Prop :=
  j < k /\ depth_at ls j < depth_at ls k /\ forall m, j < m < k -> depth_at ls k <= depth_at ls m.
(** The next line of the same call. *)
Definition next_line (ls : list StructLog) (j k : nat) : Prop :=
  j < k /\ depth_at ls j = depth_at ls k /\ forall m, j < m < k -> depth_at ls j < depth_at ls m.

Definition line_is_call (l : StructLog) : bool := existsb (N.eqb (sl_op l)) [0xf0; 0xf1; 0xf2; 0xf4; 0xf5; 0xfa]%N.
(** What a line and a recorded step say in common. *)
Definition line_shows (st : CallTraceStep) (l : StructLog) : Prop :=
  sl_depth l = st_depth st /\ sl_op l = st_op st /\ sl_pc l = st_pc st /\ sl_gas l = st_gas_remaining st /\ sl_gas_cost l = st_gas_cost st.
(** The lines of the call at position [i], given the position of each line. *)
Definition lines_of (ps : list nat) (ls : list StructLog) (i : nat) : list StructLog :=
  map snd (List.filter (fun x => fst x =? i) (zip ps ls)).
