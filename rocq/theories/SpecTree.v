(** * SpecTree: what it means for a list of nodes to be a call tree.

    Independent of the recording code: only the public fields of the nodes are mentioned. *)

From Verif Require Export Types.

(** Node [i] is a child of node [p] that is shown in the call graph. *)
Definition attached_to (ns : list CallTraceNode) (p i : nat) : Prop :=
  exists n, ns !! i = Some n /\ nd_parent n = Some p /\ nd_is_precompile n = false.

(** The nodes form a tree rooted at index 0, laid out parents first. *)
Record arena_tree (ns : list CallTraceNode) : Prop := {
  at_root : exists r, ns !! 0 = Some r /\ nd_parent r = None /\ tr_depth (nd_trace r) = 0;
  at_idx : forall i n, ns !! i = Some n -> nd_idx n = i;
  at_parent : forall i n, ns !! i = Some n -> i <> 0 ->
    exists p pn, nd_parent n = Some p /\ p < i /\ ns !! p = Some pn /\
                 tr_depth (nd_trace n) = S (tr_depth (nd_trace pn));
  at_children_sorted : forall p pn, ns !! p = Some pn -> StronglySorted lt (nd_children pn);
  at_children : forall p pn, ns !! p = Some pn ->
    forall i, In i (nd_children pn) <-> attached_to ns p i }.

(** Projections of the member ordering. *)
Definition ord_log (o : TraceMemberOrder) : option nat := match o with OLog i => Some i | _ => None end.
Definition ord_call (o : TraceMemberOrder) : option nat := match o with OCall i => Some i | _ => None end.
Definition ord_step (o : TraceMemberOrder) : option nat := match o with OStep i => Some i | _ => None end.

(** The ordering enumerates logs, calls and steps exactly once, each in its own order. *)
Record ordering_complete (n : CallTraceNode) : Prop := {
  oc_logs : omap ord_log (nd_ordering n) = seq 0 (length (nd_logs n));
  oc_calls : omap ord_call (nd_ordering n) = seq 0 (length (nd_children n));
  oc_steps : omap ord_step (nd_ordering n) = seq 0 (length (tr_steps (nd_trace n))) }.

(** Is the event the start of a top-level (depth 0) call or create? *)
Definition is_root_start (e : event) : bool :=
  match e with
  | ECall c _ | ECreate c _ => cx_depth c =? 0
  | _ => false
  end.
