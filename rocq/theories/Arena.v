(** * Arena: /repo/src/tracing/arena.rs *)

From Verif Require Export Types.

(** arena.rs:94-100 *)
Inductive PushTraceKind := PushOnly | PushAndAttachToParent.
(** arena.rs:104-106 *)
Definition is_attach_to_parent (k : PushTraceKind) : bool :=
  match k with PushAndAttachToParent => true | PushOnly => false end.

(** arena.rs:13-18 [CallTraceArena::default] *)
Definition arena_default : list CallTraceNode := [node_default].

(** arena.rs:40-43 [clear] *)
Definition arena_clear (_ : list CallTraceNode) : list CallTraceNode := [] ++ [node_default].

(** arena.rs:75-80: append the child to the parent's ordering and children *)
Definition attach_child (id : nat) (p : CallTraceNode) : CallTraceNode :=
  mkNode p.(nd_parent) (p.(nd_children) ++ [id]) p.(nd_idx) p.(nd_trace) p.(nd_logs)
    (p.(nd_ordering) ++ [OCall (length p.(nd_children))]).

(** arena.rs:50-90 [push_trace]; each loop iteration consumes one unit of fuel. *)
Fixpoint push_trace_loop (fuel : nat) (arena : list CallTraceNode) (entry : nat)
    (kind : PushTraceKind) (new_trace : CallTrace) : res (list CallTraceNode * nat) :=
  match fuel with
  | O => OutOfFuel
  | S fuel =>
      match new_trace.(tr_depth) with
      | O =>
          let! arena' := update arena 0 (fun n => nd_set_trace n new_trace) in
          Ok (arena', 0)
      | S d =>
          let! e := index arena entry in
          if e.(nd_trace).(tr_depth) =? d then
            let id := length arena in
            let node := mkNode (Some entry) [] id new_trace [] [] in
            let arena' := arena ++ [node] in
            let! arena'' :=
              (if is_attach_to_parent kind then update arena' entry (attach_child id)
               else Ok arena') in
            Ok (arena'', id)
          else
            let! entry' := expect (last e.(nd_children)) in
            push_trace_loop fuel arena entry' kind new_trace
      end
  end.
(** The fuel suffices for every arena the inspector can build: theorem [push_trace_terminates]. *)
Definition push_trace (arena : list CallTraceNode) (entry : nat) (kind : PushTraceKind)
    (new_trace : CallTrace) : res (list CallTraceNode * nat) :=
  push_trace_loop (S (length arena)) arena entry kind new_trace.
