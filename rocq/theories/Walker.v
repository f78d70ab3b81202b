(** * Walker: /repo/src/tracing/builder/walker.rs *)

From Verif Require Export Types.

(** walker.rs:24-32 [next]: pop the front of the queue, append its children *)
Definition walker_next (nodes : list CallTraceNode) (queue : list nat) : res (option (CallTraceNode * list nat)) :=
  match queue with
  | [] => Ok None
  | idx :: queue =>
      let! curr := index nodes idx in
      Ok (Some (curr, queue ++ curr.(nd_children)))
  end.

(** Collecting the iterator; one unit of fuel per call of [next]. *)
Fixpoint walker_collect (fuel : nat) (nodes : list CallTraceNode) (queue : list nat) : res (list CallTraceNode) :=
  match fuel with
  | O => OutOfFuel
  | S fuel =>
      let! r := walker_next nodes queue in
      match r with
      | None => Ok []
      | Some (n, queue) => let! l := walker_collect fuel nodes queue in Ok (n :: l)
      end
  end.

(** walker.rs:15-20 [new], collected. The fuel suffices: theorem C61. *)
Definition walk_bf (nodes : list CallTraceNode) : res (list CallTraceNode) :=
  walker_collect (S (length nodes)) nodes [0].
