(** * SpecFlat: reading the flat list of parity traces as a tree of calls *)

From Verif Require Export SpecTraces.

(** Call [j] is call [i], or was made by it or by a call that was made by it, and so on. *)
Inductive in_call (ns : list CallTraceNode) (i : nat) : nat -> Prop :=
  | in_self : in_call ns i i
  | in_made j n p : ns !! j = Some n -> nd_parent n = Some p -> in_call ns i p -> in_call ns i j.

(** Entry [k] of the list is the one of the call recorded at [i]: counting only the call entries of the list and only
    the calls that are not left out, both have the same number. *)
Definition shows_call (ns : list CallTraceNode) (l : list TransactionTrace) (k i : nat) : Prop :=
  exists e n, l !! k = Some e /\ is_call_entry e = true /\ ns !! i = Some n /\ nd_is_precompile n = false /\
    length (List.filter is_call_entry (take k l)) = length (List.filter (fun m => negb (nd_is_precompile m)) (take i ns)).

(** ** What a reader sees who has nothing but the trace addresses *)

Definition length_at (l : list TransactionTrace) (k : nat) : nat := length (default [] (tt_address <$> l !! k)).
(** The address of entry [k] begins with the address of entry [j]. *)
Definition under (l : list TransactionTrace) (j k : nat) : Prop :=
  exists a b, tt_address <$> l !! j = Some a /\ tt_address <$> l !! k = Some b /\ a `prefix_of` b.
(** The last earlier entry with a shorter address. *)
Definition enclosing (l : list TransactionTrace) (j k : nat) : Prop :=
  j < k /\ k < length l /\ length_at l j < length_at l k /\ forall m, j < m < k -> length_at l k <= length_at l m.
