(** * SpecParity: trace addresses and orders, stated on node lists alone *)

From Verif Require Export SpecTree.

(** Walk down from node [i] through the children lists. *)
Fixpoint follow (ns : list CallTraceNode) (i : nat) (path : list nat) : option nat :=
  match path with
  | [] => Some i
  | k :: r => match ns !! i with
              | Some n => match nd_children n !! k with Some c => follow ns c r | None => None end
              | None => None
              end
  end.

(** Lexicographic order; a proper prefix is smaller. *)
Inductive lex_lt : list nat -> list nat -> Prop :=
  | lex_nil x l : lex_lt [] (x :: l)
  | lex_head x y l m : x < y -> lex_lt (x :: l) (y :: m)
  | lex_tail x l m : lex_lt l m -> lex_lt (x :: l) (x :: m).

(** The nodes at distance [k] from the root, left to right. *)
Fixpoint level (ns : list CallTraceNode) (k : nat) : list nat :=
  match k with
  | O => [0]
  | S k => flat_map (fun i => match ns !! i with Some n => nd_children n | None => [] end) (level ns k)
  end.
