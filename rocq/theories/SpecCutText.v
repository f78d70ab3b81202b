(** * SpecCutText: writing a trace while the hook calls happen

    A trace is written from the recording. Imagine it written during the execution instead: the first line of a call when
    it starts, the lines of a log when it is emitted, the last line of a call when it ends. *)

From Verif Require Export SpecHistory SpecWriter.

(** The calls the user asked to leave out of the call graph. *)
Definition left_out (ns : list CallTraceNode) (i : nat) : bool :=
  match ns !! i with Some n => nd_is_precompile n | None => false end.

Section Going.
  (** Whether logs are recorded, which calls are left out, and the level the trace is written at. *)
  Context (logs : bool) (out : nat -> bool) (k : N).

  (** The parts written during the hook calls [es]. [opened] are the calls that have started and not ended, innermost
      first, each with the number of its logs so far; calls are numbered in the order they start, the next is [next].
      Every part is written one level deeper than the open calls' last. *)
  Fixpoint written_during (opened : list (nat * nat)) (next : nat) (es : list event) : list chunk :=
    let level := (k + N.of_nat (length opened))%N in
    match es with
    | [] => []
    | e :: es =>
        match e, opened with
        | (ECall _ _ | ECreate _ _), _ =>
            (if out next then [] else [(level, Header next)]) ++ written_during ((next, 0) :: opened) (S next) es
        | (ECallEnd _ _ _ | ECreateEnd _ _ _), (i, _) :: opened =>
            (if out i then [] else [(level, Footer i)]) ++ written_during opened next es
        | ELog _ _, (i, j) :: opened =>
            if logs then (if out i then [] else [(level, OneLog i j)]) ++ written_during ((i, S j) :: opened) next es
            else written_during ((i, j) :: opened) next es
        | _, _ => written_during opened next es
        end
    end.

  (** The last lines of calls that are still open, innermost first. *)
  Fixpoint last_lines (opened : list nat) : list chunk :=
    match opened with
    | [] => []
    | i :: rest => (if out i then [] else [((k + N.of_nat (length opened))%N, Footer i)]) ++ last_lines rest
    end.
End Going.
