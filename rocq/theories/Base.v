(** * Base: results with explicit failure values, and list helpers *)

From stdpp Require Export prelude list gmap strings.
From Coq Require Export NArith ZArith Lia.
From Coq Require Export Init.Byte Sorting.Sorted.
Global Open Scope nat_scope.

(** Why a Rust function may abort. *)
Inductive panic :=
  | PIndex          (** slice / Vec / HashMap index out of range *)
  | PExpect         (** [Option::unwrap]/[expect] on [None] *)
  | PUnderflow      (** integer subtraction below zero (debug) / slice start beyond the end *)
  | POverflow       (** integer addition beyond the type (debug builds; release builds wrap) *)
  | PUnreachable    (** [unreachable!()] *)
  | PTodo.          (** [todo!()] *)

(** Result of a modelled function: a value, a Rust panic, or exhausted loop fuel
    (the latter is excluded by theorems wherever a fuelled loop is used). *)
Inductive res (A : Type) : Type :=
  | Ok (a : A)
  | Panic (p : panic)
  | OutOfFuel.
Arguments Ok {A} a.
Arguments Panic {A} p.
Arguments OutOfFuel {A}.

Definition rbind {A B} (m : res A) (f : A -> res B) : res B :=
  match m with Ok a => f a | Panic p => Panic p | OutOfFuel => OutOfFuel end.
Definition rmap {A B} (f : A -> B) (m : res A) : res B := rbind m (fun a => Ok (f a)).

Notation "'let!' x ':=' m 'in' k" := (rbind m (fun x => k))
  (at level 200, x name, m at level 100, k at level 200).

(** [v[i]] *)
Definition index {A} (l : list A) (i : nat) : res A :=
  match l !! i with Some a => Ok a | None => Panic PIndex end.

(** [opt.expect(..)] *)
Definition expect {A} (o : option A) : res A :=
  match o with Some a => Ok a | None => Panic PExpect end.

(** [v[i] = a] / mutation through [&mut v[i]] *)
Definition update {A} (l : list A) (i : nat) (f : A -> A) : res (list A) :=
  match l !! i with Some a => Ok (<[i := f a]> l) | None => Panic PIndex end.

(** Fold of a fallible step function over a list of inputs. *)
Fixpoint rfold {S E} (step : S -> E -> res S) (s : S) (es : list E) : res S :=
  match es with
  | [] => Ok s
  | e :: es => let! s' := step s e in rfold step s' es
  end.

Lemma rfold_app {S E} (step : S -> E -> res S) s es1 es2 :
  rfold step s (es1 ++ es2) = let! s' := rfold step s es1 in rfold step s' es2.
Proof.
  revert s; induction es1 as [|e es1 IH]; intros s; [done|]. cbn [rfold app].
  destruct (step s e); cbn [rbind]; [apply IH|done|done].
Qed.

Lemma rfold_snoc {S E} (step : S -> E -> res S) s es e :
  rfold step s (es ++ [e]) = let! s' := rfold step s es in step s' e.
Proof.
  rewrite rfold_app. destruct (rfold step s es); cbn; [|done..].
  by destruct (step a e).
Qed.

(** An invariant preserved by every successful step holds after every successful fold. *)
Lemma rfold_inv {S E} (step : S -> E -> res S) (P : S -> Prop) (Q : E -> Prop) :
  (forall s e s', P s -> Q e -> step s e = Ok s' -> P s') ->
  forall es s s', P s -> Forall Q es -> rfold step s es = Ok s' -> P s'.
Proof.
  intros Hstep es. induction es as [|e es IH]; intros s s' HP HQ; cbn [rfold].
  - by intros [= <-].
  - inversion_clear HQ. destruct (step s e) eqn:He; cbn [rbind]; [|done..].
    eauto.
Qed.

Global Instance byte_eq_dec : EqDecision byte := Byte.byte_eq_dec.
Global Program Instance byte_countable : Countable byte := inj_countable Byte.to_N Byte.of_N _.
Next Obligation. intros x. apply Byte.of_to_N. Qed.
