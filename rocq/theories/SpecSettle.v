(** * SpecSettle: what the prestate tracer shows of balances, contracts and slots *)

From Verif Require Export SpecPrestate SpecChanges.
Local Open Scope N_scope.

(** By how much the balance of an account changed, according to its entries in [pre] and [post]; a balance that is not
    listed in [post] is the one in [pre]. *)
Definition change_shown (pre post : option AccountState) : Z :=
  match pre, post with
  | Some p, Some q =>
      match as_balance p, as_balance q with Some v, Some v' => (Z.of_N v' - Z.of_N v)%Z | _, _ => 0%Z end
  | _, _ => 0%Z
  end.
(** The value shown for a slot. *)
Definition slot_shown (e : option AccountState) (k : U256) : option U256 :=
  match e with Some st => as_storage st !! k | None => None end.
