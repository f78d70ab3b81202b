(** * SpecApply: reading a parity state diff forwards and backwards *)

From Verif Require Export SpecReplay.
Local Open Scope N_scope.

(** What is known of an account. *)
Record known := mkKnown { kn_balance : U256; kn_nonce : u64; kn_code : bytes; kn_slots : U256 -> U256 }.
(** There is no account. *)
Definition nothing : known := mkKnown 0 0 [] (fun _ => 0).
Definition same (x y : known) : Prop :=
  kn_balance x = kn_balance y /\ kn_nonce x = kn_nonce y /\ kn_code x = kn_code y /\ forall k, kn_slots x k = kn_slots y k.

(** The value after ([none] if there is none any more), from the value before. *)
Definition after {A} (none before : A) (d : Delta A) : A :=
  match d with DUnchanged => before | DAdded x => x | DRemoved _ => none | DChanged _ x => x end.
(** The value before, from the value after. *)
Definition earlier {A} (none now : A) (d : Delta A) : A :=
  match d with DUnchanged => now | DAdded _ => none | DRemoved x => x | DChanged x _ => x end.

(** The account after the transaction, as a reader of the diff works it out from the account before, and conversely. *)
Definition worked_out (step : forall A, A -> A -> Delta A -> A) (from : known) (d : option AccountDiff) : known :=
  match d with
  | None => from
  | Some d =>
      mkKnown (step U256 0 (kn_balance from) (df_balance d)) (step u64 0 (kn_nonce from) (df_nonce d))
        (step bytes [] (kn_code from) (df_code d))
        (fun k => match df_storage d !! k with Some e => step U256 0 (kn_slots from k) e | None => kn_slots from k end)
  end.
Definition forwards : known -> option AccountDiff -> known := worked_out (@after).
Definition backwards : known -> option AccountDiff -> known := worked_out (@earlier).

(** The account before the transaction: the database's, [old] being what it holds; the touched slots have their original
    values. *)
Record stood (db : Db) (old : AccountInfo) (acc : Account) (x : known) : Prop := {
  so_balance : kn_balance x = ai_balance old;
  so_nonce : kn_nonce x = ai_nonce old;
  so_code : has_code db old (kn_code x);
  so_slots : forall k s, In (k, s) (ac_storage acc) -> kn_slots x k = sl_original s }.

(** The account after the transaction, [x] being the one before: none if it was destroyed, else with the balance, nonce and
    code it was left with; the touched slots have their present values, the others those they had. *)
Definition stands (acc : Account) (x y : known) : Prop :=
  if ac_selfdestructed acc then same y nothing
  else kn_balance y = ai_balance (ac_info acc) /\ kn_nonce y = ai_nonce (ac_info acc) /\ nonempty (kn_code y) = attached acc /\
       forall k, (forall s, In (k, s) (ac_storage acc) -> kn_slots y k = sl_present s) /\
                 (~ In k (map fst (ac_storage acc)) -> kn_slots y k = kn_slots x k).
