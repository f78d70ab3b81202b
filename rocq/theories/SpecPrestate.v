(** * SpecPrestate: what the prestate tracer should return *)

From Verif Require Export Prestate SpecDiff.
Local Open Scope N_scope.

(** Empty code and zero nonces are left out. *)
Definition nonempty (c : bytes) : option bytes := match c with [] => None | _ => Some c end.
Definition nonzero (n : N) : option N := if n =? 0 then None else Some n.

(** The account before the transaction: the fields of the database, and the original values of all touched slots. *)
Record prestate_account (db : Db) (old : AccountInfo) (storage : list (U256 * Slot)) (st : AccountState) : Prop := {
  pa_balance : as_balance st = Some (ai_balance old);
  pa_nonce : as_nonce st = nonzero (ai_nonce old);
  pa_code : exists c, has_code db old c /\ as_code st = nonempty c;
  pa_storage : forall k v, as_storage st !! k = Some v <-> exists s, In (k, s) storage /\ v = sl_original s }.

(** Nothing about the account changed. *)
Definition same_slots (acc : Account) : Prop := forall k s, In (k, s) (ac_storage acc) -> sl_original s = sl_present s.
Definition unchanged (old : AccountInfo) (acc : Account) : Prop :=
  ai_balance old = ai_balance (ac_info acc) /\ ai_nonce old = ai_nonce (ac_info acc) /\
  ai_code_hash old = ai_code_hash (ac_info acc) /\ same_slots acc.

(** The code attached to the account in the state map, if it is loaded. *)
Definition attached (acc : Account) : option bytes := match ai_code (ac_info acc) with Some c => nonempty c | None => None end.

(** What the diff compares: as [unchanged], but by the attached code ([c] is the code before). *)
Definition shown_same (old : AccountInfo) (c : bytes) (acc : Account) : Prop :=
  ai_balance old = ai_balance (ac_info acc) /\ ai_nonce old = ai_nonce (ac_info acc) /\
  nonempty c = attached acc /\ same_slots acc.

(** The changed slots whose value, as given by [f], is not zero. *)
Definition changed_nonzero (f : Slot -> U256) (storage : list (U256 * Slot)) (m : gmap U256 U256) : Prop :=
  forall k v, m !! k = Some v <-> exists s, In (k, s) storage /\ sl_original s <> sl_present s /\ v = f s /\ v <> 0.

(** A field of the post state: listed when it differs from the pre state. *)
Definition listed {A} (before after : option A) (o : option A) : Prop :=
  (before = after /\ o = None) \/ (before <> after /\ o = after).

(** The entries of one account of the state map; [old] and [c] are its fields and code before the transaction. *)
Record prestate_diff (old : AccountInfo) (c : bytes) (acc : Account) (pre post : option AccountState) : Prop := {
  pd_same : shown_same old c acc -> pre = None /\ post = None;
  pd_created : ac_created acc = true -> pre = None;
  pd_destroyed : ac_selfdestructed acc = true -> post = None;
  pd_pre : ~ shown_same old c acc -> ac_created acc = false ->
    exists st, pre = Some st /\ as_balance st = Some (ai_balance old) /\ as_nonce st = nonzero (ai_nonce old) /\
      as_code st = nonempty c /\ changed_nonzero sl_original (ac_storage acc) (as_storage st);
  pd_post : ~ shown_same old c acc -> ac_selfdestructed acc = false ->
    exists st, post = Some st /\
      listed (Some (ai_balance old)) (Some (ai_balance (ac_info acc))) (as_balance st) /\
      listed (nonzero (ai_nonce old)) (nonzero (ai_nonce (ac_info acc))) (as_nonce st) /\
      listed (nonempty c) (attached acc) (as_code st) /\
      changed_nonzero sl_present (ac_storage acc) (as_storage st) }.
