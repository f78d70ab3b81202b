(** * PropertiesBigInt3: primality tests and random integers of JavaScript tracers *)

From Coq Require Import Znumtheory.
From Verif Require Import SpecBigIntMore BigIntPrimeProofs.
Local Open Scope Z_scope.

(** ** C107: primes *)

(** What [isPrime] tells of a number from 25 on that 2, 3 and 5 do not divide: Miller's test for the first eight primes
    (of the smaller numbers and the multiples of 2, 3 and 5 see below). *)
Theorem C107_exact :
  forall uk i x, stands_for i x -> 25 <= Z.abs x -> ~ (2 | x) -> ~ (3 | x) -> ~ (5 | x) ->
  exists b, is_prime uk i = Ok b /\ (b = true <-> Forall (passes_miller (Z.abs x)) [2; 3; 5; 7; 11; 13; 17; 19]).
Proof. exact is_prime_exact. Qed.
Print Assumptions C107_exact.

(** [isPrime] tells whether the number, without its sign, is prime. *)
Definition C107_statement : Prop :=
  forall uk i x, stands_for i x -> exists b, is_prime uk i = Ok b /\ (b = true <-> prime (Z.abs x)).

(** 341550071728321 = 10670053 * 32010157 passes the test for all of its eight bases. *)
Theorem C107_refuted : ~ C107_statement.
Proof.
  intros H. destruct (H (fun _ _ => false) (mk_small 341550071728321) 341550071728321) as (b & E & Hb).
  { apply mk_small_spec. lia. }
  destruct (C107_exact (fun _ _ => false) (mk_small 341550071728321) 341550071728321) as (b' & E' & Hb').
  { apply mk_small_spec. lia. } { lia. }
  1-3: (intros D; apply Z.mod_divide in D; [|lia]; discriminate D).
  assert (b' = true) as ->.
  { apply Hb'. change (Z.abs 341550071728321) with 341550071728321. clear.
    constructor; [apply (passes_checked _ _ 6 5336719870755 1); [lia|reflexivity|reflexivity|vm_compute; reflexivity]|].
    constructor; [apply (passes_checked _ _ 6 5336719870755 1); [lia|reflexivity|reflexivity|vm_compute; reflexivity]|].
    constructor; [apply (passes_checked _ _ 6 5336719870755 1); [lia|reflexivity|reflexivity|vm_compute; reflexivity]|].
    constructor; [apply (passes_checked _ _ 6 5336719870755 1); [lia|reflexivity|reflexivity|vm_compute; reflexivity]|].
    constructor; [apply (passes_checked _ _ 6 5336719870755 1); [lia|reflexivity|reflexivity|vm_compute; reflexivity]|].
    constructor; [apply (passes_checked _ _ 6 5336719870755 1); [lia|reflexivity|reflexivity|vm_compute; reflexivity]|].
    constructor; [apply (passes_checked _ _ 6 5336719870755 1); [lia|reflexivity|reflexivity|vm_compute; reflexivity]|].
    constructor; [apply (passes_checked _ _ 6 5336719870755 1); [lia|reflexivity|reflexivity|vm_compute; reflexivity]|].
    constructor. }
  rewrite E' in E. injection E as <-. destruct Hb as [Hb _]. specialize (Hb eq_refl). apply prime_alt in Hb as [_ Hb].
  apply (Hb 10670053); [lia|]. exists 32010157. reflexivity.
Qed.
Print Assumptions C107_refuted.

(** The test always ends, never calls a prime composite, and is right for numbers below 25 and for multiples of 2, 3
    and 5; [isProbablePrime] too, whatever numbers are drawn and however many rounds are asked for. *)
Theorem C107_primes_partial :
  forall uk i x, stands_for i x ->
  (exists b, is_prime uk i = Ok b /\ (prime (Z.abs x) -> b = true)
     /\ (b = true -> Z.abs x < 25 \/ (2 | x) \/ (3 | x) \/ (5 | x) -> prime (Z.abs x)))
  /\ (forall random iterations, (forall k, drawn_below (random k)) ->
      exists b, is_probable_prime uk random iterations i = Ok b /\ (prime (Z.abs x) -> b = true)
        /\ (b = true -> Z.abs x < 25 \/ (2 | x) \/ (3 | x) \/ (5 | x) -> prime (Z.abs x))).
Proof.
  intros uk i x Hi. split; [exact (is_prime_spec uk i x Hi)|]. intros random iterations Hr. exact (is_probable_prime_spec uk random iterations i x Hr Hi).
Qed.
Print Assumptions C107_primes_partial.

Lemma halves_drawn : drawn_below (fun _ top => top / 2).
Proof.
  intros k top Hk. split; [apply Z.div_pos; lia|]. split; [intros H; apply Z.div_lt; lia|]. intros ->. reflexivity.
Qed.
(** 101 and -23 are prime, 10^20 and 91 are not. *)
Example C107_example :
  is_prime (fun _ _ => false) (mk_small 101) = Ok true
  /\ is_probable_prime (fun _ _ => false) (fun _ _ top => top / 2) None (mk_small 101) = Ok true
  /\ (exists i, parse_string (dec_text (10 ^ 20)) = Some i /\ is_prime (fun _ _ => false) i = Ok false)
  /\ is_prime (fun _ _ => false) (mk_small 91) = Ok false /\ is_prime (fun _ _ => false) (mk_small (-23)) = Ok true.
Proof.
  split; [vm_compute; reflexivity|]. split; [vm_compute; reflexivity|].
  split; [eexists; split; [vm_compute; reflexivity|]; vm_compute; reflexivity|]. split; vm_compute; reflexivity.
Qed.

(** ** C108: random integers are in their range *)

Theorem C108_random :
  forall random k i j x y, drawn_below random -> stands_for i x -> stands_for j y ->
  exists z, stands_for (rand_between random k i j) z /\ (x <= z <= y \/ y <= z <= x).
Proof.
  intros random k i j x y Hr Hi Hj. destruct (rand_between_spec random k i j x y Hr Hi Hj) as (z & Hz & Hb).
  exists z. split; [exact Hz|]. lia.
Qed.
Print Assumptions C108_random.

Example C108_example :
  drawn_below (fun _ top => top / 2)
  /\ rand_between (fun _ top => top / 2) 0 (mk_small 10) (mk_small (-10)) = mk_small 0
  /\ exists i, parse_string (dec_text (2 ^ 60)) = Some i
       /\ rand_between (fun _ top => top / 2) 0 (mk_small 0) i = Big [5000000; 5000000; 5764] false.
Proof.
  split; [exact halves_drawn|]. split; [vm_compute; reflexivity|].
  eexists. split; [vm_compute; reflexivity|]. vm_compute. reflexivity.
Qed.
