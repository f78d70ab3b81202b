(** * Fermat: Fermat's little theorem for the integers of the standard library *)

From Coq Require Import ZArith Znumtheory Lia List Permutation.
Import ListNotations.
Local Open Scope Z_scope.

Definition product (l : list Z) : Z := fold_right Z.mul 1 l.

Lemma product_perm l l' : Permutation l l' -> product l = product l'.
Proof. unfold product. induction 1; cbn [fold_right]; [reflexivity|now rewrite IHPermutation|ring|congruence]. Qed.

Lemma product_scaled p a l : (p | product (map (fun i => (a * i) mod p) l) - a ^ Z.of_nat (length l) * product l).
Proof.
  induction l as [|x l [k IH]]; [exists 0; cbn; lia|].
  cbn [map product fold_right length]. fold (product (map (fun i => (a * i) mod p) l)). fold (product l).
  rewrite Nat2Z.inj_succ, Z.pow_succ_r by lia. set (P := product (map _ l)) in *. set (A := a ^ Z.of_nat (length l)) in *.
  destruct (Z.eq_dec p 0) as [->|Hp].
  - exists 0. rewrite Zmod_0_r in *. assert (P = A * product l) as -> by lia. ring.
  - pose proof (Z.div_mod (a * x) p Hp) as E. set (m := (a * x) mod p) in *. set (q := a * x / p) in *.
    assert (P = A * product l + k * p) as -> by lia. assert (m = a * x - p * q) as -> by lia.
    exists (a * x * k - q * A * product l - p * q * k). ring.
Qed.

Lemma product_coprime p l : prime p -> Forall (fun i => 0 < i < p) l -> ~ (p | product l).
Proof.
  intros Hp. pose proof (prime_ge_2 p Hp) as H2. induction 1 as [|x l Hx Hall IH]; cbn [product fold_right].
  - intros D. apply Z.divide_1_r_nonneg in D; lia.
  - fold (product l). intros D. apply prime_mult in D as [D|D]; [|contradiction|exact Hp].
    apply Z.divide_pos_le in D; lia.
Qed.

Lemma NoDup_map_in {A B} (f : A -> B) l : (forall x y, In x l -> In y l -> f x = f y -> x = y) -> NoDup l -> NoDup (map f l).
Proof.
  induction l as [|x l IH]; intros Hf Hnd; [constructor|]. inversion_clear Hnd as [|? ? Hni Hnd']. cbn [map]. constructor.
  - intros Hin. apply in_map_iff in Hin as (y & E & Hy). apply Hni. rewrite <-(Hf y x); [exact Hy|right; exact Hy|left; reflexivity|exact E].
  - apply IH; [|exact Hnd']. intros y z Hy Hz. apply Hf; right; assumption.
Qed.

(** Multiplying by [a] permutes the residues 1, ..., p - 1, so that a^(p-1) times their product is their product. *)
Theorem fermat p a : prime p -> 0 < a < p -> (p | a ^ (p - 1) - 1).
Proof.
  intros Hp Ha. pose proof (prime_ge_2 p Hp) as H2.
  set (n := Z.to_nat (p - 1)). set (l := map Z.of_nat (seq 1 n)).
  assert (Hl : forall i, In i l <-> 0 < i < p).
  { intros i. unfold l. rewrite in_map_iff. split.
    - intros (k & <- & Hk). apply in_seq in Hk. unfold n in Hk. lia.
    - intros Hi. exists (Z.to_nat i). split; [lia|]. apply in_seq. unfold n. lia. }
  assert (Hlen : length l = n) by (unfold l; now rewrite map_length, seq_length).
  assert (Hnd : NoDup l).
  { apply NoDup_map_in; [|apply seq_NoDup]. intros x y _ _ E. lia. }
  assert (Hpa : forall i, (p | a * i) -> (p | i)).
  { intros i D. apply prime_mult in D as [D|D]; [|exact D|exact Hp]. apply Z.divide_pos_le in D; lia. }
  assert (Hperm : Permutation (map (fun i => (a * i) mod p) l) l).
  { apply NoDup_Permutation_bis.
    - apply NoDup_map_in; [|exact Hnd]. intros x y Hx Hy E. apply Hl in Hx, Hy.
      assert (D : (p | x - y)).
      { apply Hpa. apply Z.mod_divide; [lia|]. rewrite Z.mul_sub_distr_l, Zminus_mod, E, Z.sub_diag. apply Z.mod_0_l. lia. }
      destruct D as [k Hk]. assert (k = 0) by nia. lia.
    - rewrite map_length. lia.
    - intros z Hz. apply in_map_iff in Hz as (i & <- & Hi). apply Hl in Hi. apply Hl.
      pose proof (Z.mod_pos_bound (a * i) p ltac:(lia)) as B. destruct (Z.eq_dec ((a * i) mod p) 0) as [E|E]; [|lia].
      apply Z.mod_divide in E; [|lia]. apply Hpa in E. apply Z.divide_pos_le in E; lia. }
  pose proof (product_scaled p a l) as D. rewrite (product_perm _ _ Hperm), Hlen in D.
  replace (Z.of_nat n) with (p - 1) in D by (unfold n; lia).
  replace (product l - a ^ (p - 1) * product l) with ((1 - a ^ (p - 1)) * product l) in D by ring.
  apply prime_mult in D as [D|D]; [|exfalso; revert D; apply product_coprime; [exact Hp|]|exact Hp].
  - apply Z.divide_opp_r in D. now replace (- (1 - a ^ (p - 1))) with (a ^ (p - 1) - 1) in D by ring.
  - apply Forall_forall. intros i Hi. now apply Hl.
Qed.
