(** * PropertiesBigInt5: texts of the integers of JavaScript tracers in any radix *)

From Verif Require Import BigIntRadixProofs.
Local Open Scope Z_scope.

(** ** C117: every radix *)

(** [toString(radix)] writes every integer in every radix but 0. *)
Definition C117_statement : Prop :=
  forall n radix x b, stands_for n x -> stands_for radix b -> b <> 0 ->
  exists t, to_string_any n radix = Ok (Some t) /\ writes_any b x t.

(** A digit of 2^53 or more is written as the limbs of the number in memory, the least first: 10^19 in radix 10^20 is
    [<0,0,100000>]. *)
Theorem C117_refuted : ~ C117_statement.
Proof.
  intros H.
  destruct (H (Big [0; 0; 100000] false) (Big [0; 0; 1000000] false) (10 ^ 19) (10 ^ 20)) as (t & E & ds & us & Ht & H1 & _).
  { apply big_intro; [repeat constructor; vm_compute; congruence|vm_compute; congruence|vm_compute; congruence]. }
  { apply big_intro; [repeat constructor; vm_compute; congruence|vm_compute; congruence|vm_compute; congruence]. }
  { vm_compute. congruence. }
  vm_compute in E. injection E as <-. change ((0 <? 10 ^ 20) && (10 ^ 19 <? 0)) with false in Ht. cbn [app] in Ht.
  destruct H1 as [|d u ds us Hd _]; [discriminate Ht|]. destruct Hd as [(_ & c & -> & Hc)|(_ & t & -> & Hw)].
  - cbn [concat app] in Ht. injection Ht as <- _. discriminate Hc.
  - destruct Hw as (s & -> & Hne & Hv & _). destruct (d <? 0); cbn [app] in Ht; [discriminate Ht|].
    destruct s as [|c1 [|c2 s]]; [done|discriminate Ht|]. cbn [concat app] in Ht. injection Ht as _ <- _. 
    cbn [text_value] in Hv. destruct (char_value c1) as [e|]; [|discriminate]. destruct (e <? 10); [|discriminate]. discriminate Hv.
Qed.
Print Assumptions C117_refuted.

(** Radixes below 2^53 and above -2^53: every integer is written, without leading zeros and without a sign in negative
    radixes.  In the radixes 1 and -1, every integer up to 2^32-2 and, in radix -1, 2^32-1; no others (the library makes an array
    of that length).  In radix 0, only zero. *)
Theorem C117_writes_partial :
  forall n radix x b, stands_for n x -> stands_for radix b ->
  (2 <= Z.abs b < 2 ^ 53 -> exists t, to_string_any n radix = Ok (Some t) /\ writes_any b x t /\ no_leading_zero b x t)
  /\ (Z.abs b = 1 -> Z.abs x <= 2 ^ 32 - 2 \/ (b = -1 /\ x = 2 ^ 32 - 1) ->
      exists t, to_string_any n radix = Ok (Some t) /\ writes_any b x t)
  /\ (Z.abs b = 1 -> ~ (Z.abs x <= 2 ^ 32 - 2 \/ (b = -1 /\ x = 2 ^ 32 - 1)) -> to_string_any n radix = Ok None)
  /\ (b = 0 -> to_string_any n radix = Ok (if x =? 0 then Some (txt "0") else None)).
Proof.
  intros n radix x b Hn Hb.
  assert (E : b <> 10 -> to_string_any n radix = to_base_any n radix).
  { intros H. unfold to_string_any. destruct (tests_spec radix (mk_small 10) b 10 Hb (mk_small_spec 10 ltac:(lia))) as (-> & _).
    by destruct (Z.eqb_spec b 10). }
  split; [by apply to_string_any_spec|]. split; [|split].
  - intros H1 Hx. rewrite E by lia. by apply to_base_any_unary.
  - intros H1 Hx. rewrite E by lia. by apply to_base_any_unary_none with x b.
  - intros ->. rewrite E by lia. by apply to_base_any_zero.
Qed.
Print Assumptions C117_writes_partial.

(** In the other radixes, the digits are the right ones, and those of 2^53 and more are shown in that way. *)
Theorem C117_huge_radix_partial :
  forall n radix x b, stands_for n x -> stands_for radix b -> 2 ^ 53 <= Z.abs b ->
  exists t, to_string_any n radix = Ok (Some t) /\ shows_any b x t.
Proof. exact to_string_any_huge. Qed.
Print Assumptions C117_huge_radix_partial.

(** [bigint(text, radix)] reads the text of any integer in any radix but 0, in particular the one it has written. *)
Theorem C117_reads :
  forall uk number short radix x b t, reads_numbers number -> (forall r, 2 <= r <= 36 -> short_enough r (short r)) ->
  stands_for radix b -> b <> 0 -> writes_any b x t -> Z.of_nat (length t) < 2 ^ 52 ->
  exists i, parse_base_any uk number short t radix = Ok (Some i) /\ stands_for i x.
Proof. intros uk number short radix x b t H1 H2 H3 H4 H5 H6. exact (parse_base_any_spec uk number short t radix b x H1 H3 H4 H2 H5 H6). Qed.
Print Assumptions C117_reads.

Theorem C117_round_trip :
  forall uk number short n radix x b, reads_numbers number -> (forall r, 2 <= r <= 36 -> short_enough r (short r)) ->
  stands_for n x -> stands_for radix b -> 2 <= Z.abs b < 2 ^ 53 \/ (Z.abs b = 1 /\ Z.abs x <= 2 ^ 32 - 2) ->
  exists t, to_string_any n radix = Ok (Some t)
    /\ (Z.of_nat (length t) < 2 ^ 52 -> exists i, parse_base_any uk number short t radix = Ok (Some i) /\ stands_for i x).
Proof.
  intros uk number short n radix x b Hnum Hs Hn Hb H.
  assert (Hw : exists t, to_string_any n radix = Ok (Some t) /\ writes_any b x t).
  { destruct (C117_writes_partial n radix x b Hn Hb) as (W1 & W2 & _). destruct H as [H|[H1 H2]]; [|apply W2; [exact H1|by left]].
    destruct (W1 H) as (t & E & Hw & _). by exists t. }
  destruct Hw as (t & E & Hw). exists t. split; [exact E|]. intros Hl.
  apply (C117_reads uk number short radix x b t Hnum Hs Hb ltac:(lia) Hw Hl).
Qed.
Print Assumptions C117_round_trip.

(** For radixes from 2 to 36 and texts without [<], these are the texts and readings of C96 and C106. *)
Theorem C117_agrees :
  forall uk number short t radix, 2 <= radix <= 36 -> radix <> 10 -> ~ In x3c t ->
  parse_base_any uk number short t (mk_small radix) = parse_base uk (short radix) t radix.
Proof. exact parse_base_any_same. Qed.
Print Assumptions C117_agrees.

Definition sample_short (r : Z) (k : nat) : bool := r ^ Z.of_nat k <=? 2 ^ 53.
Example C117_example :
  (forall r, 2 <= r <= 36 -> short_enough r (sample_short r)) /\ reads_numbers sample_number
  /\ to_string_any (mk_small (-4321)) (mk_small 100) = Ok (Some (txt "-<43>l"))
  /\ to_string_any (mk_small (-4321)) (mk_small (-10)) = Ok (Some (txt "5739"))
  /\ to_string_any (Big [7; 3; 100000] true) (Big [0; 0; 1000000] false) = Ok (Some (txt "-<7,3,100000>"))
  /\ to_string_any (mk_small 4) (mk_small (-1)) = Ok (Some (txt "1010101"))
  /\ parse_base_any (fun _ _ => false) sample_number sample_short (txt "-<43>L") (mk_small 100) = Ok (Some (mk_small (-4321)))
  /\ parse_base_any (fun _ _ => false) sample_number sample_short (txt "5739") (mk_small (-10)) = Ok (Some (mk_small (-4321)))
  /\ parse_base_any (fun _ _ => false) sample_number sample_short (txt "1010101") (mk_small (-1)) = Ok (Some (mk_small 4))
  /\ parse_base_any (fun _ _ => false) sample_number sample_short (txt "<43") (mk_small 100) = Ok None.
Proof.
  split; [intros r _ k Hk; unfold sample_short in Hk; by apply Z.leb_le in Hk|]. split; [exact sample_reads|].
  repeat (split; [vm_compute; reflexivity|]). vm_compute. reflexivity.
Qed.
