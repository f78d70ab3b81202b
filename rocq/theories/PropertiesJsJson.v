(** * PropertiesJsJson: what the caller of a JavaScript tracer receives *)

From Verif Require Import SpecBigInt BigIntText.
From Verif Require Import JsJson SpecJsJson JsJsonProofs.
Local Open Scope N_scope.

(** ** C125: what the script's [result] returns is what the caller receives *)

(** The property as a user would put it: there is always an answer, and it is what JSON has for the value. *)
Definition C125_statement : Prop :=
  forall escaped v, proper v ->
  (exists answer, json_result escaped (Some v) = Ok answer) /\
  (forall s, json_of true v s -> json_result escaped (Some v) = Ok (Some s)).

(** What holds.  Every value is of one of three kinds.
    If JSON has something for it, the caller receives just that; unless it is nested 128 deep or more or holds half a
    surrogate pair, and then the caller receives an error.
    If JSON has nothing for it, the caller receives an error.
    If it cannot be written, the caller receives its own members, or an error, and an error if a symbol or a big integer
    is among them; provided that no [undefined] is among them. *)
Theorem C125_result_partial :
  forall escaped v, proper v ->
  (throws true v \/ no_json true v \/ exists s, json_of true v s) /\
  (forall s, json_of true v s -> (nesting s <= 127)%nat -> ~ has_half s -> json_result escaped (Some v) = Ok (Some s)) /\
  (forall s, json_of true v s -> (128 <= nesting s)%nat \/ has_half s -> json_result escaped (Some v) = Ok None) /\
  (no_json true v -> json_result escaped (Some v) = Ok None) /\
  (throws true v -> forall s, own_json v s -> json_result escaped (Some v) = Ok (Some s)) /\
  (throws true v -> ~ holds_undefined v -> exists answer, json_result escaped (Some v) = Ok answer) /\
  (throws true v -> ~ holds_undefined v -> holds_foreign v -> json_result escaped (Some v) = Ok None) /\
  json_result escaped None = Ok None.
Proof.
  intros escaped v Hp. split; [apply cases|].
  assert (Hj : forall s, json_of true v s -> json_result escaped (Some v) = Ok (if fits 128 s then Some s else None)).
  { intros s Hs. unfold json_result, to_serde_value, json_stringify.
    rewrite (proj1 json_of_text _ _ _ Hs). rewrite from_str_print; [reflexivity|].
    apply (proj1 json_of_good _ _ _ Hs Hp). }
  assert (Ht : throws true v -> json_result escaped (Some v) = to_json escaped v).
  { intros Ht. unfold json_result, to_serde_value, json_stringify. rewrite (throws_throw _ _ Ht). reflexivity. }
  split; [|split; [|split; [|split; [|split; [|split]]]]].
  - intros s Hs Hn Hh. rewrite (Hj s Hs). destruct (fits 128 s) eqn:Hf; [reflexivity|]. exfalso.
    apply fits_false in Hf; [|lia]. destruct Hf; [lia|contradiction].
  - intros s Hs Hbad. rewrite (Hj s Hs). apply fits_false in Hbad; [|lia]. rewrite Hbad. reflexivity.
  - intros Hn. unfold json_result, to_serde_value, json_stringify. rewrite (no_json_nothing _ _ Hn). reflexivity.
  - intros H s Hs. rewrite (Ht H). apply to_json_own, Hs.
  - intros H Hu. rewrite (Ht H). apply to_json_ok, Hu.
  - intros H Hu Hf. rewrite (Ht H). apply to_json_foreign; assumption.
  - reflexivity.
Qed.
Print Assumptions C125_result_partial.

(** JSON has at most one thing for a value, and the three kinds exclude one another. *)
Theorem C125_one_kind :
  forall b v, (throws b v -> ~ no_json b v) /\
  (forall s, json_of b v s -> ~ throws b v /\ ~ no_json b v) /\
  (forall s s', proper v -> ~ has_half s -> (nesting s <= 127)%nat -> json_of b v s -> json_of b v s' -> s = s').
Proof.
  intros b v. split; [|split].
  - intros Ht Hn. apply throws_throw in Ht. apply no_json_nothing in Hn. congruence.
  - intros s Hs. apply (proj1 json_of_text) in Hs.
    split; [intros H; apply throws_throw in H|intros H; apply no_json_nothing in H]; congruence.
  - intros s s' Hp Hh Hn Hs Hs'.
    pose proof (proj1 json_of_good _ _ _ Hs Hp) as Hg. pose proof (proj1 json_of_good _ _ _ Hs' Hp) as Hg'.
    apply (proj1 json_of_text) in Hs. apply (proj1 json_of_text) in Hs'. rewrite Hs in Hs'. injection Hs' as He.
    apply from_str_print in Hg, Hg'. rewrite He in Hg. rewrite Hg in Hg'.
    destruct (fits 128 s) eqn:Hf.
    + destruct (fits 128 s'); [injection Hg'; auto|discriminate].
    + exfalso. apply fits_false in Hf; [|lia]. destruct Hf; [lia|contradiction].
Qed.
Print Assumptions C125_one_kind.

(** What [toJSON] of the bundled library's integers returns: [this.toString()] ([src/tracing/js/bigint.js]). *)
Definition bigint_value (own : list (chars * jsval)) (i : integer) : jsval :=
  JJson own (Some (JStr (map Byte.to_N (to_string i)))).

(** An integer of the bundled library arrives as its decimal numeral, wherever JSON finds it. *)
Theorem C125_bigint :
  forall own i x, stands_for i x -> exists t, json_of true (bigint_value own i) (SStr (map Byte.to_N t)) /\
    writes 10 x t /\ ~ has_half (SStr (map Byte.to_N t)) /\
    (forall escaped, proper (JObj own) -> json_result escaped (Some (bigint_value own i)) = Ok (Some (SStr (map Byte.to_N t)))).
Proof.
  intros own i x Hi. exists (to_string i). split; [constructor; constructor|]. split; [apply to_string_writes, Hi|].
  assert (Hno : forall c, In c (map Byte.to_N (to_string i)) -> c < 256).
  { intros c Hin. apply in_map_iff in Hin as (y & <- & _). pose proof (Byte.to_N_bounded y). lia. }
  assert (Hh : ~ has_half (SStr (map Byte.to_N (to_string i)))).
  { intros Hh. inversion Hh as [? (c & Hin & Hc)| | |]; subst. apply Hno in Hin.
    unfold first_half, second_half in Hc. lia. }
  split; [exact Hh|]. intros escaped Hown.
  assert (Hp : proper (bigint_value own i)).
  { cbn [proper bigint_value]. cbn [proper] in Hown. destruct Hown as [Hn Hm]. split; [exact Hn|split; [exact Hm|]].
    intros j c d Hc _ Hf _. apply elem_of_list_lookup_2, elem_of_list_In, Hno in Hc. unfold first_half in Hf. lia. }
  destruct (C125_result_partial escaped _ Hp) as (_ & H & _). apply H; [constructor; constructor|simpl; lia|exact Hh].
Qed.
Print Assumptions C125_bigint.

(** A value nested 128 deep.  (A tracer that nests the calls of a transaction gets there with 64 calls.) *)
Fixpoint deep (n : nat) : jsval := match n with O => JNull | S n => JArr [deep n] end.
Fixpoint deep_json (n : nat) : sval := match n with O => SNull | S n => SArr [deep_json n] end.
Lemma deep_proper n : proper (deep n).
Proof. induction n; cbn; auto. Qed.
Lemma deep_has n b : json_of b (deep n) (deep_json n).
Proof. revert b. induction n; intros b; cbn; constructor. constructor; [apply IHn|constructor]. Qed.
Lemma deep_nesting n : nesting (deep_json n) = n.
Proof. induction n; [reflexivity|]. simpl. rewrite IHn. lia. Qed.

Theorem C125_refuted : ~ C125_statement.
Proof.
  intros H. destruct (H (fun _ => []) (deep 128) (deep_proper 128)) as [_ Hd].
  specialize (Hd _ (deep_has 128 true)).
  destruct (C125_result_partial (fun _ => []) (deep 128) (deep_proper 128)) as (_ & _ & Hn & _).
  rewrite (Hn _ (deep_has 128 true)) in Hd; [discriminate|left; rewrite deep_nesting; lia].
Qed.
Print Assumptions C125_refuted.

(** The value [{a: undefined, b: 1n}]: [JSON.stringify] throws, boa's [to_json] meets [undefined] first, and that is a
    [todo!]: the call does not return. *)
Theorem C125_no_crash_refuted :
  exists v, proper v /\ throws true v /\ forall escaped, json_result escaped (Some v) = Panic PTodo.
Proof.
  exists (JObj [([97], JUndef); ([98], JBig 1)]). split; [|split; [|intros escaped; reflexivity]].
  - cbn. split; [|repeat split; intros i c d Hc Hd; destruct i; discriminate].
    repeat constructor; rewrite ?elem_of_cons, ?elem_of_nil; intros H; intuition congruence.
  - eapply t_obj; [right; left; reflexivity|constructor].
Qed.
Print Assumptions C125_no_crash_refuted.

(** The value [{a: [undefined, NaN, -12.5e+30], f: function() {}, q': bigint(-5)}] is received as
    [{a: [null, null, -12.5e+30], q': '-5'}] (the name of the last member is [q] and a quotation mark); the function returning nothing is an error; 127 levels arrive. *)
Definition ex_value : jsval :=
  JObj [([97], JArr [JUndef; JNotFinite; JNum [45; 49; 50; 46; 53; 101; 43; 51; 48]]);
        ([102], JFun [([110], JStr [])]);
        ([113; 34], bigint_value [([118], JNum [53])] (mk_small (-5)))].
Example C125_example :
  proper ex_value /\
  json_of true ex_value
    (SObj [([97], SArr [SNull; SNull; SNum [45; 49; 50; 46; 53; 101; 43; 51; 48]]); ([113; 34], SStr [45; 53])]) /\
  json_result (fun _ => []) (Some ex_value) =
    Ok (Some (SObj [([97], SArr [SNull; SNull; SNum [45; 49; 50; 46; 53; 101; 43; 51; 48]]); ([113; 34], SStr [45; 53])])) /\
  json_result (fun _ => []) (Some JUndef) = Ok None /\
  json_result (fun _ => []) (Some (deep 127)) = Ok (Some (deep_json 127)) /\
  json_result (fun _ => []) (Some (JObj [([97], JGet None); ([98], JBool true)])) =
    Ok (Some (SObj [([97], SNull); ([98], SBool true)])) /\
  json_result (fun _ => []) (Some (JObj [([97], JBool true); ([98], JBig 1)])) = Ok None /\
  json_result (fun _ => []) (Some (JStr [0xD800])) = Ok None.
Proof.
  assert (Hk : forall a b, js_text [a; b] \/ first_half a).
  { intros a b. destruct (decide (0xD800 <= a /\ a <= 0xDBFF)); [right; assumption|left].
    intros i c d Hc Hd. destruct i as [|[|i]]; try discriminate. injection Hc as ->. intros Hf. contradiction. }
  assert (Hone : forall a, js_text [a]) by (intros a i c d Hc Hd; destruct i; discriminate).
  split.
  { cbn. split; [repeat constructor; rewrite ?elem_of_cons, ?elem_of_nil; intros H; intuition congruence|].
    assert (H1 : number_text [45; 49; 50; 46; 53; 101; 43; 51; 48]).
    { exists [45], [49; 50], [46; 53], [101; 43; 51; 48]. split; [reflexivity|]. split; [auto|]. split.
      - right. split; [split; [discriminate|repeat constructor; lia]|discriminate].
      - split; right; [exists [53]|exists 43, [51; 48]]; repeat (split; [reflexivity|]); [|split; [auto|]];
          (split; [discriminate|repeat constructor; lia]). }
    assert (H2 : number_text [53]).
    { exists [], [53], [], []. split; [reflexivity|]. split; [auto|]. split; [right|auto].
      split; [split; [discriminate|repeat constructor; lia]|discriminate]. }
    repeat split; try exact I; try apply Hone; try assumption; try (intros i c d Hc; discriminate).
    - repeat constructor. rewrite elem_of_nil. tauto.
    - destruct (Hk 113 34) as [H|H]; [exact H|unfold first_half in H; lia].
    - repeat constructor. rewrite elem_of_nil. tauto.
    - destruct (Hk 45 53) as [H|H]; [exact H|unfold first_half in H; lia]. }
  split.
  { apply j_obj. apply jm_value; [|apply jm_left_out; [constructor|apply jm_value; [apply j_to_json, j_str|constructor]]].
    apply j_arr. apply je_null; [constructor|]. apply je_value; [constructor|]. apply je_value; constructor. }
  repeat split; vm_compute; reflexivity.
Qed.
