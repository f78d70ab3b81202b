(** * Proofs: writing JSON and reading it back *)

From Verif Require Import JsJson SpecJsJson.
Local Open Scope N_scope.

(** ** Induction *)
Section SvalInd.
  Variable P : sval -> Prop.
  Hypothesis Hnull : P SNull.
  Hypothesis Hbool : forall b, P (SBool b).
  Hypothesis Hnum : forall t, P (SNum t).
  Hypothesis Hstr : forall s, P (SStr s).
  Hypothesis Harr : forall l, Forall P l -> P (SArr l).
  Hypothesis Hobj : forall ms, Forall (fun m => P m.2) ms -> P (SObj ms).
  Fixpoint sval_ind' (s : sval) : P s :=
    match s with
    | SNull => Hnull | SBool b => Hbool b | SNum t => Hnum t | SStr t => Hstr t
    | SArr l => Harr l ((fix go l := match l return Forall P l with
                                     | [] => List.Forall_nil P | s :: l => List.Forall_cons P s l (sval_ind' s) (go l) end) l)
    | SObj ms => Hobj ms ((fix go ms := match ms return Forall (fun m => P m.2) ms with
                                     | [] => List.Forall_nil _
                                     | m :: ms => List.Forall_cons _ m ms (sval_ind' m.2) (go ms) end) ms)
    end.
End SvalInd.

Section JsvalInd.
  Variable P : jsval -> Prop.
  Definition Pmem (ms : list (chars * jsval)) := Forall (fun m => P m.2) ms.
  Definition Popt (o : option jsval) := match o with Some w => P w | None => True end.
  Hypothesis Hundef : P JUndef.
  Hypothesis Hnull : P JNull.
  Hypothesis Hbool : forall b, P (JBool b).
  Hypothesis Hnum : forall t, P (JNum t).
  Hypothesis Hnf : P JNotFinite.
  Hypothesis Hstr : forall s, P (JStr s).
  Hypothesis Hsym : P JSym.
  Hypothesis Hbig : forall n, P (JBig n).
  Hypothesis Hfun : forall ms, Pmem ms -> P (JFun ms).
  Hypothesis Harr : forall l, Forall P l -> P (JArr l).
  Hypothesis Hobj : forall ms, Pmem ms -> P (JObj ms).
  Hypothesis Hjson : forall ms out, Pmem ms -> Popt out -> P (JJson ms out).
  Hypothesis Hget : forall out, Popt out -> P (JGet out).
  Fixpoint jsval_ind' (v : jsval) : P v :=
    let mem := fix go ms := match ms return Pmem ms with
                            | [] => List.Forall_nil _
                            | m :: ms => List.Forall_cons _ m ms (jsval_ind' m.2) (go ms) end in
    let opt o := match o return Popt o with Some w => jsval_ind' w | None => I end in
    match v with
    | JUndef => Hundef | JNull => Hnull | JBool b => Hbool b | JNum t => Hnum t | JNotFinite => Hnf
    | JStr s => Hstr s | JSym => Hsym | JBig n => Hbig n
    | JFun ms => Hfun ms (mem ms)
    | JArr l => Harr l ((fix go l := match l return Forall P l with
                                     | [] => List.Forall_nil P
                                     | s :: l => List.Forall_cons P s l (jsval_ind' s) (go l) end) l)
    | JObj ms => Hobj ms (mem ms)
    | JJson ms out => Hjson ms out (mem ms) (opt out)
    | JGet out => Hget out (opt out)
    end.
End JsvalInd.

Scheme json_of_m := Induction for json_of Sort Prop
  with json_elements_m := Induction for json_elements Sort Prop
  with json_members_m := Induction for json_members Sort Prop.
Combined Scheme json_mutind from json_of_m, json_elements_m, json_members_m.
Scheme own_json_m := Induction for own_json Sort Prop
  with own_elements_m := Induction for own_elements Sort Prop
  with own_members_m := Induction for own_members Sort Prop.
Combined Scheme own_mutind from own_json_m, own_elements_m, own_members_m.

(** ** The text of a JSON value *)
Definition member_text (print : sval -> chars) (m : chars * sval) : chars := quote m.1 ++ 58 :: print m.2.
Fixpoint print (s : sval) : chars :=
  match s with
  | SNull => t_null
  | SBool b => if b then t_true else t_false
  | SNum t => t
  | SStr s => quote s
  | SArr l => 91 :: join (map print l) ++ [93]
  | SObj ms => 123 :: join (map (fun m => quote m.1 ++ 58 :: print m.2) ms) ++ [125]
  end.

(** The members and elements [stringify] goes through, as functions of their own. *)
Fixpoint els (l : list jsval) : option (list chars) :=
  match l with
  | [] => Some []
  | v :: l' =>
      match stringify true v with
      | WThrow => None
      | WNothing => option_map (cons t_null) (els l')
      | WText t => option_map (cons t) (els l')
      end
  end.
Fixpoint mems (ms : list (chars * jsval)) : option (list chars) :=
  match ms with
  | [] => Some []
  | (k, v) :: ms' =>
      match stringify true v with
      | WThrow => None
      | WNothing => mems ms'
      | WText t => option_map (cons (quote k ++ 58 :: t)) (mems ms')
      end
  end.
Definition wobj ms := match mems ms with Some ts => WText (123 :: join ts ++ [125]) | None => WThrow end.
Lemma stringify_arr b l :
  stringify b (JArr l) = match els l with Some ts => WText (91 :: join ts ++ [93]) | None => WThrow end.
Proof. reflexivity. Qed.
Lemma stringify_obj b ms : stringify b (JObj ms) = wobj ms.
Proof. reflexivity. Qed.
Lemma stringify_json b ms out : stringify b (JJson ms out) =
  if b then match out with Some w => stringify false w | None => WThrow end else wobj ms.
Proof. destruct b; reflexivity. Qed.

Lemma no_json_nothing b v : no_json b v -> stringify b v = WNothing.
Proof. induction 1; try reflexivity; try assumption. Qed.

Lemma json_of_text :
  (forall b v s, json_of b v s -> stringify b v = WText (print s)) /\
  (forall l xs, json_elements l xs -> els l = Some (map print xs)) /\
  (forall ms xs, json_members ms xs -> mems ms = Some (map (fun m => quote m.1 ++ 58 :: print m.2) xs)).
Proof.
  apply json_mutind; intros; try reflexivity.
  - rewrite stringify_arr, H. reflexivity.
  - rewrite stringify_obj. unfold wobj. rewrite H. reflexivity.
  - rewrite stringify_json. assumption.
  - rewrite stringify_json. unfold wobj. rewrite H. reflexivity.
  - simpl. assumption.
  - simpl. rewrite H, H0. reflexivity.
  - simpl. rewrite (no_json_nothing _ _ n), H. reflexivity.
  - simpl. rewrite H, H0. reflexivity.
  - simpl. rewrite (no_json_nothing _ _ n). assumption.
Qed.

Lemma els_none l v : In v l -> stringify true v = WThrow -> els l = None.
Proof.
  induction l as [|w l IH]; simpl; [done|]. intros [<-|Hin] Hv; [rewrite Hv; reflexivity|].
  rewrite (IH Hin Hv). destruct (stringify true w); reflexivity.
Qed.
Lemma mems_none ms k v : In (k, v) ms -> stringify true v = WThrow -> mems ms = None.
Proof.
  induction ms as [|[k' w] ms IH]; simpl; [done|]. intros [[= -> ->]|Hin] Hv; [rewrite Hv; reflexivity|].
  rewrite (IH Hin Hv). destruct (stringify true w); reflexivity.
Qed.

Lemma throws_throw b v : throws b v -> stringify b v = WThrow.
Proof.
  induction 1; try reflexivity.
  - rewrite stringify_arr, (els_none _ _ H IHthrows). reflexivity.
  - rewrite stringify_obj. unfold wobj. rewrite (mems_none _ _ _ H IHthrows). reflexivity.
  - rewrite stringify_json. unfold wobj. rewrite (mems_none _ _ _ H IHthrows). reflexivity.
  - rewrite stringify_json. assumption.
  - simpl. assumption.
Qed.

(** Every value is in one of the three groups. *)
Lemma cases v : forall b, throws b v \/ no_json b v \/ exists s, json_of b v s.
Proof.
  assert (Hmem : forall ms, Pmem (fun v => forall b, throws b v \/ no_json b v \/ exists s, json_of b v s) ms ->
    (exists k v, In (k, v) ms /\ throws true v) \/ exists xs, json_members ms xs).
  { induction 1 as [|[k w] ms Hw _ IH]; [right; eexists; constructor|].
    destruct (Hw true) as [Ht|Hw']; [left; exists k, w; split; [left|]; done|].
    destruct IH as [(k' & v' & Hin & Ht)|(xs & Hxs)]; [left; exists k', v'; split; [right|]; done|].
    right. destruct Hw' as [Hn|(s & Hs)]; eexists; [apply jm_left_out|eapply jm_value]; eauto. }
  induction v using jsval_ind'; intros b'.
  - right; left; constructor.
  - right; right; eexists; constructor.
  - right; right; eexists; constructor.
  - right; right; eexists; constructor.
  - right; right; eexists; constructor.
  - right; right; eexists; constructor.
  - right; left; constructor.
  - left; constructor.
  - right; left; constructor.
  - assert ((exists v, In v l /\ throws true v) \/ exists xs, json_elements l xs) as [(v & Hin & Ht)|(xs & Hxs)].
    { induction H as [|w l Hw _ IH]; [right; eexists; constructor|].
      destruct (Hw true) as [Ht|Hw']; [left; exists w; split; [left|]; done|].
      destruct IH as [(v' & Hin & Ht)|(xs & Hxs)]; [left; exists v'; split; [right|]; done|].
      right. destruct Hw' as [Hn|(s & Hs)]; eexists; [apply je_null|eapply je_value]; eauto. }
    + left. econstructor; eauto.
    + right; right. eexists; constructor; eauto.
  - destruct (Hmem _ H) as [(k & v & Hin & Ht)|(xs & Hxs)].
    + left. econstructor; eauto.
    + right; right. eexists; constructor; eauto.
  - destruct b'.
    + destruct out as [w|]; [|left; constructor]. destruct (H0 false) as [Ht|[Hn|(s & Hs)]].
      * left; constructor; done.
      * right; left; constructor; done.
      * right; right; eexists; constructor; eauto.
    + destruct (Hmem _ H) as [(k & v & Hin & Ht)|(xs & Hxs)].
      * left. econstructor; eauto.
      * right; right. eexists; constructor; eauto.
  - destruct out as [w|]; [|left; constructor]. destruct (H b') as [Ht|[Hn|(s & Hs)]].
    + left; constructor; done.
    + right; left; constructor; done.
    + right; right; eexists; constructor; eauto.
Qed.

(** ** Characters *)
Ltac lit c := destruct c as [|c]; [|do 8 (try (destruct c as [c|c|]))]; try reflexivity; try (exfalso; lia).

Lemma hex_value_char n : n < 16 -> hex_value (hex_char n) = Some n.
Proof.
  intros H. assert (Hn : n = 0 \/ n = 1 \/ n = 2 \/ n = 3 \/ n = 4 \/ n = 5 \/ n = 6 \/ n = 7 \/ n = 8 \/ n = 9 \/
    n = 10 \/ n = 11 \/ n = 12 \/ n = 13 \/ n = 14 \/ n = 15) by lia.
  repeat destruct Hn as [->|Hn]; try reflexivity. subst. reflexivity.
Qed.

Lemma read_u_escape c r : c < 65536 ->
  read_hex4 (hex_char (c / 4096 mod 16) :: hex_char (c / 256 mod 16) :: hex_char (c / 16 mod 16) :: hex_char (c mod 16) :: r)
  = Some (c, r).
Proof.
  intros Hc. unfold read_hex4. rewrite !hex_value_char by (apply N.mod_lt; lia). f_equal. f_equal.
  pose proof (N.div_mod c 16). pose proof (N.div_mod (c / 16) 16). pose proof (N.div_mod (c / 256) 16).
  rewrite (N.mod_small (c / 4096)) by (apply N.div_lt_upper_bound; lia).
  rewrite (N.div_div c 16 16) in * by lia. rewrite (N.div_div c 256 16) in * by lia.
  change (16 * 16) with 256 in *. change (256 * 16) with 4096 in *. lia.
Qed.

Definition half (c : N) : bool := lead c || trail c.
Definition whole (s : chars) : bool := forallb (fun c => negb (half c)) s.

Lemma lead_spec c : lead c = true <-> first_half c.
Proof. unfold lead, first_half. rewrite andb_true_iff, !N.leb_le. reflexivity. Qed.
Lemma trail_spec c : trail c = true <-> second_half c.
Proof. unfold trail, second_half. rewrite andb_true_iff, !N.leb_le. reflexivity. Qed.

(** The three ways to write a character. *)
Lemma quote_char_cases c :
  (exists x, quote_char c = [92; x] /\ x <> 117 /\ half c = false /\ forall r, read_escape (x :: r) = Some (c, r)) \/
  (quote_char c = u_escape c /\ c < 65536) \/
  (quote_char c = [c] /\ c <> 34 /\ c <> 92 /\ 32 <= c /\ half c = false).
Proof.
  unfold quote_char.
  repeat (match goal with |- context [if c =? ?k then _ else _] =>
    destruct (N.eqb_spec c k) as [->|?]; [left; eexists; split; [reflexivity|split; [lia|split; [reflexivity|intros; reflexivity]]]|] end).
  destruct (N.ltb_spec c 32); [right; left; split; [reflexivity|lia]|].
  destruct (lead c) eqn:Hl; [right; left; split; [reflexivity|apply lead_spec in Hl; unfold first_half in Hl; lia]|].
  destruct (trail c) eqn:Ht; [right; left; split; [reflexivity|apply trail_spec in Ht; unfold second_half in Ht; lia]|].
  right; right. simpl. unfold half. rewrite Hl, Ht. auto.
Qed.

Lemma js_text_tail c s : js_text (c :: s) -> js_text s.
Proof. intros H i a b Ha Hb. exact (H (S i) a b Ha Hb). Qed.

Lemma read_string_S fuel c r : c <> 34 -> c <> 92 -> 32 <= c ->
  read_string (S fuel) (c :: r) =
  match read_string fuel r with Some (s, r) => Some (c :: s, r) | None => None end.
Proof.
  intros H1 H2 H3. simpl.
  assert (Hlt : (c <? 32) = false) by (apply N.ltb_ge; lia). rewrite Hlt.
  destruct c as [|c]; [reflexivity|]. do 7 (try (destruct c as [c|c|]; try reflexivity)); exfalso; lia.
Qed.

Lemma read_lead_fails s rest n : js_text (n :: s) -> lead n = true ->
  match concat (map quote_char s) ++ 34 :: rest with
  | 92 :: 117 :: r =>
      match read_hex4 r with
      | Some (m, r) => if trail m then Some (0x10000 + (n - 0xD800) * 1024 + (m - 0xDC00), r) else None
      | None => None
      end
  | _ => None
  end = None.
Proof.
  intros Htxt Hl. destruct s as [|c s]; [reflexivity|]. cbn [map concat]. rewrite <- app_assoc.
  destruct (quote_char_cases c) as [(x & -> & Hx & _)|[[-> Hc]|(-> & H34 & H92 & _)]]; cbn [app].
  - destruct x as [|x]; [reflexivity|]. do 7 (try (destruct x as [x|x|]; try reflexivity)); exfalso; apply Hx; reflexivity.
  - unfold u_escape. cbn [app]. rewrite read_u_escape by exact Hc.
    destruct (trail c) eqn:Ht; [|reflexivity]. exfalso.
    apply (Htxt 0%nat n c eq_refl eq_refl); [apply lead_spec|apply trail_spec]; assumption.
  - destruct c as [|c]; [reflexivity|]. do 7 (try (destruct c as [c|c|]; try reflexivity)); exfalso; apply H92; reflexivity.
Qed.

Lemma read_string_quoted s : js_text s -> forall fuel rest,
  (length (concat (map quote_char s)) < fuel)%nat ->
  read_string fuel (concat (map quote_char s) ++ 34 :: rest) = if whole s then Some (s, rest) else None.
Proof.
  induction s as [|c s IH]; intros Htxt fuel rest Hf.
  - destruct fuel; [simpl in Hf; lia|reflexivity].
  - pose proof (js_text_tail _ _ Htxt) as Htl. cbn [map concat] in *. rewrite <- app_assoc.
    rewrite app_length in Hf. destruct fuel as [|fuel]; [lia|].
    destruct (quote_char_cases c) as [(x & Hq & Hx & Hh & Hr)|[[Hq Hc]|(Hq & H34 & H92 & H32 & Hh)]];
      rewrite Hq in Hf |- *; cbn [app length] in Hf |- *.
    + cbn [read_string]. rewrite Hr. rewrite (IH Htl) by lia. cbn [whole forallb]. rewrite Hh. cbn [negb andb].
      fold (whole s). destruct (whole s); reflexivity.
    + unfold u_escape. cbn [app read_string read_escape]. rewrite read_u_escape by exact Hc.
      cbn [whole forallb]. unfold half. destruct (trail c) eqn:Ht; [rewrite orb_true_r; reflexivity|].
      destruct (lead c) eqn:Hl.
      * rewrite read_lead_fails by assumption. reflexivity.
      * cbn [orb negb andb]. unfold u_escape in Hf. cbn [length] in Hf. rewrite (IH Htl) by lia.
        change (forallb (fun c0 => negb (lead c0 || trail c0)) s) with (whole s). destruct (whole s); reflexivity.
    + rewrite read_string_S by assumption. rewrite (IH Htl) by lia. cbn [whole forallb]. rewrite Hh. cbn [negb andb].
      fold (whole s). destruct (whole s); reflexivity.
Qed.

(** ** Numbers *)
Definition sep (rest : chars) : Prop := rest = [] \/ exists c r, rest = c :: r /\ (c = 44 \/ c = 93 \/ c = 125).

Lemma digits_app l rest : Forall (fun c => 48 <= c <= 57) l ->
  (match rest with [] => True | c :: _ => is_digit c = false end) -> digits (l ++ rest) = (l, rest).
Proof.
  induction 1 as [|c l Hc _ IH]; intros Hr.
  - destruct rest as [|c r]; [reflexivity|]. simpl. rewrite Hr. reflexivity.
  - simpl. assert (Hd : is_digit c = true) by (unfold is_digit; rewrite andb_true_iff, !N.leb_le; lia).
    rewrite Hd, (IH Hr). reflexivity.
Qed.
Lemma digits1_app l rest : decimals l ->
  (match rest with [] => True | c :: _ => is_digit c = false end) -> digits1 (l ++ rest) = Some (l, rest).
Proof.
  intros [Hne Hl] Hr. unfold digits1. rewrite digits_app by assumption. destruct l; [done|reflexivity].
Qed.

Definition nondigit (rest : chars) : Prop := match rest with [] => True | c :: _ => is_digit c = false end.

Lemma sep_nondigit rest : sep rest -> nondigit rest.
Proof. intros [->|(c & r & -> & [->|[->| ->]])]; [exact I|reflexivity..]. Qed.

Lemma read_integer_app w rest : (w = [48] \/ decimals w /\ head w <> Some 48) -> nondigit rest ->
  read_integer (w ++ rest) = Some (w, rest).
Proof.
  intros Hw Hr. destruct Hw as [->|[Hd Hh]].
  - simpl. destruct rest as [|c r]; [reflexivity|]. simpl in Hr. rewrite Hr. reflexivity.
  - destruct w as [|c w]; [destruct Hd; done|]. assert (Hc : c <> 48) by (intros ->; apply Hh; reflexivity).
    transitivity (digits1 ((c :: w) ++ rest)); [|apply digits1_app; assumption].
    cbn [app]. unfold read_integer. destruct c as [|c]; [reflexivity|].
    do 6 (try (destruct c as [c|c|]; try reflexivity)); exfalso; apply Hc; reflexivity.
Qed.

Lemma exponent_nondigit e rest :
  (e = [] \/ exists s l, e = 101 :: s :: l /\ (s = 43 \/ s = 45) /\ decimals l) -> nondigit rest -> nondigit (e ++ rest).
Proof. intros [->|(s & l & -> & _)] Hr; [exact Hr|reflexivity]. Qed.

Lemma read_exponent_app e rest :
  (e = [] \/ exists s l, e = 101 :: s :: l /\ (s = 43 \/ s = 45) /\ decimals l) -> sep rest ->
  read_exponent (e ++ rest) = Some (e, rest).
Proof.
  intros He Hs. destruct He as [->|(s & l & -> & Hsg & Hl)].
  - destruct Hs as [->|(c & r & -> & [->|[->| ->]])]; reflexivity.
  - cbn [app]. unfold read_exponent. cbn [N.eqb Pos.eqb orb].
    destruct Hsg as [->| ->]; cbn [N.eqb Pos.eqb orb]; rewrite digits1_app; try assumption;
      try (apply sep_nondigit; assumption); reflexivity.
Qed.

Lemma read_fraction_app f rest :
  (f = [] \/ exists l, f = 46 :: l /\ decimals l) -> nondigit rest -> head rest <> Some 46 ->
  read_fraction (f ++ rest) = Some (f, rest).
Proof.
  intros Hf Hr Hh. destruct Hf as [->|(l & -> & Hl)].
  - destruct rest as [|c r]; [reflexivity|]. simpl. destruct c as [|c]; [reflexivity|].
    do 6 (try (destruct c as [c|c|]; try reflexivity)). exfalso; apply Hh; reflexivity.
  - cbn [app]. unfold read_fraction. rewrite digits1_app by assumption. reflexivity.
Qed.

Lemma read_number_app t rest : number_text t -> sep rest -> read_number (t ++ rest) = Some (t, rest).
Proof.
  intros (sg & w & f & e & -> & Hsg & Hw & Hf & He) Hs. unfold read_number.
  assert (Hbody : match read_integer (w ++ f ++ e ++ rest) with
    | Some (i, t1) =>
        match read_fraction t1 with
        | Some (f, t2) => match read_exponent t2 with Some (e, r) => Some (sg ++ i ++ f ++ e, r) | None => None end
        | None => None
        end
    | None => None end = Some (sg ++ w ++ f ++ e, rest)).
  { pose proof (exponent_nondigit e rest He (sep_nondigit _ Hs)) as Hn.
    assert (Hh : head (e ++ rest) <> Some 46).
    { destruct He as [->|(s & l & -> & _)]; [|discriminate].
      destruct Hs as [->|(c & r & -> & [->|[->| ->]])]; discriminate. }
    rewrite read_integer_app; [|assumption|].
    - rewrite read_fraction_app by assumption. rewrite read_exponent_app by assumption. reflexivity.
    - destruct Hf as [->|(l & -> & _)]; [exact Hn|reflexivity]. }
  rewrite <- !app_assoc. destruct Hsg as [->| ->].
  - cbn [app] in Hbody |- *. rewrite <- Hbody.
    destruct Hw as [->|[[Hne Hd] Hh]]; [reflexivity|]. destruct w as [|c w]; [done|].
    inversion Hd as [|? ? Hc _]; subst. cbn [app].
    destruct c as [|c]; [reflexivity|]. do 6 (try (destruct c as [c|c|]; try reflexivity)); exfalso; lia.
  - cbn [app]. exact Hbody.
Qed.

(** ** Values *)
Fixpoint fits (d : nat) (s : sval) : bool :=
  match s with
  | SStr s => whole s
  | SArr l => match d with S (S d) => forallb (fits (S d)) l | _ => false end
  | SObj ms => match d with S (S d) => forallb (fun m => whole m.1 && fits (S d) m.2) ms | _ => false end
  | _ => true
  end.

(** What the texts of the values [stringify] writes are made of. *)
Fixpoint good (s : sval) : Prop :=
  let elements := fix elements (l : list sval) : Prop := match l with [] => True | v :: l' => good v /\ elements l' end in
  let members := fix members (ms : list (chars * sval)) : Prop :=
    match ms with [] => True | (k, v) :: ms' => js_text k /\ good v /\ members ms' end in
  match s with
  | SNum t => number_text t
  | SStr s => js_text s
  | SArr l => elements l
  | SObj ms => NoDup (map fst ms) /\ members ms
  | _ => True
  end.
Lemma good_arr l : good (SArr l) <-> Forall good l.
Proof.
  simpl. induction l as [|s l IH]; [split; [constructor|done]|].
  rewrite Forall_cons, <- IH. reflexivity.
Qed.
Lemma good_obj ms : good (SObj ms) <-> NoDup (map fst ms) /\ Forall (fun m => js_text m.1 /\ good m.2) ms.
Proof.
  simpl. apply and_iff_compat_l. induction ms as [|[k s] ms IH]; [split; [constructor|done]|].
  rewrite Forall_cons, <- IH. simpl. tauto.
Qed.

Definition opener (c : N) : Prop := c = 110 \/ c = 116 \/ c = 102 \/ c = 45 \/ 48 <= c <= 57 \/ c = 34 \/ c = 91 \/ c = 123.
Lemma number_head t : number_text t -> exists c r, t = c :: r /\ (c = 45 \/ 48 <= c <= 57).
Proof.
  intros (sg & w & f & e & -> & Hsg & Hw & _). destruct Hsg as [->| ->]; [|eexists _, _; split; [reflexivity|auto]].
  destruct Hw as [->|[[Hne Hd] _]]; [eexists _, _; split; [reflexivity|right; lia]|].
  destruct w as [|c w]; [done|]. inversion Hd; subst. eexists _, _; split; [reflexivity|auto].
Qed.
Lemma print_head s : good s -> exists c r, print s = c :: r /\ opener c.
Proof.
  unfold opener. destruct s; simpl; intros Hg.
  - eexists _, _; split; [reflexivity|auto].
  - destruct b; eexists _, _; (split; [reflexivity|]); auto.
  - destruct (number_head _ Hg) as (c & r & -> & Hc). eexists _, _; split; [reflexivity|]. tauto.
  - eexists _, _; split; [reflexivity|]. tauto.
  - eexists _, _; split; [reflexivity|]. tauto.
  - eexists _, _; split; [reflexivity|]. tauto.
Qed.
Lemma opener_ws c r : opener c -> skip_ws (c :: r) = c :: r.
Proof.
  intros Hc. cbn [skip_ws].
  assert (H : (c =? 32) || (c =? 10) || (c =? 9) || (c =? 13) = false)
    by (rewrite !orb_false_iff, !N.eqb_neq; unfold opener in Hc; lia).
  rewrite H. reflexivity.
Qed.
Lemma opener_neq c : opener c -> (c =? 93) = false /\ (c =? 125) = false.
Proof. unfold opener. intros. rewrite !N.eqb_neq. lia. Qed.

Lemma join_cons t l : join (t :: l) = t ++ concat (map (cons 44%N) l).
Proof.
  revert t. induction l as [|u l IH]; intros t; [simpl; rewrite app_nil_r; reflexivity|].
  change (join (t :: u :: l)) with (t ++ 44 :: join (u :: l)). rewrite IH. reflexivity.
Qed.

Definition reads (s : sval) : Prop := forall fuel d rest, (length (print s) <= fuel)%nat -> (1 <= d)%nat -> sep rest ->
  read_value fuel d (print s ++ rest) = if fits d s then Some (s, rest) else None.

Lemma sep_rest l x rest : x = 93 \/ x = 125 -> sep (concat (map (cons 44%N) l) ++ x :: rest).
Proof. intros Hx. right. destruct l as [|t l]; simpl; eexists _, _; (split; [reflexivity|tauto]). Qed.

Lemma read_elements_S fuel d c r : read_elements (S fuel) d false (44 :: c :: r) =
    match read_value fuel d (skip_ws (c :: r)) with
    | Some (s, r) => match read_elements fuel d false r with Some (l, r) => Some (s :: l, r) | None => None end
    | None => None end.
Proof. reflexivity. Qed.

Lemma read_elements_rest l : Forall good l -> Forall reads l -> forall fuel d rest, (1 <= d)%nat ->
  (length (concat (map (cons 44%N) (map print l))) < fuel)%nat ->
  read_elements fuel d false (concat (map (cons 44%N) (map print l)) ++ 93 :: rest) =
  if forallb (fits d) l then Some (l, rest) else None.
Proof.
  intros Hg Hr. induction Hr as [|s l Hs _ IH]; intros fuel d rest Hd Hf.
  - destruct fuel; [simpl in Hf; lia|reflexivity].
  - inversion Hg as [|? ? Hgs Hgl]; subst. cbn [map concat] in *. rewrite <- app_assoc. cbn [app].
    cbn [app length] in Hf. rewrite app_length in Hf. destruct fuel as [|fuel]; [lia|].
    destruct (print_head _ Hgs) as (c & r & Hp & Hc). pose proof (opener_neq _ Hc) as [H93 _].
    assert (Hlen : (1 <= length (print s))%nat) by (rewrite Hp; simpl; lia).
    transitivity (match read_value fuel d (print s ++ concat (map (cons 44%N) (map print l)) ++ 93 :: rest) with
      | Some (s, r) => match read_elements fuel d false r with Some (l, r) => Some (s :: l, r) | None => None end
      | None => None end).
    { rewrite Hp. cbn [app]. rewrite read_elements_S, opener_ws by assumption. reflexivity. }
    rewrite Hs; [|lia|assumption|apply sep_rest; auto]. cbn [forallb].
    destruct (fits d s); cbn [andb]; [|reflexivity].
    rewrite IH; [|assumption..|lia]. destruct (forallb (fits d) l); reflexivity.
Qed.

Lemma read_arr l : Forall good l -> Forall reads l -> forall fuel d rest, (1 <= d)%nat ->
  (length (join (map print l)) < fuel)%nat ->
  read_elements fuel d true (join (map print l) ++ 93 :: rest) = if forallb (fits d) l then Some (l, rest) else None.
Proof.
  intros Hg Hr fuel d rest Hd Hf. destruct l as [|s l].
  - destruct fuel; [simpl in Hf; lia|reflexivity].
  - inversion Hg as [|? ? Hgs Hgl]; subst. inversion Hr as [|? ? Hs Hrl]; subst.
    cbn [map] in *. rewrite join_cons in *. rewrite app_length in Hf. rewrite <- app_assoc.
    destruct fuel as [|fuel]; [lia|].
    destruct (print_head _ Hgs) as (c & r & Hp & Hc). pose proof (opener_neq _ Hc) as [H93 _].
    assert (Hlen : (1 <= length (print s))%nat) by (rewrite Hp; simpl; lia).
    transitivity (match read_value fuel d (print s ++ concat (map (cons 44%N) (map print l)) ++ 93 :: rest) with
      | Some (s, r) => match read_elements fuel d false r with Some (l, r) => Some (s :: l, r) | None => None end
      | None => None end).
    { rewrite Hp. cbn [app read_elements]. rewrite opener_ws by assumption. rewrite H93. reflexivity. }
    rewrite Hs; [|lia|assumption|apply sep_rest; auto]. cbn [forallb].
    destruct (fits d s); cbn [andb]; [|reflexivity].
    rewrite read_elements_rest; [|assumption..|lia]. destruct (forallb (fits d) l); reflexivity.
Qed.

Lemma insert_member_new k s ms : ~ In k (map fst ms) -> insert_member k s ms = ms ++ [(k, s)].
Proof.
  induction ms as [|[k' s'] ms IH]; simpl; intros Hn; [reflexivity|].
  destruct (decide (k = k')) as [->|]; [exfalso; apply Hn; auto|]. rewrite IH by tauto. reflexivity.
Qed.

Definition mtext (m : chars * sval) : chars := quote m.1 ++ 58 :: print m.2.
Definition mfits (d : nat) (m : chars * sval) : bool := whole m.1 && fits d m.2.

(** One member, behind a comma or not. *)
Definition read_member (fuel d : nat) (acc : list (chars * sval)) (t : chars) :=
  match t with
  | 34 :: t =>
      match read_string (length t) t with
      | Some (k, t) =>
          match skip_ws t with
          | 58 :: t =>
              match read_value fuel d t with
              | Some (s, t) => read_members fuel d false (insert_member k s acc) t
              | None => None
              end
          | _ => None
          end
      | None => None
      end
  | _ => None
  end.

Lemma read_member_text fuel d acc m tail : js_text m.1 -> reads m.2 -> (1 <= d)%nat ->
  (length (print m.2) <= fuel)%nat -> sep tail -> ~ In m.1 (map fst acc) ->
  read_member fuel d acc (mtext m ++ tail) =
  if mfits d m then read_members fuel d false (acc ++ [m]) tail else None.
Proof.
  intros Hk Hs Hd Hf Ht Hin. destruct m as [k s]. cbn [fst snd] in *. unfold mtext, quote, mfits. cbn [fst snd app].
  rewrite <- !app_assoc. cbn [app]. unfold read_member.
  rewrite read_string_quoted; [|assumption|rewrite app_length; simpl; lia].
  destruct (whole k); cbn [andb]; [|reflexivity].
  change (skip_ws (58 :: print s ++ tail)) with (58 :: print s ++ tail). cbv beta iota.
  rewrite Hs by assumption. destruct (fits d s); [|reflexivity]. rewrite insert_member_new by assumption. reflexivity.
Qed.

Lemma mtext_head m : exists r, mtext m = 34 :: r.
Proof. eexists. reflexivity. Qed.

Lemma read_members_rest ms : Forall (fun m => js_text m.1 /\ good m.2) ms -> Forall (fun m => reads m.2) ms ->
  forall fuel d acc rest, (1 <= d)%nat -> NoDup (map fst (acc ++ ms)) ->
  (length (concat (map (cons 44%N) (map mtext ms))) < fuel)%nat ->
  read_members fuel d false acc (concat (map (cons 44%N) (map mtext ms)) ++ 125 :: rest) =
  if forallb (mfits d) ms then Some (acc ++ ms, rest) else None.
Proof.
  intros Hg Hr. induction Hr as [|m ms Hm _ IH]; intros fuel d acc rest Hd Hnd Hf.
  - destruct fuel; [simpl in Hf; lia|]. simpl. rewrite app_nil_r. reflexivity.
  - inversion Hg as [|? ? [Hk Hgs] Hgl]; subst. cbn [map concat] in *. rewrite <- app_assoc. cbn [app].
    cbn [app length] in Hf. rewrite app_length in Hf. destruct fuel as [|fuel]; [lia|].
    assert (Hlen : (length (print m.2) < length (mtext m))%nat)
      by (unfold mtext, quote; cbn [app length]; rewrite !app_length; simpl; lia).
    transitivity (read_member fuel d acc (mtext m ++ concat (map (cons 44%N) (map mtext ms)) ++ 125 :: rest)).
    { destruct (mtext_head m) as (r & ->). reflexivity. }
    assert (Hnin : ~ In m.1 (map fst acc)).
    { rewrite map_app in Hnd. cbn [map] in Hnd. intros Hin. apply NoDup_app in Hnd as (_ & Hx & _).
      apply (Hx m.1); [apply elem_of_list_In; assumption|left]. }
    rewrite read_member_text; [|assumption..|lia|apply sep_rest; auto|assumption].
    cbn [forallb]. destruct (mfits d m); cbn [andb]; [|reflexivity].
    rewrite IH; [rewrite <- app_assoc; reflexivity|assumption|assumption|rewrite <- app_assoc; exact Hnd|lia].
Qed.

Lemma read_obj ms : Forall (fun m => js_text m.1 /\ good m.2) ms -> Forall (fun m => reads m.2) ms ->
  NoDup (map fst ms) -> forall fuel d rest, (1 <= d)%nat -> (length (join (map mtext ms)) < fuel)%nat ->
  read_members fuel d true [] (join (map mtext ms) ++ 125 :: rest) = if forallb (mfits d) ms then Some (ms, rest) else None.
Proof.
  intros Hg Hr Hnd fuel d rest Hd Hf. destruct ms as [|m ms].
  - destruct fuel; [simpl in Hf; lia|reflexivity].
  - inversion Hg as [|? ? [Hk Hgs] Hgl]; subst. inversion Hr as [|? ? Hs Hrl]; subst.
    cbn [map] in *. rewrite join_cons in *. rewrite app_length in Hf. rewrite <- app_assoc.
    destruct fuel as [|fuel]; [lia|].
    assert (Hlen : (length (print m.2) < length (mtext m))%nat)
      by (unfold mtext, quote; cbn [app length]; rewrite !app_length; simpl; lia).
    transitivity (read_member fuel d [] (mtext m ++ concat (map (cons 44%N) (map mtext ms)) ++ 125 :: rest)).
    { destruct (mtext_head m) as (r & ->). reflexivity. }
    rewrite read_member_text; [|assumption..|lia|apply sep_rest; auto|intros []].
    cbn [forallb]. destruct (mfits d m); cbn [andb]; [|reflexivity].
    rewrite read_members_rest; [reflexivity|assumption..|lia].
Qed.

Lemma reads_all s : good s -> reads s.
Proof.
  induction s using sval_ind'; intros Hg fuel d rest Hf Hd Hs.
  - destruct fuel; [simpl in Hf; lia|reflexivity].
  - destruct b, fuel; try (simpl in Hf; lia); reflexivity.
  - simpl in Hg, Hf. pose proof (number_head _ Hg) as (c & r & -> & Hc).
    destruct fuel as [|fuel]; [simpl in Hf; lia|].
    cbn [print fits app read_value]. rewrite opener_ws by (unfold opener; tauto).
    replace (c =? 110) with false by (symmetry; apply N.eqb_neq; lia).
    replace (c =? 116) with false by (symmetry; apply N.eqb_neq; lia).
    replace (c =? 102) with false by (symmetry; apply N.eqb_neq; lia).
    replace ((c =? 45) || is_digit c) with true.
    2:{ symmetry. unfold is_digit. destruct Hc as [->|Hc]; [reflexivity|].
        rewrite orb_true_iff, andb_true_iff, !N.leb_le. right; lia. }
    change (c :: r ++ rest) with ((c :: r) ++ rest). rewrite read_number_app by assumption. reflexivity.
  - simpl in Hg. destruct fuel as [|fuel]; [simpl in Hf; lia|].
    cbn [print fits]. unfold quote. cbn [app]. rewrite <- app_assoc. cbn [app].
    transitivity (match read_string (length (concat (map quote_char s) ++ 34 :: rest)) (concat (map quote_char s) ++ 34 :: rest)
      with Some (s, r) => Some (SStr s, r) | None => None end); [reflexivity|].
    rewrite read_string_quoted; [|assumption|rewrite app_length; simpl; lia]. destruct (whole s); reflexivity.
  - apply good_arr in Hg. destruct fuel as [|fuel]; [simpl in Hf; lia|].
    cbn [print fits]. cbn [print length] in Hf. rewrite app_length in Hf. cbn [length] in Hf.
    cbn [app]. rewrite <- app_assoc. cbn [app].
    destruct d as [|[|d]]; [lia|reflexivity|].
    transitivity (match read_elements fuel (S d) true (join (map print l) ++ 93 :: rest) with
      Some (l, r) => Some (SArr l, r) | None => None end); [reflexivity|].
    rewrite read_arr; [|assumption| |lia|lia].
    + destruct (forallb (fits (S d)) l); reflexivity.
    + rewrite Forall_forall in *. intros x Hx. apply H; auto.
  - apply good_obj in Hg as [Hnd Hg]. destruct fuel as [|fuel]; [simpl in Hf; lia|].
    cbn [print fits]. cbn [print length] in Hf. rewrite app_length in Hf. cbn [length] in Hf.
    cbn [app]. rewrite <- app_assoc. cbn [app].
    destruct d as [|[|d]]; [lia|reflexivity|].
    transitivity (match read_members fuel (S d) true [] (join (map mtext ms) ++ 125 :: rest) with
      Some (l, r) => Some (SObj l, r) | None => None end); [reflexivity|].
    rewrite read_obj; [|assumption| |assumption|lia|].
    + change (fun m : chars * sval => whole m.1 && fits (S d) m.2) with (mfits (S d)).
      destruct (forallb (mfits (S d)) ms); reflexivity.
    + rewrite Forall_forall in *. intros x Hx. apply H; [assumption|]. apply Hg; assumption.
    + change (map mtext ms) with (map (fun m : chars * sval => quote m.1 ++ 58 :: print m.2) ms). lia.
Qed.

Lemma from_str_print s : good s -> from_str (print s) = if fits 128 s then Some s else None.
Proof.
  intros Hg. unfold from_str. rewrite <- (app_nil_r (print s)) at 2.
  rewrite (reads_all s Hg); [|lia|lia|left; reflexivity]. destruct (fits 128 s); reflexivity.
Qed.

(** ** [fits] in the words of the specification *)
Lemma whole_false s : whole s = false <-> halved s.
Proof.
  unfold halved. induction s as [|c s IH]; simpl; [split; [done|intros (c & [] & _)]|].
  rewrite andb_false_iff, IH, negb_false_iff. unfold half. rewrite orb_true_iff, lead_spec, trail_spec. split.
  - intros [H|(x & Hx & H)]; [exists c; auto|exists x; auto].
  - intros (x & [->|Hx] & H); [left; assumption|right; exists x; auto].
Qed.

Lemma forallb_false {A} (f : A -> bool) l : forallb f l = false <-> exists x, In x l /\ f x = false.
Proof.
  induction l as [|x l IH]; simpl; [split; [done|intros (x & [] & _)]|].
  rewrite andb_false_iff, IH. split.
  - intros [H|(y & Hy & H)]; [exists x; auto|exists y; auto].
  - intros (y & [->|Hy] & H); [left; assumption|right; exists y; auto].
Qed.

Lemma list_max_in l x : In x l -> (x <= list_max l)%nat.
Proof.
  intros H. assert (Hm : (list_max l <= list_max l)%nat) by lia. apply list_max_le in Hm.
  rewrite List.Forall_forall in Hm. apply Hm. assumption.
Qed.
Lemma list_max_ge l n : (n < list_max l)%nat -> exists x, In x l /\ (n < x)%nat.
Proof.
  induction l as [|x l IH]; simpl; intros H; [lia|].
  destruct (Nat.max_spec x (list_max l)) as [[_ Hm]|[_ Hm]]; rewrite Hm in H.
  - destruct (IH H) as (y & Hy & Hl). exists y; auto.
  - exists x; auto.
Qed.

Lemma fits_false s : forall d, (1 <= d)%nat -> fits d s = false <-> ((d <= nesting s)%nat \/ has_half s).
Proof.
  induction s using sval_ind'; intros d Hd; cbn [fits nesting].
  - split; [done|intros [?|Hh]; [lia|inversion Hh]].
  - split; [done|intros [?|Hh]; [lia|inversion Hh]].
  - split; [done|intros [?|Hh]; [lia|inversion Hh]].
  - rewrite whole_false. split; [intros; right; constructor; assumption|].
    intros [?|Hh]; [lia|inversion Hh; assumption].
  - rewrite Forall_forall in H. destruct d as [|[|d]]; [lia|split; [left; lia|reflexivity]|].
    rewrite forallb_false. split.
    + intros (x & Hx & Hf). pose proof (proj2 (elem_of_list_In l x) Hx) as Hx'. rewrite (H _ Hx') in Hf by lia.
      destruct Hf as [Hn|Hh]; [left|right; econstructor; eauto].
      pose proof (list_max_in (map nesting l) (nesting x) (in_map _ _ _ Hx)). lia.
    + intros [Hn|Hh].
      * destruct (list_max_ge (map nesting l) d) as (y & Hy & Hl); [lia|]. apply in_map_iff in Hy as (x & <- & Hx).
        exists x. split; [assumption|]. apply H; [apply elem_of_list_In; assumption|lia|left; lia].
      * inversion Hh as [|? x Hx Hxh| |]; subst. exists x. split; [assumption|].
        apply H; [apply elem_of_list_In; assumption|lia|right; assumption].
  - rewrite Forall_forall in H. destruct d as [|[|d]]; [lia|split; [left; lia|reflexivity]|].
    rewrite forallb_false. split.
    + intros ([k x] & Hx & Hf). pose proof (proj2 (elem_of_list_In ms _) Hx) as Hx'. cbn [fst snd] in Hf.
      apply andb_false_iff in Hf as [Hf|Hf]; [right; apply whole_false in Hf; eapply h_key; eauto|].
      apply (H _ Hx') in Hf; [|lia].
      destruct Hf as [Hn|Hh]; [left|right; eapply h_obj; eauto].
      pose proof (list_max_in (map (fun m => nesting m.2) ms) (nesting x) (in_map (fun m => nesting m.2) _ _ Hx)).
      cbn [snd] in *. lia.
    + intros [Hn|Hh].
      * destruct (list_max_ge (map (fun m => nesting m.2) ms) d) as (y & Hy & Hl); [lia|].
        apply in_map_iff in Hy as (x & <- & Hx).
        exists x. split; [assumption|]. rewrite andb_false_iff. right.
        apply H; [apply elem_of_list_In; assumption|lia|left; lia].
      * inversion Hh as [| |? k x Hx Hk|? k x Hx Hxh]; subst; exists (k, x); (split; [assumption|]);
          rewrite andb_false_iff; cbn [fst snd]; [left; apply whole_false; assumption|right].
        apply (H (k, x)); [apply elem_of_list_In; assumption|lia|right; assumption].
Qed.

(** ** What JSON has for a proper value is good *)
Lemma proper_members ms :
  (fix members (ms : list (chars * jsval)) : Prop :=
    match ms with [] => True | (k, v) :: ms' => js_text k /\ proper v /\ members ms' end) ms <->
  Forall (fun m => js_text m.1 /\ proper m.2) ms.
Proof.
  induction ms as [|[k v] ms IH]; [split; [constructor|done]|]. rewrite Forall_cons, <- IH. simpl. tauto.
Qed.
Lemma proper_elements l :
  (fix elements (l : list jsval) : Prop := match l with [] => True | v :: l' => proper v /\ elements l' end) l <->
  Forall proper l.
Proof. induction l as [|v l IH]; [split; [constructor|done]|]. rewrite Forall_cons, <- IH. simpl. tauto. Qed.

Lemma json_members_keys ms xs : json_members ms xs -> forall k, In k (map fst xs) -> In k (map fst ms).
Proof. induction 1; simpl; intros k' Hk; [assumption|destruct Hk; auto|auto]. Qed.

Lemma json_of_good :
  (forall b v s, json_of b v s -> proper v -> good s) /\
  (forall l xs, json_elements l xs -> Forall proper l -> Forall good xs) /\
  (forall ms xs, json_members ms xs -> NoDup (map fst ms) -> Forall (fun m => js_text m.1 /\ proper m.2) ms ->
     NoDup (map fst xs) /\ Forall (fun m => js_text m.1 /\ good m.2) xs).
Proof.
  apply json_mutind; intros; try exact I; try assumption.
  - apply good_arr, H, proper_elements, H0.
  - apply good_obj. simpl in H0. destruct H0 as [Hnd Hm]. apply proper_members in Hm. auto.
  - apply H. simpl in H0. tauto.
  - apply good_obj. simpl in H0. destruct H0 as (Hnd & Hm & _). apply proper_members in Hm. auto.
  - apply H. exact H0.
  - constructor.
  - inversion H1; subst. constructor; auto.
  - inversion H0; subst. constructor; [exact I|auto].
  - split; [constructor|constructor].
  - inversion H2 as [|? ? [Hk Hv] Hms]; subst. cbn [map fst] in *. apply NoDup_cons in H1 as [Hn Hnd].
    destruct (H0 Hnd Hms) as [Hx Hg]. split; [|constructor; [split|]; auto].
    cbn [map fst]. apply NoDup_cons. split; [|assumption].
    intros Hin. apply Hn. apply elem_of_list_In. eapply json_members_keys; [eassumption|]. apply elem_of_list_In, Hin.
  - inversion H1; subst. cbn [map] in H0. apply NoDup_cons in H0 as [_ Hnd]. auto.
Qed.

(** ** [to_json] *)
Section Fallback.
  Variable escaped : N -> chars.
  Lemma std_string_whole s : ~ halved s -> std_string escaped s = s.
  Proof.
    unfold std_string. induction s as [|c s IH]; intros Hn; [reflexivity|]. cbn [map concat].
    change (lead c || trail c) with (half c). destruct (half c) eqn:Hh.
    - exfalso. apply Hn. exists c. split; [left; reflexivity|].
      unfold half in Hh. rewrite orb_true_iff, lead_spec, trail_spec in Hh. exact Hh.
    - cbn [app]. f_equal. apply IH. intros (x & Hx & Hc). apply Hn. exists x. split; [right|]; assumption.
  Qed.

  Definition jel := fix elements (l : list jsval) : res (option (list sval)) :=
      match l with
      | [] => Ok (Some [])
      | v :: l' =>
          let! s := to_json escaped v in
          match s with
          | None => Ok None
          | Some s => let! xs := elements l' in Ok (option_map (cons s) xs)
          end
      end.
  Definition jmem := fix members (ms : list (chars * jsval)) : res (option (list (chars * sval))) :=
      match ms with
      | [] => Ok (Some [])
      | (k, v) :: ms' =>
          let! s := to_json escaped v in
          match s with
          | None => Ok None
          | Some s => let! xs := members ms' in Ok (option_map (cons (std_string escaped k, s)) xs)
          end
      end.
  Lemma to_json_own :
    (forall v s, own_json v s -> to_json escaped v = Ok (Some s)) /\
    (forall l xs, own_elements l xs -> jel l = Ok (Some xs)) /\
    (forall ms xs, own_members ms xs -> jmem ms = Ok (Some xs)).
  Proof.
    apply own_mutind; intros; try reflexivity.
    - cbn [to_json]. rewrite std_string_whole by assumption. reflexivity.
    - change (to_json escaped (JArr l)) with (let! xs := jel l in Ok (option_map SArr xs)). rewrite H. reflexivity.
    - change (to_json escaped (JFun ms)) with (let! xs := jmem ms in Ok (option_map SObj xs)). rewrite H. reflexivity.
    - change (to_json escaped (JObj ms)) with (let! xs := jmem ms in Ok (option_map SObj xs)). rewrite H. reflexivity.
    - change (to_json escaped (JJson ms out)) with (let! xs := jmem ms in Ok (option_map SObj xs)). rewrite H. reflexivity.
    - cbn [jel]. rewrite H. cbn [rbind]. fold jel. rewrite H0. reflexivity.
    - cbn [jmem]. rewrite H. cbn [rbind]. fold jmem. rewrite H0. cbn [rbind option_map]. rewrite std_string_whole by assumption.
      reflexivity.
  Qed.

  Lemma to_json_ok v : ~ holds_undefined v -> exists o, to_json escaped v = Ok o.
  Proof.
    assert (Hmem : forall ms, Pmem (fun v => ~ holds_undefined v -> exists o, to_json escaped v = Ok o) ms ->
      (forall k v, In (k, v) ms -> ~ holds_undefined v) ->
      exists o, (fix members (ms : list (chars * jsval)) : res (option (list (chars * sval))) :=
        match ms with
        | [] => Ok (Some [])
        | (k, v) :: ms' =>
            let! s := to_json escaped v in
            match s with
            | None => Ok None
            | Some s => let! xs := members ms' in Ok (option_map (cons (std_string escaped k, s)) xs)
            end
        end) ms = Ok o).
    { induction 1 as [|[k w] ms Hw _ IH]; intros Hno; [eexists; reflexivity|].
      destruct (Hw (Hno k w (or_introl eq_refl))) as [o Ho]. cbn [snd] in Ho. rewrite Ho. cbn [rbind].
      destruct o as [s|]; [|eexists; reflexivity].
      destruct IH as [o Ho']; [intros k' v' Hin; apply (Hno k'); right; assumption|]. rewrite Ho'. eexists; reflexivity. }
    induction v using jsval_ind'; intros Hno; try (eexists; reflexivity).
    - exfalso. apply Hno. constructor.
    - destruct (Hmem ms H) as [o Ho]; [intros k v Hin Hu; apply Hno; econstructor; eauto|].
      cbn [to_json]. rewrite Ho. eexists; reflexivity.
    - assert (exists o, (fix elements (l : list jsval) : res (option (list sval)) :=
        match l with
        | [] => Ok (Some [])
        | v :: l' =>
            let! s := to_json escaped v in
            match s with
            | None => Ok None
            | Some s => let! xs := elements l' in Ok (option_map (cons s) xs)
            end
        end) l = Ok o) as [o Ho]; [|cbn [to_json]; rewrite Ho; eexists; reflexivity].
      assert (Hno' : forall v, In v l -> ~ holds_undefined v) by (intros v Hin Hu; apply Hno; econstructor; eauto).
      clear Hno. induction H as [|w l Hw _ IH]; [eexists; reflexivity|].
      destruct (Hw (Hno' w (or_introl eq_refl))) as [o Ho]. rewrite Ho. cbn [rbind].
      destruct o as [s|]; [|eexists; reflexivity].
      destruct IH as [o Ho']; [intros v' Hin; apply Hno'; right; assumption|]. rewrite Ho'. eexists; reflexivity.
    - destruct (Hmem ms H) as [o Ho]; [intros k v Hin Hu; apply Hno; econstructor; eauto|].
      cbn [to_json]. rewrite Ho. eexists; reflexivity.
    - destruct (Hmem ms H) as [o Ho]; [intros k v Hin Hu; apply Hno; econstructor; eauto|].
      cbn [to_json]. rewrite Ho. eexists; reflexivity.
  Qed.

  Lemma jel_never l v : In v l -> (forall s, to_json escaped v <> Ok (Some s)) -> forall xs, jel l <> Ok (Some xs).
  Proof.
    induction l as [|w l IH]; intros Hin Hv xs H; [destruct Hin|]. cbn [jel] in H. fold jel in H.
    destruct (to_json escaped w) as [[s|]| |] eqn:Ew; try discriminate. cbn [rbind] in H.
    destruct Hin as [->|Hin]; [exact (Hv s Ew)|].
    destruct (jel l) as [[ys|]| |] eqn:El; try discriminate. exact (IH Hin Hv ys eq_refl).
  Qed.
  Lemma jmem_never ms k v : In (k, v) ms -> (forall s, to_json escaped v <> Ok (Some s)) -> forall xs, jmem ms <> Ok (Some xs).
  Proof.
    induction ms as [|[k' w] ms IH]; intros Hin Hv xs H; [destruct Hin|]. cbn [jmem] in H. fold jmem in H.
    destruct (to_json escaped w) as [[s|]| |] eqn:Ew; try discriminate. cbn [rbind] in H.
    destruct Hin as [[= -> ->]|Hin]; [exact (Hv s Ew)|].
    destruct (jmem ms) as [[ys|]| |] eqn:El; try discriminate. exact (IH Hin Hv ys eq_refl).
  Qed.
  Lemma to_json_never v : holds_foreign v -> forall s, to_json escaped v <> Ok (Some s).
  Proof.
    induction 1 as [|n|l v Hin _ IH|ms k v Hin _ IH|ms k v Hin _ IH|ms out k v Hin _ IH]; intros s; try discriminate.
    - change (to_json escaped (JArr l)) with (let! xs := jel l in Ok (option_map SArr xs)).
      pose proof (jel_never l v Hin IH) as Hn. destruct (jel l) as [[xs|]| |]; try discriminate. destruct (Hn xs eq_refl).
    - change (to_json escaped (JFun ms)) with (let! xs := jmem ms in Ok (option_map SObj xs)).
      pose proof (jmem_never ms k v Hin IH) as Hn. destruct (jmem ms) as [[xs|]| |]; try discriminate. destruct (Hn xs eq_refl).
    - change (to_json escaped (JObj ms)) with (let! xs := jmem ms in Ok (option_map SObj xs)).
      pose proof (jmem_never ms k v Hin IH) as Hn. destruct (jmem ms) as [[xs|]| |]; try discriminate. destruct (Hn xs eq_refl).
    - change (to_json escaped (JJson ms out)) with (let! xs := jmem ms in Ok (option_map SObj xs)).
      pose proof (jmem_never ms k v Hin IH) as Hn. destruct (jmem ms) as [[xs|]| |]; try discriminate. destruct (Hn xs eq_refl).
  Qed.
  Lemma to_json_foreign v : holds_foreign v -> ~ holds_undefined v -> to_json escaped v = Ok None.
  Proof.
    intros Hf Hu. destruct (to_json_ok v Hu) as [[s|] Ho]; [|exact Ho]. destruct (to_json_never v Hf s Ho).
  Qed.
End Fallback.
