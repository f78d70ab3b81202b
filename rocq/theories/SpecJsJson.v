(** * Specification: what JSON makes of a JavaScript value

    No function of the model occurs here, only its two types of values. *)

From Verif Require Import JsJson.
Local Open Scope N_scope.

(** ** Which values JavaScript has *)

(** The text JavaScript writes for a finite number: a sign, digits without a needless zero, digits behind a point, an
    exponent.  All but the digits may be missing. *)
Definition decimals (l : chars) : Prop := l <> [] /\ Forall (fun c => 48 <= c <= 57) l.
Definition number_text (t : chars) : Prop :=
  exists sign whole fraction exponent, t = sign ++ whole ++ fraction ++ exponent /\
    (sign = [] \/ sign = [45]) /\
    (whole = [48] \/ decimals whole /\ head whole <> Some 48) /\
    (fraction = [] \/ exists l, fraction = 46 :: l /\ decimals l) /\
    (exponent = [] \/ exists s l, exponent = 101 :: s :: l /\ (s = 43 \/ s = 45) /\ decimals l).

(** Surrogates: half of a pair.  In a list of code points a first half is never followed by a second half, as the two
    would be one code point. *)
Definition first_half (c : N) : Prop := 0xD800 <= c <= 0xDBFF.
Definition second_half (c : N) : Prop := 0xDC00 <= c <= 0xDFFF.
Definition js_text (s : chars) : Prop :=
  forall i c d, s !! i = Some c -> s !! S i = Some d -> first_half c -> second_half d -> False.

(** All numbers are numbers, all texts are texts, and the names of an object's members differ. *)
Fixpoint proper (v : jsval) : Prop :=
  let members := fix members (ms : list (chars * jsval)) : Prop :=
    match ms with [] => True | (k, v) :: ms' => js_text k /\ proper v /\ members ms' end in
  let elements := fix elements (l : list jsval) : Prop :=
    match l with [] => True | v :: l' => proper v /\ elements l' end in
  match v with
  | JNum t => number_text t
  | JStr s => js_text s
  | JArr l => elements l
  | JFun ms | JObj ms => NoDup (map fst ms) /\ members ms
  | JJson ms out => NoDup (map fst ms) /\ members ms /\ match out with Some w => proper w | None => True end
  | JGet out => match out with Some w => proper w | None => True end
  | _ => True
  end.

(** ** What JSON has for a value *)

(** JSON has nothing for [undefined], symbols and functions, nor for an object whose [toJSON] returns one of these.  The
    flag says whether a [toJSON] method counts: it does, except in what such a method returned. *)
Inductive no_json : bool -> jsval -> Prop :=
  | nj_undefined b : no_json b JUndef
  | nj_symbol b : no_json b JSym
  | nj_function b ms : no_json b (JFun ms)
  | nj_to_json ms w : no_json false w -> no_json true (JJson ms (Some w))
  | nj_getter b w : no_json b w -> no_json b (JGet (Some w)).

(** What JSON has for a value.  Elements it has nothing for are null, and such members are left out. *)
Inductive json_of : bool -> jsval -> sval -> Prop :=
  | j_null b : json_of b JNull SNull
  | j_not_finite b : json_of b JNotFinite SNull
  | j_bool b x : json_of b (JBool x) (SBool x)
  | j_num b t : json_of b (JNum t) (SNum t)
  | j_str b s : json_of b (JStr s) (SStr s)
  | j_arr b l xs : json_elements l xs -> json_of b (JArr l) (SArr xs)
  | j_obj b ms xs : json_members ms xs -> json_of b (JObj ms) (SObj xs)
  | j_to_json ms w s : json_of false w s -> json_of true (JJson ms (Some w)) s
  | j_no_to_json ms out xs : json_members ms xs -> json_of false (JJson ms out) (SObj xs)
  | j_getter b w s : json_of b w s -> json_of b (JGet (Some w)) s
with json_elements : list jsval -> list sval -> Prop :=
  | je_nil : json_elements [] []
  | je_value v s l xs : json_of true v s -> json_elements l xs -> json_elements (v :: l) (s :: xs)
  | je_null v l xs : no_json true v -> json_elements l xs -> json_elements (v :: l) (SNull :: xs)
with json_members : list (chars * jsval) -> list (chars * sval) -> Prop :=
  | jm_nil : json_members [] []
  | jm_value k v s ms xs : json_of true v s -> json_members ms xs -> json_members ((k, v) :: ms) ((k, s) :: xs)
  | jm_left_out k v ms xs : no_json true v -> json_members ms xs -> json_members ((k, v) :: ms) xs.

(** ** What cannot be written: big integers of JavaScript itself, getters and [toJSON] methods that throw *)
Inductive throws : bool -> jsval -> Prop :=
  | t_bigint b n : throws b (JBig n)
  | t_arr b l v : In v l -> throws true v -> throws b (JArr l)
  | t_obj b ms k v : In (k, v) ms -> throws true v -> throws b (JObj ms)
  | t_own ms out k v : In (k, v) ms -> throws true v -> throws false (JJson ms out)
  | t_to_json ms : throws true (JJson ms None)
  | t_to_json_value ms w : throws false w -> throws true (JJson ms (Some w))
  | t_getter b : throws b (JGet None)
  | t_getter_value b w : throws b w -> throws b (JGet (Some w)).

(** ** What a reader of JSON refuses *)

(** How deep arrays and objects are nested. *)
Fixpoint nesting (s : sval) : nat :=
  match s with
  | SArr l => S (list_max (map nesting l))
  | SObj ms => S (list_max (map (fun m => nesting m.2) ms))
  | _ => 0
  end.

(** Some text or name in the value holds half a pair. *)
Definition halved (s : chars) : Prop := exists c, In c s /\ (first_half c \/ second_half c).
Inductive has_half : sval -> Prop :=
  | h_str s : halved s -> has_half (SStr s)
  | h_arr l s : In s l -> has_half s -> has_half (SArr l)
  | h_key ms k s : In (k, s) ms -> halved k -> has_half (SObj ms)
  | h_obj ms k s : In (k, s) ms -> has_half s -> has_half (SObj ms).

(** [undefined] is found in the own members and elements of a value, at any depth. *)
Inductive holds_undefined : jsval -> Prop :=
  | u_here : holds_undefined JUndef
  | u_arr l v : In v l -> holds_undefined v -> holds_undefined (JArr l)
  | u_fun ms k v : In (k, v) ms -> holds_undefined v -> holds_undefined (JFun ms)
  | u_obj ms k v : In (k, v) ms -> holds_undefined v -> holds_undefined (JObj ms)
  | u_json ms out k v : In (k, v) ms -> holds_undefined v -> holds_undefined (JJson ms out).

(** A symbol or a big integer is among the own members (or elements) of the value, or theirs. *)
Inductive holds_foreign : jsval -> Prop :=
  | hf_symbol : holds_foreign JSym
  | hf_big n : holds_foreign (JBig n)
  | hf_arr l v : In v l -> holds_foreign v -> holds_foreign (JArr l)
  | hf_fun ms k v : In (k, v) ms -> holds_foreign v -> holds_foreign (JFun ms)
  | hf_obj ms k v : In (k, v) ms -> holds_foreign v -> holds_foreign (JObj ms)
  | hf_json ms out k v : In (k, v) ms -> holds_foreign v -> holds_foreign (JJson ms out).

(** What boa has for a value by itself: the own members and elements, without asking [toJSON]; a getter is null.  (Texts
    with half a pair are left out.) *)
Inductive own_json : jsval -> sval -> Prop :=
  | o_null : own_json JNull SNull
  | o_not_finite : own_json JNotFinite SNull
  | o_getter out : own_json (JGet out) SNull
  | o_bool x : own_json (JBool x) (SBool x)
  | o_num t : own_json (JNum t) (SNum t)
  | o_str s : ~ halved s -> own_json (JStr s) (SStr s)
  | o_arr l xs : own_elements l xs -> own_json (JArr l) (SArr xs)
  | o_fun ms xs : own_members ms xs -> own_json (JFun ms) (SObj xs)
  | o_obj ms xs : own_members ms xs -> own_json (JObj ms) (SObj xs)
  | o_to_json ms out xs : own_members ms xs -> own_json (JJson ms out) (SObj xs)
with own_elements : list jsval -> list sval -> Prop :=
  | oe_nil : own_elements [] []
  | oe_cons v s l xs : own_json v s -> own_elements l xs -> own_elements (v :: l) (s :: xs)
with own_members : list (chars * jsval) -> list (chars * sval) -> Prop :=
  | om_nil : own_members [] []
  | om_cons k v s ms xs : ~ halved k -> own_json v s -> own_members ms xs -> own_members ((k, v) :: ms) ((k, s) :: xs).
