(** * The value a JavaScript tracer returns, handed over as JSON

    [src/tracing/js/builtins.rs] lines 17-57 ([to_serde_value], [json_stringify]) and [src/tracing/js/mod.rs] lines
    204-219 ([json_result]).

    The two functions join three pieces of other people's code.  Each is modelled here as far as the join needs it:
    ECMAScript's [JSON.stringify] with one argument, serde_json's reader with its default limit on nesting, and boa
    0.18's [JsValue::to_json].

    Texts are lists of Unicode code points.  A surrogate in such a list is a surrogate without its partner.

    Left out: values that contain themselves, proxies, symbols as keys, wrapper objects ([new Number(1)]), the order in
    which serde_json keeps members, and the value of a number: a number is the text JavaScript writes for it. *)

From Verif Require Export Utils.
Local Open Scope N_scope.

Notation chars := (list N).

(** A JavaScript value that contains itself nowhere.  [JNum] is a finite number as JavaScript writes it.  [JFun] and
    [JObj] carry the own members.  [JJson] is an object with a [toJSON] method: its own members, and what the method
    returns ([None]: it throws).  [JGet] is a member read through a getter ([None]: the getter throws). *)
Inductive jsval :=
  | JUndef | JNull | JBool (b : bool) | JNum (t : chars) | JNotFinite | JStr (s : chars) | JSym | JBig (n : Z)
  | JFun (ms : list (chars * jsval))
  | JArr (l : list jsval)
  | JObj (ms : list (chars * jsval))
  | JJson (ms : list (chars * jsval)) (out : option jsval)
  | JGet (v : option jsval).

(** [serde_json::Value].  Members are listed as they were read. *)
Inductive sval :=
  | SNull | SBool (b : bool) | SNum (t : chars) | SStr (s : chars)
  | SArr (l : list sval)
  | SObj (ms : list (chars * sval)).

(** ** [JSON.stringify] (ECMA-262, 25.5.2) *)

(** One hexadecimal digit, lower case. *)
Definition hex_char (n : N) : N := if n <? 10 then 48 + n else 87 + n.

(** UnicodeEscape: backslash, [u], four digits. *)
Definition u_escape (c : N) : chars :=
  [92; 117; hex_char (c / 4096 mod 16); hex_char (c / 256 mod 16); hex_char (c / 16 mod 16); hex_char (c mod 16)].

Definition lead (c : N) : bool := (0xD800 <=? c) && (c <=? 0xDBFF).
Definition trail (c : N) : bool := (0xDC00 <=? c) && (c <=? 0xDFFF).

(** QuoteJSONString, one code point. *)
Definition quote_char (c : N) : chars :=
  if c =? 8 then [92; 98] else if c =? 9 then [92; 116] else if c =? 10 then [92; 110] else if c =? 12 then [92; 102]
  else if c =? 13 then [92; 114] else if c =? 34 then [92; 34] else if c =? 92 then [92; 92]
  else if (c <? 32) || lead c || trail c then u_escape c else [c].

Definition quote (s : chars) : chars := 34 :: concat (map quote_char s) ++ [34].

(** What serialising a value comes to: it throws, there is nothing to write, or a text. *)
Inductive written := WThrow | WNothing | WText (t : chars).

(** The commas between the elements. *)
Fixpoint join (l : list chars) : chars :=
  match l with [] => [] | [t] => t | t :: l' => t ++ 44 :: join l' end.

Definition t_null : chars := [110; 117; 108; 108].
Definition t_true : chars := [116; 114; 117; 101].
Definition t_false : chars := [102; 97; 108; 115; 101].

(** SerializeJSONProperty.  [ask] is whether a [toJSON] method is still to be asked: what such a method returns is
    written without asking again. *)
Fixpoint stringify (ask : bool) (v : jsval) : written :=
  let elements := fix elements (l : list jsval) : option (list chars) :=
    match l with
    | [] => Some []
    | v :: l' =>
        match stringify true v with
        | WThrow => None
        | WNothing => option_map (cons t_null) (elements l')
        | WText t => option_map (cons t) (elements l')
        end
    end in
  let members := fix members (ms : list (chars * jsval)) : option (list chars) :=
    match ms with
    | [] => Some []
    | (k, v) :: ms' =>
        match stringify true v with
        | WThrow => None
        | WNothing => members ms'
        | WText t => option_map (cons (quote k ++ 58 :: t)) (members ms')
        end
    end in
  let object ms := match members ms with Some ts => WText (123 :: join ts ++ [125]) | None => WThrow end in
  match v with
  | JUndef | JSym | JFun _ => WNothing
  | JNull | JNotFinite => WText t_null
  | JBool b => WText (if b then t_true else t_false)
  | JNum t => WText t
  | JStr s => WText (quote s)
  | JBig _ => WThrow
  | JArr l => match elements l with Some ts => WText (91 :: join ts ++ [93]) | None => WThrow end
  | JObj ms => object ms
  | JJson ms out =>
      if ask then match out with Some w => stringify false w | None => WThrow end else object ms
  | JGet out => match out with Some w => stringify ask w | None => WThrow end
  end.

(** [json_stringify], builtins.rs:44-57: where there is nothing to write [JSON.stringify] returns [undefined], and
    [res.to_string] makes that the text [undefined].  [None]: an exception. *)
Definition t_undefined : chars := [117; 110; 100; 101; 102; 105; 110; 101; 100].
Definition json_stringify (v : jsval) : option chars :=
  match stringify true v with WThrow => None | WNothing => Some t_undefined | WText t => Some t end.

(** ** serde_json's reader ([from_str] into a [Value]; [None]: an error) *)

Fixpoint skip_ws (t : chars) : chars :=
  match t with
  | c :: t' => if (c =? 32) || (c =? 10) || (c =? 9) || (c =? 13) then skip_ws t' else t
  | [] => []
  end.

Definition is_digit (c : N) : bool := (48 <=? c) && (c <=? 57).

(** The digits at the start of a text, and what follows. *)
Fixpoint digits (t : chars) : chars * chars :=
  match t with
  | c :: t' => if is_digit c then let '(ds, r) := digits t' in (c :: ds, r) else ([], t)
  | [] => ([], [])
  end.

(** At least one digit. *)
Definition digits1 (t : chars) : option (chars * chars) :=
  match digits t with ([], _) => None | p => Some p end.

(** [parse_integer]: no digit may follow a leading zero. *)
Definition read_integer (t : chars) : option (chars * chars) :=
  match t with
  | 48 :: t' => match t' with c :: _ => if is_digit c then None else Some ([48], t') | [] => Some ([48], t') end
  | _ => digits1 t
  end.

(** [parse_decimal] *)
Definition read_fraction (t : chars) : option (chars * chars) :=
  match t with
  | 46 :: t' => match digits1 t' with Some (ds, r) => Some (46 :: ds, r) | None => None end
  | _ => Some ([], t)
  end.

(** [parse_exponent] *)
Definition read_exponent (t : chars) : option (chars * chars) :=
  match t with
  | c :: t' =>
      if (c =? 101) || (c =? 69) then
        let '(sg, t'') := match t' with
                          | s :: r => if (s =? 43) || (s =? 45) then ([s], r) else ([], t')
                          | [] => ([], t')
                          end in
        match digits1 t'' with Some (ds, r) => Some (c :: sg ++ ds, r) | None => None end
      else Some ([], t)
  | [] => Some ([], [])
  end.

(** [parse_any_number], keeping the text.  (The range of numbers is left out: JavaScript writes none that is too large.) *)
Definition read_number (t : chars) : option (chars * chars) :=
  let '(sg, t) := match t with 45 :: r => ([45], r) | _ => ([], t) end in
  match read_integer t with
  | Some (i, t1) =>
      match read_fraction t1 with
      | Some (f, t2) => match read_exponent t2 with Some (e, r) => Some (sg ++ i ++ f ++ e, r) | None => None end
      | None => None
      end
  | None => None
  end.

Definition hex_value (c : N) : option N :=
  if (48 <=? c) && (c <=? 57) then Some (c - 48)
  else if (97 <=? c) && (c <=? 102) then Some (c - 87)
  else if (65 <=? c) && (c <=? 70) then Some (c - 55) else None.

(** [decode_hex_escape] *)
Definition read_hex4 (t : chars) : option (N * chars) :=
  match t with
  | a :: b :: c :: d :: r =>
      match hex_value a, hex_value b, hex_value c, hex_value d with
      | Some a, Some b, Some c, Some d => Some (a * 4096 + b * 256 + c * 16 + d, r)
      | _, _, _, _ => None
      end
  | _ => None
  end.

(** One code point of a string behind its backslash ([parse_escape], [parse_unicode_escape]). *)
Definition read_escape (t : chars) : option (N * chars) :=
  match t with
  | 34 :: r => Some (34, r) | 92 :: r => Some (92, r) | 47 :: r => Some (47, r)
  | 98 :: r => Some (8, r) | 102 :: r => Some (12, r) | 110 :: r => Some (10, r)
  | 114 :: r => Some (13, r) | 116 :: r => Some (9, r)
  | 117 :: r =>
      match read_hex4 r with
      | Some (n, r) =>
          if trail n then None
          else if lead n then
            match r with
            | 92 :: 117 :: r =>
                match read_hex4 r with
                | Some (m, r) => if trail m then Some (0x10000 + (n - 0xD800) * 1024 + (m - 0xDC00), r) else None
                | None => None
                end
            | _ => None
            end
          else Some (n, r)
      | None => None
      end
  | _ => None
  end.

(** [parse_str], behind the opening quote.  The fuel is the length of the text. *)
Fixpoint read_string (fuel : nat) (t : chars) : option (chars * chars) :=
  match fuel with
  | O => None
  | S fuel =>
      match t with
      | [] => None
      | 34 :: r => Some ([], r)
      | 92 :: r =>
          match read_escape r with
          | Some (c, r) => match read_string fuel r with Some (s, r) => Some (c :: s, r) | None => None end
          | None => None
          end
      | c :: r =>
          if c <? 32 then None
          else match read_string fuel r with Some (s, r) => Some (c :: s, r) | None => None end
      end
  end.

(** [parse_ident] *)
Fixpoint read_ident (w t : chars) : option chars :=
  match w with
  | [] => Some t
  | c :: w' => match t with d :: t' => if c =? d then read_ident w' t' else None | [] => None end
  end.

(** [Map::insert]: a later member replaces an earlier one of the same name. *)
Fixpoint insert_member (k : chars) (s : sval) (ms : list (chars * sval)) : list (chars * sval) :=
  match ms with
  | [] => [(k, s)]
  | (k', s') :: ms' => if decide (k = k') then (k, s) :: ms' else (k', s') :: insert_member k s ms'
  end.

(** [deserialize_any] with [depth] levels of nesting left, [SeqAccess] and [MapAccess].  The fuel is the length of the
    text.  [first]: no comma is due yet. *)
Fixpoint read_value (fuel : nat) (depth : nat) (t : chars) : option (sval * chars) :=
  match fuel with
  | O => None
  | S fuel =>
      match skip_ws t with
      | [] => None
      | c :: r =>
          if c =? 110 then option_map (pair SNull) (read_ident [117; 108; 108] r)
          else if c =? 116 then option_map (pair (SBool true)) (read_ident [114; 117; 101] r)
          else if c =? 102 then option_map (pair (SBool false)) (read_ident [97; 108; 115; 101] r)
          else if (c =? 45) || is_digit c then
            match read_number (c :: r) with Some (n, r) => Some (SNum n, r) | None => None end
          else if c =? 34 then
            match read_string (length r) r with Some (s, r) => Some (SStr s, r) | None => None end
          else if c =? 91 then
            match depth with
            | S (S d) => match read_elements fuel (S d) true r with Some (l, r) => Some (SArr l, r) | None => None end
            | _ => None
            end
          else if c =? 123 then
            match depth with
            | S (S d) => match read_members fuel (S d) true [] r with Some (l, r) => Some (SObj l, r) | None => None end
            | _ => None
            end
          else None
      end
  end
with read_elements (fuel : nat) (depth : nat) (first : bool) (t : chars) : option (list sval * chars) :=
  match fuel with
  | O => None
  | S fuel =>
      match skip_ws t with
      | [] => None
      | c :: r =>
          if c =? 93 then Some ([], r)
          else
            let go t := match read_value fuel depth t with
                        | Some (s, r) =>
                            match read_elements fuel depth false r with
                            | Some (l, r) => Some (s :: l, r)
                            | None => None
                            end
                        | None => None
                        end in
            if first then go (c :: r)
            else if c =? 44 then go (skip_ws r)
            else None
      end
  end
with read_members (fuel : nat) (depth : nat) (first : bool) (acc : list (chars * sval)) (t : chars)
    : option (list (chars * sval) * chars) :=
  match fuel with
  | O => None
  | S fuel =>
      match skip_ws t with
      | [] => None
      | c :: r =>
          if c =? 125 then Some (acc, r)
          else
            let go t :=
              match t with
              | 34 :: t =>
                  match read_string (length t) t with
                  | Some (k, t) =>
                      match skip_ws t with
                      | 58 :: t =>
                          match read_value fuel depth t with
                          | Some (s, t) => read_members fuel depth false (insert_member k s acc) t
                          | None => None
                          end
                      | _ => None
                      end
                  | None => None
                  end
              | _ => None
              end in
            if first then go (c :: r)
            else if c =? 44 then go (skip_ws r)
            else None
      end
  end.

(** [from_str]: one value, and nothing but white space behind it.  Arrays and objects may be nested 127 deep
    ([remaining_depth] starts at 128 and may not reach 0). *)
Definition from_str (t : chars) : option sval :=
  match read_value (length t) 128 t with
  | Some (s, r) => match skip_ws r with [] => Some s | _ => None end
  | None => None
  end.

(** ** boa's [JsValue::to_json] ([Ok None]: a JavaScript error) *)

Section ToJson.
  (** [to_std_string_escaped]: what is written for a surrogate without its partner. *)
  Variable escaped : N -> chars.
  Definition std_string (s : chars) : chars := concat (map (fun c => if lead c || trail c then escaped c else [c]) s).

  (** [to_json] looks at the own members only and does not call [toJSON] methods or getters. *)
  Fixpoint to_json (v : jsval) : res (option sval) :=
    let elements := fix elements (l : list jsval) : res (option (list sval)) :=
      match l with
      | [] => Ok (Some [])
      | v :: l' =>
          let! s := to_json v in
          match s with
          | None => Ok None
          | Some s => let! xs := elements l' in Ok (option_map (cons s) xs)
          end
      end in
    let members := fix members (ms : list (chars * jsval)) : res (option (list (chars * sval))) :=
      match ms with
      | [] => Ok (Some [])
      | (k, v) :: ms' =>
          let! s := to_json v in
          match s with
          | None => Ok None
          | Some s => let! xs := members ms' in Ok (option_map (cons (std_string k, s)) xs)
          end
      end in
    match v with
    | JUndef => Panic PTodo
    | JNull | JNotFinite | JGet _ => Ok (Some SNull)
    | JBool b => Ok (Some (SBool b))
    | JNum t => Ok (Some (SNum t))
    | JStr s => Ok (Some (SStr (std_string s)))
    | JSym | JBig _ => Ok None
    | JArr l => let! xs := elements l in Ok (option_map SArr xs)
    | JFun ms | JObj ms | JJson ms _ => let! xs := members ms in Ok (option_map SObj xs)
    end.

  (** ** [to_serde_value], builtins.rs:25-41, and [json_result], mod.rs:204-219 *)

  (** The text needs no conversion here ([to_std_string] fails on surrogates without a partner, and [JSON.stringify]
      writes none). *)
  Definition to_serde_value (v : jsval) : res (option sval) :=
    match json_stringify v with
    | Some t => Ok (from_str t)
    | None => to_json v
    end.

  (** [returned] is what calling the script's [result] function came to ([None]: an exception). *)
  Definition json_result (returned : option jsval) : res (option sval) :=
    match returned with Some v => to_serde_value v | None => Ok None end.
End ToJson.
