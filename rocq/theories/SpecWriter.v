(** * SpecWriter: what a rendered arena looks like *)

From Verif Require Export Writer.
Local Open Scope N_scope.

(** ** Lines *)

(** The parts a rendering consists of; [i] is a node, [j] one of its logs, [s] one of its steps. *)
Inductive part :=
  | Header (i : nat) | Footer (i : nat) | OneLog (i j : nat) | OneLine (i s : nat)
  | InternalOpen (i s : nat) | InternalHead (i s : nat) | InternalClose (i s : nat).
(** A part at an indentation level. *)
Notation chunk := (N * part)%type.

(** Indentation: two blanks, then a pipe for every level but the first. *)
Definition spec_indent (k : N) : list byte := txt "  " ++ concat (replicate (N.to_nat (k - 1)) (txt "  │ ")).
Definition spec_branch (k : N) : list byte := spec_indent k ++ (if k =? 0 then [] else txt "  ├─ ").

(** Lower-case hexadecimal: two digits for every byte; a word is the 64 digits of its base-16 places, highest first. *)
Definition spec_digit (n : N) : byte := nth (N.to_nat n) (txt "0123456789abcdef") x00.
Definition spec_hex (l : list byte) : list byte :=
  concat (map (fun b => [spec_digit (Byte.to_N b / 16); spec_digit (Byte.to_N b mod 16)]) l).
Definition spec_word (n : U256) : list byte :=
  txt "0x" ++ map (fun place => spec_digit (n / 16 ^ N.of_nat place mod 16)) (rev (seq 0 64)).
(** The part of a signature before its first opening parenthesis. *)
Definition spec_name (s : list byte) : list byte :=
  match list_find (fun b => b = x28) s with Some (i, _) => take i s | None => s end.

Section Text.
  Context (to_checksum : address -> list byte) (colors cheatcodes : bool).

  (** Coloured text. *)
  Definition spec_color (c : N) (s : list byte) : list byte :=
    if colors then [x1b] ++ txt "[" ++ dec_text c ++ txt "m" ++ s ++ [x1b] ++ txt "[0m" else s.
  Definition spec_trace_color (t : CallTrace) : N :=
    if cheatcodes && (tr_address t =? 0x7109709ECfa91a80626fF3989D68f67F5b1DD12D) then 34 else if tr_success t then 32 else 31.

  Fixpoint commas (l : list (list byte)) : list byte :=
    match l with [] => [] | [s] => s | s :: l => s ++ txt ", " ++ commas l end.

  (** [name(args)], from the decoded call data or from the raw data *)
  Definition spec_function (t : CallTrace) : list byte * list byte :=
    match dct_call_data (tr_decoded t) with
    | Some d => (spec_name (txt (dcd_signature d)), commas (map txt (dcd_args d)))
    | None => if (length (tr_data t) <? 4)%nat then (txt "fallback", spec_hex (tr_data t))
              else (spec_hex (take 4 (tr_data t)), spec_hex (drop 4 (tr_data t)))
    end.
  Definition spec_action (k : CallKind) : string :=
    match k with
    | KStaticCall => " [staticcall]" | KCallCode => " [callcode]" | KDelegateCall => " [delegatecall]"
    | KAuthCall => " [authcall]" | _ => ""
    end%string.
  Definition spec_header (t : CallTrace) : list byte :=
    txt "[" ++ dec_text (tr_gas_used t) ++ txt "] " ++
    match tr_kind t with
    | KCreate | KCreate2 =>
        spec_color 33 (txt "→ new") ++ txt " " ++
        match dct_label (tr_decoded t) with Some l => txt l | None => txt "<unknown>" end ++ txt "@" ++ to_checksum (tr_address t)
    | k =>
        spec_color (spec_trace_color t) (match dct_label (tr_decoded t) with Some l => txt l | None => to_checksum (tr_address t) end) ++
        txt "::" ++ spec_color (spec_trace_color t) (fst (spec_function t)) ++
        (if tr_value t =? 0 then [] else txt "{value: " ++ dec_text (tr_value t) ++ txt "}") ++
        txt "(" ++ snd (spec_function t) ++ txt ")" ++
        (if bool_decide (k = KCall) then [] else spec_color 33 (txt (spec_action k)))
    end.
  Definition spec_footer (t : CallTrace) : list byte :=
    spec_color (spec_trace_color t) (txt "← [" ++ txt (ir_debug (tr_status t)) ++ txt "] ") ++
    match dct_return_data (tr_decoded t), tr_kind t, tr_output t with
    | Some s, _, _ => txt s
    | None, (KCreate | KCreate2), o => dec_text (N.of_nat (length o)) ++ txt " bytes of code"
    | None, _, [] => []
    | None, _, o => txt "0x" ++ spec_hex o
    end.

  (** A decoded log is one line, a raw one a line per topic and one for the data. *)
  Definition spec_topic (k : N) (i : nat) (topic : U256) : list byte :=
    (if (i =? 0)%nat then txt " emit topic 0" else spec_indent k ++ txt "  │ " ++ txt "       topic " ++ dec_text (N.of_nat i)) ++
    txt ": " ++ spec_color 36 (spec_word topic) ++ [x0a].
  Definition spec_log (k : N) (l : CallLog) : list byte :=
    spec_branch k ++
    match dcl_name (cl_decoded l) with
    | Some name =>
        txt "emit " ++ txt name ++ txt "(" ++
        spec_color 36 (commas (map (fun p => txt (fst p) ++ txt ": " ++ txt (snd p)) (default [] (dcl_params (cl_decoded l))))) ++
        txt ")" ++ [x0a]
    | None =>
        concat (imap (spec_topic k) (cl_topics l)) ++
        (if bool_decide (cl_topics l = []) then [] else spec_indent k ++ txt "  │ ") ++
        txt "          data: " ++ spec_color 36 (txt "0x" ++ spec_hex (cl_data l)) ++ [x0a]
    end.

  Context (ns : list CallTraceNode).

  (** The step [s] of node [i], and its decoding. *)
  Definition node_step (i s : nat) : option CallTraceStep := n ← ns !! i; tr_steps (nd_trace n) !! s.

  Definition part_text (k : N) (p : part) : list byte :=
    match p with
    | Header i => match ns !! i with Some n => spec_branch k ++ spec_header (nd_trace n) ++ [x0a] | None => [] end
    | Footer i => match ns !! i with Some n => spec_indent k ++ txt "  └─ " ++ spec_footer (nd_trace n) ++ [x0a] | None => [] end
    | OneLog i j => match ns !! i with
                    | Some n => match nd_logs n !! j with Some l => spec_log k l | None => [] end
                    | None => []
                    end
    | OneLine i s => match node_step i s with
                     | Some st => match st_decoded st with
                                  | Some (Line line) => spec_branch k ++ txt line ++ [x0a]
                                  | _ => []
                                  end
                     | None => []
                     end
    | InternalOpen i s => spec_branch k
    | InternalHead i s =>
        match node_step i s with
        | Some st =>
            match st_decoded st with
            | Some (InternalCall call e) =>
                match node_step i e with
                | Some en =>
                    txt "[" ++ dec_text (st_gas_used en - st_gas_used st) ++ txt "] " ++ txt (dic_func_name call) ++
                    match dic_args call with Some v => txt "(" ++ commas (map txt v) ++ txt ")" | None => [] end ++ [x0a]
                | None => []
                end
            | _ => []
            end
        | None => []
        end
    | InternalClose i s =>
        match node_step i s with
        | Some st =>
            match st_decoded st with
            | Some (InternalCall call _) =>
                spec_indent k ++ txt "  └─ " ++ txt "← " ++ commas (map txt (default [] (dic_return_data call))) ++ [x0a]
            | _ => []
            end
        | None => []
        end
    end.
  Definition chunk_text (c : chunk) : list byte := part_text (fst c) (snd c).
  Definition rendering (cs : list chunk) : list byte := concat (map chunk_text cs).
End Text.

(** ** Layout *)
Section Layout.
  Context (ns : list CallTraceNode).

  (** Node [i] at level [k]: its header, its members in recorded order one level deeper, its footer. A step decoded as an
      internal call opens a level that reaches up to its end step, which itself is not shown; undecoded steps are not
      shown. Levels are 16-bit numbers. *)
  Inductive node_layout : N -> nat -> list chunk -> Prop :=
    | nl_node k i n body :
        ns !! i = Some n -> k < 65535 -> members_layout (k + 1) i n (nd_ordering n) body ->
        node_layout k i ((k, Header i) :: body ++ [(k + 1, Footer i)])
  with members_layout : N -> nat -> CallTraceNode -> list TraceMemberOrder -> list chunk -> Prop :=
    | ml_nil k i n : members_layout k i n [] []
    | ml_log k i n j l rest cs :
        nd_logs n !! j = Some l -> members_layout k i n rest cs -> members_layout k i n (OLog j :: rest) ((k, OneLog i j) :: cs)
    | ml_call k i n j c rest cs1 cs2 :
        nd_children n !! j = Some c -> node_layout k c cs1 -> members_layout k i n rest cs2 ->
        members_layout k i n (OCall j :: rest) (cs1 ++ cs2)
    | ml_plain k i n s st rest cs :
        tr_steps (nd_trace n) !! s = Some st -> st_decoded st = None -> members_layout k i n rest cs ->
        members_layout k i n (OStep s :: rest) cs
    | ml_line k i n s st line rest cs :
        tr_steps (nd_trace n) !! s = Some st -> st_decoded st = Some (Line line) -> members_layout k i n rest cs ->
        members_layout k i n (OStep s :: rest) ((k, OneLine i s) :: cs)
    | ml_internal k i n s st call e en inner rest cs1 cs2 :
        tr_steps (nd_trace n) !! s = Some st -> st_decoded st = Some (InternalCall call e) ->
        tr_steps (nd_trace n) !! e = Some en -> ~ In (OStep e) inner -> k < 65535 ->
        members_layout (k + 1) i n inner cs1 -> members_layout k i n rest cs2 ->
        members_layout k i n (OStep s :: inner ++ OStep e :: rest)
          ((k, InternalOpen i s) :: (k + 1, InternalHead i s) :: cs1 ++ (k + 1, InternalClose i s) :: cs2).

  (** The decoded internal calls of a list of members are well nested, at most [d] deep. *)
  Inductive well_nested (n : CallTraceNode) : nat -> list TraceMemberOrder -> Prop :=
    | nest_nil d : well_nested n d []
    | nest_log d j rest : well_nested n d rest -> well_nested n d (OLog j :: rest)
    | nest_call d j rest : well_nested n d rest -> well_nested n d (OCall j :: rest)
    | nest_step d s rest :
        (forall st call e, tr_steps (nd_trace n) !! s = Some st -> st_decoded st <> Some (InternalCall call e)) ->
        well_nested n d rest -> well_nested n d (OStep s :: rest)
    | nest_internal d s st call e inner rest :
        tr_steps (nd_trace n) !! s = Some st -> st_decoded st = Some (InternalCall call e) -> ~ In (OStep e) inner ->
        well_nested n d inner -> well_nested n (S d) rest -> well_nested n (S d) (OStep s :: inner ++ OStep e :: rest).
End Layout.

(** The nodes shown, and the logs shown. *)
Definition headers (cs : list chunk) : list nat := omap (fun c => match snd c with Header i => Some i | _ => None end) cs.
Definition shown_logs (cs : list chunk) : list (nat * nat) := omap (fun c => match snd c with OneLog i j => Some (i, j) | _ => None end) cs.

(** ** UTF-8 (RFC 3629) *)
Definition in_range (lo hi : N) (b : byte) : Prop := lo <= Byte.to_N b <= hi.
Inductive utf8_char : list byte -> Prop :=
  | u1 a : in_range 0x00 0x7F a -> utf8_char [a]
  | u2 a b : in_range 0xC2 0xDF a -> in_range 0x80 0xBF b -> utf8_char [a; b]
  | u3_e0 a b c : in_range 0xE0 0xE0 a -> in_range 0xA0 0xBF b -> in_range 0x80 0xBF c -> utf8_char [a; b; c]
  | u3 a b c : in_range 0xE1 0xEC a \/ in_range 0xEE 0xEF a -> in_range 0x80 0xBF b -> in_range 0x80 0xBF c -> utf8_char [a; b; c]
  | u3_ed a b c : in_range 0xED 0xED a -> in_range 0x80 0x9F b -> in_range 0x80 0xBF c -> utf8_char [a; b; c]
  | u4_f0 a b c d : in_range 0xF0 0xF0 a -> in_range 0x90 0xBF b -> in_range 0x80 0xBF c -> in_range 0x80 0xBF d -> utf8_char [a; b; c; d]
  | u4 a b c d : in_range 0xF1 0xF3 a -> in_range 0x80 0xBF b -> in_range 0x80 0xBF c -> in_range 0x80 0xBF d -> utf8_char [a; b; c; d]
  | u4_f4 a b c d : in_range 0xF4 0xF4 a -> in_range 0x80 0x8F b -> in_range 0x80 0xBF c -> in_range 0x80 0xBF d -> utf8_char [a; b; c; d].
Inductive utf8 : list byte -> Prop :=
  | utf8_nil : utf8 []
  | utf8_cons c s : utf8_char c -> utf8 s -> utf8 (c ++ s).
Definition utf8_string (s : string) : Prop := utf8 (txt s).
Definition utf8_opt (o : option string) : Prop := match o with Some s => utf8_string s | None => True end.
Definition utf8_list (l : list string) : Prop := Forall utf8_string l.

(** All strings attached to a node are UTF-8 (as Rust's [String]s are). *)
Definition utf8_step (d : DecodedTraceStep) : Prop :=
  match d with
  | Line s => utf8_string s
  | InternalCall c _ => utf8_string (dic_func_name c) /\ utf8_list (default [] (dic_args c)) /\ utf8_list (default [] (dic_return_data c))
  end.
Record utf8_node (n : CallTraceNode) : Prop := {
  un_label : utf8_opt (dct_label (tr_decoded (nd_trace n)));
  un_return : utf8_opt (dct_return_data (tr_decoded (nd_trace n)));
  un_call : forall d, dct_call_data (tr_decoded (nd_trace n)) = Some d -> utf8_string (dcd_signature d) /\ utf8_list (dcd_args d);
  un_logs : forall l, In l (nd_logs n) -> utf8_opt (dcl_name (cl_decoded l)) /\
              Forall (fun p => utf8_string (fst p) /\ utf8_string (snd p)) (default [] (dcl_params (cl_decoded l)));
  un_steps : forall st d, In st (tr_steps (nd_trace n)) -> st_decoded st = Some d -> utf8_step d }.

(** ** Decorated recordings *)

(** Labels, decoded calls, logs and steps are added by the user after recording; everything else is the recording. *)
Definition plain_step (st : CallTraceStep) : CallTraceStep :=
  mkStep (st_depth st) (st_pc st) (st_op st) (st_contract st) (st_stack st) (st_push_stack st) (st_memory st)
    (st_returndata st) (st_gas_remaining st) (st_gas_refund_counter st) (st_gas_used st) (st_gas_cost st)
    (st_storage_change st) (st_status st) None.
Definition plain_trace (t : CallTrace) : CallTrace :=
  mkTrace (tr_depth t) (tr_success t) (tr_caller t) (tr_address t) (tr_maybe_precompile t) (tr_selfdestruct_refund_target t)
    (tr_selfdestruct_transferred_value t) (tr_kind t) (tr_value t) (tr_data t) (tr_output t) (tr_gas_used t) (tr_gas_limit t)
    (tr_status t) (map plain_step (tr_steps t)) decoded_none.
Definition plain_log (l : CallLog) : CallLog := mkCallLog (cl_topics l) (cl_data l) (mkDecodedCallLog None None).
Definition plain_node (n : CallTraceNode) : CallTraceNode :=
  mkNode (nd_parent n) (nd_children n) (nd_idx n) (plain_trace (nd_trace n)) (map plain_log (nd_logs n)) (nd_ordering n).
(** [ns] is the recording [ns'] with decorations. *)
Definition decorates (ns ns' : list CallTraceNode) : Prop := map plain_node ns = map plain_node ns'.
