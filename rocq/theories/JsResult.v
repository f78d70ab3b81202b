(** * JsResult: asking a JavaScript tracer for its result
    Source: src/tracing/js/mod.rs:204-283 ([json_result], [result]) *)

From Verif Require Export Js JsObjects.
From Verif Require JsJson.
Local Open Scope N_scope.

Section Result.
  (** The script, as in Js.v: [js] says of every call into the tracer object whether it throws.  [value] is what a call of
      the [result] function that does not throw returns.  What [toJSON] methods of the value return is part of the value
      (JsJson.v): they run after [result] returned. *)
  Context (js : program) (value : list invocation -> invocation -> JsJson.jsval) (escaped : N -> JsJson.chars).

  (** mod.rs:222-283 [result].  Simplified: an error is [None], whatever was thrown. *)
  Definition result (s : JsInspector) (r : ExecutionResult) (after : Ctx) (env : JsEnv) (tc : TransactionContext) :
      JsInspector * option JsJson.jsval :=
    let '(s', thrown) := js_result js s r after env tc in
    (s', match thrown, last s'.(js_log) with
         | None, Some iv => Some (value s.(js_log) iv)
         | _, _ => None
         end).

  (** mod.rs:204-219 [json_result] *)
  Definition json_result (s : JsInspector) (r : ExecutionResult) (after : Ctx) (env : JsEnv) (tc : TransactionContext) :
      JsInspector * res (option JsJson.sval) :=
    let '(s', v) := result s r after env tc in
    (s', JsJson.json_result escaped v).
End Result.

(** What a user of the inspector does with it: run transactions, and ask for results at any point (both take
    [&mut self]). *)
Inductive act := AHook (e : event) | AResult (r : ExecutionResult) (after : Ctx) (env : JsEnv) (tc : TransactionContext).

Definition act_step (js : program) (s : JsInspector) (a : act) : res JsInspector :=
  match a with
  | AHook e => let! x := js_handle js s e in Ok (fst x)
  | AResult r after env tc => Ok (fst (js_result js s r after env tc))
  end.
Definition session (js : program) : JsInspector -> list act -> res JsInspector := rfold (act_step js).
