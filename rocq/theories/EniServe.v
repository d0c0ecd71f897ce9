(** What an operation that accepted its arguments answers, call after call.  Only the class's own
    functions, printing and the cut at the first NUL occur here.  [s] is the class's data, [out] the
    array of return values. *)
From Verif Require Import Base JsonModel EniModel.
From Coq Require Import List NArith.
Import ListNotations.

Inductive serves (c : opclass) : ost c -> list jvalue -> list ecall -> list eanswer -> Prop :=
| SV_nil s out : serves c s out [] []
| SV_gas s out h as_ g : ogas c s = Ret g -> serves c s out h as_ ->
    serves c s out (GetGas :: h) (GasIs g :: as_)
| SV_gas_throws s out h as_ e : ogas c s = Throw e -> serves c s out h as_ ->
    serves c s out (GetGas :: h) (Threw e :: as_)
| SV_run s out s' out' h as_ t : orun c s out = (s', out', Ret true) -> print (JArr out') = Ret t ->
    serves c s' out' h as_ -> serves c s out (Start :: h) (ResultIs (Some (cstr t)) :: as_)
| SV_run_fails s out s' out' h as_ : orun c s out = (s', out', Ret false) ->
    serves c s' out' h as_ -> serves c s out (Start :: h) (ResultIs None :: as_)
| SV_run_throws s out s' out' h as_ e : orun c s out = (s', out', Throw e) ->
    serves c s' out' h as_ -> serves c s out (Start :: h) (Threw e :: as_)
| SV_print_throws s out s' out' h as_ e : orun c s out = (s', out', Ret true) -> print (JArr out') = Throw e ->
    serves c s' out' h as_ -> serves c s out (Start :: h) (Threw e :: as_).
