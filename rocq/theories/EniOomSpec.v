(** What a caller may be answered when memory runs out. *)
From Verif Require Import Base EniHeapSpec.
From Coq Require Import List.

(** [b] instead of [a]: the same gas; a beginning of the text; or no text *)
Definition short_of (a b : answer) : Prop :=
  match b with
  | Gas _ => a = b
  | Text t => exists u, a = Text (t ++ u)
  | Nothing => a = Nothing \/ exists t, a = Text t
  end.
