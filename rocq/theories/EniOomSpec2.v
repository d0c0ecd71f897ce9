(** Calls one after the other, each with the requests refused during it. *)
From Verif Require Import Base JsonSpec EniHeapSpec EniOomSpec EniOomModel.
From Coq Require Import List.
Import ListNotations.

(** what the caller sees of one call with the arguments [l]: an answer, the right one or short of it, and exactly the right
    one for gas or if no request is refused during this call; or an exception, and then a request was refused *)
Definition served (t : attempt) (l : list ast) (y : reply) : Prop :=
  match y with
  | Answered a => exists a0, call_answer (t_call t) l = Ret a0 /\ short_of a0 a /\ (k_gas (t_call t) = true -> a0 = a) /\ ((forall m, t_alloc t m = true) -> a0 = a)
  | Refused => ~ forall m, t_alloc t m = true
  end.
Inductive served_all : list attempt -> list (list ast) -> list reply -> Prop :=
| SA_nil : served_all [] [] []
| SA_cons t l y ts ls ys : served t l y -> served_all ts ls ys -> served_all (t :: ts) (l :: ls) (y :: ys).
