(** Which booleans a value holds. *)
From Verif Require Import Base JsonSpec.
From Coq Require Import List.

(** the boolean [b] occurs in the value *)
Fixpoint occurs (b : bool) (a : ast) : Prop :=
  match a with
  | ABool b' => b' = b
  | AArr l => fold_right (fun x p => occurs b x \/ p) False l
  | AObj ms => fold_right (fun m p => occurs b (snd m) \/ p) False ms
  | _ => False
  end.
