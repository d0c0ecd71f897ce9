(** Texts for the property about parsing without memory. *)
From Verif Require Import Base JsonSpec ValueSpec JsonHeapSpec.
From Coq Require Import List.
Import ListNotations.

(** wherever a name is repeated in an object its values are of one type *)
Fixpoint types_kept (a : ast) : Prop :=
  match a with
  | AArr l => fold_right (fun x p => types_kept x /\ p) True l
  | AObj ms =>
      (forall k v w, In (k, v) ms -> In (k, w) ms -> kind_of (denote v) = kind_of (denote w)) /\
      fold_right (fun m p => types_kept (snd m) /\ p) True ms
  | _ => True
  end.
