(** Levels of a text, for the call stack that its value needs. *)
From Verif Require Import Base JsonSpec.
From Coq Require Import List Arith.
Import ListNotations.

(** the levels down to the first array: an array is one level whatever it holds *)
Fixpoint object_levels (a : ast) : nat :=
  match a with
  | AObj ms => S (fold_right Nat.max 0 (map (fun m => object_levels (snd m)) ms))
  | _ => 1
  end.

(** no object of the text repeats a key *)
Fixpoint no_repeats (a : ast) : Prop :=
  match a with
  | AArr l => fold_right (fun x p => no_repeats x /\ p) True l
  | AObj ms => NoDup (map fst ms) /\ fold_right (fun m p => no_repeats (snd m) /\ p) True ms
  | _ => True
  end.
