(** What it means for vectors to give their storage back, on its own. *)
From Verif Require Import Base VectorSpec.
From Coq Require Import List.
Import ListNotations.

(** the calls of emplace_back that came back without an exception *)
Fixpoint emplaced {A} (l : list (vop A)) (answers : list (vanswer A)) : nat :=
  match l, answers with
  | VEmplace _ _ :: l', RUnit :: a' => S (emplaced l' a')
  | _ :: l', _ :: a' => emplaced l' a'
  | _, _ => 0
  end.

(** the program never calls emplace_back *)
Definition no_emplace {A} (l : list (vop A)) : Prop := forall i a, ~ In (VEmplace i a) l.
