(** Specification of the number of entries that histories of hash tables own and lose.
    Nothing here refers to the model of the code. *)
From Verif Require Import Base HashSpec HashHeapSpec.
From Coq Require Import List NArith Bool.
Import ListNotations.
Local Open Scope N_scope.

Section Storage.
  Context {K V : Type}.
  Variable keqb : K -> K -> bool.
  Variable dflt : V.

  (** number of entries of all tables together *)
  Definition owned (w : world K V) : N :=
    fold_right (fun st n => card (smap st) + n) 0 (tabs w).

  (** entries nobody owns any more after [o]: those a table held when it was assigned to *)
  Definition dropped (w : world K V) (o : wop K V) : N :=
    match o with
    | WAssign i _ | WMoveAssign i _ => match tab w i with Some st => card (smap st) | None => 0 end
    | _ => 0
    end.

  (** [wexec] with the number of entries dropped on the way *)
  Inductive wloss : world K V -> list (wop K V) -> list (wanswer K V) -> world K V -> N -> Prop :=
  | LNil w : wloss w [] [] w 0
  | LCons w o a w1 l as_ w2 n :
      wstep keqb dflt w o a w1 -> wloss w1 l as_ w2 n -> wloss w (o :: l) (a :: as_) w2 (dropped w o + n).

  Definition assigns (o : wop K V) : Prop :=
    match o with WAssign _ _ | WMoveAssign _ _ => True | _ => False end.
End Storage.
