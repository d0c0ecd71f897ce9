(** Specification of the bucket arrays that histories of hash tables own and lose.
    Nothing here refers to the model of the code. *)
From Verif Require Import Base HashSpec HashHeapSpec HashStorageSpec.
From Coq Require Import List NArith Bool.
Import ListNotations.
Local Open Scope N_scope.

Section Arrays.
  Context {K V : Type}.
  Variable keqb : K -> K -> bool.
  Variable dflt : V.

  Definition array_of (st : stab K V) : N := if bare st then 0 else 1.

  (** number of bucket arrays of all tables together *)
  Definition arrays_owned (w : world K V) : N := fold_right (fun st n => array_of st + n) 0 (tabs w).

  (** bucket arrays nobody owns any more after [o]: the one a table had when another table was moved
      into it *)
  Definition array_dropped (w : world K V) (o : wop K V) : N :=
    match o with
    | WMoveAssign i _ => match tab w i with Some st => array_of st | None => 0 end
    | _ => 0
    end.

  (** [wexec] with the number of bucket arrays and of entries ([dropped]) lost on the way *)
  Inductive aloss : world K V -> list (wop K V) -> list (wanswer K V) -> world K V -> N -> N -> Prop :=
  | ALNil w : aloss w [] [] w 0 0
  | ALCons w o a w1 l as_ w2 na ne :
      wstep keqb dflt w o a w1 -> aloss w1 l as_ w2 na ne ->
      aloss w (o :: l) (a :: as_) w2 (array_dropped w o + na) (dropped w o + ne).

  Definition move_assigns (o : wop K V) : Prop :=
    match o with WMoveAssign _ _ => True | _ => False end.
End Arrays.
