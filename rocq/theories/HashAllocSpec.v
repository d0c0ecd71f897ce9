(** Specification: which calls on a map may ask for memory.  Nothing here refers to the model. *)
From Verif Require Import Base HashSpec.
From Coq Require Import List NArith Bool.
Import ListNotations.

Section AllocSpec.
  Context {K V : Type}.
  Variable keqb : K -> K -> bool.
  Variable dflt : V.

  (** the call adds a key that is not in the map *)
  Definition adds (m : fmap K V) (o : op K V) : bool :=
    match o with
    | OpInsert k | OpSet k _ => negb (has keqb m k)
    | _ => false
    end.

  (** how many calls of the history add a key *)
  Fixpoint additions (m : fmap K V) (l : list (op K V)) : nat :=
    match l with
    | [] => 0
    | o :: l' =>
        (if adds m o then 1 else 0) +
        match spec_step keqb dflt m o with Some (m', _) => additions m' l' | None => 0 end
    end.

  (** allocations number [c] up to (not including) [c'] all succeed *)
  Definition granted (alloc : nat -> bool) (c c' : nat) : Prop :=
    forall i, c <= i < c' -> alloc i = true.
End AllocSpec.
