(** Spec for C113: loops over a hash table that add entries. *)
From Verif Require Import Base HashSpec.
From Coq Require Import List NArith Bool.
Import ListNotations.

(** Calls that neither remove entries nor ask for a number of buckets. *)
Definition adds {K V} (o : op K V) : Prop :=
  match o with OpErase _ | OpClear | OpRehashTo _ => False | _ => True end.
