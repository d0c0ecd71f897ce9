(** Keys that get in each other's way, without reference to the table. *)
From Verif Require Import Base HashSpec.
From Coq Require Import List NArith Bool.
From Coq.Init Require Import Byte.
Import ListNotations.
Local Open Scope N_scope.

(** the number of keys in [m] whose hash, as an unsigned int, is that of [k] *)
Definition rivals {K V} (hash : K -> N) (m : fmap K V) (k : K) : N :=
  N.of_nat (length (filter (fun p => hash (fst p) mod 2^32 =? hash k mod 2^32) m)).

(** the calls that search for a key *)
Definition searches {K V} (o : op K V) (k : K) : Prop :=
  match o with
  | OpInsert k' | OpSet k' _ | OpFind k' | OpErase k' => k' = k
  | _ => False
  end.

Definition lower_case (c : byte) : Prop := 97 <= bval c <= 122.
