(** Specification: what a path of keys and indices leads to in the contents of a text, and texts that
    differ in the order of members only. *)
From Verif Require Import Base JsonSpec.
From Coq Require Import List ZArith Bool Permutation.
Import ListNotations.

(** one step: v[key] or v[i], where i is a C++ int *)
Inductive access : Type := Key (k : bytes) | Index (i : Z).

Definition int_indices (p : list access) : Prop :=
  forall i, In (Index i) p -> (-(2^31) <= i < 2^31)%Z.

(** what the caller finds at the end of the path *)
Inductive found : Type :=
| FInt (z : Z)
| FBool (b : bool)
| FStr (s : bytes)
| FArr (size : nat)
| FObj (size : nat)         (* number of different keys *)
| FUndef
| FNoKey                    (* OutOfRange<InvalidStringMapKey> *)
| FNoIndex.                 (* OutOfRange<InvalidVectorIndex> *)

Fixpoint keys (ms : list (bytes * ast)) : list bytes :=
  match ms with
  | [] => []
  | (k, _) :: ms' => if existsb (bytes_eqb k) (keys ms') then keys ms' else k :: keys ms'
  end.

Definition found_here (a : ast) : found :=
  match a with
  | AInt z => FInt (reduce256 z)
  | ABool b => FBool b
  | AStr s => FStr s
  | AArr l => FArr (length l)
  | AObj ms => FObj (length (keys ms))
  end.

(** The null value, which the accessors give for a key or an index of anything else, is the integer 5
    (see C13). *)
Fixpoint follow (a : ast) (p : list access) : found :=
  match p with
  | [] => found_here a
  | Key k :: p' =>
      match a with
      | AObj ms => match last_binding k ms with Some b => follow b p' | None => FNoKey end
      | _ => follow (AInt 5) p'
      end
  | Index i :: p' =>
      match a with
      | AArr l =>
          if (i <? 0)%Z then FNoIndex
          else match nth_error l (Z.to_nat i) with Some b => follow b p' | None => FNoIndex end
      | _ => follow (AInt 5) p'
      end
  end.

(** the same contents but for the order of members (at any depth) in objects without repeated keys *)
Inductive reordered : ast -> ast -> Prop :=
| R_same a : reordered a a
| R_arr l l' : Forall2 reordered l l' -> reordered (AArr l) (AArr l')
| R_obj ms ms1 ms' : NoDup (map fst ms) -> Permutation ms ms1 ->
    Forall2 (fun m m' => fst m = fst m' /\ reordered (snd m) (snd m')) ms1 ms' ->
    reordered (AObj ms) (AObj ms').
