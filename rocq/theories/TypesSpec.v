(** The integer types of Solidity (before version 0.8), which the documentation says the ENI types are coherent with
    (docs/types.rst). *)
From Verif Require Import Base TypesModel.
From Coq Require Import NArith ZArith Bool.
Local Open Scope Z_scope.

(** the width that docs/types.rst gives; all types but the last are unsigned *)
Definition width (t : itype) : N := match t with U64 => 64 | U128 => 128 | U160 => 160 | U256 => 256 | S256 => 256 end.
Definition is_int (t : itype) : bool := match t with S256 => true | U64 | U128 | U160 | U256 => false end.
(** the numbers of uintN and of int256 *)
Definition in_type (t : itype) (z : Z) : Prop :=
  if is_int t then - 2^255 <= z < 2^255 else 0 <= z < 2 ^ Z.of_N (width t).
(** the numbers that an ENI integer can hold: the sign is kept beside 256 bits *)
Definition holds (t : itype) (z : Z) : Prop :=
  if is_int t then Z.abs z < 2^256 else 0 <= z < 2 ^ Z.of_N (width t).

(** arithmetic wraps around in two's complement *)
Definition wrap (t : itype) (z : Z) : Z :=
  if is_int t then (z + 2^255) mod 2^256 - 2^255 else z mod 2 ^ Z.of_N (width t).

(** the exact result of an operation; division truncates; [None]: the transaction is reverted *)
Definition exact_op (f : Z -> Z -> Z) (x y : Z) : option Z := Some (f x y).
Definition exact_div (f : Z -> Z -> Z) (x y : Z) : option Z := if y =? 0 then None else Some (f x y).
Section Eval.
  (** what becomes of a result *)
  Variable r : Z -> Z.
  Fixpoint evaluate (e : expr) : option Z :=
    let after f a b := match both f (evaluate a) (evaluate b) with Some z => Some (r z) | None => None end in
    match e with
    | Num z => Some z
    | EAdd a b => after (exact_op Z.add) a b
    | ESub a b => after (exact_op Z.sub) a b
    | EMul a b => after (exact_op Z.mul) a b
    | EDiv a b => after (exact_div Z.quot) a b
    | ERem a b => after (exact_div Z.rem) a b
    end.
End Eval.
(** in Solidity, and in mathematics *)
Definition solidity (t : itype) : expr -> option Z := evaluate (wrap t).
Definition exact : expr -> option Z := evaluate (fun z => z).

Fixpoint numerals (P : Z -> Prop) (e : expr) : Prop :=
  match e with
  | Num z => P z
  | EAdd a b | ESub a b | EMul a b | EDiv a b | ERem a b => numerals P a /\ numerals P b
  end.
(** every intermediate result, computed exactly, satisfies [P] *)
Fixpoint all_results (P : Z -> Prop) (e : expr) : Prop :=
  match e with
  | Num z => P z
  | EAdd a b | ESub a b | EMul a b | EDiv a b | ERem a b => all_results P a /\ all_results P b /\ forall z, exact e = Some z -> P z
  end.

Definition value (x : option cppint) : option Z := option_map to_Z x.
