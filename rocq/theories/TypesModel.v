(** Model of include/eni/eni_types.h and lib/eni_types.cpp: the integer types of ENI, their arithmetic, and to_string.

    The types are aliases of boost::multiprecision::number over cpp_int_backend; the arithmetic here is what that backend
    documents: sign and magnitude, the magnitude cut to the number of bits, zero positive, no check for overflow. *)
From Verif Require Import Base JsonModel.
From Coq Require Import List NArith ZArith Bool.
From Coq.Init Require Import Byte.
Import ListNotations.
Local Open Scope N_scope.

(** eni_types.h:17-34; Int = s256, UInt = u256, Address = u160 *)
Inductive itype : Type := U64 | U128 | U160 | U256 | S256.
(** eni_types.h:17-29 the widths *)
Definition bits (t : itype) : N := match t with U64 => 64 | U128 => 128 | U160 => 160 | U256 => 256 | S256 => 256 end.
(** unsigned_magnitude or signed_magnitude, eni_types.h:17-29 *)
Definition is_signed (t : itype) : bool := match t with S256 => true | _ => false end.

(** cpp_int_backend: whether negative, the magnitude; of the boost backend that eni_types.h:17-29 names *)
Record cppint : Type := mkI { neg : bool; mag : N }.
(** normalize(): cut to the width; no negative zero; of the boost backend that eni_types.h:17-29 names *)
Definition normal (t : itype) (s : bool) (m : N) : cppint :=
  let m := m mod 2 ^ bits t in mkI (s && negb (m =? 0)) m.
(** negate() of an unsigned number: the two's complement; of a signed one: the other sign;
    of the boost backend that eni_types.h:17-29 names *)
Definition negate (t : itype) (a : cppint) : cppint :=
  if is_signed t then normal t (negb (neg a)) (mag a) else normal t false (2 ^ bits t - mag a).
(** subtract_unsigned: the difference of the magnitudes, negated if the second is larger;
    of the boost backend that eni_types.h:17-29 names *)
Definition mag_diff (t : itype) (x y : N) : cppint :=
  if x <? y then negate t (normal t false (y - x)) else normal t false (x - y).
(** eval_add: magnitudes are added if the signs agree, else subtracted;
    of the boost backend that eni_types.h:17-29 names *)
Definition add (t : itype) (a b : cppint) : cppint :=
  match neg a, neg b with
  | false, false => normal t false (mag a + mag b)
  | true, true => normal t true (mag a + mag b)
  | false, true => mag_diff t (mag a) (mag b)
  | true, false => mag_diff t (mag b) (mag a)
  end.
(** eval_subtract  of the boost backend that eni_types.h:17-29 names *)
Definition sub (t : itype) (a b : cppint) : cppint :=
  match neg a, neg b with
  | false, false => mag_diff t (mag a) (mag b)
  | true, true => mag_diff t (mag b) (mag a)
  | false, true => normal t false (mag a + mag b)
  | true, false => normal t true (mag a + mag b)
  end.
(** eval_multiply  of the boost backend that eni_types.h:17-29 names *)
Definition mul (t : itype) (a b : cppint) : cppint := normal t (xorb (neg a) (neg b)) (mag a * mag b).
(** eval_divide; [None]: std::overflow_error is thrown; of the boost backend that eni_types.h:17-29 names *)
Definition div (t : itype) (a b : cppint) : option cppint :=
  if mag b =? 0 then None else Some (normal t (xorb (neg a) (neg b)) (mag a / mag b)).
(** eval_modulus: the sign of the first operand; of the boost backend that eni_types.h:17-29 names *)
Definition rem (t : itype) (a b : cppint) : option cppint :=
  if mag b =? 0 then None else Some (normal t (neg a) (mag a mod mag b)).

(** construction from an integer that the type can hold; of the boost backend that eni_types.h:17-29 names *)
Definition of_Z (t : itype) (z : Z) : cppint := normal t (z <? 0)%Z (Z.abs_N z).
(** not code: the integer a number stands for *)
Definition to_Z (a : cppint) : Z := if neg a then (- Z.of_N (mag a))%Z else Z.of_N (mag a).

(** programs computing with one type; not code of the library *)
Inductive expr : Type :=
| Num (z : Z)
| EAdd (a b : expr) | ESub (a b : expr) | EMul (a b : expr) | EDiv (a b : expr) | ERem (a b : expr).

(** not code: an exception in either operand *)
Definition both {A} (f : A -> A -> option A) (x y : option A) : option A :=
  match x, y with Some a, Some b => f a b | _, _ => None end.
(** not code: the program *)
Fixpoint compute (t : itype) (e : expr) : option cppint :=
  match e with
  | Num z => Some (of_Z t z)
  | EAdd a b => both (fun x y => Some (add t x y)) (compute t a) (compute t b)
  | ESub a b => both (fun x y => Some (sub t x y)) (compute t a) (compute t b)
  | EMul a b => both (fun x y => Some (mul t x y)) (compute t a) (compute t b)
  | EDiv a b => both (div t) (compute t a) (compute t b)
  | ERem a b => both (rem t) (compute t a) (compute t b)
  end.

(** eni_types.cpp:12-23 to_string: lexical_cast writes canonical decimal, with a minus sign if negative *)
Definition to_text (a : cppint) : bytes := int_text (to_Z a).
(** eni_types.cpp:26-30 to_string(Bool) *)
Definition bool_to_text (b : bool) : bytes := if b then [x74; x72; x75; x65] else [x66; x61; x6c; x73; x65].
