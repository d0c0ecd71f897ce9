(** Texts in normal form: no white space between tokens, no superfluous digits, signs or escapes.  Nothing here refers
    to the code. *)
From Verif Require Import Base JsonSpec.
From Coq Require Import List NArith Bool.
From Coq.Init Require Import Byte.
From Coq.Strings Require Import Byte.
Import ListNotations.

(** 0 to 9 and A to F *)
Definition capital_hex (c : byte) : Prop := (48 <= bval c <= 57 \/ 65 <= bval c <= 70)%N.

(** Between the quotation marks: the quotation mark and the backslash are preceded by a backslash, the characters below
    32 are written as u and four digits, all others stand for themselves. *)
Inductive normal_chars : bytes -> Prop :=
| NC_nil : normal_chars []
| NC_plain c s : (32 <= bval c)%N -> c <> x22 -> c <> x5c -> normal_chars s -> normal_chars (c :: s)
| NC_mark c s : In c [x22; x5c] -> normal_chars s -> normal_chars (x5c :: c :: s)
| NC_control a b s : In a [x30; x31] -> capital_hex b -> normal_chars s ->
    normal_chars (x5c :: x75 :: x30 :: x30 :: a :: b :: s).

(** a positive number below 2^256 *)
Definition positive_digits (ds : bytes) : Prop :=
  (exists d ds', ds = d :: ds' /\ d <> x30) /\ Forall digit ds /\ (decimal ds < 2^256)%N.

Inductive normal : bytes -> Prop :=
| N_zero : normal [x30]
| N_pos ds : positive_digits ds -> normal ds
| N_neg ds : positive_digits ds -> normal (x2d :: ds)
| N_bool b : normal (literal b)
| N_str s : normal_chars s -> normal (x22 :: s ++ [x22])
| N_arr0 : normal [x5b; x5d]
| N_arr s : normal_elems s -> normal (x5b :: s ++ [x5d])
with normal_elems : bytes -> Prop :=
| NE_one s : normal s -> normal_elems s
| NE_more s l : normal s -> normal_elems l -> normal_elems (s ++ x2c :: l).

Scheme normal_mut := Induction for normal Sort Prop
  with normal_elems_mut := Induction for normal_elems Sort Prop.
