(** Hexadecimal spelling and RSA key pairs, without reference to the code. *)
From Verif Require Import Base.
From Coq Require Import List NArith ZArith Bool.
From Coq.Init Require Import Byte.
From Coq.Strings Require Import Byte.
Import ListNotations.

(** the value of a hexadecimal digit of either case *)
Definition hex_digit (c : byte) : option N :=
  (if (48 <=? bval c) && (bval c <=? 57) then Some (bval c - 48)         (* 0-9 *)
   else if (97 <=? bval c) && (bval c <=? 102) then Some (bval c - 87)   (* a-f *)
   else if (65 <=? bval c) && (bval c <=? 70) then Some (bval c - 55)    (* A-F *)
   else None)%N.
Definition upper_digit (c : byte) : Prop := (65 <= bval c <= 70)%N.
Definition lower_hex (c : byte) : Prop := hex_digit c <> None /\ ~ upper_digit c.

(** [hex_text h s]: [h] spells the bytes [s], two digits each, high digit first *)
Inductive hex_text : bytes -> bytes -> Prop :=
| HT_nil : hex_text [] []
| HT_cons h1 h0 n1 n0 b h s : hex_digit h1 = Some n1 -> hex_digit h0 = Some n0 -> bval b = (16 * n1 + n0)%N ->
    hex_text h s -> hex_text (h1 :: h0 :: h) (b :: s).
