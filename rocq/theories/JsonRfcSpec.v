(** RFC 8259, the part of the grammar in which numbers are integers.  Nothing here refers to the code.
    Texts are bytes; the RFC's %x80-10FFFF are the bytes from 0x80 on. *)
From Verif Require Import Base.
From Coq Require Import List NArith Bool.
From Coq.Init Require Import Byte.
From Coq.Strings Require Import Byte.
Import ListNotations.

(** section 2: ws *)
Definition rfc_ws (w : bytes) : Prop := Forall (fun c => In c [x20; x09; x0a; x0d]) w.

(** section 7: HEXDIG in either case *)
Definition rfc_hex (c : byte) : Prop :=
  (48 <= bval c <= 57 \/ 65 <= bval c <= 70 \/ 97 <= bval c <= 102)%N.

(** section 7: the characters between the quotation marks *)
Inductive rfc_chars : bytes -> Prop :=
| RC_nil : rfc_chars []
| RC_unescaped c s : (32 <= bval c)%N -> c <> x22 -> c <> x5c -> rfc_chars s -> rfc_chars (c :: s)
| RC_escape c s : In c [x22; x5c; x2f; x62; x66; x6e; x72; x74] -> rfc_chars s -> rfc_chars (x5c :: c :: s)
| RC_code h1 h2 h3 h4 s : rfc_hex h1 -> rfc_hex h2 -> rfc_hex h3 -> rfc_hex h4 -> rfc_chars s ->
    rfc_chars (x5c :: x75 :: h1 :: h2 :: h3 :: h4 :: s).

Inductive rfc_string : bytes -> Prop :=
| RS s : rfc_chars s -> rfc_string (x22 :: s ++ [x22]).

(** section 6: int = zero / ( digit1-9 *DIGIT ) *)
Inductive rfc_int : bytes -> Prop :=
| RI_zero : rfc_int [x30]
| RI_pos d ds : (49 <= bval d <= 57)%N -> Forall (fun c => (48 <= bval c <= 57)%N) ds -> rfc_int (d :: ds).

(** sections 3-5; the white space the RFC allows around the structural characters is put around the
    members and elements *)
Inductive rfc_value : bytes -> Prop :=
| RV_false : rfc_value [x66; x61; x6c; x73; x65]
| RV_null : rfc_value [x6e; x75; x6c; x6c]
| RV_true : rfc_value [x74; x72; x75; x65]
| RV_int s : rfc_int s -> rfc_value s
| RV_minus s : rfc_int s -> rfc_value (x2d :: s)
| RV_string s : rfc_string s -> rfc_value s
| RV_array0 w : rfc_ws w -> rfc_value (x5b :: w ++ [x5d])
| RV_array s : rfc_elements s -> rfc_value (x5b :: s ++ [x5d])
| RV_object0 w : rfc_ws w -> rfc_value (x7b :: w ++ [x7d])
| RV_object s : rfc_members s -> rfc_value (x7b :: s ++ [x7d])
with rfc_elements : bytes -> Prop :=
| RE_one w s w' : rfc_ws w -> rfc_value s -> rfc_ws w' -> rfc_elements (w ++ s ++ w')
| RE_more w s w' l : rfc_ws w -> rfc_value s -> rfc_ws w' -> rfc_elements l -> rfc_elements (w ++ s ++ w' ++ x2c :: l)
with rfc_members : bytes -> Prop :=
| RM_one m : rfc_member m -> rfc_members m
| RM_more m l : rfc_member m -> rfc_members l -> rfc_members (m ++ x2c :: l)
with rfc_member : bytes -> Prop :=
| RM w k w1 w2 s w' : rfc_ws w -> rfc_string k -> rfc_ws w1 -> rfc_ws w2 -> rfc_value s -> rfc_ws w' ->
    rfc_member (w ++ k ++ w1 ++ x3a :: w2 ++ s ++ w').
