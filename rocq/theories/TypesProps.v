(** Properties C73 and C74: the integer types of ENI. *)
From Coq Require Import String.
From Verif Require Import Base JsonSpec JsonModel JsonDenotes TypesModel TypesSpec TypesProof.
From Coq Require Import List NArith ZArith Bool Lia.
From Coq.Init Require Import Byte.
From Coq.Strings Require Import Byte.
Import ListNotations.
Local Open Scope list_scope.
Local Open Scope Z_scope.

Definition T (s : string) : bytes := list_byte_of_string s.

(** ** C73: eni::to_string *)

(** The text of every integer of every type is a literal of the JSON grammar for that number, at most 79 bytes long, and
    is read back as that number. *)
Theorem C73_integers :
  forall t z, holds t z ->
    to_Z (of_Z t z) = z /\ gval documented (to_text (of_Z t z)) (AInt z) [] /\ (length (to_text (of_Z t z)) <= 79)%nat /\
    forall lay, parse lay (to_text (of_Z t z)) = Ret (true, JInt z).
Proof. exact text_ok. Qed.
Print Assumptions C73_integers.

(** Likewise the text of a boolean, read back wherever the parser reads booleans at all (C05). *)
Theorem C73_booleans :
  forall b, gval documented (bool_to_text b) (ABool b) [] /\
    forall lay, readable lay b = true -> parse lay (bool_to_text b) = Ret (true, JBool b).
Proof. exact bool_ok. Qed.
Print Assumptions C73_booleans.

(** the largest u64, the most negative s256 *)
Example C73_example :
  holds U64 (2^64 - 1) /\ to_text (of_Z U64 (2^64 - 1)) = T "18446744073709551615" /\
  holds S256 (1 - 2^256) /\ length (to_text (of_Z S256 (1 - 2^256))) = 79%nat.
Proof. split; [split; reflexivity || discriminate|]. split; [vm_compute; reflexivity|]. split; [reflexivity|vm_compute; reflexivity]. Qed.

(** ** C74: coherence with Solidity *)

(** The unsigned types compute as Solidity's in every program. *)
Theorem C74_unsigned :
  forall t e, t <> S256 -> numerals (in_type t) e -> value (compute t e) = solidity t e.
Proof. exact unsigned_agree. Qed.
Print Assumptions C74_unsigned.

(** So does Int, while no result leaves the range of int256.  Missing: results outside it. *)
Theorem C74_signed_partial :
  forall e, all_results (in_type S256) e -> value (compute S256 e) = exact e /\ solidity S256 e = exact e.
Proof. exact (in_range S256). Qed.
Print Assumptions C74_signed_partial.

(** For one operation on numbers of int256 the two agree if and only if the exact result, with its magnitude cut to 256
    bits, is a number of int256. *)
Theorem C74_signed_exact :
  forall e x y, In e [EAdd (Num x) (Num y); ESub (Num x) (Num y); EMul (Num x) (Num y); EDiv (Num x) (Num y)] ->
    in_type S256 x -> in_type S256 y ->
    forall z, exact e = Some z -> (value (compute S256 e) = solidity S256 e <-> - 2^255 <= Z.rem z (2^256) < 2^255).
Proof. exact one_operation. Qed.
Print Assumptions C74_signed_exact.

(** So the full statement is false of Int. *)
Theorem C74_signed_refuted :
  exists e, numerals (in_type S256) e /\ value (compute S256 e) <> solidity S256 e.
Proof. exists (EAdd (Num (2^255 - 1)) (Num 1)). split; [cbn; unfold in_type; cbn; lia|vm_compute; discriminate]. Qed.
Print Assumptions C74_signed_refuted.

(** the successor of the largest int256; an unsigned difference below zero *)
Example C74_example :
  value (compute S256 (EAdd (Num (2^255 - 1)) (Num 1))) = Some (2^255) /\ solidity S256 (EAdd (Num (2^255 - 1)) (Num 1)) = Some (- 2^255) /\
  value (compute U256 (EMul (ESub (Num 3) (Num 5)) (Num 7))) = Some (2^256 - 14) /\
  value (compute S256 (ERem (ESub (Num 3) (Num 10)) (Num 4))) = Some (-3) /\ compute U64 (EDiv (Num 3) (ESub (Num 2) (Num 2))) = None.
Proof. vm_compute. auto. Qed.
