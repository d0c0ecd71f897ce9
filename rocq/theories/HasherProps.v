(** Properties C43 and C44: the string hashes. *)
From Verif Require Import Base HasherModel HasherSpec HasherProof.
From Coq Require Import List NArith ZArith Bool Lia.
From Coq.Init Require Import Byte.
Import ListNotations.

(** ** C44: closed forms *)

(** SDBM, BKDR and DJB are polynomials in the (signed) characters modulo 2^32; RS is a sum of
    products. *)
Theorem C44_polynomial_hashes : forall s : bytes,
  (Z.of_N (hash_SDBM s) = poly 65599 s mod 2^32 /\
   Z.of_N (hash_BKDR s) = poly 131 s mod 2^32 /\
   Z.of_N (hash_DJB s) = (5381 * 33 ^ Z.of_nat (length s) + poly 33 s) mod 2^32 /\
   Z.of_N (hash_RS s) = rs_sum 0 s mod 2^32)%Z.
Proof. intros s. exact (conj (hash_SDBM_Z s) (conj (hash_BKDR_Z s) (conj (hash_DJB_Z s) (hash_RS_Z s)))). Qed.
Print Assumptions C44_polynomial_hashes.

Local Open Scope N_scope.

(** BP and DEK are exclusive sums of shifted / rotated characters; PJW and ELF are the same function,
    with the top four bits clear. *)
Theorem C44_bit_hashes : forall s : bytes,
  hash_BP s = xor_shift 7 s /\
  hash_DEK s = N.lxor (rotl32 (N.of_nat (length s) mod 2^32) (5 * N.of_nat (length s))) (xor_rot 5 s) /\
  hash_ELF s = hash_PJW s /\ hash_PJW s < 2^28.
Proof.
  intros s. repeat split.
  - apply hash_BP_eq.
  - unfold hash_DEK. apply dek_fold. apply u32_lt.
  - apply hash_ELF_PJW.
  - apply hash_PJW_lt.
Qed.
Print Assumptions C44_bit_hashes.

(** JS, FNV and AP by their recurrences, one character at a time. *)
Theorem C44_recurrences : forall (s : bytes) (c : byte),
  (let h := hash_JS s in
   hash_JS (s ++ [c]) = N.lxor h ((N.shiftl h 5 + ext32 c + N.shiftr h 2) mod 2^32)) /\
  hash_FNV (s ++ [c]) = N.lxor ((hash_FNV s * 2166136261) mod 2^32) (ext32 c) /\
  (let h := hash_AP s in
   hash_AP (s ++ [c]) =
     N.lxor h (if Nat.even (length s)
               then N.lxor (N.shiftl h 7 mod 2^32) ((ext32 c * N.shiftr h 3) mod 2^32)
               else 2^32 - 1 - (N.shiftl h 11 + N.lxor (ext32 c) (N.shiftr h 5)) mod 2^32)) /\
  hash_JS [] = 1315423911 /\ hash_FNV [] = 0 /\ hash_AP [] = 2863311530.
Proof. exact recurrences. Qed.
Print Assumptions C44_recurrences.

Theorem C44_all_32_bit : forall s : bytes,
  hash_RS s < 2^32 /\ hash_JS s < 2^32 /\ hash_PJW s < 2^32 /\ hash_ELF s < 2^32 /\ hash_BKDR s < 2^32 /\
  hash_SDBM s < 2^32 /\ hash_DJB s < 2^32 /\ hash_DEK s < 2^32 /\ hash_BP s < 2^32 /\ hash_FNV s < 2^32 /\
  hash_AP s < 2^32 /\ hash_ES s < 2^32.
Proof. exact all_32_bit. Qed.
Print Assumptions C44_all_32_bit.

(** ES: bit i < 26 is set iff the i-th letter occurs, bit 26 iff '_' occurs, bit 27 iff a digit occurs;
    the top four bits are the number of dots modulo 16. *)
Theorem C44_es_characteristic : forall s : bytes,
  (forall i, i < 28 -> N.testbit (hash_ES s) i = mentions s i) /\ N.shiftr (hash_ES s) 28 = dots s mod 16.
Proof.
  intros s. split; [|apply es_top]. intros i Hi. rewrite es_tb. apply N.ltb_lt in Hi. rewrite Hi. reflexivity.
Qed.
Print Assumptions C44_es_characteristic.

(** The layout documented at StringHasher.h:262-276 (bit 25 for 'a', bit 26 for '-') is not what is
    computed. *)
Theorem C44_es_layout_refuted :
  N.testbit (hash_ES [x61]) 25 = false /\ N.testbit (hash_ES [x61]) 0 = true /\
  N.testbit (hash_ES [x2d]) 26 = false.
Proof. vm_compute. auto. Qed.
Print Assumptions C44_es_layout_refuted.

Example C44_example : (Z.of_N (hash_SDBM [x61; xff; x62]) = ((97 * 65599 - 1) * 65599 + 98) mod 2^32)%Z.
Proof. vm_compute. reflexivity. Qed.

(** ** C43: the substring filter *)

(** may_include compares the sets of mentioned characters and the dot counts modulo 16. *)
Theorem C43_may_include_exact : forall t s : bytes,
  may_include (hash_ES t) (hash_ES s) = true <->
  (forall bit, bit < 28 -> mentions t bit = true -> mentions s bit = true) /\ dots t mod 16 <= dots s mod 16.
Proof. exact may_include_spec. Qed.
Print Assumptions C43_may_include_exact.

(** No false negative when the text has fewer than 16 dots.  Missing: texts with 16 dots or more. *)
Theorem C43_no_false_negative_partial : forall t s : bytes,
  occurs t s -> dots s < 16 -> may_include (hash_ES t) (hash_ES s) = true.
Proof. exact may_include_occurs. Qed.
Print Assumptions C43_no_false_negative_partial.

Theorem C43_no_false_negative_refuted :
  exists t s : bytes, occurs t s /\ may_include (hash_ES t) (hash_ES s) = false.
Proof.
  exists [x2e], (repeat x2e 16). split; [|reflexivity]. exists [], (repeat x2e 15). reflexivity.
Qed.
Print Assumptions C43_no_false_negative_refuted.

Example C43_example : occurs [x2e; x63] [x61; x2e; x63; x39] /\ may_include (hash_ES [x2e; x63]) (hash_ES [x61; x2e; x63; x39]) = true
  /\ may_include (hash_ES [x7a]) (hash_ES [x61; x2e; x63; x39]) = false.
Proof. split; [exists [x61], [x39]; reflexivity|]. vm_compute. auto. Qed.
