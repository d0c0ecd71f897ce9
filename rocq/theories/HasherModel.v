(** Model of the string hash functions, /repo/include/eni/adt/StringHasher.h.

    [uint32_t] values are [N] below 2^32.  [char] is signed: a byte above 127 enters the arithmetic
    sign-extended.  The loops of the code count in a 32-bit variable; strings of 2^32 bytes or more
    are outside the model. *)
From Verif Require Import Base.
From Coq Require Import List NArith ZArith Bool.
From Coq.Init Require Import Byte.
Import ListNotations.
Local Open Scope N_scope.

(** [pKey[i]] converted to [uint32_t], in every loop, e.g. StringHasher.h:60 *)
Definition ch32 (c : byte) : N := Z.to_N (schar c mod 4294967296)%Z.

(** << on uint32_t, e.g. StringHasher.h:78 *)
Definition shl32 (x n : N) : N := u32 (N.shiftl x n).
(** ~ on uint32_t, e.g. StringHasher.h:103 *)
Definition not32 (x : N) : N := N.lxor x 4294967295.

(** StringHasher.h:59-62, the loop body *)
Definition rs_step (st : N * N) (c : byte) : N * N :=
  let '(a, h) := st in (u32 (a * 378551), u32 (u32 (h * a) + ch32 c)).
(** StringHasher.h:50-65 *)
Definition hash_RS (s : bytes) : N := snd (fold_left rs_step s (63689, 0)).

(** StringHasher.h:77-79 *)
Definition js_step (h : N) (c : byte) : N :=
  N.lxor h (u32 (u32 (shl32 h 5 + ch32 c) + N.shiftr h 2)).
(** StringHasher.h:70-82 *)
Definition hash_JS (s : bytes) : N := fold_left js_step s 1315423911.

(** StringHasher.h:99-105; ThreeQuarters = 24, OneEighth = 4, HighBits = 0xF0000000 *)
Definition pjw_step (h : N) (c : byte) : N :=
  let h := u32 (shl32 h 4 + ch32 c) in
  let test := N.land h 4026531840 in
  if test =? 0 then h else N.land (N.lxor h (N.shiftr test 24)) (not32 4026531840).
(** StringHasher.h:87-108 *)
Definition hash_PJW (s : bytes) : N := fold_left pjw_step s 0.

(** StringHasher.h:121-126 *)
Definition elf_step (h : N) (c : byte) : N :=
  let h := u32 (shl32 h 4 + ch32 c) in
  let x := N.land h 4026531840 in
  let h := if x =? 0 then h else N.lxor h (N.shiftr x 24) in
  N.land h (not32 x).
(** StringHasher.h:113-129 *)
Definition hash_ELF (s : bytes) : N := fold_left elf_step s 0.

(** StringHasher.h:142-143 *)
Definition bkdr_step (h : N) (c : byte) : N := u32 (u32 (h * 131) + ch32 c).
(** StringHasher.h:134-146 *)
Definition hash_BKDR (s : bytes) : N := fold_left bkdr_step s 0.

(** StringHasher.h:160-161 *)
Definition sdbm_step (h : N) (c : byte) : N :=
  sub32 (u32 (u32 (ch32 c + shl32 h 6) + shl32 h 16)) h.
(** StringHasher.h:153-164 *)
Definition hash_SDBM (s : bytes) : N := fold_left sdbm_step s 0.

(** StringHasher.h:177-178 *)
Definition djb_step (h : N) (c : byte) : N := u32 (u32 (shl32 h 5 + h) + ch32 c).
(** StringHasher.h:170-182 *)
Definition hash_DJB (s : bytes) : N := fold_left djb_step s 5381.

(** StringHasher.h:195-196 *)
Definition dek_step (h : N) (c : byte) : N :=
  N.lxor (N.lxor (shl32 h 5) (N.shiftr h 27)) (ch32 c).
(** StringHasher.h:188-200 *)
Definition hash_DEK (s : bytes) : N := fold_left dek_step s (u32 (N.of_nat (length s))).

(** StringHasher.h:212-213: [hash_val << 7 ^ pKey[i]] *)
Definition bp_step (h : N) (c : byte) : N := N.lxor (shl32 h 7) (ch32 c).
(** StringHasher.h:206-217 *)
Definition hash_BP (s : bytes) : N := fold_left bp_step s 0.

(** StringHasher.h:230-233 *)
Definition fnv_step (h : N) (c : byte) : N := N.lxor (u32 (h * 2166136261)) (ch32 c).
(** StringHasher.h:223-237 *)
Definition hash_FNV (s : bytes) : N := fold_left fnv_step s 0.

(** StringHasher.h:250-254: the branch depends on the parity of the index *)
Definition ap_step (st : bool * N) (c : byte) : bool * N :=
  let '(odd, h) := st in
  (negb odd,
   N.lxor h (if odd
             then not32 (u32 (shl32 h 11 + N.lxor (ch32 c) (N.shiftr h 5)))
             else N.lxor (shl32 h 7) (u32 (ch32 c * N.shiftr h 3)))).
(** StringHasher.h:243-258 *)
Definition hash_AP (s : bytes) : N := snd (fold_left ap_step s (false, 2863311530)).

(** StringHasher.h:290-308.  [isdigit], [isupper], [islower] of the "C" locale; calling them on a
    negative char is formally undefined, glibc answers false. *)
Definition es_bit (c : byte) : N :=
  let n := bval c in
  if (48 <=? n) && (n <=? 57) then N.shiftl 1 27
  else if n =? 95 then N.shiftl 1 26
  else if (65 <=? n) && (n <=? 90) then N.shiftl 1 (n - 65)
  else if (97 <=? n) && (n <=? 122) then N.shiftl 1 (n - 97)
  else 0.
(** StringHasher.h:283-309, one character *)
Definition es_step (st : N * N) (c : byte) : N * N :=
  let '(dot, r) := st in
  if bval c =? 46 then (u32 (dot + 1), r) else (dot, N.lor r (es_bit c)).
(** StringHasher.h:274-313 *)
Definition hash_ES (s : bytes) : N :=
  let '(dot, r) := fold_left es_step s (0, 0) in N.lor r (shl32 dot 28).

(** StringHasher.h:318-333 may_include(pRule, pInString) *)
Definition may_include (rule instr : N) : bool :=
  let in_c := shl32 instr 4 in
  let r_c := shl32 rule 4 in
  let res := N.land (N.lxor in_c r_c) r_c in
  if negb (res =? 0) then false
  else if N.shiftr instr 28 <? N.shiftr rule 28 then false
  else true.

