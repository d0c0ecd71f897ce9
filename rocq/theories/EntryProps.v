(** Properties C75 and C76: the memory of string entries and the allocator. *)
From Verif Require Import Base EntryModel EntryProof.
From Coq Require Import List NArith Bool Lia.
From Coq.Init Require Import Byte.
Import ListNotations.
Local Open Scope N_scope.

(** ** C75: an entry keeps its key inside its own block *)

(** Whatever the size of an entry and the place of its flexible array in it, making an entry for a key writes inside the
    block, does not touch the members before the array and ends the key with a NUL; key() reads only bytes that were
    written, and a copy of the entry has the same key.  The key is the one given with its length taken modulo 65536. *)
Theorem C75_entry :
  forall size_of off k, off <= size_of -> size_of + N.of_nat (length k) + 1 < 2^64 ->
    exists e, entry_new size_of off k = Ret e /\
      entry_key off e = Ret (firstn (N.to_nat (N.of_nat (length k) mod 65536)) k) /\
      nth_error (e_mem e) (N.to_nat off + length k) = Some (Some NUL) /\
      (forall j, (j < N.to_nat off)%nat -> nth_error (e_mem e) j = Some None) /\
      exists e', entry_copy size_of off e = Ret e' /\ entry_key off e' = entry_key off e.
Proof. exact entry_ok. Qed.
Print Assumptions C75_entry.

(** Keys shorter than 65536 bytes come back whole. *)
Theorem C75_whole :
  forall size_of off k, off <= size_of -> size_of + 65537 <= 2^64 -> N.of_nat (length k) < 65536 ->
    exists e, entry_new size_of off k = Ret e /\ entry_key off e = Ret k.
Proof.
  intros size_of off k Hf Hs Hk. destruct (entry_ok size_of off k Hf) as (e & E & K & _); [lia|]. exists e. split; [exact E|]. rewrite K. now rewrite key_whole.
Qed.
Print Assumptions C75_whole.

(** a pointer-sized value: 16 bytes, the key at 10; and the empty key *)
Example C75_example :
  exists e e0, entry_new 16 10 ["k"; "e"; "y"]%byte = Ret e /\ length (e_mem e) = 20%nat /\ entry_key 10 e = Ret ["k"; "e"; "y"]%byte /\
    entry_new 16 10 [] = Ret e0 /\ entry_key 10 e0 = Ret [].
Proof. do 2 eexists. split; [vm_compute; reflexivity|]. split; [reflexivity|]. split; [vm_compute; reflexivity|]. split; vm_compute; reflexivity. Qed.

(** ** C76: MallocAllocator::allocate(n) asks for room for n objects *)

(** Up to max_size() objects it does.  Missing: more. *)
Theorem C76_room_partial :
  forall size_of n, 0 < size_of -> n <= max_size size_of -> request size_of n = n * size_of.
Proof. intros size_of n Hs. exact (proj1 (request_ok size_of n Hs)). Qed.
Print Assumptions C76_room_partial.

(** Beyond it never does, though allocate reports no failure. *)
Theorem C76_room_refuted :
  forall size_of n, 0 < size_of -> max_size size_of < n -> request size_of n < n * size_of.
Proof. intros size_of n Hs. exact (proj2 (request_ok size_of n Hs)). Qed.
Print Assumptions C76_room_refuted.

(** 2^60 objects of 16 bytes get a block of no bytes *)
Example C76_example : max_size 16 < 2^60 /\ request 16 (2^60) = 0 /\ request 16 1000 = 16000.
Proof. repeat split. Qed.
