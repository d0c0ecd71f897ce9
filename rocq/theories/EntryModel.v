(** Model of the memory of a hash table entry with a string key (adt/StringHashTable.h) and of the allocators
    (adt/StringHashTable.h, support/MallocAllocator.h). *)
From Verif Require Import Base.
From Coq Require Import List NArith Bool.
From Coq.Init Require Import Byte.
Import ListNotations.
Local Open Scope N_scope.

(** a block from malloc: its bytes, [None] if never written; MallocAllocator.h:52-54 allocate *)
Definition block : Type := list (option byte).
(** not code: the C library *)
Definition malloc (n : N) : block := repeat None (N.to_nat n).

(** writing bytes from an offset on; reading; not code *)
Definition bwrite (b : block) (i : N) (xs : bytes) : outcome block :=
  if N.of_nat (length b) <? i + N.of_nat (length xs) then UB OutOfBounds
  else Ret (firstn (N.to_nat i) b ++ map Some xs ++ skipn (N.to_nat i + length xs) b).
(** not code: the C library and memory *)
Fixpoint bread (b : block) (i : N) (n : nat) : outcome bytes :=
  match n with
  | O => Ret []
  | S n' => match nth_error b (N.to_nat i) with
            | None => UB OutOfBounds
            | Some None => UB Uninitialised
            | Some (Some c) => l <- bread b (i + 1) n' ;; Ret (c :: l)
            end
  end.

(** support/MallocAllocator.h:52-54 allocate(n): the bytes asked for; the product is computed on 64 bits *)
Definition request (size_of n : N) : N := u64 (n * size_of).
(** support/MallocAllocator.h:59-60 max_size() *)
Definition max_size (size_of : N) : N := 18446744073709551615 / size_of.

Section Entry.
  (** sizeof(Entry), and the offset of its last member, the flexible array m_Key *)
  Variables size_of off : N.

  (** StringHashTable.h:91-94 allocate(1, &key) *)
  Definition entry_alloc (k : bytes) : block := malloc (u64 (u64 (size_of + N.of_nat (length k)) + 1)).

  (** StringHashTable.h:30-33 Entry(key): m_KeyLen, the bytes, a NUL.  m_KeyLen, which lies below the offset, is kept beside the block. *)
  Record entry : Type := mkEnt { e_len : N; e_mem : block }.
  (** StringHashTable.h:30-33 *)
  Definition entry_construct (b : block) (k : bytes) : outcome entry :=
    b <- bwrite b off k ;;
    b <- bwrite b (off + N.of_nat (length k)) [NUL] ;;
    Ret (mkEnt (u16 (N.of_nat (length k))) b).

  (** StringHashTable.h:35 key() *)
  Definition entry_key (e : entry) : outcome bytes := bread (e_mem e) off (N.to_nat (e_len e)).

  (** HashTable.tcc:130-133: an entry for a key *)
  Definition entry_new (k : bytes) : outcome entry := entry_construct (entry_alloc k) k.
  (** HashTable.tcc:24-33, 63-72: a copy of an entry *)
  Definition entry_copy (e : entry) : outcome entry := k <- entry_key e ;; entry_new k.
End Entry.
