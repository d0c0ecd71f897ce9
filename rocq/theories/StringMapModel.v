(** Model of StringMap<V> (/repo/include/eni/adt/StringMap.h, StringHashTable.h).

    Entries are held by value: (key(), value()).  The specialised entry of StringHashTable.h:20-52
    stores the key's length in a [uint16_t]; [key()] is a string of that many bytes. *)
From Verif Require Import Base HashSpec HashModel HasherModel StringMapSpec.
From Coq Require Import List NArith Bool.
Import ListNotations.
Local Open Scope N_scope.

(** StringHashTable.h:27-32 (construct from a key) and 34 (key()): what [Entry(k).key()] returns. *)
Definition stored_key (k : bytes) : bytes := firstn (N.to_nat (u16 (N.of_nat (length k)))) k.

Section StringMap.
  Context {V : Type}.
  Variable dflt : V.   (* a default constructed value; for a V without constructor it is indeterminate *)

  Notation smap := (table (bytes * V)).

  (** StringMap.h:42, default argument 8 *)
  Definition sm_new (size : N) : smap := new_table size.

  (** StringMap.h:72-76, operator[] and then a read through the reference *)
  Definition sm_read (t : smap) (k : bytes) : outcome (smap * V) :=
    '(t', _, e) <- insert fst bytes_eqb hash_SDBM t k (stored_key k, dflt) (fun e => e) ;;
    Ret (t', snd e).

  (** StringMap.h:72-76, operator[] and then an assignment through the reference *)
  Definition sm_set (t : smap) (k : bytes) (v : V) : outcome smap :=
    '(t', _, _) <- insert fst bytes_eqb hash_SDBM t k (stored_key k, v) (fun e => (fst e, v)) ;;
    Ret t'.

  (** StringMap.h:58-70 at; 78-80 operator[] const *)
  Definition sm_at (t : smap) (k : bytes) : outcome V :=
    r <- find_entry fst bytes_eqb hash_SDBM t k ;;
    match r with None => Throw OutOfRangeKey | Some e => Ret (snd e) end.

  (** StringMap.h:36 erase is that of the table, HashTable.tcc:144-162 *)
  Definition sm_erase (t : smap) (k : bytes) : outcome (smap * bool) := erase fst bytes_eqb hash_SDBM t k.
  (** StringMap.h:37 find is that of the table, HashTable.tcc:164-184, with the iterator dereferenced *)
  Definition sm_find (t : smap) (k : bytes) : outcome (option (bytes * V)) :=
    find_entry fst bytes_eqb hash_SDBM t k.

  (** StringMap.h:46, move constructor: [pOther] is an lvalue, so the table is copied. *)
  Definition sm_move (t : smap) : smap := copy_table true (fun e => (stored_key (fst e), snd e)) t.

  (** StringMap.h:44 copy constructor *)
  Definition sm_copy (t : smap) : smap := copy_table true (fun e => (stored_key (fst e), snd e)) t.

  (** StringMap.h:50-56, both assignments: control flows off the end of a non-void function *)
  Definition sm_assign (dst src : smap) : outcome smap := UB MissingReturn.

  (** One call; an exception is caught by the caller and the map stays usable.  StringMap.h:58-82 *)
  Definition sm_step (t : smap) (o : mop V) : outcome (smap * manswer V) :=
    match o with
    | MSet k v => t' <- sm_set t k v ;; Ret (t', MUnit)
    | MRead k => '(t', v) <- sm_read t k ;; Ret (t', MVal v)
    | MAt k => match sm_at t k with
               | Ret v => Ret (t, MVal v)
               | Throw _ => Ret (t, MThrown)
               | UB u => UB u
               | Diverge => Diverge
               | Exit n => Exit n
               end
    | MErase k => '(t', b) <- sm_erase t k ;; Ret (t', MBool b)
    | MFind k => r <- sm_find t k ;; Ret (t, MOpt (option_map snd r))
    | MSize => Ret (t, MNum (nE t))
    | MEmpty => Ret (t, MBool (nE t =? 0))
    end.

  (** A program: one call after the other (not code) *)
  Fixpoint sm_run (t : smap) (l : list (mop V)) : outcome (smap * list (manswer V)) :=
    match l with
    | [] => Ret (t, [])
    | o :: l' =>
        '(t', a) <- sm_step t o ;;
        '(t'', as_) <- sm_run t' l' ;;
        Ret (t'', a :: as_)
    end.
End StringMap.
