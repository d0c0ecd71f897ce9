(** The hash table when memory can run out (/repo/include/eni/adt/bits/HashBase.tcc,
    bits/HashTable.tcc).  [alloc i] tells whether the [i]-th call of malloc or calloc succeeds.  No
    result of an allocation is looked at by the code: init returns a bool that no caller uses
    (HashBase.tcc:53-56, 156-158), doRehash and insert use the pointer at once. *)
From Verif Require Import Base HashSpec HashModel.
From Coq Require Import List NArith Bool.
Import ListNotations.
Local Open Scope N_scope.

Section Alloc.
  Context {K V : Type}.
  Variable keqb : K -> K -> bool.
  Variable hash : K -> N.
  Variable dflt : V.
  Variable alloc : nat -> bool.
  Notation entry := (K * V)%type.
  Notation table := (table entry).

  (** HashBase.tcc:125-138 init: the number of buckets is set in any case *)
  Definition a_init (c : nat) (n : N) : table * nat :=
    let t := init n in
    (if alloc c then t else mkT None (nB t) 0 0, S c).

  (** HashTable.tcc:11-13, HashBase.tcc:46-57 *)
  Definition a_new (c : nat) (size : N) : table * nat :=
    let n := u32 size in if n =? 0 then (null_table, c) else a_init c n.

  (** HashBase.tcc:152-196 lookupBucketFor: the loop reads the bucket array *)
  Definition a_lookup (c : nat) (t : table) (k : K) : outcome (table * nat * nat) :=
    let '(t, c) := if isInit t then (t, c) else a_init c 16 in
    match tbl t with
    | None => UB NullDeref
    | Some _ => '(t, i) <- lookup_bucket_for fst keqb hash t k ;; Ret (t, i, c)
    end.

  (** HashBase.tcc:248-286 doRehash.  Old array null but m_NumOfBuckets not 0: the loop reads through
      the null pointer.  No new array: the first old entry is placed through a null pointer. *)
  Definition a_do_rehash (c : nat) (t : table) (nsz : N) : outcome (table * nat) :=
    match tbl t with
    | None => if nB t =? 0 then Ret (if alloc c then mkT (Some (repeat empty_bucket (N.to_nat nsz))) nsz (nE t) 0
                                     else mkT None nsz (nE t) 0, S c)
              else UB NullDeref
    | Some bs =>
        if alloc c then t' <- do_rehash t nsz ;; Ret (t', S c)
        else if existsb (fun b => match bslot b with Full _ => true | _ => false end) bs then
               if nsz =? 0 then UB DivByZero else UB NullDeref
             else Ret (mkT None nsz (nE t) 0, S c)
    end.

  (** HashBase.tcc:230-246 mayRehash *)
  Definition a_may_rehash (c : nat) (t : table) : outcome (table * nat) :=
    if u32 (nB t * 3) <? u32 (nE t * 4)
    then a_do_rehash c t (compute_bucket_size (nB t))
    else if u32 (sub32 (nB t) (nE t + nT t) * 8) <? nB t
    then a_do_rehash c t (nB t)
    else Ret (t, c).

  (** HashTable.tcc:109-142 insert: placement new on what malloc returned *)
  Definition a_insert (c : nat) (t : table) (k : K) (mk : entry) (touch : entry -> entry)
    : outcome (table * bool * entry * nat) :=
    '(t, i, c) <- a_lookup c t k ;;
    match tbl t with
    | None => UB NullDeref
    | Some bs =>
        match nth_error bs i with
        | None => UB OutOfBounds
        | Some b =>
            match bslot b with
            | Full e =>
                Ret (mkT (Some (set_slot bs i (Full (touch e)))) (nB t) (nE t) (nT t), true, touch e, c)
            | s =>
                if alloc c then
                  '(t', c) <- a_may_rehash (S c)
                                (mkT (Some (set_slot bs i (Full mk))) (nB t) (u32 (nE t + 1))
                                     (match s with Tomb => sub32 (nT t) 1 | _ => nT t end)) ;;
                  Ret (t', false, mk, c)
                else UB NullDeref
            end
        end
    end.

  (** HashTable.tcc:144-162 erase *)
  Definition a_erase (c : nat) (t : table) (k : K) : outcome (table * bool * nat) :=
    i <- find_key fst keqb hash t k ;;
    match i with
    | None => Ret (t, false, c)
    | Some i =>
        match tbl t with
        | None => UB NullDeref
        | Some bs =>
            '(t', c) <- a_may_rehash c (mkT (Some (set_slot bs i Tomb)) (nB t)
                                            (sub32 (nE t) 1) (u32 (nT t + 1))) ;;
            Ret (t', true, c)
        end
    end.

  (** one call, as [step] of HashModel.v; the counter of allocations is threaded through
      HashTable.tcc:109-217 *)
  Definition a_step (c : nat) (t : table) (o : op K V) : outcome (table * answer V * nat) :=
    match o with
    | OpInsert k =>
        '(t', ex, e, c) <- a_insert c t k (k, dflt) (fun e => e) ;;
        Ret (t', AInserted ex (snd e), c)
    | OpSet k v =>
        '(t', ex, _, c) <- a_insert c t k (k, v) (fun e => (fst e, v)) ;;
        Ret (t', ASet ex, c)
    | OpErase k =>
        '(t', ex, c) <- a_erase c t k ;; Ret (t', AErased ex, c)
    | OpFind k =>
        r <- find_entry fst keqb hash t k ;; Ret (t, AFound (option_map snd r), c)
    | OpSize => Ret (t, ASize (nE t), c)
    | OpEmpty => Ret (t, AEmpty (nE t =? 0), c)
    | OpClear => Ret (clear t, ADone, c)
    | OpRehash => '(t', c) <- a_may_rehash c t ;; Ret (t', ADone, c)
    | OpRehashTo n => '(t', c) <- a_do_rehash c t (u32 n) ;; Ret (t', ADone, c)
    end.

  (** A program: one call after the other (not code) *)
  Fixpoint a_run (c : nat) (t : table) (l : list (op K V)) : outcome (table * list (answer V) * nat) :=
    match l with
    | [] => Ret (t, [], c)
    | o :: l' =>
        '(t', a, c) <- a_step c t o ;;
        '(t'', as_, c) <- a_run c t' l' ;;
        Ret (t'', a :: as_, c)
    end.

  (** a table constructed with [size], then the calls [l]: HashTable.tcc:11-13 and the above *)
  Definition a_history (size : N) (l : list (op K V)) : outcome (list (answer V)) :=
    let '(t, c) := a_new 0 size in omap (fun r => snd (fst r)) (a_run c t l).
End Alloc.
