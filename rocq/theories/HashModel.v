(** Model of the open-addressing hash table
    (/repo/include/eni/adt/HashBase.h, bits/HashBase.tcc, bits/HashTable.tcc, bits/HashIterator.tcc).

    The table is generic in the key type, in the hash function and in the entry type [E]: [ekey e] is
    what [entry->key()] returns.  Instances: entries held by value (json objects) and entries held as
    pointers into a heap (HashHeapModel.v).  Allocation is assumed to succeed. *)
From Verif Require Import Base.
From Coq Require Import List NArith ZArith Lia Bool.
Import ListNotations.
Local Open Scope N_scope.

(** bits/HashBase.tcc:15-19, the table [bucket_size]. *)
Definition bucket_sizes : list N :=
  [1; 3; 17; 37; 67; 97; 197; 419; 977; 2593; 4099; 8209; 12289;
   16411; 20483; 32771; 49157; 65537; 98317; 131101; 196613].

(** bits/HashBase.tcc:13-33 compute_bucket_size. *)
Definition compute_bucket_size (n : N) : N :=
  match find (fun s => n <? s) bucket_sizes with
  | Some s => s
  | None => u32 (n + 131101)
  end.

(** HashBase.h:74 Bucket::entry with the two singletons of bits/HashBase.tcc:288-302:
    [Empty] is the null pointer, [Tomb] the pointer 0x1. *)
Inductive slot (E : Type) : Type := Empty | Tomb | Full (e : E).
Arguments Empty {E}.
Arguments Tomb {E}.
Arguments Full {E} e.

(** HashBase.h:71-75 struct Bucket *)
Record bucket (E : Type) : Type := mkB { bhash : N; bslot : slot E }.
Arguments mkB {E} bhash bslot.
Arguments bhash {E} b.
Arguments bslot {E} b.

(** HashBase.h:137-142, data members m_Buckets (None: null pointer), m_NumOfBuckets, m_NumOfEntries,
    m_NumOfTombstones *)
Record table (E : Type) : Type :=
  mkT { tbl : option (list (bucket E)); nB : N; nE : N; nT : N }.
Arguments mkT {E} tbl nB nE nT.
Arguments tbl {E} t.
Arguments nB {E} t.
Arguments nE {E} t.
Arguments nT {E} t.

(** array store [l[i] = a] (no effect outside the array; callers check the index first);
    e.g. bits/HashBase.tcc:262-263 *)
Fixpoint upd {A} (l : list A) (i : nat) (a : A) : list A :=
  match l, i with
  | [], _ => []
  | _ :: l', O => a :: l'
  | x :: l', S i' => x :: upd l' i' a
  end.

Section Table.
  Context {K E : Type}.
  Variable ekey : E -> K.           (* entry->key() *)
  Variable keqb : K -> K -> bool.   (* key comparison *)
  Variable hash : K -> N.           (* hasher_type()(key) *)

  Notation bucket := (bucket E).
  Notation table := (table E).

  (** a calloc'ed bucket: bits/HashBase.tcc:136, 251 *)
  Definition empty_bucket : bucket := mkB 0 Empty.

  (** bits/HashBase.tcc:38-44, default constructor; also the state left by TableImpl::clear, 140-150. *)
  Definition null_table : table := mkT None 0 0 0.

  (** bits/HashBase.tcc:125-138 init.  [pInitSize = 0] keeps 16 buckets. *)
  Definition init (pInitSize : N) : table :=
    let b := if pInitSize =? 0 then 16 else compute_bucket_size pInitSize in
    mkT (Some (repeat empty_bucket (N.to_nat b))) b 0 0.

  (** bits/HashTable.tcc:11-13 and bits/HashBase.tcc:46-57: HashTable(size_type pSize); the size is
      converted to [unsigned int]. *)
  Definition new_table (pSize : N) : table :=
    let n := u32 pSize in if n =? 0 then null_table else init n.

  (** HashBase.h:135 isInit *)
  Definition isInit (t : table) : bool := match tbl t with Some _ => true | None => false end.

  (** [index += probe; if (index == numOfBuckets()) index = 0;]; bits/HashBase.tcc:192-194, 224-226, 270-272 *)
  Definition next_idx (nb : nat) (i : nat) : nat := if Nat.eqb (S i) nb then O else S i.

  (** bits/HashBase.tcc:173, 177: m_Buckets[i].hash = full_hash *)
  Definition set_hash (bs : list bucket) (i : nat) (h : N) : list bucket :=
    match nth_error bs i with
    | Some b => upd bs i (mkB h (bslot b))
    | None => bs
    end.

  (** bits/HashBase.tcc:166-195, the probe loop of lookupBucketFor.  After [numOfBuckets()] rounds
      without a hit the loop is back at its first bucket in an unchanged table, see
      [lookup_loop_diverges] in HashProof.v, hence [Diverge]. *)
  Fixpoint lookup_loop (fuel : nat) (bs : list bucket) (k : K) (h : N) (idx : nat)
           (first_tomb : option nat) : outcome (list bucket * nat) :=
    match fuel with
    | O => Diverge
    | S fuel' =>
        match nth_error bs idx with
        | None => UB OutOfBounds
        | Some b =>
            match bslot b with
            | Empty =>
                match first_tomb with
                | Some t => Ret (set_hash bs t h, t)
                | None => Ret (set_hash bs idx h, idx)
                end
            | Tomb =>
                lookup_loop fuel' bs k h (next_idx (length bs) idx)
                  (match first_tomb with None => Some idx | Some _ => first_tomb end)
            | Full e =>
                if (bhash b =? h) && keqb (ekey e) k
                then Ret (bs, idx)
                else lookup_loop fuel' bs k h (next_idx (length bs) idx) first_tomb
            end
        end
    end.

  (** bits/HashBase.tcc:152-196 lookupBucketFor.  The hash is stored into an [unsigned int]. *)
  Definition lookup_bucket_for (t : table) (k : K) : outcome (table * nat) :=
    let t := if isInit t then t else init 16 in
    match tbl t with
    | None => UB NullDeref
    | Some bs =>
        let h := u32 (hash k) in
        if nB t =? 0 then UB DivByZero else
        '(bs', i) <- lookup_loop (length bs) bs k h (N.to_nat (h mod nB t)) None ;;
        Ret (mkT (Some bs') (nB t) (nE t) (nT t), i)
    end.

  (** bits/HashBase.tcc:208-227, the probe loop of findKey. *)
  Fixpoint find_loop (fuel : nat) (bs : list bucket) (k : K) (h : N) (idx : nat)
    : outcome (option nat) :=
    match fuel with
    | O => Diverge
    | S fuel' =>
        match nth_error bs idx with
        | None => UB OutOfBounds
        | Some b =>
            match bslot b with
            | Empty => Ret None
            | Tomb => find_loop fuel' bs k h (next_idx (length bs) idx)
            | Full e =>
                if (h =? bhash b) && keqb (ekey e) k
                then Ret (Some idx)
                else find_loop fuel' bs k h (next_idx (length bs) idx)
            end
        end
    end.

  (** bits/HashBase.tcc:198-228 findKey ([None] is the index -1). *)
  Definition find_key (t : table) (k : K) : outcome (option nat) :=
    match tbl t with
    | None => Ret None
    | Some bs =>
        let h := u32 (hash k) in
        if nB t =? 0 then UB DivByZero else
        find_loop (length bs) bs k h (N.to_nat (h mod nB t))
    end.

  (** bits/HashBase.tcc:259-276, placing one old bucket into the new array: the "fast case" and the
      do-while probe are one loop that stops at the first empty bucket from the home bucket on. *)
  Fixpoint place_loop (fuel : nat) (bs : list bucket) (h : N) (e : E) (idx : nat)
    : outcome (list bucket) :=
    match fuel with
    | O => Diverge
    | S fuel' =>
        match nth_error bs idx with
        | None => UB OutOfBounds
        | Some b =>
            match bslot b with
            | Empty => Ret (upd bs idx (mkB h (Full e)))
            | _ => place_loop fuel' bs h e (next_idx (length bs) idx)
            end
        end
    end.

  (** bits/HashBase.tcc:259-277, from the home bucket full_hash % pNewSize on *)
  Definition place (new : list bucket) (nsz : N) (h : N) (e : E) : outcome (list bucket) :=
    if nsz =? 0 then UB DivByZero
    else place_loop (length new) new h e (N.to_nat (h mod nsz)).

  (** bits/HashBase.tcc:255-278, the loop over the old buckets. *)
  Fixpoint rehash_loop (old new : list bucket) (nsz : N) : outcome (list bucket) :=
    match old with
    | [] => Ret new
    | b :: old' =>
        match bslot b with
        | Full e => new' <- place new nsz (bhash b) e ;; rehash_loop old' new' nsz
        | _ => rehash_loop old' new nsz
        end
    end.

  (** bits/HashBase.tcc:248-286 doRehash. *)
  Definition do_rehash (t : table) (nsz : N) : outcome table :=
    let old := match tbl t with Some bs => bs | None => [] end in
    new <- rehash_loop old (repeat empty_bucket (N.to_nat nsz)) nsz ;;
    Ret (mkT (Some new) nsz (nE t) 0).

  (** bits/HashBase.tcc:230-246 mayRehash, with the 32-bit shifts, product and difference. *)
  Definition may_rehash (t : table) : outcome table :=
    if u32 (nB t * 3) <? u32 (nE t * 4)
    then do_rehash t (compute_bucket_size (nB t))
    else if u32 (sub32 (nB t) (nE t + nT t) * 8) <? nB t
    then do_rehash t (nB t)
    else Ret t.

  (** bits/HashTable.tcc:136, 156: bucket.entry = ..., the hash field stays *)
  Definition set_slot (bs : list bucket) (i : nat) (s : slot E) : list bucket :=
    match nth_error bs i with
    | Some b => upd bs i (mkB (bhash b) s)
    | None => bs
    end.

  (** bits/HashTable.tcc:109-142 insert.  [mk] is the newly constructed entry.  [touch] is what the
      caller does to the entry it gets back when the key was already present: the identity for entries
      held by pointer; for entries held by value the assignment through the returned reference is
      folded in here (and into [mk] for a fresh entry); HashHeapProof.v proves that this is what the
      code with pointers does.  Result: new table, pExist, returned entry. *)
  Definition insert (t : table) (k : K) (mk : E) (touch : E -> E) : outcome (table * bool * E) :=
    '(t, i) <- lookup_bucket_for t k ;;
    match tbl t with
    | None => UB NullDeref
    | Some bs =>
        match nth_error bs i with
        | None => UB OutOfBounds
        | Some b =>
            match bslot b with
            | Full e =>
                Ret (mkT (Some (set_slot bs i (Full (touch e)))) (nB t) (nE t) (nT t), true, touch e)
            | Tomb =>
                t' <- may_rehash (mkT (Some (set_slot bs i (Full mk))) (nB t)
                                      (u32 (nE t + 1)) (sub32 (nT t) 1)) ;;
                Ret (t', false, mk)
            | Empty =>
                t' <- may_rehash (mkT (Some (set_slot bs i (Full mk))) (nB t)
                                      (u32 (nE t + 1)) (nT t)) ;;
                Ret (t', false, mk)
            end
        end
    end.

  (** bits/HashTable.tcc:144-162 erase. *)
  Definition erase (t : table) (k : K) : outcome (table * bool) :=
    i <- find_key t k ;;
    match i with
    | None => Ret (t, false)
    | Some i =>
        match tbl t with
        | None => UB NullDeref
        | Some bs =>
            t' <- may_rehash (mkT (Some (set_slot bs i Tomb)) (nB t)
                                  (sub32 (nE t) 1) (u32 (nT t + 1))) ;;
            Ret (t', true)
        end
    end.

  (** bits/HashIterator.tcc:201-217 EntryIterBase::getEntry at a bucket; using an entry that is a
      null pointer or the tombstone is undefined. *)
  Definition deref (t : table) (it : option nat) : outcome E :=
    match it with
    | None => Throw LogicErrorIterator
    | Some i =>
        match tbl t with
        | None => UB NullDeref
        | Some bs =>
            match nth_error bs i with
            | None => UB OutOfBounds
            | Some b => match bslot b with
                        | Full e => Ret e
                        | Empty => UB NullDeref
                        | Tomb => UB DeadObject
                        end
            end
        end
    end.

  (** bits/HashTable.tcc:164-184 find, with the iterator (a bucket index; end() is [None]) dereferenced: the entry of a
      key. *)
  Definition find_entry (t : table) (k : K) : outcome (option E) :=
    i <- find_key t k ;;
    match i with
    | None => Ret None
    | Some i => e <- deref t (Some i) ;; Ret (Some e)
    end.

  (** bits/HashTable.tcc:88-107 clear (entries are destroyed, then TableImpl::clear). *)
  Definition clear (t : table) : table := if nE t =? 0 then t else null_table.

  (** bits/HashTable.tcc:205-210 rehash(). *)
  Definition rehash (t : table) : outcome table := may_rehash t.

  (** bits/HashTable.tcc:212-217 rehash(size_type): converted to [unsigned int]. *)
  Definition rehash_to (t : table) (n : N) : outcome table := do_rehash t (u32 n).

  (** bits/HashTable.tcc:219-232, 242-255 begin: scan from bucket 0, no bound check. *)
  Fixpoint scan (fuel : nat) (bs : list bucket) (i : nat) : outcome nat :=
    match nth_error bs i with
    | None => UB OutOfBounds
    | Some b => match bslot b with
                | Full _ => Ret i
                | _ => match fuel with O => Diverge | S f => scan f bs (S i) end
                end
    end.

  (** bits/HashTable.tcc:219-255 begin; [None] is end() *)
  Definition begin_iter (t : table) : outcome (option nat) :=
    if nE t =? 0 then Ret None else
    match tbl t with
    | None => UB NullDeref
    | Some bs => i <- scan (length bs) bs 0 ;; Ret (Some i)
    end.

  (** bits/HashIterator.tcc:226-239 EntryIterBase::advance. *)
  Fixpoint advance_loop (fuel : nat) (bs : list bucket) (nb : N) (i : nat) : outcome (option nat) :=
    match fuel with
    | O => Diverge
    | S f =>
        let i := S i in
        if nb =? N.of_nat i then Ret None else
        match nth_error bs i with
        | None => UB OutOfBounds
        | Some b => match bslot b with
                    | Full _ => Ret (Some i)
                    | _ => advance_loop f bs nb i
                    end
        end
    end.

  (** bits/HashIterator.tcc:226-239 EntryIterBase::advance; the end throws (229-230) *)
  Definition advance (t : table) (it : option nat) : outcome (option nat) :=
    match it with
    | None => Throw LogicErrorIterator
    | Some i =>
        match tbl t with
        | None => UB NullDeref
        | Some bs => advance_loop (S (length bs)) bs (nB t) i
        end
    end.

  (** [for (it = begin(); it != end(); ++it)] collecting what the iterator designates; such a loop is in
      lib/json/Object.cpp:31-39 *)
  Fixpoint iterate (fuel : nat) (t : table) (it : option nat) : outcome (list E) :=
    match it with
    | None => Ret []
    | Some _ =>
        match fuel with
        | O => Diverge
        | S f =>
            e <- deref t it ;;
            it' <- advance t it ;;
            l <- iterate f t it' ;;
            Ret (e :: l)
        end
    end.

  (** A loop from begin() to end(), as lib/json/Object.cpp:31-39 has it *)
  Definition traverse (fuel : nat) (t : table) : outcome (list E) :=
    it <- begin_iter t ;; iterate fuel t it.

  (** bits/HashTable.tcc:15-34 and bits/HashBase.tcc:59-70, copy constructor.  [cp] copies one entry
      ([new entry_type(key)] + setValue).  [malloc0] tells whether malloc(0) returns a non-null
      pointer (it does in glibc). *)
  Definition copy_slot (cp : E -> E) (s : slot E) : slot E :=
    match s with Full e => Full (cp e) | Empty => Empty | Tomb => Tomb end.

  (** bits/HashBase.tcc:59-70 with bits/HashTable.tcc:16-34: an empty table keeps the raw copy (20-21) *)
  Definition copy_table (malloc0 : bool) (cp : E -> E) (t : table) : table :=
    match tbl t with
    | None => mkT (if malloc0 then Some [] else None) (nB t) (nE t) (nT t)
    | Some bs =>
        mkT (Some (map (fun b => mkB (bhash b)
                                   (if nE t =? 0 then bslot b else copy_slot cp (bslot b))) bs))
            (nB t) (nE t) (nT t)
    end.

  (** bits/HashIterator.tcc:16-44 ChainIterBase constructor.  Result: [None] is the reset iterator,
      [Some i] designates bucket [i] (m_EndIndex = m_Index = i).  There is no test for an empty
      bucket: an empty bucket whose hash field equals the wanted hash is dereferenced. *)
  Fixpoint chain_begin_loop (fuel : nat) (bs : list bucket) (k : K) (h : N) (start idx : nat)
    : outcome (option nat) :=
    match fuel with
    | O => Diverge
    | S f =>
        match nth_error bs idx with
        | None => UB OutOfBounds
        | Some b =>
            let continue_ :=
              let idx' := next_idx (length bs) idx in
              if Nat.eqb start idx' then Ret None else chain_begin_loop f bs k h start idx' in
            match bslot b with
            | Tomb => continue_
            | Empty => if h =? bhash b then UB NullDeref else continue_
            | Full e => if (h =? bhash b) && keqb (ekey e) k then Ret (Some idx) else continue_
            end
        end
    end.

  (** bits/HashIterator.tcc:16-21, then the loop *)
  Definition chain_begin (t : table) (k : K) : outcome (option nat) :=
    let h := u32 (hash k) in
    if nB t =? 0 then UB DivByZero else
    match tbl t with
    | None => UB NullDeref
    | Some bs => let s := N.to_nat (h mod nB t) in chain_begin_loop (length bs) bs k h s s
    end.

  (** bits/HashIterator.tcc:115-142 ChainIterBase::advance. *)
  Fixpoint chain_advance_loop (fuel : nat) (bs : list bucket) (h : N) (endi idx : nat)
    : outcome (option nat) :=
    match fuel with
    | O => Diverge
    | S f =>
        let idx := next_idx (length bs) idx in
        if Nat.eqb idx endi then Ret None else
        match nth_error bs idx with
        | None => UB OutOfBounds
        | Some b =>
            match bslot b with
            | Full _ => if h =? bhash b then Ret (Some idx) else chain_advance_loop f bs h endi idx
            | _ => chain_advance_loop f bs h endi idx
            end
        end
    end.

  (** bits/HashTable.tcc:193-194, the loop from a bucket on *)
  Fixpoint chain_collect (fuel : nat) (bs : list bucket) (h : N) (endi idx : nat)
    : outcome (list nat) :=
    match fuel with
    | O => Diverge
    | S f =>
        it <- chain_advance_loop (length bs) bs h endi idx ;;
        match it with
        | None => Ret [idx]
        | Some i => l <- chain_collect f bs h endi i ;; Ret (idx :: l)
        end
    end.

  (** bits/HashTable.tcc:186-196: the buckets visited by [for (b = begin(k); b != end(k); ++b)]. *)
  Definition chain_buckets (t : table) (k : K) : outcome (list nat) :=
    b <- chain_begin t k ;;
    match b, tbl t with
    | None, _ => Ret []
    | Some i, Some bs => chain_collect (length bs) bs (u32 (hash k)) i i
    | Some _, None => UB NullDeref
    end.

  (** bits/HashTable.tcc:186-196 count.  As written, a const member, it cannot be instantiated: ChainIterBase binds a
      non-const reference to a bucket of the const table.  This is its loop with the non-const begin(key). *)
  Definition count (t : table) (k : K) : outcome N :=
    l <- chain_buckets t k ;; Ret (N.of_nat (length l)).
End Table.

(** ** Entries held by value: [Entry<K,V>] of HashBase.h:16-37 as a pair. *)
From Verif Require Import HashSpec.
Section ByValue.
  Context {K V : Type}.
  Variable keqb : K -> K -> bool.
  Variable hash : K -> N.
  Variable dflt : V.    (* a default constructed value *)

  (** One call on a HashTable<K,V>: each case is the member function of the same name,
      bits/HashTable.tcc:88-217; OpSet is insert and then setValue (HashBase.h:32); size and empty are
      HashBase.h:94, 86. *)
  Definition step (t : table (K * V)) (o : op K V) : outcome (table (K * V) * answer V) :=
    match o with
    | OpInsert k =>
        '(t', ex, e) <- insert fst keqb hash t k (k, dflt) (fun e => e) ;;
        Ret (t', AInserted ex (snd e))
    | OpSet k v =>
        '(t', ex, _) <- insert fst keqb hash t k (k, v) (fun e => (fst e, v)) ;;
        Ret (t', ASet ex)
    | OpErase k =>
        '(t', ex) <- erase fst keqb hash t k ;; Ret (t', AErased ex)
    | OpFind k =>
        r <- find_entry fst keqb hash t k ;; Ret (t, AFound (option_map snd r))
    | OpSize => Ret (t, ASize (nE t))
    | OpEmpty => Ret (t, AEmpty (nE t =? 0))
    | OpClear => Ret (clear t, ADone)
    | OpRehash => t' <- rehash t ;; Ret (t', ADone)
    | OpRehashTo n => t' <- rehash_to t n ;; Ret (t', ADone)
    end.

  (** A program: one call after the other (not code) *)
  Fixpoint run (t : table (K * V)) (l : list (op K V)) : outcome (table (K * V) * list (answer V)) :=
    match l with
    | [] => Ret (t, [])
    | o :: l' =>
        '(t', a) <- step t o ;;
        '(t'', as_) <- run t' l' ;;
        Ret (t'', a :: as_)
    end.
End ByValue.

(** ** What an observer with access to the buckets can count *)
Section View.
  Context {K V : Type}.
  (** HashBase.h:139 m_Buckets as a list (an observation, not code) *)
  Definition buckets (t : table (K * V)) : list (bucket (K * V)) :=
    match tbl t with Some bs => bs | None => [] end.
  (** buckets with an entry (an observation, not code) *)
  Definition occupied (t : table (K * V)) : N :=
    N.of_nat (length (filter (fun b => match bslot b with Full _ => true | _ => false end) (buckets t))).
  (** buckets whose entry is EmptyBucket() (an observation, not code) *)
  Definition never_used (t : table (K * V)) : N :=
    N.of_nat (length (filter (fun b => match bslot b with Empty => true | _ => false end) (buckets t))).
End View.
