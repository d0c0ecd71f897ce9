(** Hash tables whose buckets hold pointers to heap allocated entries
    (HashBase.h:71-75 struct Bucket; HashTable.tcc).

    The heap is a list of objects; an address is an index; [None] is a freed object.  Addresses are
    not reused.  [k0] is what reading the key of a dead object would give (any value: the proofs hold
    for every [k0], so no dead key is ever looked at). *)
From Verif Require Import Base HashModel HashSpec HashHeapSpec.
From Coq Require Import List NArith Bool.
Import ListNotations.
Local Open Scope N_scope.

Section Heap.
  Context {K V : Type}.
  Variable keqb : K -> K -> bool.
  Variable hash : K -> N.
  Variable dflt : V.
  Variable k0 : K.

  (** The entries, HashBase.h:16-37, made by placement new at bits/HashTable.tcc:130-133 *)
  Definition heap := list (option (K * V)).

  (** HashBase.h:26-27 Entry::key *)
  Definition hkey (h : heap) (p : ptr) : K :=
    match nth_error h p with Some (Some (k, _)) => k | _ => k0 end.

  (** The entries and the tables of a program (not code) *)
  Record state : Type := mkSt { hp : heap; tbs : list (table ptr) }.

  (** Table [i] afterwards (not code) *)
  Definition put_tab (s : state) (i : nat) (t : table ptr) : state := mkSt (hp s) (upd (tbs s) i t).

  (** The table a member function is called on (not code) *)
  Definition with_tab {A} (s : state) (i : nat) (f : table ptr -> outcome A) : outcome A :=
    match nth_error (tbs s) i with Some t => f t | None => UB OutOfBounds end.

  (** HashTable.tcc:109-142: lookupBucketFor, then allocate + construct when the key is absent. *)
  Definition h_insert (s : state) (i : nat) (k : K) : outcome (state * wanswer K V) :=
    with_tab s i (fun t =>
      '(t', ex, p) <- insert (hkey (hp s)) keqb hash t k (length (hp s)) (fun e => e) ;;
      let h := if ex : bool then hp s else hp s ++ [Some (k, dflt)] in
      Ret (mkSt h (upd (tbs s) i t'), RInsert ex p)).

  (** HashBase.h:32 Entry::setValue through a pointer *)
  Definition h_write (s : state) (p : ptr) (v : V) : outcome (state * wanswer K V) :=
    match nth_error (hp s) p with
    | Some (Some (k, _)) => Ret (mkSt (upd (hp s) p (Some (k, v))) (tbs s), RDone)
    | _ => UB DeadObject
    end.

  (** HashBase.h:26-30 Entry::key and Entry::value through a pointer *)
  Definition h_read (s : state) (p : ptr) : outcome (state * wanswer K V) :=
    match nth_error (hp s) p with
    | Some (Some (k, v)) => Ret (s, REntry k v)
    | _ => UB DeadObject
    end.

  (** HashTable.tcc:164-184 find, as the pointer to the entry found *)
  Definition h_find (s : state) (i : nat) (k : K) : outcome (state * wanswer K V) :=
    with_tab s i (fun t =>
      r <- find_entry (hkey (hp s)) keqb hash t k ;; Ret (s, RFind r)).

  (** HashTable.tcc:144-162: destroy and free the entry, then mark the bucket. *)
  Definition h_erase (s : state) (i : nat) (k : K) : outcome (state * wanswer K V) :=
    with_tab s i (fun t =>
      r <- find_entry (hkey (hp s)) keqb hash t k ;;
      '(t', ex) <- erase (hkey (hp s)) keqb hash t k ;;
      let h := match r with Some p => upd (hp s) p None | None => hp s end in
      Ret (mkSt h (upd (tbs s) i t'), RErase ex)).

  (** HashTable.tcc:96-104, destroying the entries of all buckets *)
  Fixpoint free_buckets (h : heap) (bs : list (bucket ptr)) : outcome heap :=
    match bs with
    | [] => Ret h
    | b :: bs' =>
        match bslot b with
        | Full p =>
            match nth_error h p with
            | Some (Some _) => free_buckets (upd h p None) bs'
            | _ => UB DeadObject
            end
        | _ => free_buckets h bs'
        end
    end.

  (** HashTable.tcc:88-107 clear *)
  Definition h_clear (s : state) (i : nat) : outcome (state * wanswer K V) :=
    with_tab s i (fun t =>
      if nE t =? 0 then Ret (s, RDone) else
      match tbl t with
      | None => UB NullDeref
      | Some bs =>
          h <- free_buckets (hp s) bs ;;
          Ret (mkSt h (upd (tbs s) i (clear t)), RDone)
      end).

  (** HashTable.tcc:205-210 rehash() *)
  Definition h_rehash (s : state) (i : nat) : outcome (state * wanswer K V) :=
    with_tab s i (fun t => t' <- rehash t ;; Ret (put_tab s i t', RDone)).

  (** HashTable.tcc:212-217 rehash(size_type) *)
  Definition h_rehash_to (s : state) (i : nat) (n : N) : outcome (state * wanswer K V) :=
    with_tab s i (fun t => t' <- rehash_to t n ;; Ret (put_tab s i t', RDone)).

  (** HashTable.tcc:24-33 / 63-72: give every occupied bucket of the raw copy its own new entry *)
  Fixpoint copy_buckets (h : heap) (bs : list (bucket ptr)) : outcome (heap * list (bucket ptr)) :=
    match bs with
    | [] => Ret (h, [])
    | b :: bs' =>
        match bslot b with
        | Full p =>
            match nth_error h p with
            | Some (Some kv) =>
                '(h', r) <- copy_buckets (h ++ [Some kv]) bs' ;;
                Ret (h', mkB (bhash b) (Full (length h)) :: r)
            | _ => UB DeadObject
            end
        | _ =>
            '(h', r) <- copy_buckets h bs' ;; Ret (h', b :: r)
        end
    end.

  (** HashTable.tcc:16-34 with HashBase.tcc:59-70 (constructor: returns early when empty) and
      HashTable.tcc:53-74 with HashBase.tcc:91-105 (assignment: no early return; [ctor] false).
      A null source gives a table with a zero-sized malloc block. *)
  Definition copy_of (ctor : bool) (h : heap) (t : table ptr) : outcome (heap * table ptr) :=
    match tbl t with
    | None => Ret (h, mkT (Some []) (nB t) (nE t) (nT t))
    | Some bs =>
        if ctor && (nE t =? 0) then Ret (h, t) else
        '(h', bs') <- copy_buckets h bs ;;
        Ret (h', mkT (Some bs') (nB t) (nE t) (nT t))
    end.

  (** HashTable.tcc:16-34 copy constructor: a further table *)
  Definition h_copy (s : state) (i : nat) : outcome (state * wanswer K V) :=
    with_tab s i (fun t =>
      '(h, t') <- copy_of true (hp s) t ;; Ret (mkSt h (tbs s ++ [t']), RDone)).

  (** The entries of the destination are not destroyed (HashBase.tcc:93-94 only frees the buckets).
      HashTable.tcc:53-74 copy assignment *)
  Definition h_assign (s : state) (i j : nat) : outcome (state * wanswer K V) :=
    with_tab s i (fun ti =>
    if Nat.eqb i j then
      '(h, t') <- copy_of false (hp s) (if isInit ti then null_table else ti) ;;
      Ret (mkSt h (upd (tbs s) i t'), RDone)
    else
    with_tab s j (fun t =>
      '(h, t') <- copy_of false (hp s) t ;; Ret (mkSt h (upd (tbs s) i t'), RDone))).

  (** HashBase.tcc:73-89 move constructor *)
  Definition h_move (s : state) (i : nat) : outcome (state * wanswer K V) :=
    with_tab s i (fun t => Ret (mkSt (hp s) (upd (tbs s) i null_table ++ [t]), RDone)).

  (** HashBase.tcc:108-123 move assignment *)
  Definition h_move_assign (s : state) (i j : nat) : outcome (state * wanswer K V) :=
    with_tab s i (fun _ =>
    with_tab s j (fun t =>
      if Nat.eqb i j then Ret (s, RDone)
      else Ret (mkSt (hp s) (upd (upd (tbs s) i t) j null_table), RDone))).

  (** One call: HashTable.tcc:9-217 as above; WSize is numOfEntries(), HashBase.h:94 *)
  Definition hstep (s : state) (o : wop K V) : outcome (state * wanswer K V) :=
    match o with
    | WNew size => Ret (mkSt (hp s) (tbs s ++ [new_table size]), RDone)
    | WInsert i k => h_insert s i k
    | WWrite p v => h_write s p v
    | WRead p => h_read s p
    | WFind i k => h_find s i k
    | WErase i k => h_erase s i k
    | WSize i => with_tab s i (fun t => Ret (s, RSize (nE t)))
    | WClear i => h_clear s i
    | WRehash i => h_rehash s i
    | WRehashTo i n => h_rehash_to s i n
    | WCopy i => h_copy s i
    | WAssign i j => h_assign s i j
    | WMove i => h_move s i
    | WMoveAssign i j => h_move_assign s i j
    end.

  (** A program: one call after the other (not code) *)
  Fixpoint hrun (s : state) (l : list (wop K V)) : outcome (state * list (wanswer K V)) :=
    match l with
    | [] => Ret (s, [])
    | o :: l' =>
        '(s', a) <- hstep s o ;;
        '(s'', as_) <- hrun s' l' ;;
        Ret (s'', a :: as_)
    end.

  (** No table yet (not code) *)
  Definition state0 : state := mkSt [] [].

  (** Entries allocated by HashTable.tcc:129-133, 29-30, 68-69 and not yet given back by
      HashTable.tcc:99-100, 154-155.  (An observation, not code.) *)
  Definition live_entries (s : state) : N :=
    N.of_nat (length (filter (fun x => match x with Some _ => true | None => false end) (hp s))).
End Heap.
