(** Hash tables with the allocation of their bucket arrays
    (HashBase.tcc:38-150, 230-286; HashBase.h:84; HashTable.tcc:11-107, 109-162, 204-217).

    Next to every table stands its pointer m_Buckets ([None]: null); [alive] tells for every array
    that malloc or calloc has handed out whether it has not been freed.  What an array holds stays in
    the table of HashModel.v.  Allocation succeeds; a zero-sized malloc block is an array too. *)
From Verif Require Import Base HashModel HashSpec HashHeapSpec HashHeapModel.
From Coq Require Import List NArith Bool.
Import ListNotations.
Local Open Scope N_scope.

Section Arrays.
  Context {K V : Type}.
  Variable keqb : K -> K -> bool.
  Variable hash : K -> N.
  Variable dflt : V.
  Variable k0 : K.
  Notation state := (state (K := K) (V := V)).
  Notation hkey := (hkey (V := V) k0).

  (** m_Buckets of every table, and the arrays allocated so far; HashBase.h:139 *)
  Record astate : Type := mkA { base : state; buckets : list (option nat); alive : list bool }.

  (** a table, its m_Buckets, the arrays; HashBase.h:139-142 *)
  Definition cell : Type := table ptr * option nat * list bool.

  (** calloc, malloc: HashBase.tcc:136, 66, 100, 251 *)
  Definition new_array (al : list bool) : nat * list bool := (length al, al ++ [true]).

  (** ::free(m_Buckets): HashBase.tcc:144, 281.  Freeing the null pointer does nothing. *)
  Definition free_array (al : list bool) (p : option nat) : outcome (list bool) :=
    match p with
    | None => Ret al
    | Some q => match nth_error al q with
                | Some true => Ret (upd al q false)
                | _ => UB DeadObject
                end
    end.

  (** HashBase.tcc:248-286 doRehash *)
  Definition do_rehash_a (c : cell) (nsz : N) : outcome cell :=
    let '(t, p, al) := c in
    let '(q, al) := new_array al in
    t' <- do_rehash t nsz ;;
    al <- free_array al p ;;
    Ret (t', Some q, al).

  (** HashBase.tcc:230-246 mayRehash *)
  Definition may_rehash_a (c : cell) : outcome cell :=
    let '(t, p, al) := c in
    if u32 (nB t * 3) <? u32 (nE t * 4)
    then do_rehash_a c (compute_bucket_size (nB t))
    else if u32 (sub32 (nB t) (nE t + nT t) * 8) <? nB t
    then do_rehash_a c (nB t)
    else Ret c.

  (** HashBase.tcc:152-196 lookupBucketFor: a table without array gets one (lines 156-158) *)
  Definition lookup_bucket_for_a (h : heap) (c : cell) (k : K) : outcome (cell * nat) :=
    let '(t, p, al) := c in
    let '(p, al) := match p with
                    | None => let '(q, al) := new_array al in (Some q, al)
                    | Some _ => (p, al)
                    end in
    '(t', i) <- lookup_bucket_for (hkey h) keqb hash t k ;;
    Ret ((t', p, al), i).

  (** HashTable.tcc:109-142 insert; the new entry has address [mk] *)
  Definition insert_a (h : heap) (c : cell) (k : K) (mk : ptr) : outcome (cell * bool * ptr) :=
    '((t, p, al), i) <- lookup_bucket_for_a h c k ;;
    match tbl t with
    | None => UB NullDeref
    | Some bs =>
        match nth_error bs i with
        | None => UB OutOfBounds
        | Some b =>
            match bslot b with
            | Full e => Ret ((mkT (Some (set_slot bs i (Full e))) (nB t) (nE t) (nT t), p, al), true, e)
            | Tomb =>
                c' <- may_rehash_a (mkT (Some (set_slot bs i (Full mk))) (nB t)
                                        (u32 (nE t + 1)) (sub32 (nT t) 1), p, al) ;;
                Ret (c', false, mk)
            | Empty =>
                c' <- may_rehash_a (mkT (Some (set_slot bs i (Full mk))) (nB t)
                                        (u32 (nE t + 1)) (nT t), p, al) ;;
                Ret (c', false, mk)
            end
        end
    end.

  (** HashTable.tcc:144-162 erase *)
  Definition erase_a (h : heap) (c : cell) (k : K) : outcome (cell * bool) :=
    let '(t, p, al) := c in
    i <- find_key (hkey h) keqb hash t k ;;
    match i with
    | None => Ret (c, false)
    | Some i =>
        match tbl t with
        | None => UB NullDeref
        | Some bs =>
            c' <- may_rehash_a (mkT (Some (set_slot bs i Tomb)) (nB t)
                                    (sub32 (nE t) 1) (u32 (nT t + 1)), p, al) ;;
            Ret (c', true)
        end
    end.

  (** HashBase.tcc:140-150 TableImpl::clear *)
  Definition table_clear_a (c : cell) : outcome cell :=
    let '(_, p, al) := c in
    al <- free_array al p ;;
    Ret (null_table, None, al).

  (** HashTable.tcc:87-107 clear *)
  Definition clear_a (h : heap (K := K) (V := V)) (c : cell) : outcome (heap (K := K) (V := V) * cell) :=
    let '(t, _, _) := c in
    if nE t =? 0 then Ret (h, c) else
    match tbl t with
    | None => UB NullDeref
    | Some bs =>
        h <- free_buckets h bs ;;
        c <- table_clear_a c ;;
        Ret (h, c)
    end.

  (** HashTable.tcc:45-51 ~HashTable, then HashBase.h:84 ~TableImpl *)
  Definition destroy_a (h : heap (K := K) (V := V)) (c : cell) : outcome (heap (K := K) (V := V) * cell) :=
    '(h, c) <- clear_a h c ;;
    c <- table_clear_a c ;;
    Ret (h, c).

  (** The table a member function is called on (not code) *)
  Definition with_cell {A} (s : astate) (i : nat) (f : cell -> outcome A) : outcome A :=
    match nth_error (tbs (base s)) i, nth_error (buckets s) i with
    | Some t, Some p => f (t, p, alive s)
    | _, _ => UB OutOfBounds
    end.

  (** table [i] afterwards, with heap [h] (not code) *)
  Definition put_cell (s : astate) (i : nat) (h : heap) (c : cell) : astate :=
    let '(t, p, al) := c in
    mkA (mkSt h (upd (tbs (base s)) i t)) (upd (buckets s) i p) al.

  (** a new table (not code) *)
  Definition add_cell (s : astate) (h : heap) (c : cell) : astate :=
    let '(t, p, al) := c in
    mkA (mkSt h (tbs (base s) ++ [t])) (buckets s ++ [p]) al.

  Definition astep (s : astate) (o : wop K V) : outcome (astate * wanswer K V) :=
    let h := hp (base s) in
    match o with
    | WNew size =>                            (* HashTable.tcc:11-13, HashBase.tcc:46-57, 125-138 *)
        let n := u32 size in
        if n =? 0 then Ret (add_cell s h (null_table, None, alive s), RDone)
        else let '(q, al) := new_array (alive s) in Ret (add_cell s h (init n, Some q, al), RDone)
    | WInsert i k =>
        with_cell s i (fun c =>
          '(c', ex, p) <- insert_a h c k (length h) ;;
          Ret (put_cell s i (if ex : bool then h else h ++ [Some (k, dflt)]) c', RInsert ex p))
    | WErase i k =>
        with_cell s i (fun c =>
          r <- find_entry (hkey h) keqb hash (fst (fst c)) k ;;
          '(c', ex) <- erase_a h c k ;;
          Ret (put_cell s i (match r with Some p => upd h p None | None => h end) c', RErase ex))
    | WClear i =>
        with_cell s i (fun c => '(h, c) <- clear_a h c ;; Ret (put_cell s i h c, RDone))
    | WRehash i =>                            (* HashTable.tcc:204-210 *)
        with_cell s i (fun c => c <- may_rehash_a c ;; Ret (put_cell s i h c, RDone))
    | WRehashTo i n =>                        (* HashTable.tcc:212-217 *)
        with_cell s i (fun c => c <- do_rehash_a c (u32 n) ;; Ret (put_cell s i h c, RDone))
    | WCopy i =>                              (* HashTable.tcc:16-34, HashBase.tcc:59-71 *)
        with_cell s i (fun c =>
          let '(t, _, al) := c in
          let '(q, al) := new_array al in
          '(h, t') <- copy_of true h t ;;
          Ret (add_cell s h (t', Some q, al), RDone))
    | WAssign i j =>                          (* HashTable.tcc:53-74, HashBase.tcc:91-105 *)
        with_cell s i (fun ci =>
          '(ti, pi, al) <- (if isInit (fst (fst ci)) then table_clear_a ci else Ret ci) ;;
          with_cell s j (fun cj =>
            let '(tj, _, _) := cj in
            let '(q, al) := new_array al in
            '(h, t') <- copy_of false h (if Nat.eqb i j then ti else tj) ;;
            Ret (put_cell s i h (t', Some q, al), RDone)))
    | WMove i =>                              (* HashBase.tcc:73-89 *)
        with_cell s i (fun c =>
          let '(t, p, al) := c in
          Ret (add_cell (put_cell s i h (null_table, None, al)) h (t, p, al), RDone))
    | WMoveAssign i j =>                      (* HashBase.tcc:108-123: the old m_Buckets is forgotten *)
        with_cell s i (fun _ =>
        with_cell s j (fun c =>
          let '(t, p, al) := c in
          if Nat.eqb i j then Ret (s, RDone)
          else Ret (put_cell (put_cell s i h (t, p, al)) j h (null_table, None, al), RDone)))
    | WWrite _ _ | WRead _ | WFind _ _ | WSize _ =>   (* no array is touched: HashHeapModel.v *)
        '(b, a) <- hstep keqb hash dflt k0 (base s) o ;;
        Ret (mkA b (buckets s) (alive s), a)
    end.

  (** A program: one call after the other (not code) *)
  Fixpoint arun (s : astate) (l : list (wop K V)) : outcome (astate * list (wanswer K V)) :=
    match l with
    | [] => Ret (s, [])
    | o :: l' =>
        '(s', a) <- astep s o ;;
        '(s'', as_) <- arun s' l' ;;
        Ret (s'', a :: as_)
    end.

  (** the end of the lives of the tables [l], in this order; HashTable.tcc:46-51 *)
  Fixpoint adestroy (s : astate) (l : list nat) : outcome astate :=
    match l with
    | [] => Ret s
    | i :: l' =>
        s' <- with_cell s i (fun c => '(h, c) <- destroy_a (hp (base s)) c ;; Ret (put_cell s i h c)) ;;
        adestroy s' l'
    end.

  (** No table yet (not code) *)
  Definition astate0 : astate := mkA state0 [] [].

  (** arrays allocated and not given back.  (An observation, not code.) *)
  Definition live_arrays (s : astate) : N := N.of_nat (length (filter (fun b => b) (alive s))).
End Arrays.
