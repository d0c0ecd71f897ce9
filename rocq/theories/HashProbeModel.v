(** The calls of HashModel.v, counting the buckets that the search for the key looks at, the rounds of the loops in
    lookupBucketFor and findKey (/repo/include/eni/adt/bits/HashBase.tcc:166-195, 208-227).  Buckets looked at by
    doRehash are not counted.  HashProbeProof.v proves that without the counts these are the functions of HashModel.v. *)
From Verif Require Import Base HashSpec HashModel.
From Coq Require Import List NArith Bool.
Import ListNotations.
Local Open Scope N_scope.

Section Probe.
  Context {K V : Type}.
  Variable keqb : K -> K -> bool.
  Variable hash : K -> N.
  Variable dflt : V.
  Notation entry := (K * V)%type.
  Notation bucket := (bucket entry).
  Notation table := (table entry).

  (** One more bucket is looked at: HashBase.tcc:169, 211 (a count, not code) *)
  Definition one_more {A} (r : outcome (A * N)) : outcome (A * N) := '(a, c) <- r ;; Ret (a, c + 1).

  (** HashBase.tcc:166-195 the loop of lookupBucketFor *)
  Fixpoint lookup_loop_p (fuel : nat) (bs : list bucket) (k : K) (h : N) (idx : nat) (first_tomb : option nat)
    : outcome (list bucket * nat * N) :=
    match fuel with
    | O => Diverge
    | S fuel' =>
        match nth_error bs idx with
        | None => UB OutOfBounds
        | Some b =>
            match bslot b with
            | Empty =>
                match first_tomb with
                | Some t => Ret (set_hash bs t h, t, 1)
                | None => Ret (set_hash bs idx h, idx, 1)
                end
            | Tomb =>
                one_more (lookup_loop_p fuel' bs k h (next_idx (length bs) idx)
                            (match first_tomb with None => Some idx | Some _ => first_tomb end))
            | Full e =>
                if (bhash b =? h) && keqb (fst e) k
                then Ret (bs, idx, 1)
                else one_more (lookup_loop_p fuel' bs k h (next_idx (length bs) idx) first_tomb)
            end
        end
    end.

  (** HashBase.tcc:152-196 lookupBucketFor *)
  Definition lookup_bucket_for_p (t : table) (k : K) : outcome (table * nat * N) :=
    let t := if isInit t then t else init 16 in
    match tbl t with
    | None => UB NullDeref
    | Some bs =>
        let h := u32 (hash k) in
        if nB t =? 0 then UB DivByZero else
        '(bs', i, c) <- lookup_loop_p (length bs) bs k h (N.to_nat (h mod nB t)) None ;;
        Ret (mkT (Some bs') (nB t) (nE t) (nT t), i, c)
    end.

  (** HashBase.tcc:208-227 the loop of findKey *)
  Fixpoint find_loop_p (fuel : nat) (bs : list bucket) (k : K) (h : N) (idx : nat) : outcome (option nat * N) :=
    match fuel with
    | O => Diverge
    | S fuel' =>
        match nth_error bs idx with
        | None => UB OutOfBounds
        | Some b =>
            match bslot b with
            | Empty => Ret (None, 1)
            | Tomb => one_more (find_loop_p fuel' bs k h (next_idx (length bs) idx))
            | Full e =>
                if (h =? bhash b) && keqb (fst e) k
                then Ret (Some idx, 1)
                else one_more (find_loop_p fuel' bs k h (next_idx (length bs) idx))
            end
        end
    end.

  (** HashBase.tcc:198-228 findKey *)
  Definition find_key_p (t : table) (k : K) : outcome (option nat * N) :=
    match tbl t with
    | None => Ret (None, 0)
    | Some bs =>
        let h := u32 (hash k) in
        if nB t =? 0 then UB DivByZero else
        find_loop_p (length bs) bs k h (N.to_nat (h mod nB t))
    end.

  (** HashTable.tcc:109-142 insert *)
  Definition insert_p (t : table) (k : K) (mk : entry) (touch : entry -> entry) : outcome (table * bool * entry * N) :=
    '(t, i, c) <- lookup_bucket_for_p t k ;;
    match tbl t with
    | None => UB NullDeref
    | Some bs =>
        match nth_error bs i with
        | None => UB OutOfBounds
        | Some b =>
            match bslot b with
            | Full e =>
                Ret (mkT (Some (set_slot bs i (Full (touch e)))) (nB t) (nE t) (nT t), true, touch e, c)
            | s =>
                t' <- may_rehash (mkT (Some (set_slot bs i (Full mk))) (nB t) (u32 (nE t + 1))
                                      (match s with Tomb => sub32 (nT t) 1 | _ => nT t end)) ;;
                Ret (t', false, mk, c)
            end
        end
    end.

  (** HashTable.tcc:144-162 erase *)
  Definition erase_p (t : table) (k : K) : outcome (table * bool * N) :=
    '(i, c) <- find_key_p t k ;;
    match i with
    | None => Ret (t, false, c)
    | Some i =>
        match tbl t with
        | None => UB NullDeref
        | Some bs =>
            t' <- may_rehash (mkT (Some (set_slot bs i Tomb)) (nB t) (sub32 (nE t) 1) (u32 (nT t + 1))) ;;
            Ret (t', true, c)
        end
    end.

  (** HashTable.tcc:164-184 find *)
  Definition find_entry_p (t : table) (k : K) : outcome (option entry * N) :=
    '(i, c) <- find_key_p t k ;;
    match i with
    | None => Ret (None, c)
    | Some i => e <- deref t (Some i) ;; Ret (Some e, c)
    end.

  (** one call, as [step] of HashModel.v: HashTable.tcc:109-217 *)
  Definition step_p (t : table) (o : op K V) : outcome (table * answer V * N) :=
    match o with
    | OpInsert k =>
        '(t', ex, e, c) <- insert_p t k (k, dflt) (fun e => e) ;; Ret (t', AInserted ex (snd e), c)
    | OpSet k v =>
        '(t', ex, _, c) <- insert_p t k (k, v) (fun e => (fst e, v)) ;; Ret (t', ASet ex, c)
    | OpErase k => '(t', ex, c) <- erase_p t k ;; Ret (t', AErased ex, c)
    | OpFind k => '(r, c) <- find_entry_p t k ;; Ret (t, AFound (option_map snd r), c)
    | OpSize => Ret (t, ASize (nE t), 0)
    | OpEmpty => Ret (t, AEmpty (nE t =? 0), 0)
    | OpClear => Ret (clear t, ADone, 0)
    | OpRehash => t' <- rehash t ;; Ret (t', ADone, 0)
    | OpRehashTo n => t' <- rehash_to t n ;; Ret (t', ADone, 0)
    end.

  (** a history and the number of buckets looked at (not code) *)
  Fixpoint run_p (t : table) (l : list (op K V)) : outcome (table * list (answer V) * N) :=
    match l with
    | [] => Ret (t, [], 0)
    | o :: l' =>
        '(t', a, c) <- step_p t o ;;
        '(t'', as_, c') <- run_p t' l' ;;
        Ret (t'', a :: as_, c + c')
    end.
End Probe.
