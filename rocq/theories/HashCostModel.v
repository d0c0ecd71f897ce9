(** The calls of HashModel.v, counting the entries that doRehash places into a new bucket array
    (/repo/include/eni/adt/bits/HashBase.tcc:248-286).  HashCostProof.v proves that without the counts these are the
    functions of HashModel.v. *)
From Verif Require Import Base HashSpec HashModel.
From Coq Require Import List NArith Bool.
Import ListNotations.
Local Open Scope N_scope.

Section Cost.
  Context {K V : Type}.
  Variable keqb : K -> K -> bool.
  Variable hash : K -> N.
  Variable dflt : V.
  Notation entry := (K * V)%type.
  Notation bucket := (bucket entry).
  Notation table := (table entry).

  (** HashBase.tcc:255-278 *)
  Fixpoint rehash_loop_c (old new : list bucket) (nsz : N) : outcome (list bucket * N) :=
    match old with
    | [] => Ret (new, 0)
    | b :: old' =>
        match bslot b with
        | Full e =>
            new' <- place new nsz (bhash b) e ;;
            '(r, c) <- rehash_loop_c old' new' nsz ;; Ret (r, c + 1)
        | _ => rehash_loop_c old' new nsz
        end
    end.

  (** HashBase.tcc:248-286 doRehash *)
  Definition do_rehash_c (t : table) (nsz : N) : outcome (table * N) :=
    let old := match tbl t with Some bs => bs | None => [] end in
    '(new, c) <- rehash_loop_c old (repeat empty_bucket (N.to_nat nsz)) nsz ;;
    Ret (mkT (Some new) nsz (nE t) 0, c).

  (** HashBase.tcc:230-246 mayRehash *)
  Definition may_rehash_c (t : table) : outcome (table * N) :=
    if u32 (nB t * 3) <? u32 (nE t * 4)
    then do_rehash_c t (compute_bucket_size (nB t))
    else if u32 (sub32 (nB t) (nE t + nT t) * 8) <? nB t
    then do_rehash_c t (nB t)
    else Ret (t, 0).

  (** HashTable.tcc:109-142 insert *)
  Definition insert_c (t : table) (k : K) (mk : entry) (touch : entry -> entry) : outcome (table * bool * entry * N) :=
    '(t, i) <- lookup_bucket_for fst keqb hash t k ;;
    match tbl t with
    | None => UB NullDeref
    | Some bs =>
        match nth_error bs i with
        | None => UB OutOfBounds
        | Some b =>
            match bslot b with
            | Full e =>
                Ret (mkT (Some (set_slot bs i (Full (touch e)))) (nB t) (nE t) (nT t), true, touch e, 0)
            | s =>
                '(t', c) <- may_rehash_c (mkT (Some (set_slot bs i (Full mk))) (nB t) (u32 (nE t + 1))
                                              (match s with Tomb => sub32 (nT t) 1 | _ => nT t end)) ;;
                Ret (t', false, mk, c)
            end
        end
    end.

  (** HashTable.tcc:144-162 erase *)
  Definition erase_c (t : table) (k : K) : outcome (table * bool * N) :=
    i <- find_key fst keqb hash t k ;;
    match i with
    | None => Ret (t, false, 0)
    | Some i =>
        match tbl t with
        | None => UB NullDeref
        | Some bs =>
            '(t', c) <- may_rehash_c (mkT (Some (set_slot bs i Tomb)) (nB t) (sub32 (nE t) 1) (u32 (nT t + 1))) ;;
            Ret (t', true, c)
        end
    end.

  (** one call, as [step] of HashModel.v: HashTable.tcc:109-217 *)
  Definition step_c (t : table) (o : op K V) : outcome (table * answer V * N) :=
    match o with
    | OpInsert k =>
        '(t', ex, e, c) <- insert_c t k (k, dflt) (fun e => e) ;; Ret (t', AInserted ex (snd e), c)
    | OpSet k v =>
        '(t', ex, _, c) <- insert_c t k (k, v) (fun e => (fst e, v)) ;; Ret (t', ASet ex, c)
    | OpErase k => '(t', ex, c) <- erase_c t k ;; Ret (t', AErased ex, c)
    | OpFind k => r <- find_entry fst keqb hash t k ;; Ret (t, AFound (option_map snd r), 0)
    | OpSize => Ret (t, ASize (nE t), 0)
    | OpEmpty => Ret (t, AEmpty (nE t =? 0), 0)
    | OpClear => Ret (clear t, ADone, 0)
    | OpRehash => '(t', c) <- may_rehash_c t ;; Ret (t', ADone, c)
    | OpRehashTo n => '(t', c) <- do_rehash_c t (u32 n) ;; Ret (t', ADone, c)
    end.

  (** a history and the number of entries placed (not code) *)
  Fixpoint run_c (t : table) (l : list (op K V)) : outcome (table * list (answer V) * N) :=
    match l with
    | [] => Ret (t, [], 0)
    | o :: l' =>
        '(t', a, c) <- step_c t o ;;
        '(t'', as_, c') <- run_c t' l' ;;
        Ret (t'', a :: as_, c + c')
    end.
End Cost.
