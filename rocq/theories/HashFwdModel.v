(** Model of programs that use the entry iterators of HashTables as forward iterators
    (/repo/include/eni/adt/HashIterator.h:121-211 HashIterator,
    /repo/include/eni/adt/bits/HashIterator.tcc:157-245 EntryIterBase,
    /repo/include/eni/adt/bits/HashTable.tcc:164-184 find, 222-258 begin and end).
    operator* is left out: its body calls operator-> of the implementation class, which has none, so it
    cannot be instantiated; programs use operator->. *)
From Verif Require Import Base HashModel HashFwdSpec.
From Coq Require Import List NArith Bool.
Import ListNotations.

(** HashIterator.h:106-107: the table pointer (here a number, [None] is the null pointer) and the
    bucket index *)
Definition hit : Type := (option nat * nat)%type.

(** bits/HashIterator.tcc:160-163 default constructor; also reset (219-224) and HashTable::end *)
Definition null_it : hit := (None, 0%nat).

(** bits/HashIterator.tcc:241-245 equals *)
Definition equals (i j : hit) : bool :=
  match fst i, fst j with
  | None, None => Nat.eqb (snd i) (snd j)
  | Some a, Some b => Nat.eqb a b && Nat.eqb (snd i) (snd j)
  | _, _ => false
  end.

(** the iterator of [HashTable] functions that give a bucket index or end();
    bits/HashTable.tcc:170-172, 224-231 *)
Definition of_index (a : nat) (i : option nat) : hit :=
  match i with Some i => (Some a, i) | None => null_it end.

Section Fwd.
  Context {K V : Type}.
  Variable keqb : K -> K -> bool.
  Variable hash : K -> N.
  Notation entry := (K * V)%type.

  (** the tables and the iterator variables (not code) *)
  Definition fstate : Type := (list (table entry) * list hit)%type.

  (** bits/HashIterator.tcc:201-217 getEntry and the use of the entry *)
  Definition it_entry (ts : list (table entry)) (i : hit) : outcome entry :=
    match fst i with
    | None => Throw LogicErrorIterator
    | Some a => match nth_error ts a with
                | None => UB DeadObject
                | Some t => deref t (Some (snd i))
                end
    end.

  (** bits/HashIterator.tcc:226-239 advance *)
  Definition it_advance (ts : list (table entry)) (i : hit) : outcome hit :=
    match fst i with
    | None => Throw LogicErrorIterator
    | Some a => match nth_error ts a with
                | None => UB DeadObject
                | Some t => j <- advance t (Some (snd i)) ;; Ret (of_index a j)
                end
    end.

  (** [it->setValue(v)] on the entry the iterator designates (HashBase.h:32 setValue) *)
  Definition it_set (ts : list (table entry)) (i : hit) (v : V) : outcome (list (table entry)) :=
    e <- it_entry ts i ;;
    match fst i with
    | None => Throw LogicErrorIterator
    | Some a =>
        match nth_error ts a with
        | None => UB DeadObject
        | Some t =>
            match tbl t with
            | None => UB NullDeref
            | Some bs =>
                Ret (upd ts a (mkT (Some (set_slot bs (snd i) (Full (fst e, v)))) (nB t) (nE t) (nT t)))
            end
        end
    end.

  (** the caller catches the exception; what the call changed stays
      (not code: LogicError of bits/HashIterator.tcc:203-215, 230) *)
  Definition guard {A} (s : fstate) (m : outcome A) (f : A -> outcome (fstate * fanswer K V))
    : outcome (fstate * fanswer K V) :=
    match m with
    | Throw LogicErrorIterator => Ret (s, FThrown)
    | m => bind m f
    end.

  (** An iterator variable of the program (not code) *)
  Definition var (vs : list hit) (x : nat) : outcome hit :=
    match nth_error vs x with Some i => Ret i | None => UB DeadObject end.

  (** A table of the program (not code) *)
  Definition table_at (ts : list (table entry)) (a : nat) : outcome (table entry) :=
    match nth_error ts a with Some t => Ret t | None => UB DeadObject end.

  (** One call.  HashIterator.h:145 default constructor, 161-164 operator= (EntryIterBase::assign,
      bits/HashIterator.tcc:175-181), 166-172 == and !=, 174-175 operator->, 185-188 prefix ++, 193-197
      postfix ++ (copies, then advances; when advance throws, nothing has changed). *)
  Definition fstep (s : fstate) (o : fop K V) : outcome (fstate * fanswer K V) :=
    let '(ts, vs) := s in
    match o with
    | FDefault x => Ret ((ts, upd vs x null_it), FDone)
    | FBegin x a =>
        t <- table_at ts a ;; i <- begin_iter t ;; Ret ((ts, upd vs x (of_index a i)), FDone)
    | FEnd x a => Ret ((ts, upd vs x null_it), FDone)
    | FFind x a k =>
        t <- table_at ts a ;; i <- find_key fst keqb hash t k ;;
        Ret ((ts, upd vs x (of_index a i)), FDone)
    | FCopy x y => i <- var vs y ;; Ret ((ts, upd vs x i), FDone)
    | FInc x =>
        i <- var vs x ;;
        guard s (it_advance ts i) (fun j => Ret ((ts, upd vs x j), FDone))
    | FPost x y =>
        i <- var vs y ;;
        guard s (it_advance ts i) (fun j => Ret ((ts, upd (upd vs y j) x i), FDone))
    | FEq x y => i <- var vs x ;; j <- var vs y ;; Ret (s, FBool (equals i j))
    | FNe x y => i <- var vs x ;; j <- var vs y ;; Ret (s, FBool (negb (equals i j)))
    | FGet x =>
        i <- var vs x ;;
        guard s (it_entry ts i) (fun e => Ret (s, FEntry (fst e) (snd e)))
    | FSet x v =>
        i <- var vs x ;;
        guard s (it_set ts i v) (fun ts' => Ret ((ts', vs), FDone))
    end.

  (** a whole program: one call after the other (not code) *)
  Fixpoint frun (s : fstate) (l : list (fop K V)) : outcome (fstate * list (fanswer K V)) :=
    match l with
    | [] => Ret (s, [])
    | o :: l' =>
        '(s', r) <- fstep s o ;;
        '(s'', rs) <- frun s' l' ;;
        Ret (s'', r :: rs)
    end.
End Fwd.
