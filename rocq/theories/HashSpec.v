(** Specification: finite maps as association lists with at most one pair per key.
    Nothing here refers to the model of the code. *)
From Verif Require Import Base.
From Coq Require Import List NArith Bool.
Import ListNotations.

Section FMap.
  Context {K V : Type}.
  Variable keqb : K -> K -> bool.

  Definition fmap := list (K * V).

  Fixpoint get (m : fmap) (k : K) : option V :=
    match m with
    | [] => None
    | (k', v) :: m' => if keqb k' k then Some v else get m' k
    end.

  Fixpoint del (m : fmap) (k : K) : fmap :=
    match m with
    | [] => []
    | (k', v) :: m' => if keqb k' k then del m' k else (k', v) :: del m' k
    end.

  Definition put (m : fmap) (k : K) (v : V) : fmap := (k, v) :: del m k.

  Definition has (m : fmap) (k : K) : bool := match get m k with Some _ => true | None => false end.
  Definition card (m : fmap) : N := N.of_nat (length m).

  (** Calls a user can make on a hash table. *)
  Inductive op : Type :=
  | OpInsert (k : K)            (* insert(k, exist), reading the entry's value *)
  | OpSet (k : K) (v : V)       (* insert(k, exist)->setValue(v) *)
  | OpErase (k : K)
  | OpFind (k : K)
  | OpSize
  | OpEmpty
  | OpClear
  | OpRehash                    (* rehash() *)
  | OpRehashTo (n : N).         (* rehash(n) *)

  (** What the caller sees. *)
  Inductive answer : Type :=
  | AInserted (existed : bool) (v : V)
  | ASet (existed : bool)
  | AErased (existed : bool)
  | AFound (v : option V)
  | ASize (n : N)
  | AEmpty (b : bool)
  | ADone.

  (** A finite map's answer.  [dflt] is the value of a default constructed V.
      [None]: the call is outside the contract (rehash(n) must leave room for all entries). *)
  Definition spec_step (dflt : V) (m : fmap) (o : op) : option (fmap * answer) :=
    match o with
    | OpInsert k =>
        match get m k with
        | Some v => Some (m, AInserted true v)
        | None => Some (put m k dflt, AInserted false dflt)
        end
    | OpSet k v => Some (put m k v, ASet (has m k))
    | OpErase k => Some (del m k, AErased (has m k))
    | OpFind k => Some (m, AFound (get m k))
    | OpSize => Some (m, ASize (card m))
    | OpEmpty => Some (m, AEmpty (N.eqb (card m) 0))
    | OpClear => Some ([], ADone)
    | OpRehash => Some (m, ADone)
    | OpRehashTo n =>
        if (card m <? n)%N && (n <? 2^28)%N then Some (m, ADone) else None
    end.

  (** every call except rehash(n) is always inside the contract *)
  Definition plain (o : op) : Prop := match o with OpRehashTo _ => False | _ => True end.

  Fixpoint spec_run (dflt : V) (m : fmap) (l : list op) : option (fmap * list answer) :=
    match l with
    | [] => Some (m, [])
    | o :: l' =>
        match spec_step dflt m o with
        | None => None
        | Some (m', a) =>
            match spec_run dflt m' l' with
            | None => None
            | Some (m'', as_) => Some (m'', a :: as_)
            end
        end
    end.
End FMap.
Arguments fmap : clear implicits.
Arguments op : clear implicits.
Arguments answer : clear implicits.
