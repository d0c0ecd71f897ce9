(** Specification of StringMap: a finite map from byte strings to values. *)
From Verif Require Import Base HashSpec.
From Coq Require Import List NArith Bool.
Import ListNotations.

Section Spec.
  Context {V : Type}.

  Inductive mop : Type :=
  | MSet (k : bytes) (v : V)     (* m[k] = v *)
  | MRead (k : bytes)            (* reading m[k] on a non-const map *)
  | MAt (k : bytes)              (* m.at(k), or m[k] on a const map *)
  | MErase (k : bytes)
  | MFind (k : bytes)            (* m.find(k) compared with end() and dereferenced *)
  | MSize
  | MEmpty.

  Inductive manswer : Type :=
  | MUnit
  | MVal (v : V)
  | MThrown                      (* the call threw OutOfRange *)
  | MBool (b : bool)
  | MOpt (v : option V)
  | MNum (n : N).

  Definition mop_key (o : mop) : option bytes :=
    match o with
    | MSet k _ | MRead k | MAt k | MErase k | MFind k => Some k
    | MSize | MEmpty => None
    end.

  Definition map_step (dflt : V) (m : fmap bytes V) (o : mop) : fmap bytes V * manswer :=
    match o with
    | MSet k v => (put bytes_eqb m k v, MUnit)
    | MRead k => match get bytes_eqb m k with
                 | Some v => (m, MVal v)
                 | None => (put bytes_eqb m k dflt, MVal dflt)
                 end
    | MAt k => (m, match get bytes_eqb m k with Some v => MVal v | None => MThrown end)
    | MErase k => (del bytes_eqb m k, MBool (has bytes_eqb m k))
    | MFind k => (m, MOpt (get bytes_eqb m k))
    | MSize => (m, MNum (card m))
    | MEmpty => (m, MBool (N.eqb (card m) 0))
    end.

  Fixpoint map_run (dflt : V) (m : fmap bytes V) (l : list mop) : fmap bytes V * list manswer :=
    match l with
    | [] => (m, [])
    | o :: l' =>
        let '(m', a) := map_step dflt m o in
        let '(m'', as_) := map_run dflt m' l' in (m'', a :: as_)
    end.
End Spec.
Arguments mop : clear implicits.
Arguments manswer : clear implicits.
